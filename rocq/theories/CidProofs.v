Require Import Verif.Base Verif.Errors Verif.TpModel Verif.CidModel Verif.CidSpec.

Ltac ands := repeat match goal with |- _ /\ _ => split end.

Lemma cid_eqb_iff a b : cid_eqb a b = true <-> a = b.
Proof. unfold cid_eqb. destruct (list_eq_dec Z.eq_dec a b); split; congruence. Qed.

(** ** Lists of entries *)
Lemma dq_get_some q l e : dq_get q l = Some e -> In e l /\ e_seq e = q.
Proof. unfold dq_get. intros h. apply find_some in h. destruct h as [h1 h2]. apply Z.eqb_eq in h2. auto. Qed.
Lemma dq_get_none q l : dq_get q l = None -> ~ In q (map e_seq l).
Proof.
  unfold dq_get. intros h hi. apply in_map_iff in hi. destruct hi as (e & h1 & h2).
  pose proof (find_none _ _ h e h2) as h3. cbn in h3. lia.
Qed.
Lemma dq_get_in q l : In q (map e_seq l) -> exists e, dq_get q l = Some e.
Proof. intros h. destruct (dq_get q l) eqn:E; eauto. apply dq_get_none in E. tauto. Qed.

Lemma dq_del_in q l x : In x (dq_del q l) -> In x l.
Proof. induction l as [|y l IH]; cbn; auto. destruct (e_seq y =? q); cbn; tauto. Qed.
Lemma dq_del_in' q l x : In x l -> e_seq x <> q -> In x (dq_del q l).
Proof.
  induction l as [|y l IH]; cbn; auto. intros [->|h] hn.
  - destruct (Z.eqb_spec (e_seq x) q); [tauto|]. cbn. auto.
  - destruct (e_seq y =? q); auto. cbn. auto.
Qed.
Lemma dq_del_map {A} (f : ent -> A) q l : NoDup (map f l) -> NoDup (map f (dq_del q l)).
Proof.
  induction l as [|y l IH]; cbn; auto. intros h. inversion h as [|? ? h1 h2]; subst.
  destruct (e_seq y =? q); auto. cbn. constructor; auto.
  intros hi. apply h1. apply in_map_iff in hi. destruct hi as (z & <- & hz). apply in_map. eapply dq_del_in; eauto.
Qed.
Lemma dq_del_gone q l : NoDup (map e_seq l) -> ~ In q (map e_seq (dq_del q l)).
Proof.
  induction l as [|y l IH]; cbn; auto. intros h. inversion h as [|? ? h1 h2]; subst.
  destruct (Z.eqb_spec (e_seq y) q).
  - subst. auto.
  - cbn. intros [h3|h3]; auto. apply IH; auto.
Qed.
Lemma dq_del_seqs q l x : In x (map e_seq l) -> x <> q -> In x (map e_seq (dq_del q l)).
Proof. rewrite !in_map_iff. intros (e & <- & h) hn. exists e. split; auto. apply dq_del_in'; auto. Qed.
Lemma dq_del_len q l : In q (map e_seq l) -> zlen (dq_del q l) = zlen l - 1.
Proof.
  induction l as [|y l IH]; cbn [map In dq_del]; [tauto|]. intros h.
  destruct (Z.eqb_spec (e_seq y) q); rewrite ?zlen_cons.
  - lia.
  - destruct h as [h|h]; [congruence|]. rewrite IH by auto. lia.
Qed.
Lemma dq_del_filter (f : ent -> bool) q l : zlen (filter f (dq_del q l)) <= zlen (filter f l).
Proof.
  induction l as [|y l IH]; cbn [dq_del filter]; [lia|].
  destruct (e_seq y =? q); cbn [filter]; destruct (f y); rewrite ?zlen_cons; lia.
Qed.

Lemma dq_insert_fresh e cap l l' : ~ In (e_seq e) (map e_seq l) -> dq_insert e cap l = Ok l' -> l' = l ++ [e] /\ zlen l < cap.
Proof.
  unfold dq_insert. intros hn h. destruct (dq_get (e_seq e) l) eqn:E.
  - apply dq_get_some in E. destruct E as [E1 E2]. exfalso. apply hn. rewrite <- E2. apply in_map. auto.
  - destruct (Z.leb_spec cap (zlen l)); [discriminate|]. injection h as <-. auto.
Qed.
Lemma dq_insert_nopanic e cap l : dq_insert e cap l <> Panic.
Proof. unfold dq_insert. destruct (dq_get _ _); [discriminate|]. destruct (_ <=? _); discriminate. Qed.
Lemma dq_insert_err e cap l x : dq_insert e cap l = Err x -> x = IdLimit.
Proof. unfold dq_insert. destruct (dq_get _ _); [discriminate|]. destruct (_ <=? _); congruence. Qed.

Lemma dq_remove_cases q l :
  (zlen l <= 1 /\ dq_remove q l = Err OutOfIdentifiers) \/
  (1 < zlen l /\ ~ In q (map e_seq l) /\ dq_remove q l = Ok (None, l)) \/
  (1 < zlen l /\ exists e, In e l /\ e_seq e = q /\ dq_get q l = Some e /\ dq_remove q l = Ok (Some e, dq_del q l)).
Proof.
  unfold dq_remove. destruct (Z.leb_spec (zlen l) 1); [left; auto|right].
  destruct (dq_get q l) as [e|] eqn:E.
  - right. split; [lia|]. destruct (dq_get_some _ _ _ E) as [e1 e2]. exists e. ands; auto.
  - left. ands; auto. apply dq_get_none; auto.
Qed.

Lemma min_of_some l m : min_of l = Some m -> In m l /\ Forall (fun x => m <= x) l.
Proof.
  revert m. induction l as [|x l IH]; intros m; cbn [min_of]; [discriminate|].
  destruct (min_of l) as [k|] eqn:E; intros h; injection h as <-.
  - destruct (IH _ eq_refl) as [h1 h2]. split.
    + destruct (Z.min_spec x k) as [[_ ->]|[_ ->]]; cbn; auto.
    + constructor; [lia|]. eapply Forall_impl; [|exact h2]. cbn. intros. lia.
  - destruct l as [|y l]; [|cbn in E; destruct (min_of l); discriminate]. split; [cbn; auto|]. constructor; [lia|constructor].
Qed.
Lemma min_of_none l : min_of l = None -> l = [].
Proof. destruct l as [|x l]; auto. cbn. destruct (min_of l); discriminate. Qed.

Lemma lowest_usable_some s m : lowest_usable s = Some m ->
  In m (map e_seq (c_s s)) /\ c_rpt s <= m /\ (forall e, In e (c_s s) -> c_rpt s <= e_seq e -> m <= e_seq e).
Proof.
  unfold lowest_usable. intros h. apply min_of_some in h. destruct h as [h1 h2].
  apply in_map_iff in h1. destruct h1 as (e & <- & h1). apply filter_In in h1. destruct h1 as [h1 h3].
  ands; [apply in_map; auto|lia|]. intros e' he hr. rewrite Forall_forall in h2. apply h2.
  apply in_map. apply filter_In. split; auto. lia.
Qed.
Lemma lowest_usable_none s : lowest_usable s = None -> forall e, In e (c_s s) -> e_seq e < c_rpt s.
Proof.
  unfold lowest_usable. intros h e he. apply min_of_none in h.
  destruct (Z.ltb_spec (e_seq e) (c_rpt s)); [lia|]. exfalso.
  assert (In (e_seq e) (map e_seq (filter (fun e => c_rpt s <=? e_seq e) (c_s s)))).
  { apply in_map. apply filter_In. split; auto. lia. }
  rewrite h in *. cbn in *. tauto.
Qed.

Definition free (e : ent) : bool := match e_pid e with None => true | Some _ => false end.
Lemma lowest_available_some s m : lowest_available s = Some m -> exists e, In e (c_d s) /\ e_seq e = m /\ e_pid e = None.
Proof.
  unfold lowest_available. intros h. apply min_of_some in h. destruct h as [h1 _].
  apply in_map_iff in h1. destruct h1 as (e & h1 & h2). apply filter_In in h2. destruct h2 as [h2 h3].
  exists e. destruct (e_pid e) eqn:E; [discriminate|]. auto.
Qed.
Lemma lowest_available_none s : lowest_available s = None -> forall e, In e (c_d s) -> e_pid e <> None.
Proof.
  unfold lowest_available. intros h e he hp. apply min_of_none in h.
  assert (In (e_seq e) (map e_seq (filter (fun e => match e_pid e with None => true | Some _ => false end) (c_d s)))).
  { apply in_map. apply filter_In. split; auto. rewrite hp. auto. }
  rewrite h in *. cbn in *. tauto.
Qed.

Lemma del_first_in x l y : In y (del_first x l) -> In y l.
Proof. induction l as [|z l IH]; cbn; auto. destruct (z =? x); cbn; tauto. Qed.
Lemma del_first_in' x l y : In y l -> y <> x -> In y (del_first x l).
Proof.
  induction l as [|z l IH]; cbn; auto. intros [->|h] hn.
  - destruct (Z.eqb_spec y x); [tauto|cbn; auto].
  - destruct (z =? x); auto. cbn; auto.
Qed.

(** ** Runs *)
Inductive reach (x0 : cst) : trace -> cst -> Prop :=
| reach_nil : reach x0 [] x0
| reach_step h x op : reach x0 h x -> reach x0 (h ++ [(op, fst (cid_step op x))]) (snd (cid_step op x)).

Lemma run_reach_gen x0 ops : forall h x outs x', reach x0 h x -> cid_run ops x = (outs, x') -> reach x0 (h ++ combine ops outs) x'.
Proof.
  induction ops as [|op ops IH]; intros h x outs x' hr; cbn [cid_run].
  - intros e. injection e as <- <-. cbn [combine]. rewrite app_nil_r. auto.
  - destruct (cid_step op x) as [o x1] eqn:E. destruct (cid_run ops x1) as [os x2] eqn:E2. intros e. injection e as <- <-.
    pose proof (reach_step _ _ _ op hr) as hs. rewrite E in hs. cbn [fst snd] in hs.
    cbn [combine]. specialize (IH _ _ _ _ hs E2). rewrite <- app_assoc in IH. exact IH.
Qed.
Lemma trace_reach dl sc st dc dt ops h x : cid_trace dl sc st dc dt ops h x -> reach (x_init (cids_new dl sc st dc dt)) h x.
Proof. intros (outs & h1 & ->). apply (run_reach_gen _ ops [] _ outs x (reach_nil _) h1). Qed.

Lemma run_len ops : forall x, length (fst (cid_run ops x)) = length ops.
Proof.
  induction ops as [|op ops IH]; intros x; cbn [cid_run]; auto.
  destruct (cid_step op x) as [o x1]. specialize (IH x1). destruct (cid_run ops x1) as [os x2]. cbn in *. lia.
Qed.

Lemma given_app a b : given (a ++ b) = given a ++ given b.
Proof. induction a as [|[op o] a IH]; auto. cbn [app given]. destruct op; auto. destruct o; cbn [app]; rewrite IH; auto. Qed.
Lemma issued_app a b : issued (a ++ b) = issued a ++ issued b.
Proof. induction a as [|[op o] a IH]; auto. cbn [app issued]. destruct op; auto. destruct o; cbn [app]; rewrite IH; auto. Qed.
Lemma told_app a b : told (a ++ b) = told a ++ told b.
Proof. induction a as [|[op o] a IH]; auto. cbn [app told]. destruct op; auto. destruct o as [| |[c|]| | |]; cbn [app]; rewrite IH; auto. Qed.
Lemma offered_app a b : offered (a ++ b) = offered a ++ offered b.
Proof. induction a as [|[op o] a IH]; auto. cbn [app offered]. destruct op; cbn [app]; rewrite IH; auto. Qed.
Lemma peer_limit_ge h : 2 <= peer_limit h.
Proof. induction h as [|[op o] h IH]; cbn; [lia|]. destruct op; lia. Qed.
Lemma peer_limit_app a b : peer_limit (a ++ b) = Z.max (peer_limit a) (peer_limit b).
Proof.
  induction a as [|[op o] a IH]; cbn [app peer_limit].
  - pose proof (peer_limit_ge b). lia.
  - destruct op; auto. rewrite IH. lia.
Qed.
Lemma counts_up_app a b : forall n, counts_up n (a ++ b) = match counts_up n a with Some m => counts_up m b | None => None end.
Proof.
  induction a as [|x a IH]; intros n; auto. cbn [app counts_up]. destruct (x =? n); auto. destruct ((0 <=? x) && (x <? n)); auto.
Qed.

(** ** The parts of the state each operation touches *)
Definition spart (s : cids) := (c_s s, c_scap s, c_adv s, c_retired s, c_next s, c_rpt s, c_lim s, c_zs s).
Definition dpart (s : cids) := (c_d s, c_dcap s, c_ret s, c_rcap s, c_lrpt s, c_zd s).

Lemma reassign_ids pid x : exists d, x_ids (reassign pid x) = w_d d (x_ids x).
Proof.
  unfold reassign. destruct (lowest_available (x_ids x)) as [q|]; cbn.
  - eexists. reflexivity.
  - exists (c_d (x_ids x)). destruct (x_ids x); reflexivity.
Qed.
Lemma reassign_s pid x : spart (x_ids (reassign pid x)) = spart (x_ids x).
Proof. destruct (reassign_ids pid x) as [d ->]. reflexivity. Qed.
Lemma reassign_all_s l : forall x, spart (x_ids (reassign_all l x)) = spart (x_ids x).
Proof.
  induction l as [|[q pid] l IH]; intros x; cbn [reassign_all]; auto.
  rewrite IH. destruct (path_seq x pid); auto. destruct (_ =? _); auto. apply reassign_s.
Qed.
Lemma fill_s l : forall x, spart (x_ids (fill l x)) = spart (x_ids x).
Proof.
  induction l as [|pid l IH]; intros x; cbn [fill]; auto.
  destruct (path_seq x pid); auto. destruct (c_zd (x_ids x)); [rewrite IH; auto|].
  destruct (lowest_available (x_ids x)); auto. rewrite IH. apply reassign_s.
Qed.
Lemma mark_retire_s q s : spart (snd (mark_retire q s)) = spart s.
Proof. unfold mark_retire. destruct (set_insert _ _ _); reflexivity. Qed.
Lemma new_dcid_s c q t r s : spart (snd (new_dcid c q t r s)) = spart s.
Proof.
  unfold new_dcid. destruct (c_zd s); auto. destruct (find _ _) as [e|].
  - destruct (_ || _ || _); auto.
  - destruct (q <? r); auto. destruct (q <? c_lrpt s).
    + pose proof (mark_retire_s q s) as h. destruct (mark_retire q s). auto.
    + destruct (c_lrpt s <? r).
      * destruct (retire_loop _ _ _ _) as [[[k p] ret] err]. cbv zeta.
        destruct (dq_insert _ _ _); reflexivity.
      * cbv zeta. destruct (dq_insert _ _ _); reflexivity.
Qed.
Lemma retire_dcid_s q s : spart (snd (retire_dcid q s)) = spart s.
Proof.
  unfold retire_dcid. destruct (c_zd s); auto. destruct (dq_remove q (c_d s)) as [[[e|] l]| |]; auto.
  pose proof (mark_retire_s q (w_d l s)) as h. destruct (mark_retire q (w_d l s)) as [[]]; cbn in *; auto.
Qed.

Definition s_op (op : cid_op) : Prop :=
  match op with
  | NewScid _ _ _ | GotRetire _ _ | SetLimit _ | SendNewCid | LostNewCid _ | PopRetired => True
  | _ => False
  end.
Lemma d_op_s op x : ~ s_op op -> spart (x_ids (snd (cid_step op x))) = spart (x_ids x).
Proof.
  destruct op; intros hn; try (cbn in hn; tauto); clear hn; cbn [cid_step].
  - destruct (c_zd (x_ids x)); auto. pose proof (new_dcid_s cid seq tok rpt (x_ids x)) as h.
    destruct (new_dcid cid seq tok rpt (x_ids x)) as [[r p] s']. cbn [snd] in *. rewrite reassign_all_s. auto.
  - cbn [snd]. apply fill_s.
  - destruct (c_zd (x_ids x)); auto. destruct (path_seq x (x_active x)); auto.
    destruct (_ && _ && _); auto. pose proof (retire_dcid_s seq (x_ids x)) as h.
    destruct (retire_dcid seq (x_ids x)) as [[[pid|]| |] s']; cbn [snd] in *; auto.
    rewrite reassign_s. auto.
  - destruct (path_seq x pid); auto. destruct (_ && _); auto.
  - pose proof (mark_retire_s seq (x_ids x)) as h. destruct (mark_retire seq (x_ids x)) as [r s']. auto.
  - destruct client; auto. destruct (if c_zd (x_ids x) then Some 0 else lowest_available (x_ids x)); auto.
  - destruct (negb (known_pid pid x)); auto. destruct (_ =? _); auto. destruct (path_seq x pid); auto.
    destruct disable_dcid_reuse; auto.
  - destruct (negb (known_pid pid x)); auto. destruct (_ =? _); [destruct (path_seq x pid); auto|].
    destruct (path_seq x pid); auto. destruct (lowest_available (x_ids x)); auto. cbn [snd x_ids]. apply reassign_s.
Qed.

Lemma new_scid_d c t r s : dpart (snd (new_scid c t r s)) = dpart s.
Proof.
  unfold new_scid. destruct (c_zs s); auto.
  assert (forall s', dpart (snd (match find (fun e => cid_eqb (e_cid e) c) (c_s s') with
      | Some e =>
          match e_tok e with
          | Some t0 => if t0 =? t then (Ok (e_seq e), s') else (Err InvalidState, s')
          | None => (Err InvalidState, s')
          end
      | None =>
          match dq_insert (mkE c (c_next s') (Some t) None) (c_scap s') (c_s s') with
          | Ok l => (Ok (c_next s'), mark_adv (c_next s') true (w_next (c_next s' + 1) (w_s l s')))
          | Err e => (Err e, s')
          | Panic => (Panic, s')
          end
      end)) = dpart s') as hh.
  { intros s'. destruct (find _ _) as [e|]; [destruct (e_tok e) as [t0|]; auto; destruct (_ =? _); auto|].
    destruct (dq_insert _ _ _); auto. }
  destruct (_ <=? _); [|apply hh]. destruct (negb r); auto. destruct (lowest_usable s); auto. rewrite hh. auto.
Qed.
Lemma retire_scid_d q d s : dpart (snd (retire_scid q d s)) = dpart s.
Proof.
  unfold retire_scid. destruct (_ <=? _); auto. destruct (dq_remove q (c_s s)) as [[[e|] l]| |]; auto.
  destruct (cid_eqb _ _); auto. cbv zeta. destruct (lowest_usable _); auto.
Qed.
Lemma s_op_d op x : s_op op -> let x' := snd (cid_step op x) in dpart (x_ids x') = dpart (x_ids x) /\ x_paths x' = x_paths x /\ x_active x' = x_active x.
Proof.
  destruct op; intros hn; try (cbn in hn; tauto); clear hn; cbn [cid_step].
  - pose proof (new_scid_d cid tok retire (x_ids x)) as h. destruct (new_scid _ _ _ _) as [r s']. cbn in *. auto.
  - destruct (c_zs _); cbn [snd]; auto. pose proof (retire_scid_d seq pkt_dcid (x_ids x)) as h. destruct (retire_scid _ _ _) as [r s']. cbn in *. auto.
  - cbn. ands; auto. unfold set_limit. destruct (2 <=? v); auto.
  - destruct (c_adv (x_ids x)) as [|q l]; cbn [snd]; auto. destruct (new_cid_frame q (x_ids x)) as [[[[a b] c] d]| |]; cbn; auto.
  - cbn. auto.
  - destruct (c_retired (x_ids x)) as [|c l]; cbn; auto.
Qed.
