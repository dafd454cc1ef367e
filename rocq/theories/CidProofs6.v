Require Import Verif.Base Verif.Errors Verif.TpModel Verif.CidModel Verif.CidSpec Verif.CidProofs Verif.CidProofs2 Verif.CidProofs4 Verif.CidProofs5.

(** ** The destination ids of paths *)
Lemma nth_set_nth v l : forall n m, nth_error (set_nth n v l) m = if (n =? m)%nat then (match nth_error l m with Some _ => Some v | None => None end) else nth_error l m.
Proof.
  induction l as [|x l IH]; intros n m; cbn [set_nth].
  - destruct n, m; cbn; auto; destruct (_ =? _)%nat; auto.
  - destruct n as [|n], m as [|m]; cbn [nth_error Nat.eqb set_nth]; auto.
Qed.
Lemma path_set pid v x pid' : path_seq (set_path pid v x) pid' =
  if (pid' =? pid) then (if known_pid pid x then v else None) else path_seq x pid'.
Proof.
  unfold path_seq, set_path, known_pid. cbn [x_paths]. unfold zget.
  destruct (Z.ltb_spec pid 0).
  - destruct (Z.eqb_spec pid' pid) as [->|]; auto. replace (pid <? 0) with true by lia. replace (0 <=? pid) with false by lia. auto.
  - replace (0 <=? pid) with true by lia. cbn [andb]. destruct (Z.eqb_spec pid' pid) as [->|].
    + replace (pid <? 0) with false by lia. rewrite nth_set_nth, Nat.eqb_refl.
      destruct (nth_error (x_paths x) (Z.to_nat pid)) eqn:E.
      * assert (nth_error (x_paths x) (Z.to_nat pid) <> None) as hn by congruence. apply nth_error_Some in hn.
        replace (pid <? zlen (x_paths x)) with true by (unfold zlen; lia). auto.
      * apply nth_error_None in E. replace (pid <? zlen (x_paths x)) with false by (unfold zlen; lia). auto.
    + destruct (Z.ltb_spec pid' 0); auto. rewrite nth_set_nth.
      destruct (Nat.eqb_spec (Z.to_nat pid) (Z.to_nat pid')); [lia|]. auto.
Qed.
Lemma path_known x pid q : path_seq x pid = Some q -> known_pid pid x = true.
Proof.
  unfold path_seq, known_pid, zget. destruct (Z.ltb_spec pid 0); [discriminate|].
  destruct (nth_error (x_paths x) (Z.to_nat pid)) eqn:E; [|discriminate]. intros _.
  assert (nth_error (x_paths x) (Z.to_nat pid) <> None) as hn by congruence. apply nth_error_Some in hn. unfold zlen. lia.
Qed.
Lemma path_new x s v act pid : path_seq (mkX s (x_paths x ++ [v]) act) pid = if pid =? zlen (x_paths x) then v else path_seq x pid.
Proof.
  unfold path_seq, zget. cbn [x_paths]. destruct (Z.eqb_spec pid (zlen (x_paths x))) as [->|].
  - pose proof (zlen_nonneg (x_paths x)). replace (zlen (x_paths x) <? 0) with false by lia.
    unfold zlen. rewrite Nat2Z.id, nth_error_app2 by lia. rewrite Nat.sub_diag. cbn. auto.
  - destruct (Z.ltb_spec pid 0); auto. unfold zlen in *.
    destruct (Z.ltb_spec pid (Z.of_nat (length (x_paths x)))).
    + rewrite nth_error_app1 by lia. auto.
    + replace (nth_error (x_paths x) (Z.to_nat pid)) with (@None (option Z)) by (symmetry; apply nth_error_None; lia).
      replace (nth_error (x_paths x ++ [v]) (Z.to_nat pid)) with (@None (option Z)); auto.
      symmetry. apply nth_error_None. rewrite app_length. cbn. lia.
Qed.

Definition owns (s : cids) (pid q : Z) : Prop := exists e, In e (c_d s) /\ e_seq e = q /\ e_pid e = Some pid.
Definition pinv_ex (L : list (Z * Z)) (x : cst) : Prop :=
  forall pid q, path_seq x pid = Some q -> owns (x_ids x) pid q \/ In (q, pid) L.

Lemma link_in q pid l e : NoDup (map e_seq l) -> In e l -> e_seq e <> q -> In e (link q pid l).
Proof.
  induction l as [|x l IH]; intros hn he hq; [destruct he|]. cbn in hn. inversion hn as [|? ? h1 h2]; subst. cbn [link].
  destruct (Z.eqb_spec (e_seq x) q).
  - destruct he as [->|he]; [congruence|right; auto].
  - destruct he as [->|he]; [left; auto|right; auto].
Qed.
Lemma link_owns q pid l : In q (map e_seq l) -> exists e, In e (link q pid l) /\ e_seq e = q /\ e_pid e = Some pid.
Proof.
  induction l as [|x l IH]; intros hq; [destruct hq|]. cbn [link]. destruct (Z.eqb_spec (e_seq x) q).
  - eexists. split; [left; reflexivity|]. cbn. auto.
  - destruct hq as [|hq]; [congruence|]. destruct (IH hq) as (e & h1 & h2). exists e. split; [right; auto|auto].
Qed.
Lemma nodup_seq_eq l a b : NoDup (map e_seq l) -> In a l -> In b l -> e_seq a = e_seq b -> a = b.
Proof.
  induction l as [|x l IH]; intros hn ha hb he; [destruct ha|]. cbn in hn. inversion hn as [|? ? h1 h2]; subst.
  destruct ha as [->|ha], hb as [->|hb]; auto; exfalso; apply h1; [rewrite he|rewrite <- he]; apply in_map; auto.
Qed.
Lemma key_seqs s s' : kpart s' = kpart s -> map e_seq (c_d s') = map e_seq (c_d s).
Proof. unfold kpart. intros h. injection h as h _ _ _ _ _. apply key_maps in h. tauto. Qed.

(** Linking a free entry to a path keeps what others own. *)
Lemma owns_link s e0 p0 pid q : NoDup (map e_seq (c_d s)) -> In e0 (c_d s) -> e_pid e0 = None ->
  owns s pid q -> owns (w_d (link (e_seq e0) p0 (c_d s)) s) pid q.
Proof.
  intros hn h0 hp (e & h1 & h2 & h3). exists e. cbn. ands; auto. apply link_in; auto.
  intros hx. assert (e = e0) by (eapply nodup_seq_eq; eauto). congruence.
Qed.

Lemma reassign_pinv L pid x : NoDup (map e_seq (c_d (x_ids x))) ->
  (forall pid' q, path_seq x pid' = Some q -> pid' <> pid -> owns (x_ids x) pid' q \/ In (q, pid') L) ->
  pinv_ex L (reassign pid x).
Proof.
  intros hn hp pid' q. unfold reassign. destruct (lowest_available (x_ids x)) as [q0|] eqn:El.
  - apply lowest_available_some in El. destruct El as (e0 & h1 & <- & h3).
    rewrite path_set. cbn [x_ids set_path with_ids]. destruct (Z.eqb_spec pid' pid) as [->|].
    + destruct (known_pid _ _); [|discriminate]. intros hq. injection hq as <-. left.
      destruct (link_owns (e_seq e0) pid (c_d (x_ids x)) (in_map _ _ _ h1)) as (e & a & b & c). exists e. auto.
    + intros hq. destruct (hp pid' q hq n) as [ho|]; auto. left. apply owns_link; auto.
  - rewrite path_set. cbn [x_ids set_path]. destruct (Z.eqb_spec pid' pid); [destruct (known_pid _ _); discriminate|]. intros hq. apply hp; auto.
Qed.
Lemma reassign_active pid x : x_active (reassign pid x) = x_active x.
Proof. unfold reassign. destruct (lowest_available _); auto. Qed.
Lemma set_nth_len n v l : length (set_nth n v l) = length l.
Proof. revert n. induction l as [|x l IH]; intros [|n]; cbn; auto. Qed.
Lemma set_path_known p v x pid : known_pid pid (set_path p v x) = known_pid pid x.
Proof. unfold known_pid, set_path. cbn [x_paths]. destruct (p <? 0); auto. unfold zlen. rewrite set_nth_len. auto. Qed.
Lemma reassign_known p x pid : known_pid pid (reassign p x) = known_pid pid x.
Proof. unfold reassign. destruct (lowest_available _); rewrite set_path_known; auto. Qed.

Lemma reassign_all_pinv L : forall x, NoDup (map e_seq (c_d (x_ids x))) -> pinv_ex L x -> pinv_ex [] (reassign_all L x).
Proof.
  induction L as [|[q pid] L IH]; intros x hn hp; cbn [reassign_all]; auto.
  destruct (path_seq x pid) as [a|] eqn:Ea; [destruct (Z.eqb_spec a q) as [->|]|].
  - apply IH.
    + rewrite (key_seqs _ _ (reassign_k pid x)). auto.
    + apply reassign_pinv; auto. intros pid' q' h1 h2. destruct (hp pid' q' h1) as [|[h3|]]; auto. injection h3 as _ <-. congruence.
  - apply IH; auto. intros pid' q' h1. destruct (hp pid' q' h1) as [|[h3|]]; auto. injection h3 as <- <-. congruence.
  - apply IH; auto. intros pid' q' h1. destruct (hp pid' q' h1) as [|[h3|]]; auto. injection h3 as <- <-. congruence.
Qed.

Lemma fill_pinv l : forall x, c_zd (x_ids x) = false -> NoDup (map e_seq (c_d (x_ids x))) -> pinv_ex [] x -> pinv_ex [] (fill l x).
Proof.
  induction l as [|pid l IH]; intros x hz hn hp; cbn [fill]; auto.
  destruct (path_seq x pid) eqn:Ep; auto. rewrite hz. destruct (lowest_available (x_ids x)); auto.
  apply IH.
  - destruct (reassign_ids pid x) as [d ->]. auto.
  - rewrite (key_seqs _ _ (reassign_k pid x)). auto.
  - apply reassign_pinv; auto.
Qed.

(** The zero-length case. *)
Definition zinv (x : cst) : Prop := map e_seq (c_d (x_ids x)) = [0] /\ forall pid q, path_seq x pid = Some q -> q = 0.
Lemma fill_zinv l : forall x, c_zd (x_ids x) = true -> zinv x -> zinv (fill l x).
Proof.
  induction l as [|pid l IH]; intros x hz [h1 h2]; cbn [fill]; [split; auto|].
  destruct (path_seq x pid) eqn:Ep; [apply IH; [auto|split; auto]|]. rewrite hz. apply IH; [auto|]. split; auto.
  intros pid' q. rewrite path_set. destruct (_ =? _); [|apply h2]. destruct (known_pid _ _); congruence.
Qed.

Definition pinv (x : cst) : Prop :=
  NoDup (map e_seq (c_d (x_ids x))) /\ if c_zd (x_ids x) then zinv x else pinv_ex [] x.

Lemma dpart_zd s s' : dpart s' = dpart s -> c_zd s' = c_zd s /\ c_d s' = c_d s.
Proof. unfold dpart. intros h. injection h as e1 e2 e3 e4 e5 e6. auto. Qed.
Lemma zd_reassign pid x : c_zd (x_ids (reassign pid x)) = c_zd (x_ids x).
Proof. destruct (reassign_ids pid x) as [d ->]. auto. Qed.
Lemma zd_reassign_all l : forall x, c_zd (x_ids (reassign_all l x)) = c_zd (x_ids x).
Proof.
  induction l as [|[q pid] l IH]; intros x; cbn [reassign_all]; auto. rewrite IH.
  destruct (path_seq x pid); auto. destruct (_ =? _); auto. apply zd_reassign.
Qed.
Lemma zd_fill l x : c_zd (x_ids (fill l x)) = c_zd (x_ids x).
Proof. pose proof (fill_k l x) as h. unfold kpart in h. injection h. auto. Qed.

Lemma pinv_ids x s : pinv x -> c_zd s = c_zd (x_ids x) -> c_d s = c_d (x_ids x) -> forall a, pinv (mkX s (x_paths x) a).
Proof.
  intros [hn hp] h1 h2 a. unfold pinv. cbn [x_ids]. rewrite h1, h2. split; auto.
  destruct (c_zd (x_ids x)); [unfold zinv in *; cbn; rewrite h2; exact hp|].
  intros pid q hq. destruct (hp pid q hq) as [(e & b)|[]]. left. exists e. cbn. rewrite h2. auto.
Qed.

Lemma pinv_step x op : pinv x -> Forall (fun e => c_lrpt (x_ids x) <= e_seq e) (c_d (x_ids x)) ->
  NoDup (map e_seq (c_d (x_ids (snd (cid_step op x))))) ->
  (forall pid, op <> PeerMigrated pid false) ->
  (forall n u, op = RetireDcid n u -> fst (cid_step op x) <> OFail IdLimit) ->
  pinv (snd (cid_step op x)).
Proof.
  intros hp hl hnd hmig hlim. split; [exact hnd|].
  assert (s_op op \/ ~ s_op op) as [hop|hop] by (destruct op; cbn; tauto).
  { pose proof (s_op_d op x hop) as hx. cbv zeta in hx. destruct hx as (hx & h2 & h3). apply dpart_zd in hx. destruct hx as [z1 z2].
    pose proof (pinv_ids x (x_ids (snd (cid_step op x))) hp z1 z2 (x_active (snd (cid_step op x)))) as hh.
    rewrite <- h2 in hh. destruct hh as [_ hh]. destruct (snd (cid_step op x)). exact hh. }
  destruct hp as [hn hp].
  destruct op; cbn in hop; try tauto; clear hop; cbn [cid_step] in *.
  - destruct (c_zd (x_ids x)) eqn:Ez; [cbn [snd]; rewrite Ez; exact hp|].
    destruct (new_dcid_case cid seq tok rpt (x_ids x) hl) as
      [hz|e hz he hk|e hz he ho hk|hz h1 h2 h3|l hz h1 h2 h3 h4 h5|hz h1 h2 h3 h4|p ret err hz h1 h2 h3 h4 m k h5 h6 h7 h8 h9 h9b h10 h11|p ret hz h1 h2 h3 h4 m k h5 h6 h7 h10 h11];
      cbn [snd reassign_all with_ids x_ids] in *; rewrite ?zd_reassign_all; cbn [x_ids with_ids w_ret w_lrpt w_d c_zd]; rewrite ?Ez; auto.
    + rewrite (key_seqs _ _ (reassign_all_k _ _)) in hnd. apply reassign_all_pinv; auto. intros pid q hq.
      destruct (hp pid q hq) as [(e & a & b & c)|[]]. cbn [with_ids x_ids].
      destruct (Z.ltb_spec (e_seq e) m).
      * right. subst q. eapply h10; eauto.
      * left. exists e. cbn. ands; auto. apply in_or_app. left. unfold k. apply filter_In. split; auto. lia.
    + rewrite (key_seqs _ _ (reassign_all_k _ _)) in hnd. apply reassign_all_pinv; auto. intros pid q hq.
      destruct (hp pid q hq) as [(e & a & b & c)|[]]. cbn [with_ids x_ids].
      destruct (Z.ltb_spec (e_seq e) m).
      * right. subst q. eapply h10; eauto.
      * left. exists e. cbn. ands; auto. unfold k. apply filter_In. split; auto. lia.
  - cbn [snd] in *. rewrite zd_fill. destruct (c_zd (x_ids x)) eqn:Ez; [apply fill_zinv; auto|apply fill_pinv; auto].
  - destruct (c_zd (x_ids x)) eqn:Ez; [cbn [snd]; rewrite Ez; exact hp|].
    destruct (path_seq x (x_active x)) eqn:Ea; [|cbn [snd]; rewrite Ez; exact hp].
    destruct (_ && _ && _); [cbn [snd]; rewrite Ez; exact hp|].
    specialize (hlim seq other_usable eq_refl). revert hlim hnd. unfold retire_dcid. rewrite Ez.
    destruct (dq_remove_cases seq (c_d (x_ids x))) as [[_ ->]|[(_ & _ & ->)|(hlen & e & he1 & he2 & _ & ->)]];
      try (cbn [snd with_ids x_ids fst]; rewrite ?Ez; intros _ _; exact hp).
    unfold mark_retire. cbn [w_d c_rcap c_ret].
    destruct (set_insert_spec seq (c_rcap (x_ids x)) (c_ret (x_ids x))) as [[_ ->]|(_ & l & -> & h2 & _)]; cbn [fst snd]; [tauto|]. intros _.
    destruct (e_pid e) as [pid|] eqn:Ep; cbn [snd].
    + intros hnd. rewrite zd_reassign. cbn [with_ids x_ids w_ret w_d c_zd]. rewrite Ez.
      rewrite (key_seqs _ _ (reassign_k _ _)) in hnd. apply reassign_pinv; auto.
      intros pid' q hq hne. destruct (hp pid' q hq) as [(e' & a & b & c)|[]]. left. exists e'. cbn. ands; auto.
      apply dq_del_in'; auto. intros hx. assert (e' = e) by (apply (nodup_seq_eq (c_d (x_ids x))); auto; congruence). congruence.
    + intros hnd. cbn [with_ids x_ids w_ret w_d c_zd]. rewrite Ez. intros pid' q hq. destruct (hp pid' q hq) as [(e' & a & b & c)|[]]. left. exists e'. cbn. ands; auto.
      apply dq_del_in'; auto. intros hx. assert (e' = e) by (apply (nodup_seq_eq (c_d (x_ids x))); auto; congruence). congruence.
  - destruct (path_seq x pid); cbn [snd]; auto. destruct (_ && _); cbn [snd]; auto.
  - unfold mark_retire. destruct (set_insert _ _ _); cbn [snd with_ids x_ids w_ret c_zd]; exact hp.
  - destruct client; cbn [snd x_ids].
    + destruct (c_zd (x_ids x)) eqn:Ez.
      * cbn [snd x_ids w_d c_zd]. rewrite Ez. destruct hp as [h1 h2]. split.
        -- cbn. rewrite <- h1. assert (forall q p, map e_seq (link q p (c_d (x_ids x))) = map e_seq (c_d (x_ids x))) as hh.
           { intros q p. pose proof (link_key q p (c_d (x_ids x))) as hk. apply key_maps in hk. tauto. }
           apply hh.
        -- intros pid q. rewrite path_new. destruct (_ =? _); [congruence|apply h2].
      * destruct (lowest_available (x_ids x)) as [q0|] eqn:El; cbn [snd x_ids w_d c_zd]; rewrite ?Ez; auto.
        apply lowest_available_some in El. destruct El as (e0 & h1 & <- & h3).
        intros pid q. rewrite path_new. cbn [x_ids]. destruct (Z.eqb_spec pid (zlen (x_paths x))) as [->|].
        -- intros hq. injection hq as <-. left. destruct (link_owns (e_seq e0) (zlen (x_paths x)) (c_d (x_ids x)) (in_map _ _ _ h1)) as (e & a & b & c). exists e. auto.
        -- intros hq. destruct (hp pid q hq) as [ho|[]]. left. apply owns_link; auto.
    + destruct (c_zd (x_ids x)).
      * destruct hp as [h1 h2]. split; auto. intros pid q. rewrite path_new. destruct (_ =? _); [discriminate|apply h2].
      * intros pid q. rewrite path_new. cbn [x_ids]. destruct (_ =? _); [discriminate|]. apply hp.
  - destruct (negb (known_pid pid x)); cbn [snd]; auto. destruct (_ =? _); cbn [snd]; auto.
    destruct (path_seq x pid); cbn [snd]; auto. destruct disable_dcid_reuse; [auto|]. exfalso. eapply hmig; eauto.
  - destruct (negb (known_pid pid x)); cbn [snd]; auto. destruct (_ =? _); cbn [snd]; auto.
    destruct (path_seq x pid) eqn:Ep; cbn [snd]; auto. destruct (lowest_available (x_ids x)) as [q0|] eqn:El; cbn [snd]; auto.
    cbn [x_ids]. rewrite zd_reassign. destruct (c_zd (x_ids x)) eqn:Ez.
    + destruct hp as [h1 h2]. split.
      * cbn. rewrite (key_seqs _ _ (reassign_k pid x)). auto.
      * intros pid' q. change (path_seq (mkX (x_ids (reassign pid x)) (x_paths (reassign pid x)) pid) pid') with (path_seq (reassign pid x) pid').
        unfold reassign. rewrite El, path_set. destruct (_ =? _); [|apply h2]. destruct (known_pid _ _); [|discriminate]. intros hq. injection hq as <-.
        apply lowest_available_some in El. destruct El as (e0 & a & <- & _). apply (in_map e_seq) in a. rewrite h1 in a. destruct a as [|[]]; auto.
    + intros pid' q hq. assert (pinv_ex [] (reassign pid x)) as hh by (apply reassign_pinv; auto). apply (hh pid' q hq).
Qed.

Lemma pinv_reach dl sc st dc dt h x : reach (x_init (cids_new dl sc st dc dt)) h x -> no_reuse h -> no_id_limit h -> pinv x.
Proof.
  intros hr. induction hr as [|h x op hr IH]; intros h1 h2.
  - split; [cbn; constructor; [auto|constructor]|]. cbn [x_init x_ids cids_new c_zd].
    destruct (is_empty dc).
    + split; auto. intros pid q. unfold path_seq, zget. cbn [x_paths]. destruct (pid <? 0); [discriminate|].
      destruct (Z.to_nat pid) as [|[|n]]; cbn; congruence.
    + intros pid q. unfold path_seq, zget. cbn [x_paths]. destruct (Z.ltb_spec pid 0); [discriminate|].
      destruct (Z.to_nat pid) as [|[|n]] eqn:En; cbn; try congruence. intros hq. injection hq as <-. left.
      exists (mkE dc 0 dt (Some 0)). cbn. ands; auto. f_equal. lia.
  - apply pinv_step.
    + apply IH; intros a b hx; [apply (h1 a b)|apply (h2 a b)]; apply in_or_app; auto.
    + apply (di_lrpt dl dc dt h (x_ids x)). eapply dinv_reach; eauto.
    + pose proof (reach_step _ _ _ op hr) as hs. apply (di_nds dl dc dt _ _ (dinv_reach dl dc dt sc st _ _ hs)).
    + intros pid ->. apply (h1 pid (fst (cid_step (PeerMigrated pid false) x))). apply in_or_app. right. left. auto.
    + intros n u -> hx. apply (h2 n u). apply in_or_app. right. left. rewrite hx. auto.
Qed.

(** fill gives every path an id, or uses up all free ones. *)
Lemma fill_keep l : forall x pid, path_seq x pid <> None -> path_seq (fill l x) pid <> None.
Proof.
  induction l as [|p l IH]; intros x pid hx; cbn [fill]; auto.
  destruct (path_seq x p) eqn:Ep; [apply IH; auto|]. destruct (c_zd (x_ids x)).
  - apply IH. rewrite path_set. destruct (Z.eqb_spec pid p); [subst; congruence|auto].
  - destruct (lowest_available (x_ids x)) eqn:El; auto. apply IH. unfold reassign. rewrite El, path_set.
    destruct (Z.eqb_spec pid p); [subst; congruence|auto].
Qed.
Lemma fill_all l : forall x pid, In pid l -> known_pid pid x = true ->
  path_seq (fill l x) pid <> None \/ lowest_available (x_ids (fill l x)) = None.
Proof.
  induction l as [|p l IH]; intros x pid hi hk; [destruct hi|]. cbn [fill].
  destruct (path_seq x p) eqn:Ep.
  - destruct hi as [->|hi]; [|apply IH; auto]. left. apply fill_keep. congruence.
  - destruct (c_zd (x_ids x)).
    + destruct hi as [->|hi]; [|apply IH; [auto|rewrite set_path_known; auto]]. left. apply fill_keep. rewrite path_set, Z.eqb_refl, hk. discriminate.
    + destruct (lowest_available (x_ids x)) eqn:El; [|right; auto].
      destruct hi as [->|hi]; [|apply IH; [auto|rewrite reassign_known; auto]]. left. apply fill_keep.
      unfold reassign. rewrite El, path_set, Z.eqb_refl. unfold known_pid in *. cbn [with_ids x_paths]. rewrite hk. discriminate.
Qed.
