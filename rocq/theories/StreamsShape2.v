(** The invariant on which streams exist and on the limits, over histories. *)
Require Import Verif.Base Verif.Errors Verif.Assoc Verif.OctetsModel Verif.FlowControlModel Verif.RangeBufModel
  Verif.RecvBufModel Verif.SendBufModel Verif.StreamsModel Verif.StreamsSpec Verif.StreamsProofs
  Verif.StreamsEffects Verif.StreamsShape.

(** ** Counting *)
Lemma filter_ext_len {A} (f g : A -> bool) l : (forall x, In x l -> f x = g x) -> filter f l = filter g l.
Proof.
  induction l as [|x l IH]; intros h; auto. cbn. rewrite (h x (or_introl eq_refl)), IH; auto.
  intros y hy. apply h. right. auto.
Qed.
Lemma filter_flip (f g : Z -> bool) x l : NoDup l -> In x l -> f x = false -> g x = true ->
  (forall y, y <> x -> f y = g y) -> zlen (filter g l) = zlen (filter f l) + 1.
Proof.
  induction l as [|y l IH]; intros hn hi hf hg hr; [destruct hi|].
  inversion hn as [|? ? h1 h2]; subst. destruct (Z.eq_dec y x) as [->|n].
  - cbn [filter]. rewrite hf, hg, zlen_cons. rewrite (filter_ext_len g f l); [lia|].
    intros z hz. symmetry. apply hr. intros ->. auto.
  - destruct hi as [->|hi]; [congruence|]. cbn [filter]. rewrite (hr y n). specialize (IH h2 hi hf hg hr).
    destruct (g y); rewrite ?zlen_cons; lia.
Qed.

(** ** Running one step more *)
Section P.
Variable P : params.

Lemma run_snoc ops op c outs c' : cn_run P (ops ++ [op]) c = Ok (outs, c') ->
  exists os c1 o, cn_run P ops c = Ok (os, c1) /\ cn_step P op c1 = Ok (o, c') /\ outs = os ++ [o].
Proof.
  revert c outs. induction ops as [|a ops IH]; intros c outs h; cbn [app cn_run] in h.
  - destruct (cn_step P op c) as [[o c1]| |] eqn:E; try discriminate. cbn in h. injection h as <- <-.
    exists [], c, o. auto.
  - destruct (cn_step P a c) as [[o c1]| |] eqn:E; try discriminate. cbn [bind] in h.
    destruct (cn_run P (ops ++ [op]) c1) as [[os c2]| |] eqn:E2; try discriminate. cbn in h. injection h as <- <-.
    apply IH in E2 as (os' & c3 & o' & h1 & h2 & ->). exists (o :: os'), c3, o'. cbn [cn_run].
    rewrite E. cbn [bind]. rewrite h1. auto.
Qed.

Lemma run_app ops1 ops2 c outs c' : cn_run P (ops1 ++ ops2) c = Ok (outs, c') ->
  exists o1 c1 o2, cn_run P ops1 c = Ok (o1, c1) /\ cn_run P ops2 c1 = Ok (o2, c') /\ outs = o1 ++ o2.
Proof.
  revert c outs. induction ops1 as [|a ops IH]; intros c outs h; cbn [app cn_run] in h.
  - exists [], c, outs. auto.
  - destruct (cn_step P a c) as [[o c1]| |] eqn:E; try discriminate. cbn [bind] in h.
    destruct (cn_run P (ops ++ ops2) c1) as [[os c2]| |] eqn:E2; try discriminate. cbn in h. injection h as <- <-.
    apply IH in E2 as (o1 & c3 & o2 & h1 & h2 & ->). exists (o :: o1), c3, o2. cbn [cn_run].
    rewrite E. cbn [bind]. rewrite h1. auto.
Qed.

Lemma run_app_ok ops1 ops2 c o1 c1 o2 c2 : cn_run P ops1 c = Ok (o1, c1) -> cn_run P ops2 c1 = Ok (o2, c2) ->
  cn_run P (ops1 ++ ops2) c = Ok (o1 ++ o2, c2).
Proof.
  revert c o1. induction ops1 as [|a ops IH]; intros c o1 h1 h2; cbn [app cn_run] in *.
  - injection h1 as <- ->. auto.
  - destruct (cn_step P a c) as [[o c3]| |] eqn:E; try discriminate. cbn [bind] in *.
    destruct (cn_run P ops c3) as [[os c4]| |] eqn:E2; try discriminate. cbn in h1. injection h1 as <- <-.
    rewrite (IH _ _ E2 h2). reflexivity.
Qed.

Lemma history_ind (i : start) (Q : list cn_op -> list cn_out -> conn -> Prop) :
  (params_ok P -> start_ok i -> Q [] [] (cn_new P i)) ->
  (forall ops outs c op o c', history P i ops outs c -> Q ops outs c -> op_ok op ->
     cn_step P op c = Ok (o, c') -> Q (ops ++ [op]) (outs ++ [o]) c') ->
  forall ops outs c, history P i ops outs c -> Q ops outs c.
Proof.
  intros h0 hs ops. induction ops as [|op ops IH] using rev_ind; intros outs c (hp & hst & ho & hr).
  - cbn in hr. injection hr as <- <-. auto.
  - apply run_snoc in hr as (os & c1 & o & h1 & h2 & ->). apply Forall_app in ho as (ho1 & ho2).
    inversion ho2 as [|? ? ho3 _]; subst. apply (hs ops os c1); auto; [|apply IH]; repeat split; auto; try apply hp; try apply hst.
Qed.

Lemma history_step i ops outs c op o c' : history P i ops outs c -> op_ok op -> cn_step P op c = Ok (o, c') ->
  history P i (ops ++ [op]) (outs ++ [o]) c'.
Proof.
  intros (hp & hst & ho & hr) hop h. split; [auto|]. split; [auto|]. split; [apply Forall_app; auto|].
  eapply run_app_ok; eauto. cbn. rewrite h. reflexivity.
Qed.

(** ** The invariant *)
Definition known (sid : Z) (c : conn) : Prop := sk sid c <> None.
Definition is_over (sid : Z) (c : conn) : bool := match sk sid c with Some (_, _, _, true) => true | _ => false end.
Definition peers (b : bool) (sid : Z) : bool := negb (own P sid) && Bool.eqb (bidirectional sid) b.
Definition ours (b : bool) (sid : Z) : bool := own P sid && Bool.eqb (bidirectional sid) b.
Definition n_over (b : bool) (c : conn) : Z := zlen (filter (fun x => peers b x && is_over x c) (keys c)).

Record Shape (i : start) (adv gr : bool -> Z) (c : conn) : Prop := {
  sh_nodup : NoDup (keys c);
  sh_pos : forall x, known x c -> 0 <= x;
  sh_kind : forall x b l k f, sk x c = Some (b, l, k, f) -> b = bidirectional x /\ l = own P x /\ k = x;
  sh_init : forall b, l_initial (lim_of b c) = first_local b i;
  sh_adv : forall b, l_local_max (lim_of b c) = adv b;
  sh_gr : forall b, l_peer_max (lim_of b c) = gr b;
  sh_next : forall b, l_local_next (lim_of b c) = Z.min u64_max (first_local b i + n_over b c);
  sh_le : forall b, l_local_max (lim_of b c) <= l_local_next (lim_of b c);
  sh_lo : forall b, l_local_opened (lim_of b c) <= l_peer_max (lim_of b c);
  sh_po : forall b, l_peer_opened (lim_of b c) <= l_local_max (lim_of b c);
  sh_pz : forall b, 0 <= l_peer_opened (lim_of b c);
  sh_lz : forall b, 0 <= l_local_opened (lim_of b c);
  sh_peer : forall b x, known x c -> peers b x = true -> seqno x + 1 <= l_peer_opened (lim_of b c);
  sh_ours : forall b x, known x c -> ours b x = true -> seqno x + 1 <= l_local_opened (lim_of b c);
  sh_ours_max : forall b, l_local_opened (lim_of b c) = 0 \/
     exists x, known x c /\ ours b x = true /\ seqno x + 1 = l_local_opened (lim_of b c) }.

Lemma known_keys x c : known x c <-> In x (keys c).
Proof.
  unfold known, sk, keys, ent. destruct (aget x (c_streams c)) as [v|] eqn:E.
  - split; [|discriminate]. intros _. eapply aget_in_key; eauto.
  - apply aget_none_key in E. cbn. split; [congruence|contradiction].
Qed.

Lemma same_known c c' x : same c c' -> (known x c' <-> known x c).
Proof. intros [_ h]. unfold known. rewrite h. tauto. Qed.
Lemma same_over c c' x : same c c' -> is_over x c' = is_over x c.
Proof. intros [_ h]. unfold is_over. rewrite h. auto. Qed.
Lemma same_n_over c c' b : same c c' -> n_over b c' = n_over b c.
Proof.
  intros h. unfold n_over. rewrite (sm_keys _ _ h). f_equal. apply filter_ext_len. intros x _.
  rewrite (same_over _ _ _ h). auto.
Qed.

Lemma shape_same i adv gr c c' : same c c' -> same_lim c c' -> Shape i adv gr c -> Shape i adv gr c'.
Proof.
  intros hs hl hh. destruct hh. constructor; intros; rewrite ?hl, ?(same_n_over _ _ _ hs); auto.
  - rewrite (sm_keys _ _ hs). auto.
  - apply sh_pos0. apply (same_known _ _ _ hs); auto.
  - rewrite (sm_sk _ _ hs) in H. eauto.
  - apply sh_peer0; auto. apply (same_known _ _ _ hs); auto.
  - apply sh_ours0; auto. apply (same_known _ _ _ hs); auto.
  - destruct (sh_ours_max0 b) as [|(x & h1 & h2)]; auto. right. exists x. split; auto. apply (same_known _ _ _ hs); auto.
Qed.

Lemma shape_made i adv gr sid c c' : 0 <= sid -> made P sid c c' -> Shape i adv gr c -> Shape i adv gr c'.
Proof.
  intros h0 (he & hw & hk & hs & ho & hl & hl') hh.
  assert (hnk : ~ In sid (keys c)) by (rewrite <- known_keys; unfold known, sk; rewrite he; auto).
  assert (hkn : forall x, known x c' <-> x = sid \/ known x c).
  { intros x. rewrite !known_keys, hk, in_app_iff. cbn. intuition congruence. }
  assert (hlim : forall b, lim_of b c' = if Bool.eqb b (is_bidi sid) then opened P sid (lim_of b c) else lim_of b c).
  { intros b. destruct b, (is_bidi sid); cbn [negb Bool.eqb] in *; congruence. }
  rewrite local_own, bidi_spec in * by auto.
  unfold within, opened in *. rewrite local_own, seq_spec in * by auto.
  assert (hno : forall b, n_over b c' = n_over b c).
  { intros b. unfold n_over. rewrite hk, filter_app, zlen_app. cbn [filter].
    unfold is_over at 2. rewrite hs, andb_false_r, zlen_nil, Z.add_0_r. f_equal. apply filter_ext_len.
    intros x hx. unfold is_over. rewrite ho; auto. intros ->. auto. }
  unfold kind in hw. rewrite bidi_spec in hw by auto. fold (lim_of (bidirectional sid) c) in hw.
  destruct hh. constructor.
  - rewrite hk. apply NoDup_app_iff || idtac.
    apply NoDup_Add with (a := sid) (l := keys c); [|split; auto].
    replace (keys c) with (keys c ++ []) at 1 by apply app_nil_r. apply Add_app.
  - intros x hx. apply hkn in hx as [->|hx]; auto.
  - intros x b l k f hx. destruct (Z.eq_dec x sid) as [->|n].
    + rewrite hs in hx. injection hx as <- <- <- _. auto.
    + rewrite ho in hx by auto. eauto.
  - intros b. rewrite hlim. destr_if; [destr_if; cn|]; auto.
  - intros b. rewrite hlim. destr_if; [destr_if; cn|]; auto.
  - intros b. rewrite hlim. destr_if; [destr_if; cn|]; auto.
  - intros b. rewrite hlim, hno. destr_if; [destr_if; cn|]; auto.
  - intros b. rewrite hlim. destr_if; [destr_if; cn|]; auto.
  - intros b. rewrite hlim. destr_if; [|auto]. apply Bool.eqb_prop in E. subst b. destr_if; cn; auto.
  - intros b. rewrite hlim. destr_if; [|auto]. apply Bool.eqb_prop in E. subst b. destr_if; cn; auto.
  - intros b. rewrite hlim. destr_if; [destr_if; cn|]; auto. specialize (sh_pz0 b). lia.
  - intros b. rewrite hlim. destr_if; [destr_if; cn|]; auto. specialize (sh_lz0 b). lia.
  - intros b x hx hp. rewrite hlim. apply hkn in hx as [->|hx].
    + unfold peers in hp. apply andb_true_iff in hp as (hp1 & hp2). apply Bool.eqb_prop in hp2.
      rewrite <- hp2, Bool.eqb_reflx. destruct (own P sid); [discriminate|]. cn. lia.
    + specialize (sh_peer0 b x hx hp). destr_if; [destr_if; cn|]; auto. lia.
  - intros b x hx hp. rewrite hlim. apply hkn in hx as [->|hx].
    + unfold ours in hp. apply andb_true_iff in hp as (hp1 & hp2). apply Bool.eqb_prop in hp2.
      rewrite <- hp2, Bool.eqb_reflx, hp1. cn. lia.
    + specialize (sh_ours0 b x hx hp). destr_if; [destr_if; cn|]; auto. lia.
  - intros b. rewrite hlim.
    assert (hold : forall v, v = l_local_opened (lim_of b c) -> v = 0 \/ exists x, known x c' /\ ours b x = true /\ seqno x + 1 = v).
    { intros v ->. destruct (sh_ours_max0 b) as [|(x & h1 & h2 & h3)]; auto. right. exists x. ands; auto. apply hkn. auto. }
    destruct (Bool.eqb b (bidirectional sid)) eqn:E; [|apply hold; reflexivity].
    destruct (own P sid) eqn:Eo; cn; [|apply hold; reflexivity].
    apply Bool.eqb_prop in E. subst b.
    destruct (Z_le_gt_dec (seqno sid + 1) (l_local_opened (lim_of (bidirectional sid) c))).
    + apply hold. lia.
    + right. exists sid. ands; [apply hkn; auto|unfold ours; rewrite Eo, Bool.eqb_reflx; auto|lia].
Qed.

Lemma shape_ended i adv gr sid c c' : first_local true i <= u64_max -> first_local false i <= u64_max ->
  ended sid c c' -> Shape i adv gr c -> Shape i adv gr c'.
Proof.
  intros hu1 hu2 (b & l & k & hs & hs' & hk & ho & hl) hh.
  assert (hkn : forall x, known x c' <-> known x c) by (intros x; rewrite !known_keys, hk; tauto).
  assert (hpos : 0 <= sid) by (apply (sh_pos _ _ _ _ hh); unfold known; rewrite hs; discriminate).
  destruct (sh_kind _ _ _ _ hh _ _ _ _ _ hs) as (-> & -> & ->).
  rewrite bidi_spec in hl by auto.
  assert (hno : forall b, n_over b c' = n_over b c + if peers b sid then 1 else 0).
  { intros b. unfold n_over. rewrite hk.
    destruct (peers b sid) eqn:Ep.
    - apply filter_flip with (x := sid); [apply (sh_nodup _ _ _ _ hh)| | | |].
      + apply known_keys. unfold known. rewrite hs. discriminate.
      + unfold is_over. rewrite hs. apply andb_false_r.
      + unfold is_over. rewrite hs', Ep. auto.
      + intros y n. unfold is_over. rewrite ho by auto. auto.
    - rewrite Z.add_0_r. f_equal. apply filter_ext_len. intros x _. destruct (Z.eq_dec x sid) as [->|n].
      + rewrite Ep. auto.
      + unfold is_over. rewrite ho by auto. auto. }
  assert (hlim : forall b, lim_of b c' = if peers b sid
     then set_l_local_next (Z.min u64_max (l_local_next (lim_of b c) + 1)) (lim_of b c) else lim_of b c).
  { intros b. rewrite hl. unfold peers. replace (Bool.eqb (bidirectional sid) b) with (Bool.eqb b (bidirectional sid)); auto.
    destruct b, (bidirectional sid); auto. }
  destruct hh. constructor.
  - rewrite hk; auto.
  - intros x hx. apply hkn in hx; auto.
  - intros x b l k f hx. destruct (Z.eq_dec x sid) as [->|n].
    + rewrite hs' in hx. injection hx as <- <- <- _. auto.
    + rewrite ho in hx by auto. eauto.
  - intros b. rewrite hlim. destr_if; cn; auto.
  - intros b. rewrite hlim. destr_if; cn; auto.
  - intros b. rewrite hlim. destr_if; cn; auto.
  - intros b. rewrite hlim, hno. specialize (sh_next0 b).
    assert (0 <= n_over b c) by (unfold n_over; apply zlen_nonneg). destr_if; cn; rewrite sh_next0; lia.
  - intros b. rewrite hlim. specialize (sh_le0 b). specialize (sh_next0 b). destr_if; cn; auto. lia.
  - intros b. rewrite hlim. destr_if; cn; auto.
  - intros b. rewrite hlim. destr_if; cn; auto.
  - intros b. rewrite hlim. destr_if; cn; auto.
  - intros b. rewrite hlim. destr_if; cn; auto.
  - intros b x hx hp. apply hkn in hx. rewrite hlim. destr_if; cn; auto.
  - intros b x hx hp. apply hkn in hx. rewrite hlim. destr_if; cn; auto.
  - intros b. rewrite hlim. destruct (sh_ours_max0 b) as [q|(x & h1 & h2 & h3)].
    + left. destr_if; cn; auto.
    + right. exists x. ands; auto; [apply hkn; auto|destr_if; cn; auto].
Qed.

Definition adv' (o : cn_out) (adv : bool -> Z) (b : bool) : Z :=
  match o with CoMaxStreams b' m => if Bool.eqb b b' then m else adv b | _ => adv b end.
Definition gr' (op : cn_op) (gr : bool -> Z) (b : bool) : Z :=
  match op with CnMaxStreams b' m => if Bool.eqb b b' then Z.max (gr b) m else gr b | _ => gr b end.

Lemma shape_relimits i adv gr op o c c' : relimits op o c c' -> Shape i adv gr c ->
  Shape i (adv' o adv) (gr' op gr) c' /\ forall b, adv b <= adv' o adv b.
Proof.
  intros (hs & hl) hh. destruct hh.
  assert (hadv : forall b, l_local_max (lim_of b c') = adv' o adv b).
  { intros b. destruct (hl b) as (_ & h2 & _). rewrite h2. unfold adv'.
    destruct o; auto. rewrite sh_adv0. reflexivity. }
  assert (hle : forall b, adv b <= adv' o adv b /\ adv' o adv b <= l_local_next (lim_of b c)).
  { intros b. destruct (hl b) as (_ & _ & h3 & _). unfold adv'. specialize (sh_le0 b). rewrite sh_adv0 in sh_le0.
    destruct o; try (split; [lia|auto]). destruct (Bool.eqb b bidi) eqn:E; [|split; [lia|auto]].
    apply Bool.eqb_prop in E. subst bidi. rewrite (h3 m eq_refl). lia. }
  split; [|intros b; apply hle].
  constructor.
  - rewrite (sm_keys _ _ hs). auto.
  - intros x hx. apply sh_pos0. apply (same_known _ _ _ hs); auto.
  - intros x b l k f hx. rewrite (sm_sk _ _ hs) in hx. eauto.
  - intros b. destruct (hl b) as (_ & _ & _ & _ & _ & _ & h). rewrite h. auto.
  - auto.
  - intros b. destruct (hl b) as (h & _). rewrite h. unfold gr'. destruct op; auto. rewrite sh_gr0. reflexivity.
  - intros b. destruct (hl b) as (_ & _ & _ & _ & _ & h & _). rewrite h, (same_n_over _ _ _ hs). auto.
  - intros b. destruct (hl b) as (_ & _ & _ & _ & _ & h & _). rewrite h, hadv. apply hle.
  - intros b. destruct (hl b) as (h1 & _ & _ & h & _). rewrite h, h1. specialize (sh_lo0 b).
    destruct op; auto. destruct (Bool.eqb b bidi); lia.
  - intros b. destruct (hl b) as (_ & _ & _ & _ & h & _). rewrite h, hadv. specialize (sh_po0 b). rewrite sh_adv0 in sh_po0.
    destruct (hle b). lia.
  - intros b. destruct (hl b) as (_ & _ & _ & _ & h & _). rewrite h. auto.
  - intros b. destruct (hl b) as (_ & _ & _ & h & _). rewrite h. auto.
  - intros b x hx hp. destruct (hl b) as (_ & _ & _ & _ & h & _). rewrite h. apply sh_peer0; auto. apply (same_known _ _ _ hs); auto.
  - intros b x hx hp. destruct (hl b) as (_ & _ & _ & h & _). rewrite h. apply sh_ours0; auto. apply (same_known _ _ _ hs); auto.
  - intros b. destruct (hl b) as (_ & _ & _ & h & _). rewrite h.
    destruct (sh_ours_max0 b) as [|(x & h1 & h2)]; auto. right. exists x. split; auto. apply (same_known _ _ _ hs); auto.
Qed.

Lemma shape_named i adv gr c : Shape i adv gr c -> named c.
Proof.
  intros hh x s f he. destruct (sh_kind _ _ _ _ hh x (st_bidi s) (st_local s) (k_id (st_key s)) f) as (_ & _ & h); auto.
  unfold sk. rewrite he. reflexivity.
Qed.

Lemma shape_step i adv gr op o c c' : start_ok i -> op_ok op -> cn_step P op c = Ok (o, c') -> Shape i adv gr c ->
  Shape i (adv' o adv) (gr' op gr) c' /\ forall b, adv b <= adv' o adv b.
Proof.
  intros (_ & _ & _ & _ & (_ & u1) & (_ & u2) & _) hok h hh.
  apply step_shaped in h as (c1 & c2 & h1 & h2 & h3); auto; [|eapply shape_named; eauto].
  assert (hh1 : Shape i adv gr c1).
  { destruct h1 as [(q1 & q2)|(sid & q1 & q2)]; [eapply shape_same; eauto|eapply shape_made; eauto]. }
  assert (hh2 : Shape i adv gr c2).
  { destruct h2 as [(q1 & q2)|(sid & q1)]; [eapply shape_same; eauto|eapply shape_ended; eauto]. }
  eapply shape_relimits; eauto.
Qed.

Lemma shape_ext i adv gr adv1 gr1 c : (forall b, adv b = adv1 b) -> (forall b, gr b = gr1 b) ->
  Shape i adv gr c -> Shape i adv1 gr1 c.
Proof. intros h1 h2 []. constructor; auto; intros b; rewrite <- ?h1, <- ?h2; auto. Qed.

Theorem shape_history i ops outs c : history P i ops outs c ->
  Shape i (fun b => advertised b i outs) (fun b => granted b i ops) c.
Proof.
  revert ops outs c. apply history_ind.
  - intros _ (_ & _ & _ & _ & u1 & u2 & u3 & u4).
    assert (hnk : forall x, ~ known x (cn_new P i)) by (intros x hx; apply hx; reflexivity).
    constructor; try (intros b; destruct b; cbn; lia).
    + constructor.
    + intros x hx. destruct (hnk x hx).
    + intros x b l k f h. discriminate.
    + intros b x hx. destruct (hnk x hx).
    + intros b x hx. destruct (hnk x hx).
  - intros ops outs c op o c' hist hh hok hs.
    destruct (shape_step _ _ _ _ _ _ _ (proj1 (proj2 hist)) hok hs hh) as (h & _).
    eapply shape_ext; [| |exact h].
    + intros b. unfold advertised. rewrite fold_left_app. reflexivity.
    + intros b. unfold granted. rewrite fold_left_app. reflexivity.
Qed.

(** ** Streams in use and streams that are over *)
Lemma sk_live x c : live x c <-> exists b l k, sk x c = Some (b, l, k, false).
Proof.
  unfold live, sk. split.
  - intros (s & h). apply get_ent in h. rewrite h. cbn. unfold skel. cbn. eauto.
  - intros (b & l & k & h). destruct (ent x c) as [[s f]|] eqn:E; [|discriminate]. cbn in h. unfold skel in h. cbn in h.
    injection h as _ _ _ ->. exists s. apply get_ent. auto.
Qed.
Lemma sk_over x c : over x c <-> is_over x c = true.
Proof.
  unfold over, is_over, sk. rewrite collected_ent. split.
  - intros (s & h). rewrite h. reflexivity.
  - destruct (ent x c) as [[s f]|] eqn:E; cbn; [|discriminate]. unfold skel. cbn. destruct f; [|discriminate]. eauto.
Qed.
Lemma known_cases x c : known x c <-> live x c \/ over x c.
Proof.
  rewrite sk_live, sk_over. unfold known, is_over. destruct (sk x c) as [[[[b l] k] [|]]|]; split.
  - auto. - discriminate. - intros _. left. eauto. - discriminate. - congruence.
  - intros [(b & l & k & h)|h]; discriminate.
Qed.
Lemma live_not_over x c : live x c -> ~ over x c.
Proof. rewrite sk_live, sk_over. unfold is_over. intros (b & l & k & ->). discriminate. Qed.
Lemma unopened_ent x c : unopened x c <-> ent x c = None.
Proof.
  unfold unopened. assert (hk := known_cases x c). unfold known, sk in hk.
  destruct (ent x c); cbn in hk; split; intros h; auto; try discriminate; [|split; intros q; tauto].
  destruct hk as ([q|q] & _); [discriminate| |]; tauto.
Qed.
End P.
