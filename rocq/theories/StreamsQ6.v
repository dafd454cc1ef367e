(** The order in which streams get frames. *)
Require Import Verif.Base Verif.Errors Verif.Assoc Verif.OctetsModel Verif.FlowControlModel Verif.RangeBufModel
  Verif.RangesModel Verif.RangesProofs Verif.RecvBufModel Verif.RecvBufProofs2
  Verif.SendBufModel Verif.SendSpec Verif.SendBufProofs Verif.SendBufProofs2 Verif.SendBufProofs3
  Verif.StreamsModel Verif.StreamsSpec Verif.StreamsProofs
  Verif.StreamsEffects Verif.StreamsShape Verif.StreamsShape2 Verif.StreamsShape3 Verif.StreamsRecv Verif.StreamsTx Verif.StreamsTx2 Verif.StreamsTx3 Verif.StreamsTx4
  Verif.StreamsQ Verif.StreamsQ2 Verif.StreamsQ3 Verif.StreamsQ4 Verif.StreamsSpec2 Verif.StreamsQ5.
Require Import Sorted.





Definition ahead (y x : Z) (q : list skey) : Prop := exists l1 k l2, q = l1 ++ k :: l2 /\ k_id k = y /\ ~ In x (ids l1).

Lemma ahead_linked y x q : ahead y x q -> linked y q = true.
Proof. intros (l1 & k & l2 & -> & <- & _). apply linked_iff. unfold ids. rewrite map_app. apply in_or_app. right. left. auto. Qed.
Lemma ahead_remove y x z q : z <> y -> ahead y x q -> ahead y x (q_remove z q).
Proof.
  intros n (l1 & k & l2 & -> & e & h). exists (q_remove z l1), k, (q_remove z l2). ands; auto.
  - unfold q_remove. rewrite filter_app. cbn [filter]. replace (negb (k_id k =? z)) with true by lia. auto.
  - rewrite ids_q_remove. tauto.
Qed.
Lemma ahead_ins y x k q : k_id k <> x -> ahead y x q -> ahead y x (q_ins k q).
Proof.
  intros n (l1 & ky & l2 & -> & e & h). revert h. induction l1 as [|a l1 IH]; intros h; cbn [app q_ins].
  - destr_if.
    + exists [k], ky, l2. ands; auto. intros [q|[]]. auto.
    + exists [], ky, (q_ins k l2). ands; auto.
  - cbn [ids map] in h. destr_if.
    + exists (k :: a :: l1), ky, l2. ands; auto. intros [q|[q|q]]; [auto|apply h; left; auto|apply h; right; auto].
    + destruct IH as (m1 & m & m2 & e1 & e2 & e3); [intros q; apply h; right; auto|]. exists (a :: m1), m, m2. ands; auto; [rewrite e1; auto|].
      intros [q|q]; [apply h; left; auto|auto].
Qed.
Lemma ahead_update y x k q : k_id k <> x -> k_id k <> y -> ahead y x q -> ahead y x (q_update k q).
Proof. intros h1 h2 h. unfold q_update. destr_if; auto. apply ahead_ins; auto. apply ahead_remove; auto. Qed.
Lemma ahead_self y x kx ky q : StronglySorted ple q -> NoDup (ids q) -> In ky q -> k_id ky = y -> k_id kx = x -> x <> y -> linked x q = false ->
  k_urg kx = k_urg ky -> k_inc kx = true -> k_inc ky = true -> ahead y x (q_ins kx q).
Proof.
  intros hs hn hin hy hx n hl e1 e2 e3. apply linked_not in hl. induction hs as [|a q hs IH hf]; [destruct hin|]. cbn [q_ins]. cbn [ids map] in hl, hn. inversion hn as [|? ? hn1 hn2]; subst.
  assert (hax : k_id a <> k_id kx) by (intros e; apply hl; left; auto).
  assert (hlt : key_lt kx a = false).
  { destruct hin as [->|hin].
    - unfold key_lt. rewrite e1, Z.eqb_refl, e2, e3. cbn. destr_if; auto.
    - rewrite Forall_forall in hf. specialize (hf _ hin). unfold ple in hf.
      destruct (Z.eq_dec (k_id ky) (k_id a)) as [e|e].
      + exfalso. apply hn1. rewrite <- e. apply in_map. auto.
      + unfold key_lt in *. replace (k_id kx =? k_id a) with false by lia. replace (k_id ky =? k_id a) with false in hf by lia. rewrite e1, e2, e3 in *. auto. }
  rewrite hlt. destruct hin as [->|hin].
  - exists [], ky, (q_ins kx q). ands; auto.
  - destruct IH as (m1 & m & m2 & q1 & q2 & q3); auto; [intros q1; apply hl; right; auto|]. exists (a :: m1), m, m2. ands; auto; [rewrite q1; auto|].
    intros [q4|q4]; auto.
Qed.

(** Changes to a queue that keep [y] in it. *)
Inductive qmy (y : Z) (K : Z -> option skey) : list skey -> list skey -> Prop :=
| qy_refl q : qmy y K q q
| qy_ins q q' k : qmy y K q q' -> K (k_id k) = Some k -> qmy y K q (q_insert k q')
| qy_rem q q' sid : qmy y K q q' -> sid <> y -> qmy y K q (q_remove sid q').

Lemma qmy_ahead y x K kx ky q q' : qmy y K q q' -> qinv K q -> K x = Some kx -> K y = Some ky -> x <> y ->
  k_urg kx = k_urg ky -> k_inc kx = true -> k_inc ky = true -> ahead y x q -> qinv K q' /\ ahead y x q'.
Proof.
  induction 1 as [q|q q' k h IH hk|q q' sid h IH hn]; auto; intros hi hx hy hxy u1 u2 u3 ha; destruct (IH hi hx hy hxy u1 u2 u3 ha) as (IH1 & IH2).
  - split; [eapply qinv_mv; [apply qm_ins; [apply qm_refl|exact hk]|auto]|]. unfold q_insert. destruct (linked (k_id k) q') eqn:E; auto.
    destruct (Z.eq_dec (k_id k) x) as [e|n]; [|apply ahead_ins; auto]. rewrite e in hk. assert (k = kx) by congruence. subst k.
    destruct IH2 as (l1 & k2 & l2 & e1 & e2 & e3). assert (hin : In k2 q') by (rewrite e1; apply in_or_app; right; left; auto).
    pose proof (qi_key _ _ IH1 _ hin) as hk2. rewrite e2, hy in hk2. injection hk2 as <-.
    apply (ahead_self y x kx ky); auto; [apply IH1|apply IH1|congruence].
  - split; [eapply qinv_mv; [apply qm_rem; apply qm_refl|auto]|]. apply ahead_remove; auto.
Qed.
Lemma qmy_drop y K q q' skips : qmy y K q q' -> ~ In y skips -> qmy y K q (dropq skips q').
Proof.
  revert q'. induction skips as [|z l IH]; intros q' h hn; cbn [dropq fold_left]; auto. apply IH; [|intros q1; apply hn; right; auto].
  apply qy_rem; auto. intros ->. apply hn. left. auto.
Qed.

Section P.
Variable P : params.

Lemma servable_kept room c y skips : LF y c -> 19 <= room -> Forall (unservable room c) skips -> ~ In y skips.
Proof.
  intros (s & he & hf) hr hsk hs. rewrite Forall_forall in hsk. specialize (hsk _ hs). unfold unservable in hsk.
  rewrite (proj2 (get_ent _ _ _) he) in hsk. unfold FL in hf. apply andb_true_iff in hf as (_ & hf). apply negb_true_iff in hf. destruct hsk as [q|q]; [congruence|].
  pose proof (varint_len_bounds y). pose proof (varint_len_bounds (sb_off_front (st_send s))). lia.
Qed.

Lemma mc_live y s' c' b sid s c : ent y c' = Some (s', false) -> ent y c' = ent y (mcoll b sid s c) -> b = false \/ sid <> y.
Proof. intros h1 h2. rewrite h1, ent_mcoll in h2. destruct b; auto. destruct (y =? sid) eqn:E; [discriminate|right; lia]. Qed.

Lemma gocs_fq sid local c s c1 : gocs P sid local c s c1 -> c_fq c1 = c_fq c.
Proof. intros [h|h1 h2 h3 ->]; auto. unfold create, set_kind. destruct (st_writable (fresh P sid)), (is_bidi sid); reflexivity. Qed.

Lemma rr_step y op c o c' : kinds P c -> cn_step P op c = Ok (o, c') -> (forall sid u b, op <> CnPriority sid u b) ->
  (exists s, ent y c' = Some (s, false)) -> LF y c -> roomy op -> (forall f, o <> CoSent (Some (SfStream y f))) ->
  qmy y (keyof c') (c_fq c) (c_fq c').
Proof.
  intros hk h hnp (sy & hy) hf hr ho.
  assert (hid : forall sid local s c0 c1, c_streams c0 = c_streams c -> gocs P sid local c0 s c1 -> k_id (st_key s) = sid).
  { intros sid local s c0 c1 e hg. destruct hg as [h'|_ _ _ ->]; [apply (hk sid s false); unfold ent in *; congruence|].
    unfold fresh; destruct (new_limits P (is_local sid (p_server P)) (is_bidi sid)); reflexivity. }
  assert (same : c_fq c' = c_fq c -> qmy y (keyof c') (c_fq c) (c_fq c')) by (intros ->; apply qy_refl).
  assert (hmc : forall b sid s c0, ent y c' = ent y (mcoll b sid s c0) -> c_fq c' = c_fq (mcoll b sid s c0) -> c_fq c0 = c_fq c -> qmy y (keyof c') (c_fq c) (c_fq c')).
  { intros b sid s c0 e1 e2 e3. destruct (mc_live _ _ _ _ _ _ _ hy e1) as [e|e]; rewrite e2, mc_fq, <- e3.
    - rewrite e. apply qy_refl.
    - destruct b; [apply qy_rem; auto; apply qy_refl|apply qy_refl]. }
  destruct op; cbn [cn_step] in h.
  - apply stream_ok in h as [(-> & -> & _)|(s & c1 & r & hg & _ & hw & hle & -> & ->)]; apply same; cn; auto. eapply gocs_fq; eauto.
  - apply reset_ok in h as [(-> & -> & _)|(s & c1 & r & delta & credit & hg & _ & hw & hle & -> & ->)]; apply same; cn; auto. eapply gocs_fq; eauto.
  - apply stop_ok in h as [(-> & -> & _)|(s & c1 & hg & -> & _ & h)]; [apply same; auto|].
    destruct h as [(ee & hst & ->)|(fi & un & b' & hst & ->)]; apply same; cn; eapply gocs_fq; eauto.
  - injection h as <- <-. auto.
  - apply max_stream_data_ok in h as [(-> & -> & _)|(s & c1 & hg & -> & _ & ->)]; [apply same; auto|].
    pose proof (hid _ _ _ _ _ eq_refl hg) as hi. cbv zeta. cn. rewrite (gocs_fq _ _ _ _ _ hg). destr_if; [|apply qy_refl]. apply qy_ins; [apply qy_refl|].
    rewrite hi. unfold keyof, ent. cn. rewrite aget_aset_same. reflexivity.
  - unfold cn_max_streams in h. dif h; [discriminate|]. injection h as <- <-. apply same; unfold set_kind; destruct bidi; auto.
  - unfold cn_streams_blocked in h. dif h; [discriminate|]. injection h as <- <-. auto.
  - apply recv_ok in h as [(e & -> & -> & _)|h]; auto.
    destruct h as (s & r & he & hrd & [(e & hw & -> & ->)|(bytes & fin & full & hw & -> & haf & ->)]); cbv zeta in *;
    (eapply hmc; [reflexivity|reflexivity|reflexivity]).
  - apply send_ok in h as [(-> & -> & _)|(hd & _ & h)]; auto. cbv zeta in h.
    match type of h with context [set_c_blk ?b c] => set (c0 := set_c_blk b c) in h end.
    destruct h as [(-> & _ & hl0 & _ & ->)|[(-> & -> & _)|[(-> & -> & _)|h]]].
    + apply same. destruct (p_blocked P); [|auto]. unfold set_kind; destruct (is_bidi sid); auto.
    + apply same; auto.
    + apply same; auto.
    + destruct h as (s & c1 & hg & h). pose proof (hid _ _ _ c0 _ eq_refl hg) as hi. pose proof (gocs_fq _ _ _ _ _ hg) as ef. change (c_fq c0) with (c_fq c) in ef.
      destruct h as [(e0 & _ & -> & ->)|[(n & _ & _ & _ & -> & ->)|(n & hc & hnz & [(e0 & hw & -> & ->)|h])]].
      * eapply hmc; [reflexivity|reflexivity|auto].
      * apply same; auto.
      * apply same; auto.
      * destruct h as (sent & b0 & hw & hle & -> & bl & blocked & _ & ->). cn. rewrite ef. destr_if; [|apply qy_refl]. apply qy_ins; [apply qy_refl|].
        rewrite hi. unfold keyof, ent. cn. rewrite aget_aset_same. reflexivity.
  - destruct (hnp _ _ _ eq_refl).
  - apply shutdown_ok in h as [(-> & (e & ->))|(s & he & -> & [h|h])]; auto.
    + destruct h as (n & r & -> & hsh & ->). apply same; auto.
    + destruct h as (fi & un & b' & cap & -> & _ & hst & hle & hc & ->). apply same; auto.
  - destruct (cn_capacity sid c) as [[r c1]| |] eqn:E; try discriminate. cbn [bind] in h.
    apply capacity_ok in E as [(-> & -> & _)|(s & he & [(e & _ & -> & ->)|(n & _ & -> & ->)])]; injection h as <- <-; auto. eapply hmc; reflexivity.
  - apply writable_ok in h as [(-> & -> & _)|(s & he & [(e & _ & -> & ->)|(n & hcp & [(_ & -> & ->)|(_ & -> & _ & bl & bs & hbl & ->)])])]; auto. eapply hmc; reflexivity.
  - apply readable_next_ok in h as [(-> & -> & _)|(k & tl & e & -> & ->)]; auto.
  - apply writable_next_ok in h as [(-> & ->)|(sid & _ & _ & -> & ->)]; auto.
  - unfold update_tx_cap in h. destruct (c_max_tx c <? c_tx c) eqn:E; [discriminate|]. cbn in h. injection h as <- <-. auto.
  - unfold cn_send_max_streams in h. cbv zeta in h. dif h; injection h as <- <-; auto. apply same; unfold set_kind; destruct bidi; auto.
  - unfold cn_send_data_blocked in h. destruct (c_blk c); [destruct fits|]; injection h as <- <-; auto.
  - unfold cn_send_streams_blocked in h. cbv zeta in h. dif h; [|injection h as <- <-; auto].
    destruct (l_blk_at (if bidi then c_bidi c else c_uni c)); [destruct fits|]; injection h as <- <-; auto.
    apply same; unfold set_kind; destruct bidi; auto.
  - apply send_max_stream_data_ok in h as [(-> & ->)|[(-> & _ & ->)|(s & full & he & hf0 & hm & h)]]; auto.
    cbv zeta in h. destruct h as [(-> & -> & ->)|(-> & -> & ->)]; apply same; auto.
  - apply send_max_data_ok in h as (f & b' & [(-> & ->)|(-> & ->)]); auto.
  - unfold cn_send_stop in h. destruct (aget sid (c_stopped c)); [destruct fits|]; injection h as <- <-; auto.
  - unfold cn_send_reset in h. destruct (aget sid (c_reset c)) as [[code fi]|] eqn:E; [destruct fits|]; injection h as <- <-; auto.
  - unfold cn_send_sdb in h. destruct (aget sid (c_blocked c)); [destruct fits|]; injection h as <- <-; auto.
  - rename left into room. unfold cn_send_stream in h. destruct (room <=? MAX_STREAM_OVERHEAD) eqn:Er; [injection h as <- <-; auto|]. unfold MAX_STREAM_OVERHEAD in Er.
    cbn in hr. apply send_stream_loop_ok in h as (skips & hsk & h). pose proof (servable_kept room c y skips hf ltac:(lia) hsk) as hns.
    destruct h as [(-> & _ & ->)|(k & tl & s & bytes & fin & b' & hq0 & he & hnst & hroom & hem & -> & ->)]; cbv zeta in *; cn.
    + apply qmy_drop; auto. apply qy_refl.
    + assert (hky : k_id k <> y) by (intros e; rewrite e in ho; eapply ho; reflexivity). pose proof (proj2 (proj2 (hk _ _ _ he))) as hi.
      repeat match goal with |- context [if ?b then _ else _] => destruct b end.
      * apply qy_rem; auto. apply qmy_drop; auto. apply qy_refl.
      * apply qy_ins; [apply qy_rem; auto; apply qmy_drop; auto; apply qy_refl|]. rewrite hi. unfold keyof, ent. cn. rewrite aget_aset_same. reflexivity.
      * apply qmy_drop; auto. apply qy_refl.
  - apply ack_ok in h as (-> & [->|[(sid & f & s & d & b' & hi & he & hak & ->)|(sid & code & fi & s & _ & he & ->)]]); auto; [|eapply hmc; reflexivity].
    cbv zeta in *. eapply hmc; reflexivity.
  - apply lost_ok in h as (-> & h). destruct h as [->|[(sid & f & s & n & b' & hi & he & hns & hrt & ->)|[(sid & code & fi & hi & ->)|[(sid & code & s & hi & he & hf0 & ->)|[(sid & s & hi & he & ->)|[(hi & ->)|[(bidi & hi & ->)|(bidi & l & hi & hb & ->)]]]]]]]; auto;
      try (apply same; unfold set_kind; destruct bidi; auto; fail).
    pose proof (proj2 (proj2 (hk _ _ _ he))) as hi2. cbv zeta in *. cn. destr_if; [|apply qy_refl]. apply qy_ins; [apply qy_refl|].
    rewrite hi2. unfold keyof, ent. cn. rewrite aget_aset_same. reflexivity.
Qed.
End P.
