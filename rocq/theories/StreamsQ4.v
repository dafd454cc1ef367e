(** Streams with data to send are in the flushable queue. *)
Require Import Verif.Base Verif.Errors Verif.Assoc Verif.OctetsModel Verif.FlowControlModel Verif.RangeBufModel
  Verif.RangesModel Verif.RangesProofs Verif.RecvBufModel Verif.RecvBufProofs2
  Verif.SendBufModel Verif.SendSpec Verif.SendBufProofs Verif.SendBufProofs2 Verif.SendBufProofs3
  Verif.StreamsModel Verif.StreamsSpec Verif.StreamsProofs
  Verif.StreamsEffects Verif.StreamsShape Verif.StreamsShape2 Verif.StreamsRecv Verif.StreamsTx Verif.StreamsTx2 Verif.StreamsTx3 Verif.StreamsTx4
  Verif.StreamsQ Verif.StreamsQ2 Verif.StreamsQ3.



Lemma varint_len_bounds v : 0 <= varint_len v <= 8.
Proof. unfold varint_len, varint_len_opt. repeat match goal with |- context [if ?b then _ else _] => destruct b end; lia. Qed.

Section P.
Variable P : params.
Hypothesis hp : params_ok P.
Definition FL (s : stream) : bool := st_flushable s && negb (st_stopped s).
Definition LF : Z -> conn -> Prop := lq FL.
Ltac lkt := repeat match goal with
  | h : linked _ (if ?b then _ else _) = _ |- _ => destruct b
  | h : linked _ (let _ := _ in _) = _ |- _ => cbv zeta in h
  | h : linked ?x (q_insert ?k _) = _ |- _ => rewrite linked_insert_other in h by congruence
  | h : linked ?x (q_remove ?k _) = _ |- _ => rewrite linked_remove_other in h by congruence
  | h : linked ?x (q_update ?k _) = _ |- _ => rewrite linked_update in h
  end; auto.
Ltac w1 c c1 sid s hg hl hn := refine (q_one P FL c_fq (f_new P) c c1 _ sid _ s _ _ hg _ _ _ hl hn); [cn; reflexivity|cn; try solve [intros ? ?; lkt]|cn].
Ltac w2 c sid s he hl hn := refine (q_one P FL c_fq (f_new P) c c _ sid true s _ _ (gocs_old _ _ _ _ _ he) _ _ _ hl hn); [cn; reflexivity|cn; try solve [intros ? ?; lkt]|cn; auto].
Ltac ws := eapply (q_same FL c_fq); eauto.
Ltac wm := eapply (lq_mcoll P FL c_fq (f_new P) mc_fq); eauto.

Lemma f_step g x op c o c' : kinds P c -> TxC P g c -> cn_step P op c = Ok (o, c') -> LF x c' -> linked x (c_fq c') = false ->
  (exists room, op = CnSendStream room /\ 12 < room < 19) \/ (LF x c /\ linked x (c_fq c) = false).
Proof.
  intros hk H h hl hn. unfold LF in *.
  assert (hgk : forall sid local s c1, gocs P sid local c s c1 -> k_id (st_key s) = sid).
  { intros sid local s c1 hg. destruct hg as [h'|_ _ _ ->]; [apply (hk _ _ _ h')|].
    unfold fresh; destruct (new_limits P (is_local sid (p_server P)) (is_bidi sid)); reflexivity. }
  assert (hsb : forall x s, ent x c = Some (s, false) -> exists W, Sb W (st_send s)) by (intros; eexists; eapply t_sb; eauto).
  destruct op; cbn [cn_step] in h; try (match goal with |- (exists room, CnSendStream _ = _ /\ _) \/ _ => fail 1 | _ => right end).
  - apply stream_ok in h as [(-> & -> & _)|(s & c1 & r & hg & _ & hw & hle & -> & ->)]; auto. w1 c c1 sid s hg hl hn. auto.
  - apply reset_ok in h as [(-> & -> & _)|(s & c1 & r & delta & credit & hg & _ & hw & hle & -> & ->)]; auto. w1 c c1 sid s hg hl hn. auto.
  - apply stop_ok in h as [(-> & -> & _)|(s & c1 & hg & -> & _ & h)]; auto.
    destruct h as [(ee & hst & ->)|(fi & un & b' & hst & ->)]; auto.
    + eapply (q_keep P FL c_fq (f_new P)); eauto.
    + w1 c c1 sid s hg hl hn. unfold FL. rewrite nil_unflushable by (eapply stop_final; eauto). discriminate.
  - injection h as <- <-. ws.
  - apply max_stream_data_ok in h as [(-> & -> & _)|(s & c1 & hg & -> & _ & ->)]; auto. pose proof (hgk _ _ _ _ hg) as hid.
    cbv zeta in hl, hn. w1 c c1 sid s hg hl hn. unfold FL. intros q1 q2. apply andb_true_iff in q1 as (q1 & q3). rewrite q1 in q2.
    change (st_stopped (set_send (sb_update_max_data m (st_send s)) s)) with (st_stopped s) in q3. rewrite q3.
    destruct (st_flushable s); cbn [negb andb] in q2; [auto|]. rewrite <- hid, linked_insert_same in q2. discriminate.
  - unfold cn_max_streams in h. dif h; [discriminate|]. injection h as <- <-. ws; unfold set_kind; destruct bidi; auto.
  - unfold cn_streams_blocked in h. dif h; [discriminate|]. injection h as <- <-. auto.
  - apply recv_ok in h as [(e & -> & -> & _)|h]; auto.
    destruct h as (s & r & he & hrd & [(e & hw & -> & ->)|(bytes & fin & full & hw & -> & haf & ->)]); cbv zeta in hl, hn.
    + match type of hl with context [mcoll ?b0 sid ?s' ?c0] =>
        change (LF x (mcoll b0 sid s' c0)) in hl; change (linked x (c_fq (mcoll b0 sid s' c0)) = false) in hn end.
      apply (lq_mcoll P FL c_fq (f_new P) mc_fq) in hl as (hl & hn'); auto. w2 c sid s he hl hn'.
    + match type of hl with context [mcoll ?b0 sid ?s' ?c0] =>
        change (LF x (mcoll b0 sid s' c0)) in hl; change (linked x (c_fq (mcoll b0 sid s' c0)) = false) in hn end.
      apply (lq_mcoll P FL c_fq (f_new P) mc_fq) in hl as (hl & hn'); auto. w2 c sid s he hl hn'.
  - apply send_ok in h as [(-> & -> & _)|(hd & _ & h)]; auto. cbv zeta in h.
    match type of h with context [set_c_blk ?b c] => set (c0 := set_c_blk b c) in h end.
    destruct h as [(-> & _ & hl0 & _ & ->)|[(-> & -> & _)|[(-> & -> & _)|h]]].
    + destruct (p_blocked P); [|auto]. ws; unfold set_kind; destruct (is_bidi sid); auto.
    + auto.
    + auto.
    + destruct h as (s & c1 & hg & h). change (LF x c0 /\ linked x (c_fq c0) = false).
      assert (hid : k_id (st_key s) = sid).
      { destruct hg as [h'|_ _ _ ->]; [apply (hk _ _ _ h')|]. unfold fresh; destruct (new_limits P (is_local sid (p_server P)) (is_bidi sid)); reflexivity. }
      destruct h as [(e0 & _ & -> & ->)|[(n & _ & _ & _ & -> & ->)|(n & hc & hnz & [(e0 & hw & -> & ->)|h])]].
      * apply (lq_mcoll P FL c_fq (f_new P) mc_fq) in hl as (hl & hn'); auto. eapply (q_keep P FL c_fq (f_new P)); eauto.
      * eapply (q_keep P FL c_fq (f_new P)); [exact hg|exact hl|exact hn].
      * eapply (q_keep P FL c_fq (f_new P)); [exact hg|exact hl|exact hn].
      * destruct h as (sent & b0 & hw & hle & -> & bl & blocked & _ & ->).
        change (sb_is_flushable b0) with (st_flushable (set_send (sb_update_blocked bl b0) s)) in *.
        w1 c0 c1 sid s hg hl hn. unfold FL. intros q1 q2. apply andb_true_iff in q1 as (q1 & q3). rewrite q1 in q2. cbn [orb andb] in q2.
        destruct (st_flushable s); cbn [negb] in q2; [|rewrite <- hid, linked_insert_same in q2; discriminate].
        unfold st_stopped. unfold sb_cap in hc. destruct (sb_error (st_send s)); [discriminate|auto].
  - apply priority_ok in h as [(-> & _)|(s & c1 & hg & -> & h)]; auto.
    destruct h as [(-> & _)| ->]; [eapply (q_keep P FL c_fq (f_new P)); eauto|].
    cbv zeta in hl, hn. w1 c c1 sid s hg hl hn. rewrite ?linked_update; auto.
  - apply shutdown_ok in h as [(-> & (e & ->))|(s & he & -> & [h|h])]; auto.
    + destruct h as (n & r & -> & hsh & ->). w2 c sid s he hl hn.
    + destruct h as (fi & un & b' & cap & -> & _ & hst & hle & hc & ->). w2 c sid s he hl hn. unfold FL. rewrite nil_unflushable by (eapply shut_final; eauto). discriminate.
  - destruct (cn_capacity sid c) as [[r c1]| |] eqn:E; try discriminate. cbn [bind] in h.
    apply capacity_ok in E as [(-> & -> & _)|(s & he & [(e & _ & -> & ->)|(n & _ & -> & ->)])]; injection h as <- <-; auto. wm.
  - apply writable_ok in h as [(-> & -> & _)|(s & he & [(e & _ & -> & ->)|(n & hcp & [(_ & -> & ->)|(_ & -> & _ & bl & bs & hbl & ->)])])]; auto; [wm|].
    cbv zeta in hl, hn. w2 c sid s he hl hn.
  - apply readable_next_ok in h as [(-> & -> & _)|(k & tl & e & -> & ->)]; auto.
  - apply writable_next_ok in h as [(-> & ->)|(sid & _ & _ & -> & ->)]; auto.
  - unfold update_tx_cap in h. destruct (c_max_tx c <? c_tx c) eqn:E; [discriminate|]. cbn in h. injection h as <- <-. auto.
  - unfold cn_send_max_streams in h. cbv zeta in h. dif h; injection h as <- <-; auto. ws; unfold set_kind; destruct bidi; auto.
  - unfold cn_send_data_blocked in h. destruct (c_blk c); [destruct fits|]; injection h as <- <-; auto.
  - unfold cn_send_streams_blocked in h. cbv zeta in h. dif h; [|injection h as <- <-; auto].
    destruct (l_blk_at (if bidi then c_bidi c else c_uni c)); [destruct fits|]; injection h as <- <-; auto.
    ws; unfold set_kind; destruct bidi; auto.
  - apply send_max_stream_data_ok in h as [(-> & ->)|[(-> & _ & ->)|(s & full & he & hf & hm & h)]]; auto.
    cbv zeta in h. destruct h as [(-> & -> & ->)|(-> & -> & ->)]; w2 c sid s he hl hn.
  - apply send_max_data_ok in h as (f & b' & [(-> & ->)|(-> & ->)]); auto.
  - unfold cn_send_stop in h. destruct (aget sid (c_stopped c)); [destruct fits|]; injection h as <- <-; auto.
  - unfold cn_send_reset in h. destruct (aget sid (c_reset c)) as [[code fi]|] eqn:E; [destruct fits|]; injection h as <- <-; auto.
  - unfold cn_send_sdb in h. destruct (aget sid (c_blocked c)); [destruct fits|]; injection h as <- <-; auto.
  - rename left into room. unfold cn_send_stream in h. destruct (room <=? MAX_STREAM_OVERHEAD) eqn:Er; [injection h as <- <-; auto|]. unfold MAX_STREAM_OVERHEAD in Er.
    destruct (Z_lt_ge_dec room 19) as [hr|hr]; [left; exists room; split; auto; lia|]. right.
    apply send_stream_loop_ok in h as (skips & hsk & h). rewrite Forall_forall in hsk.
    assert (hkp : forall z, LF z c -> linked z (dropq skips (c_fq c)) = false -> linked z (c_fq c) = false).
    { intros z (s & he & hf) hz. apply linked_not in hz. apply linked_not. intros hi. apply hz. unfold ids in *. apply in_map_iff in hi as (k & e & hi).
      apply in_map_iff. exists k. split; auto. apply in_dropq. split; auto. intros hs. specialize (hsk _ hs). rewrite e in hsk. unfold unservable in hsk.
      rewrite (proj2 (get_ent _ _ _) he) in hsk. unfold FL in hf. apply andb_true_iff in hf as (_ & hf). apply negb_true_iff in hf. destruct hsk as [q|q]; [congruence|].
      pose proof (varint_len_bounds z). pose proof (varint_len_bounds (sb_off_front (st_send s))). lia. }
    destruct h as [(-> & _ & ->)|(k & tl & s & bytes & fin & b' & hq0 & he & hns & hroom & hem & -> & ->)].
    { split; auto. }
    cbv zeta in hl, hn, hq0. cn_in hn.
    assert (hx : LF x c /\ linked x (dropq skips (c_fq c)) = false).
    { destruct (Z.eq_dec x (k_id k)) as [->|n].
      - exfalso. destruct hl as (s0 & h1 & h2). rewrite (ent_upd c _ (k_id k) (set_send b' s) false) in h1 by (cn; reflexivity). rewrite Z.eqb_refl in h1. injection h1 as <-.
        unfold FL in h2. apply andb_true_iff in h2 as (h2 & _). rewrite h2 in hn. cbn [negb] in hn. pose proof (proj2 (proj2 (hk _ _ _ he))) as hid.
        destruct (k_inc (st_key s)); [rewrite <- hid, linked_insert_same in hn; discriminate|]. rewrite hq0 in hn. cbn in hn. rewrite Z.eqb_refl in hn. discriminate.
      - split.
        + destruct hl as (s0 & h1 & h2). rewrite (ent_upd c _ (k_id k) (set_send b' s) false) in h1 by (cn; reflexivity).
          replace (x =? k_id k) with false in h1 by lia. exists s0. auto.
        + pose proof (proj2 (proj2 (hk _ _ _ he))) as hid. revert hn. repeat match goal with |- context [if ?b then _ else _] => destruct b end;
            rewrite ?linked_insert_other, ?linked_remove_other by congruence; auto. }
    destruct hx. split; auto.
  - apply ack_ok in h as (-> & [->|[(sid & f & s & d & b' & hi & he & hak & ->)|(sid & code & fi & s & _ & he & ->)]]); auto; [|wm].
    cbv zeta in hl, hn.
    match type of hl with context [mcoll ?b0 sid ?s' ?c0] => change (LF x (mcoll b0 sid s' c0)) in hl; change (linked x (c_fq (mcoll b0 sid s' c0)) = false) in hn end.
    apply (lq_mcoll P FL c_fq (f_new P) mc_fq) in hl as (hl & hn'); auto.
    w2 c sid s he hl hn'. intros q1 q2. split; auto. destruct (frames_on_in sid f (c_sent c)) as (j & hj); [eapply nth_error_In; eauto|].
    destruct (tin_ack _ _ _ _ _ _ _ _ j f (t_tin _ _ _ H _ _ _ he) hj) as (d' & b1 & e1 & _ & _ & _ & _ & e2 & e3 & _).
    rewrite hak in e1. injection e1 as <- <-. unfold FL, st_flushable, st_stopped in *. cbn [set_send st_send] in q1. rewrite e2 in q1.
    apply andb_true_iff in q1 as (q1 & q3). rewrite (e3 q1), q3. auto.
  - apply lost_ok in h as (-> & h). destruct h as [->|[(sid & f & s & n & b' & hi & he & hns & hrt & ->)|[(sid & code & fi & hi & ->)|[(sid & code & s & hi & he & hf & ->)|[(sid & s & hi & he & ->)|[(hi & ->)|[(bidi & hi & ->)|(bidi & l & hi & hb & ->)]]]]]]]; auto.
    + pose proof (proj2 (proj2 (hk _ _ _ he))) as hid. w2 c sid s he hl hn. unfold FL. intros q1 q2. apply andb_true_iff in q1 as (q1 & q3).
      rewrite q1, hns in *. destruct (st_flushable s); auto. cbn [orb negb andb] in q2. rewrite <- hid, linked_insert_same in q2. discriminate.
    + ws; unfold set_kind; destruct bidi; auto.
    + ws; unfold set_kind; destruct bidi; auto.
Qed.
End P.
