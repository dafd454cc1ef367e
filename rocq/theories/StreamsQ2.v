(** Which streams are in the queues. *)
Require Import Verif.Base Verif.Errors Verif.Assoc Verif.OctetsModel Verif.FlowControlModel Verif.RangeBufModel
  Verif.RangesModel Verif.RangesProofs Verif.RecvBufModel Verif.RecvBufProofs2
  Verif.SendBufModel Verif.SendSpec Verif.SendBufProofs Verif.SendBufProofs2 Verif.SendBufProofs3
  Verif.StreamsModel Verif.StreamsSpec Verif.StreamsProofs
  Verif.StreamsEffects Verif.StreamsShape Verif.StreamsShape2 Verif.StreamsRecv Verif.StreamsTx Verif.StreamsTx2 Verif.StreamsTx3 Verif.StreamsTx4
  Verif.StreamsQ.

Lemma write_keeps_ready buf r r' : rv_inv r -> rv_write buf r = Ok r' ->
  (exists data off fin, buf = rb_from data off fin /\ 0 <= off) -> rv_ready r = true -> rv_ready r' = true.
Proof.
  intros hi hw (data & off & fin & -> & h0) hr. pose proof (rv_write_spec data off fin r hi h0) as q. cbv zeta in q. rewrite hw in q.
  destruct q as (hi' & q1 & _ & _ & _ & _ & _ & _ & _ & q2 & _).
  assert (hd : rv_drain r = false).
  { destruct (rv_drain r) eqn:E; auto. apply (RecvBufProofs2.i_drain _ hi) in E as (e & _). unfold rv_ready in hr. rewrite e in hr. discriminate. }
  destruct (q2 hd) as (e1 & e2). pose proof hr as hr0. apply rv_ready_spec in hr as [(x & hx)|(b & b1 & b2 & b3 & b4)]; auto.
  - apply rv_ready_spec; auto. left. exists x. rewrite e1, e2, hx by lia. auto.
  - unfold rv_write in hw. destruct (fc_max_data (rv_fc r) <? rbM (rb_from data off fin)); [discriminate|]. rewrite b4 in hw.
    destruct (rv_off r <? rbM (rb_from data off fin)) eqn:E; [discriminate|].
    dif hw; [discriminate|]. dif hw; [discriminate|]. dif hw; [injection hw as <-; auto|].
    assert (e3 : rb_is_empty (rb_from data off fin) = false) by (destruct (rb_is_empty (rb_from data off fin)); auto; discriminate).
    rewrite e3, andb_false_r in hw. cbn [negb andb] in hw. cbv zeta in hw.
    replace (rbM (rb_from data off fin) <=? rv_off (if rb_fin (rb_from data off fin) then set_fin_off (Some (rbM (rb_from data off fin))) r else r)) with true in hw.
    2:{ destr_if; cbn; lia. }
    cbn in hw. injection hw as <-. destr_if; auto.
Qed.

Lemma emit_err_unready cap r e r' : rv_emit cap r = (Err e, r') -> rv_ready r' = false.
Proof.
  unfold rv_emit. destruct (rv_ready r) eqn:E; cbn [negb]; intros h; [|injection h as <- <-; auto].
  destruct (rv_error r); [injection h as <- <-; auto|]. destruct (emit_loop _ _ _ _) as [[d o] out]. discriminate.
Qed.

Section P.
Variable P : params.
Hypothesis hp : params_ok P.

Definition lr (x : Z) (c : conn) : Prop := exists s, ent x c = Some (s, false) /\ st_readable s = true.
Definition lw (x : Z) (c : conn) : Prop := exists s, ent x c = Some (s, false) /\ st_writable s = true.

Lemma fresh_unready sid : st_readable (fresh P sid) = false.
Proof. unfold fresh. destruct (new_limits P _ _). reflexivity. Qed.

(** Of the stream [sid] only the state [s] becomes [s'] and the queue [q]
    becomes [q']. *)
Lemma ent_upd c c' sid s' f x : c_streams c' = aset sid (s', f) (c_streams c) ->
  ent x c' = if x =? sid then Some (s', f) else ent x c.
Proof.
  intros e. unfold ent. rewrite e. destruct (x =? sid) eqn:E.
  - assert (x = sid) by lia. subst. apply aget_aset_same.
  - apply aget_aset_other. lia.
Qed.

Lemma r_one c c1 c' sid local s s' x : gocs P sid local c s c1 -> c_streams c' = aset sid (s', false) (c_streams c1) ->
  (x <> sid -> linked x (c_rq c') = linked x (c_rq c)) ->
  (st_readable s' = true -> linked sid (c_rq c') = false -> st_readable s = true /\ linked sid (c_rq c) = false) ->
  lr x c' -> linked x (c_rq c') = false -> lr x c /\ linked x (c_rq c) = false.
Proof.
  intros hg e h1 h2 (s0 & he & hr) hl. rewrite (ent_upd c1 c' sid s' false) in he by auto. destruct (x =? sid) eqn:E.
  - assert (x = sid) by lia. subst x. injection he as <-. destruct (h2 hr hl) as (h3 & h4). split; auto. exists s. split; auto.
    destruct hg as [h|g1 g2 g3 ->]; auto. rewrite fresh_unready in h3. discriminate.
  - rewrite (gocs_other _ _ _ _ _ _ _ hg) in he by lia. split; [exists s0; auto|]. rewrite <- h1 by lia. auto.
Qed.

Lemma r_same c c' x : c_streams c' = c_streams c -> c_rq c' = c_rq c -> lr x c' -> linked x (c_rq c') = false -> lr x c /\ linked x (c_rq c) = false.
Proof. intros e1 e2 (s & h1 & h2) h3. rewrite e2 in h3. split; auto. exists s. split; auto. unfold ent in *. rewrite <- e1. auto. Qed.

Lemma ent_mcoll b sid s c x : ent x (mcoll b sid s c) = if b && (x =? sid) then Some (s, true) else ent x c.
Proof.
  unfold ent. rewrite mc_streams. destruct b; auto. cbn [andb]. destruct (x =? sid) eqn:E.
  - assert (x = sid) by lia. subst. apply aget_aset_same.
  - apply aget_aset_other. lia.
Qed.
Lemma r_mcoll b sid s c x : lr x (mcoll b sid s c) -> linked x (c_rq (mcoll b sid s c)) = false -> lr x c /\ linked x (c_rq c) = false.
Proof.
  intros (s0 & h1 & h2) hl. rewrite ent_mcoll in h1. rewrite mc_rq in hl. destruct b; cbn [andb] in h1; [|split; auto; exists s0; auto].
  destruct (x =? sid) eqn:E; [discriminate|]. rewrite linked_remove_other in hl by lia. split; auto. exists s0; auto.
Qed.

Ltac lk n := repeat match goal with
  | |- context [if ?b then _ else _] => destruct b
  end; rewrite ?linked_insert_other, ?linked_remove_other by congruence; auto.

Ltac r1 c c1 sid s hg hl hn := refine (r_one c c1 _ sid _ s _ _ hg _ _ _ hl hn); [cn; reflexivity|cn|cn].

Ltac r2 c sid s he hl hn := refine (r_one c c _ sid true s _ _ (gocs_old _ _ _ _ _ he) _ _ _ hl hn); [cn; reflexivity|cn|cn].

Lemma r_step x op c o c' : kinds P c -> cn_step P op c = Ok (o, c') -> lr x c' -> linked x (c_rq c') = false ->
  (op = CnReadableNext /\ o = CoNext (Some x)) \/ (lr x c /\ linked x (c_rq c) = false).
Proof.
  intros hk h hl hn.
  assert (hgk : forall sid local s c1, gocs P sid local c s c1 -> k_id (st_key s) = sid /\ c_rq c1 = c_rq c).
  { intros sid local s c1 hg. split; [|apply (gr_rq _ _ (gocs_rest _ _ _ _ _ _ hg))]. destruct hg as [h'|_ _ _ ->]; [apply (hk _ _ _ h')|].
    unfold fresh; destruct (new_limits P (is_local sid (p_server P)) (is_bidi sid)); reflexivity. }
  destruct op; cbn [cn_step] in h; try (match goal with |- CnReadableNext = CnReadableNext /\ _ \/ _ => fail 1 | _ => right end).
  - apply stream_ok in h as [(-> & -> & _)|(s & c1 & r & hg & _ & hw & hle & -> & ->)]; auto. destruct (hgk _ _ _ _ hg) as (g4 & e).
    r1 c c1 sid s hg hl hn.
    + intros n. rewrite e. lk n.
    + rewrite e. intros q1 q2. change (st_readable (set_recv r s)) with (rv_ready r) in q1. rewrite q1 in q2.
      destruct (st_readable s); cbn [negb andb] in q2; auto. rewrite <- g4, linked_insert_same in q2. discriminate.
  - apply reset_ok in h as [(-> & -> & _)|(s & c1 & r & delta & credit & hg & _ & hw & hle & -> & ->)]; auto. destruct (hgk _ _ _ _ hg) as (g4 & e).
    r1 c c1 sid s hg hl hn.
    + intros n. rewrite e. lk n.
    + rewrite e. intros q1 q2. change (st_readable (set_recv r s)) with (rv_ready r) in q1. rewrite q1 in q2.
      destruct (st_readable s); cbn [negb andb] in q2; auto. rewrite <- g4, linked_insert_same in q2. discriminate.
  - apply stop_ok in h as [(-> & -> & _)|(s & c1 & hg & -> & _ & h)]; auto. destruct (hgk _ _ _ _ hg) as (g4 & e).
    pose proof (gocs_ent _ _ _ _ _ _ hg) as he.
    destruct h as [(ee & hst & ->)|(fi & un & b' & hst & ->)]; auto.
    + eapply (r_one c c1 c1 sid _ s s); eauto; [symmetry; apply aset_same_id; exact he|rewrite e; auto|rewrite e; auto].
    + r1 c c1 sid s hg hl hn; rewrite e; auto.
  - injection h as <- <-. eapply r_same; eauto.
  - apply max_stream_data_ok in h as [(-> & -> & _)|(s & c1 & hg & -> & _ & ->)]; auto. destruct (hgk _ _ _ _ hg) as (g4 & e).
    r1 c c1 sid s hg hl hn; rewrite ?e; auto.
  - unfold cn_max_streams in h. dif h; [discriminate|]. injection h as <- <-. eapply r_same; eauto; unfold set_kind; destruct bidi; auto.
  - unfold cn_streams_blocked in h. dif h; [discriminate|]. injection h as <- <-. auto.
  - apply recv_ok in h as [(e & -> & -> & _)|h]; auto.
    destruct h as (s & r & he & hrd & [(e & hw & -> & ->)|(bytes & fin & full & hw & -> & haf & ->)]);
      pose proof (proj2 (proj2 (hk _ _ _ he))) as hid; cbv zeta in hl, hn.
    + destruct hl as (s0 & h1 & h2). unfold ent in h1. cn_in h1. fold (ent x (mcoll (st_complete (set_recv r s)) sid (set_recv r s) (cn_put sid (set_recv r s) c))) in h1.
      rewrite ent_mcoll in h1. cn_in hn. rewrite mc_rq in hn. destruct (x =? sid) eqn:E.
      * assert (x = sid) by lia. subst x. destruct (st_complete (set_recv r s)); cbn [andb] in h1; [discriminate|]. rewrite ent_put_same in h1. injection h1 as <-.
        pose proof (emit_err_unready _ _ _ _ hw) as q. unfold st_readable in h2. cn_in h2. cbn [set_recv st_recv] in h2. congruence.
      * rewrite andb_false_r, ent_put_other in h1 by lia. split; [exists s0; auto|]. revert hn. cn.
        destr_if; rewrite ?linked_remove_other by lia; auto.
    + destruct hl as (s0 & h1 & h2). unfold ent in h1. cn_in h1.
      match type of h1 with context [mcoll ?b0 sid ?s' ?c0] => fold (ent x (mcoll b0 sid s' c0)) in h1 end.
      rewrite ent_mcoll in h1. cn_in hn. rewrite mc_rq in hn. cn_in hn. destruct (x =? sid) eqn:E.
      * assert (x = sid) by lia. subst x. destruct (st_complete (set_recv r s)); cbn [andb] in h1; [discriminate|].
        unfold ent in h1. cn_in h1. rewrite aget_aset_same in h1. injection h1 as <-. unfold st_readable in h2. cbn [set_recv st_recv] in h2. rewrite h2 in hn.
        split; [exists s; auto|]. rewrite andb_true_r in hn. destruct (k_inc (st_key s)); auto. rewrite <- hid, linked_insert_same in hn. discriminate.
      * rewrite andb_false_r in h1. unfold ent in h1. cn_in h1. rewrite aget_aset_other in h1 by lia. split; [exists s0; auto|]. revert hn.
        repeat match goal with |- context [if ?b then _ else _] => destruct b end; rewrite ?linked_insert_other, ?linked_remove_other by lia; auto.
  - apply send_ok in h as [(-> & -> & _)|(hd & _ & h)]; auto. cbv zeta in h.
    match type of h with context [set_c_blk ?b c] => set (c0 := set_c_blk b c) in h end.
    destruct h as [(-> & _ & hl0 & _ & ->)|[(-> & -> & _)|[(-> & -> & _)|h]]].
    + destruct (p_blocked P); [|auto]. eapply r_same; eauto; unfold set_kind; destruct (is_bidi sid); auto.
    + auto.
    + auto.
    + destruct h as (s & c1 & hg & h). pose proof (gocs_ent _ _ _ _ _ _ hg) as he. pose proof (gr_rq _ _ (gocs_rest _ _ _ _ _ _ hg)) as e. change (c_rq c0) with (c_rq c) in e.
      assert (hc1 : forall z, lr z c1 -> linked z (c_rq c1) = false -> lr z c /\ linked z (c_rq c) = false).
      { intros z z1 z2. change (lr z c0 /\ linked z (c_rq c0) = false). eapply (r_one c0 c1 c1 sid _ s s); eauto; [symmetry; apply aset_same_id; exact he|rewrite e; auto|rewrite e; auto]. }
      destruct h as [(e0 & _ & -> & ->)|[(n & _ & _ & _ & -> & ->)|(n & hc & hnz & [(e0 & hw & -> & ->)|h])]].
      * apply r_mcoll in hl; auto. destruct hl. auto.
      * apply hc1; auto.
      * apply hc1; auto.
      * destruct h as (sent & b0 & hw & hle & -> & bl & blocked & _ & ->).
        change (lr x c0 /\ linked x (c_rq c0) = false). r1 c0 c1 sid s hg hl hn; rewrite ?e; auto.
  - apply priority_ok in h as [(-> & _)|(s & c1 & hg & -> & h)]; auto. destruct (hgk _ _ _ _ hg) as (g4 & e). pose proof (gocs_ent _ _ _ _ _ _ hg) as he.
    destruct h as [(-> & _)| ->].
    + eapply (r_one c c1 c1 sid _ s s); eauto; [symmetry; apply aset_same_id; exact he|rewrite e; auto|rewrite e; auto].
    + cbv zeta in hl, hn. r1 c c1 sid s hg hl hn; rewrite ?linked_update, ?e; auto.
  - apply shutdown_ok in h as [(-> & (e & ->))|(s & he & -> & [h|h])]; auto.
    + destruct h as (n & r & -> & hsh & ->). r2 c sid s he hl hn.
      * intros n0. rewrite linked_remove_other; auto.
      * unfold rv_shutdown in hsh. dif hsh; [discriminate|]. dif hsh; [discriminate|]. injection hsh as _ <-. discriminate.
    + destruct h as (fi & un & b' & cap & -> & _ & hst & hle & hc & ->). r2 c sid s he hl hn; auto.
  - destruct (cn_capacity sid c) as [[r c1]| |] eqn:E; try discriminate. cbn [bind] in h.
    apply capacity_ok in E as [(-> & -> & _)|(s & he & [(e & _ & -> & ->)|(n & _ & -> & ->)])]; injection h as <- <-; auto. eapply r_mcoll; eauto.
  - apply writable_ok in h as [(-> & -> & _)|(s & he & [(e & _ & -> & ->)|(n & _ & [(_ & -> & ->)|(_ & -> & _ & bl & bs & _ & ->)])])]; auto; [eapply r_mcoll; eauto|].
    r2 c sid s he hl hn; auto.
  - apply readable_next_ok in h as [(-> & -> & _)|(k & tl & e & -> & ->)]; [right; auto|].
    destruct (Z.eq_dec x (k_id k)) as [->|n]; [left; auto|]. right. cn_in hn. rewrite linked_remove_other in hn by auto. split; auto.
  - apply writable_next_ok in h as [(-> & ->)|(sid & _ & _ & -> & ->)]; auto.
  - unfold update_tx_cap in h. destruct (c_max_tx c <? c_tx c) eqn:E; [discriminate|]. cbn in h. injection h as <- <-. auto.
  - unfold cn_send_max_streams in h. cbv zeta in h. dif h; injection h as <- <-; auto. eapply r_same; eauto; unfold set_kind; destruct bidi; auto.
  - unfold cn_send_data_blocked in h. destruct (c_blk c); [destruct fits|]; injection h as <- <-; auto.
  - unfold cn_send_streams_blocked in h. cbv zeta in h. dif h; [|injection h as <- <-; auto].
    destruct (l_blk_at (if bidi then c_bidi c else c_uni c)); [destruct fits|]; injection h as <- <-; auto.
    eapply r_same; eauto; unfold set_kind; destruct bidi; auto.
  - apply send_max_stream_data_ok in h as [(-> & ->)|[(-> & _ & ->)|(s & full & he & hf & hm & h)]]; auto.
    cbv zeta in h.
    assert (hre : st_readable (set_recv (rv_update_max_data now (if full then rv_autotune now rtt (st_recv s) else st_recv s)) s) = st_readable s /\
                  st_readable (set_recv (if full then rv_autotune now rtt (st_recv s) else st_recv s) s) = st_readable s)
      by (destruct full; split; reflexivity).
    destruct hre as (r1 & r2).
    destruct h as [(-> & -> & ->)|(-> & -> & ->)]; (r2 c sid s he hl hn;rewrite ?r1, ?r2; auto).
  - apply send_max_data_ok in h as (f & b' & [(-> & ->)|(-> & ->)]); auto.
  - unfold cn_send_stop in h. destruct (aget sid (c_stopped c)); [destruct fits|]; injection h as <- <-; auto.
  - unfold cn_send_reset in h. destruct (aget sid (c_reset c)) as [[code fi]|] eqn:E; [destruct fits|]; injection h as <- <-; auto.
  - unfold cn_send_sdb in h. destruct (aget sid (c_blocked c)); [destruct fits|]; injection h as <- <-; auto.
  - unfold cn_send_stream in h. dif h; [injection h as <- <-; auto|].
    apply send_stream_loop_ok in h as (skips & _ & [(-> & _ & ->)|(k & tl & s & bytes & fin & b' & hq0 & he & hns & hroom & hem & -> & ->)]); auto.
    r2 c (k_id k) s he hl hn; auto.
  - apply ack_ok in h as (-> & [->|[(sid & f & s & d & b' & hi & he & hak & ->)|(sid & code & fi & s & _ & he & ->)]]); auto; [|eapply r_mcoll; eauto].
    cbv zeta in hl, hn.
    match type of hl with context [mcoll ?b0 sid ?s' ?c0] => change (lr x (mcoll b0 sid s' c0)) in hl; change (linked x (c_rq (mcoll b0 sid s' c0)) = false) in hn end.
    apply r_mcoll in hl; auto. destruct hl as (hl & hn').
    r2 c sid s he hl hn'; auto.
  - apply lost_ok in h as (-> & h). destruct h as [->|[(sid & f & s & n & b' & hi & he & hns & hrt & ->)|[(sid & code & fi & hi & ->)|[(sid & code & s & hi & he & hf & ->)|[(sid & s & hi & he & ->)|[(hi & ->)|[(bidi & hi & ->)|(bidi & l & hi & hb & ->)]]]]]]]; auto.
    + r2 c sid s he hl hn; auto.
    + eapply r_same; eauto; unfold set_kind; destruct bidi; auto.
    + eapply r_same; eauto; unfold set_kind; destruct bidi; auto.
Qed.
End P.
