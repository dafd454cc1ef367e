(** Listed streams can be read. *)
Require Import Verif.Base Verif.Errors Verif.Assoc Verif.OctetsModel Verif.FlowControlModel Verif.RangeBufModel
  Verif.RangesModel Verif.RangesProofs Verif.RecvBufModel Verif.RecvBufProofs2
  Verif.SendBufModel Verif.SendSpec Verif.SendBufProofs Verif.SendBufProofs2 Verif.SendBufProofs3 Verif.SendProofs Verif.SendProofs2 Verif.SendProofs3
  Verif.StreamsModel Verif.StreamsSpec Verif.StreamsProofs
  Verif.StreamsEffects Verif.StreamsShape Verif.StreamsShape2 Verif.StreamsShape3 Verif.StreamsRecv Verif.StreamsTx Verif.StreamsTx2 Verif.StreamsTx3 Verif.StreamsTx4 Verif.StreamsTx5 Verif.StreamsTx6
  Verif.StreamsQ Verif.StreamsQ2 Verif.StreamsQ3 Verif.StreamsQ4 Verif.StreamsSpec2 Verif.StreamsQ5 Verif.StreamsQ6 Verif.StreamsQ7.
Require Import Sorted.







Section P.
Variable P : params.
Hypothesis hp : params_ok P.

Definition lu (x : Z) (c : conn) : Prop := exists s, ent x c = Some (s, false) /\ st_readable s = false.

Lemma u_one c c1 c' sid local s s' x : qinv (keyof c) (c_rq c) -> gocs P sid local c s c1 -> c_streams c' = aset sid (s', false) (c_streams c1) ->
  (x <> sid -> linked x (c_rq c') = linked x (c_rq c)) ->
  (x = sid -> st_readable s' = false -> linked sid (c_rq c') = true -> st_readable s = false /\ linked sid (c_rq c) = true) ->
  lu x c' -> linked x (c_rq c') = true -> lu x c /\ linked x (c_rq c) = true.
Proof.
  intros hq hg e h1 h2 (s0 & he & hr) hl. rewrite (ent_upd c1 c' sid s' false) in he by auto. destruct (x =? sid) eqn:E.
  - assert (x = sid) by lia. subst x. injection he as <-. destruct (h2 eq_refl hr hl) as (h3 & h4). split; auto. exists s. split; auto.
    destruct hg as [h|g1 g2 g3 ->]; auto. exfalso. apply linked_iff in h4. unfold ids in h4. apply in_map_iff in h4 as (k & e1 & h4).
    pose proof (qi_key _ _ hq _ h4) as q. rewrite e1 in q. unfold keyof in q. rewrite g1 in q. discriminate.
  - rewrite (gocs_other _ _ _ _ _ _ _ hg) in he by lia. split; [exists s0; auto|]. rewrite <- h1 by lia. auto.
Qed.

Lemma u_same c c' x : c_streams c' = c_streams c -> c_rq c' = c_rq c -> lu x c' -> linked x (c_rq c') = true -> lu x c /\ linked x (c_rq c) = true.
Proof. intros e1 e2 (s & h1 & h2) h3. rewrite e2 in h3. split; auto. exists s. split; auto. unfold ent in *. rewrite <- e1. auto. Qed.

Lemma u_mcoll b sid s c x : lu x (mcoll b sid s c) -> linked x (c_rq (mcoll b sid s c)) = true -> lu x c /\ linked x (c_rq c) = true.
Proof.
  intros (s0 & h1 & h2) hl. rewrite ent_mcoll in h1. rewrite mc_rq in hl. destruct b; cbn [andb] in h1; [|split; auto; exists s0; auto].
  destruct (x =? sid) eqn:E; [discriminate|]. rewrite linked_remove_other in hl by lia. split; auto. exists s0; auto.
Qed.

Ltac lk n := repeat match goal with
  | |- context [if ?b then _ else _] => destruct b
  end; rewrite ?linked_insert_other, ?linked_remove_other by congruence; auto.

Ltac r1 c c1 sid s hg hl hn := refine (u_one c c1 _ sid _ s _ _ _ hg _ _ _ hl hn); [assumption|cn; reflexivity|cn|cn].

Ltac r2 c sid s he hl hn := refine (u_one c c _ sid true s _ _ _ (gocs_old _ _ _ _ _ he) _ _ _ hl hn); [assumption|cn; reflexivity|cn|cn].

Lemma u_step x op c o c' : RxC c -> op_ok op -> kinds P c -> qinv (keyof c) (c_rq c) -> cn_step P op c = Ok (o, c') -> lu x c' -> linked x (c_rq c') = true ->
  (exists code final, op = CnReset x code final) \/ (lu x c /\ linked x (c_rq c) = true).
Proof.
  intros hx hok hk hq h hl hn.
  assert (hgk : forall sid local s c1, gocs P sid local c s c1 -> k_id (st_key s) = sid /\ c_rq c1 = c_rq c).
  { intros sid local s c1 hg. split; [|apply (gr_rq _ _ (gocs_rest _ _ _ _ _ _ hg))]. destruct hg as [h'|_ _ _ ->]; [apply (hk _ _ _ h')|].
    unfold fresh; destruct (new_limits P (is_local sid (p_server P)) (is_bidi sid)); reflexivity. }
  destruct op; cbn [cn_step] in h; try (match goal with |- (exists _ _, CnReset _ _ _ = _) \/ _ => fail 1 | _ => right end).
  - apply stream_ok in h as [(-> & -> & _)|(s & c1 & r & hg & _ & hw & hle & -> & ->)]; auto. destruct (hgk _ _ _ _ hg) as (g4 & e).
    r1 c c1 sid s hg hl hn.
    + intros n. rewrite e. lk n.
    + rewrite e. intros -> q1 q2. change (st_readable (set_recv r s)) with (rv_ready r) in q1. rewrite q1, andb_false_r in q2. split; auto.
      destruct (st_readable s) eqn:E; auto. pose proof (rx_goc_ent P hp _ _ _ _ _ hx hg) as hi; destruct hi as (_ & hi & _).
      rewrite (write_keeps_ready _ _ _ hi hw) in q1; auto. exists data, off, fin. split; auto. cbn in hok. lia.
  - apply reset_ok in h as [(-> & -> & _)|(s & c1 & r & delta & credit & hg & _ & hw & hle & -> & ->)]; auto. destruct (hgk _ _ _ _ hg) as (g4 & e).
    destruct (Z.eq_dec x sid) as [->|ne]; [left; eauto|]. right.
    r1 c c1 sid s hg hl hn.
    + intros n. rewrite e. lk n.
    + tauto.
  - apply stop_ok in h as [(-> & -> & _)|(s & c1 & hg & -> & _ & h)]; auto. destruct (hgk _ _ _ _ hg) as (g4 & e).
    pose proof (gocs_ent _ _ _ _ _ _ hg) as he.
    destruct h as [(ee & hst & ->)|(fi & un & b' & hst & ->)]; auto.
    + eapply (u_one c c1 c1 sid _ s s); eauto; [symmetry; apply aset_same_id; exact he|rewrite e; auto|rewrite e; auto].
    + r1 c c1 sid s hg hl hn; rewrite e; auto.
  - injection h as <- <-. eapply u_same; eauto.
  - apply max_stream_data_ok in h as [(-> & -> & _)|(s & c1 & hg & -> & _ & ->)]; auto. destruct (hgk _ _ _ _ hg) as (g4 & e).
    r1 c c1 sid s hg hl hn; rewrite ?e; auto.
  - unfold cn_max_streams in h. dif h; [discriminate|]. injection h as <- <-. eapply u_same; eauto; unfold set_kind; destruct bidi; auto.
  - unfold cn_streams_blocked in h. dif h; [discriminate|]. injection h as <- <-. auto.
  - apply recv_ok in h as [(e & -> & -> & _)|h]; auto.
    destruct h as (s & r & he & hrd & [(e & hw & -> & ->)|(bytes & fin & full & hw & -> & haf & ->)]);
      pose proof (proj2 (proj2 (hk _ _ _ he))) as hid; cbv zeta in hl, hn.
    + destruct hl as (s0 & h1 & h2). unfold ent in h1. cn_in h1. fold (ent x (mcoll (st_complete (set_recv r s)) sid (set_recv r s) (cn_put sid (set_recv r s) c))) in h1.
      rewrite ent_mcoll in h1. cn_in hn. rewrite mc_rq in hn. destruct (x =? sid) eqn:E.
      * assert (x = sid) by lia. subst x. destruct (st_complete (set_recv r s)); cbn [andb] in h1; [discriminate|]. rewrite ent_put_same in h1. injection h1 as <-.
        cn_in hn. rewrite linked_remove_same in hn. discriminate.
      * rewrite andb_false_r, ent_put_other in h1 by lia. split; [exists s0; auto|]. revert hn. cn.
        destr_if; rewrite ?linked_remove_other by lia; auto.
    + destruct hl as (s0 & h1 & h2). unfold ent in h1. cn_in h1.
      match type of h1 with context [mcoll ?b0 sid ?s' ?c0] => fold (ent x (mcoll b0 sid s' c0)) in h1 end.
      rewrite ent_mcoll in h1. cn_in hn. rewrite mc_rq in hn. cn_in hn. destruct (x =? sid) eqn:E.
      * assert (x = sid) by lia. subst x. destruct (st_complete (set_recv r s)); cbn [andb] in h1; [discriminate|].
        unfold ent in h1. cn_in h1. rewrite aget_aset_same in h1. injection h1 as <-. unfold st_readable in h2. cbn [set_recv st_recv] in h2. rewrite h2 in hn.
        rewrite andb_false_r, linked_remove_same in hn. discriminate.
      * rewrite andb_false_r in h1. unfold ent in h1. cn_in h1. rewrite aget_aset_other in h1 by lia. split; [exists s0; auto|]. revert hn.
        repeat match goal with |- context [if ?b then _ else _] => destruct b end; rewrite ?linked_insert_other, ?linked_remove_other by lia; auto.
  - apply send_ok in h as [(-> & -> & _)|(hd & _ & h)]; auto. cbv zeta in h.
    match type of h with context [set_c_blk ?b c] => set (c0 := set_c_blk b c) in h end.
    destruct h as [(-> & _ & hl0 & _ & ->)|[(-> & -> & _)|[(-> & -> & _)|h]]].
    + destruct (p_blocked P); [|auto]. eapply u_same; eauto; unfold set_kind; destruct (is_bidi sid); auto.
    + auto.
    + auto.
    + destruct h as (s & c1 & hg & h). pose proof (gocs_ent _ _ _ _ _ _ hg) as he. pose proof (gr_rq _ _ (gocs_rest _ _ _ _ _ _ hg)) as e. change (c_rq c0) with (c_rq c) in e.
      assert (hc1 : forall z, lu z c1 -> linked z (c_rq c1) = true -> lu z c /\ linked z (c_rq c) = true).
      { intros z z1 z2. change (lu z c0 /\ linked z (c_rq c0) = true). refine (u_one c0 c1 c1 sid _ s s z hq hg _ _ _ z1 z2); [symmetry; apply aset_same_id; exact he|rewrite e; auto|rewrite e; auto]. }
      destruct h as [(e0 & _ & -> & ->)|[(n & _ & _ & _ & -> & ->)|(n & hc & hnz & [(e0 & hw & -> & ->)|h])]].
      * apply u_mcoll in hl; auto. destruct hl. auto.
      * apply hc1; auto.
      * apply hc1; auto.
      * destruct h as (sent & b0 & hw & hle & -> & bl & blocked & _ & ->).
        change (lu x c0 /\ linked x (c_rq c0) = true). r1 c0 c1 sid s hg hl hn; rewrite ?e; auto.
  - apply priority_ok in h as [(-> & _)|(s & c1 & hg & -> & h)]; auto. destruct (hgk _ _ _ _ hg) as (g4 & e). pose proof (gocs_ent _ _ _ _ _ _ hg) as he.
    destruct h as [(-> & _)| ->].
    + eapply (u_one c c1 c1 sid _ s s); eauto; [symmetry; apply aset_same_id; exact he|rewrite e; auto|rewrite e; auto].
    + cbv zeta in hl, hn. r1 c c1 sid s hg hl hn; rewrite ?linked_update, ?e; auto.
  - apply shutdown_ok in h as [(-> & (e & ->))|(s & he & -> & [h|h])]; auto.
    + destruct h as (n & r & -> & hsh & ->). r2 c sid s he hl hn.
      * intros n0. rewrite linked_remove_other; auto.
      * intros _ _. rewrite linked_remove_same. discriminate.
    + destruct h as (fi & un & b' & cap & -> & _ & hst & hle & hc & ->). r2 c sid s he hl hn; auto.
  - destruct (cn_capacity sid c) as [[r c1]| |] eqn:E; try discriminate. cbn [bind] in h.
    apply capacity_ok in E as [(-> & -> & _)|(s & he & [(e & _ & -> & ->)|(n & _ & -> & ->)])]; injection h as <- <-; auto. eapply u_mcoll; eauto.
  - apply writable_ok in h as [(-> & -> & _)|(s & he & [(e & _ & -> & ->)|(n & _ & [(_ & -> & ->)|(_ & -> & _ & bl & bs & _ & ->)])])]; auto; [eapply u_mcoll; eauto|].
    r2 c sid s he hl hn; auto.
  - apply readable_next_ok in h as [(-> & -> & _)|(k & tl & e & -> & ->)]; [auto|].
    cn_in hn. destruct (Z.eq_dec x (k_id k)) as [->|n]; [rewrite linked_remove_same in hn; discriminate|]. rewrite linked_remove_other in hn by auto. split; auto.
  - apply writable_next_ok in h as [(-> & ->)|(sid & _ & _ & -> & ->)]; auto.
  - unfold update_tx_cap in h. destruct (c_max_tx c <? c_tx c) eqn:E; [discriminate|]. cbn in h. injection h as <- <-. auto.
  - unfold cn_send_max_streams in h. cbv zeta in h. dif h; injection h as <- <-; auto. eapply u_same; eauto; unfold set_kind; destruct bidi; auto.
  - unfold cn_send_data_blocked in h. destruct (c_blk c); [destruct fits|]; injection h as <- <-; auto.
  - unfold cn_send_streams_blocked in h. cbv zeta in h. dif h; [|injection h as <- <-; auto].
    destruct (l_blk_at (if bidi then c_bidi c else c_uni c)); [destruct fits|]; injection h as <- <-; auto.
    eapply u_same; eauto; unfold set_kind; destruct bidi; auto.
  - apply send_max_stream_data_ok in h as [(-> & ->)|[(-> & _ & ->)|(s & full & he & hf & hm & h)]]; auto.
    cbv zeta in h.
    assert (hre : st_readable (set_recv (rv_update_max_data now (if full then rv_autotune now rtt (st_recv s) else st_recv s)) s) = st_readable s /\
                  st_readable (set_recv (if full then rv_autotune now rtt (st_recv s) else st_recv s) s) = st_readable s)
      by (destruct full; split; reflexivity).
    destruct hre as (r1 & r2).
    destruct h as [(-> & -> & ->)|(-> & -> & ->)]; (r2 c sid s he hl hn;rewrite ?r1, ?r2; auto).
  - apply send_max_data_ok in h as (f & b' & [(-> & ->)|(-> & ->)]); auto.
  - unfold cn_send_stop in h. destruct (aget sid (c_stopped c)); [destruct fits|]; injection h as <- <-; auto.
  - unfold cn_send_reset in h. destruct (aget sid (c_reset c)) as [[code fi]|] eqn:E; [destruct fits|]; injection h as <- <-; auto.
  - unfold cn_send_sdb in h. destruct (aget sid (c_blocked c)); [destruct fits|]; injection h as <- <-; auto.
  - unfold cn_send_stream in h. dif h; [injection h as <- <-; auto|].
    apply send_stream_loop_ok in h as (skips & _ & [(-> & _ & ->)|(k & tl & s & bytes & fin & b' & hq0 & he & hns & hroom & hem & -> & ->)]); auto.
    r2 c (k_id k) s he hl hn; auto.
  - apply ack_ok in h as (-> & [->|[(sid & f & s & d & b' & hi & he & hak & ->)|(sid & code & fi & s & _ & he & ->)]]); auto; [|eapply u_mcoll; eauto].
    cbv zeta in hl, hn.
    match type of hl with context [mcoll ?b0 sid ?s' ?c0] => change (lu x (mcoll b0 sid s' c0)) in hl; change (linked x (c_rq (mcoll b0 sid s' c0)) = true) in hn end.
    apply u_mcoll in hl; auto. destruct hl as (hl & hn').
    r2 c sid s he hl hn'; auto.
  - apply lost_ok in h as (-> & h). destruct h as [->|[(sid & f & s & n & b' & hi & he & hns & hrt & ->)|[(sid & code & fi & hi & ->)|[(sid & code & s & hi & he & hf & ->)|[(sid & s & hi & he & ->)|[(hi & ->)|[(bidi & hi & ->)|(bidi & l & hi & hb & ->)]]]]]]]; auto.
    + r2 c sid s he hl hn; auto.
    + eapply u_same; eauto; unfold set_kind; destruct bidi; auto.
    + eapply u_same; eauto; unfold set_kind; destruct bidi; auto.
Qed.

Lemma listed_readable i ops outs c x : history P i ops outs c -> in_readable x c -> live x c -> ~ can_read x c -> exists code final, In (CnReset x code final) ops.
Proof.
  intros hist h1 (s & h2) h3. assert (hr : st_readable s = false).
  { destruct (st_readable s) eqn:E; auto. exfalso. apply h3. exists s. auto. }
  apply get_ent in h2. assert (hu : lu x c /\ linked x (c_rq c) = true) by (split; [exists s; auto|apply linked_iff; auto]). clear h1 h2 h3 hr s.
  revert ops outs c hist hu. apply (history_ind P i (fun ops outs c => lu x c /\ linked x (c_rq c) = true -> exists code final, In (CnReset x code final) ops)).
  - intros _ _ (_ & h). discriminate.
  - intros ops outs c op o c' hist IH hok h (h1 & h2).
    destruct (u_step x op c o c') as [(code & final & ->)|q]; auto.
    + eapply rx_hist; eauto.
    + eapply hist_kinds; eauto.
    + apply (q_history _ _ _ _ _ hist).
    + exists code, final. apply in_or_app. right. left. auto.
    + destruct (IH q) as (code & final & hi). exists code, final. apply in_or_app. auto.
Qed.
End P.
