(** Which streams are in the writable and flushable queues. *)
Require Import Verif.Base Verif.Errors Verif.Assoc Verif.OctetsModel Verif.FlowControlModel Verif.RangeBufModel
  Verif.RangesModel Verif.RangesProofs Verif.RecvBufModel Verif.RecvBufProofs2
  Verif.SendBufModel Verif.SendSpec Verif.SendBufProofs Verif.SendBufProofs2 Verif.SendBufProofs3
  Verif.StreamsModel Verif.StreamsSpec Verif.StreamsProofs
  Verif.StreamsEffects Verif.StreamsShape Verif.StreamsShape2 Verif.StreamsRecv Verif.StreamsTx Verif.StreamsTx2 Verif.StreamsTx3 Verif.StreamsTx4
  Verif.StreamsQ Verif.StreamsQ2.


Lemma write_err_final W b data fin e n : Sb W b -> sb_cap b = Ok n -> sb_write data fin b = Err e -> sb_is_fin b = true.
Proof.
  intros hs hc h. pose proof (sb_write_spec W b data fin hs) as q. rewrite h in q.
  assert (he : sb_error b = None) by (unfold sb_cap in hc; destruct (sb_error b); [discriminate|auto]).
  destruct e; cbn in q; try contradiction; [congruence|]. destruct q as (_ & q & _). unfold sb_is_fin. destruct (i_fin _ _ hs) as [e0|e0]; rewrite e0; [congruence|apply Z.eqb_refl].
Qed.
Lemma write_zc_err_final W b data cap fin e n : Sb W b -> 0 <= cap <= zlen data -> sb_cap b = Ok n -> sb_write_zc data cap fin b = Err e -> sb_is_fin b = true.
Proof.
  intros hs h0 hc h. pose proof (sb_write_zc_spec W b data cap fin hs h0) as q. rewrite h in q.
  assert (he : sb_error b = None) by (unfold sb_cap in hc; destruct (sb_error b); [discriminate|auto]).
  destruct e; cbn in q; try contradiction; [congruence|]. destruct q as (_ & q & _). unfold sb_is_fin. destruct (i_fin _ _ hs) as [e0|e0]; rewrite e0; [congruence|apply Z.eqb_refl].
Qed.
Lemma reset_final b fi un b' : sb_reset b = Ok (fi, un, b') -> sb_is_fin b' = true /\ sb_data b' = [].
Proof.
  unfold sb_reset, sb_ack. cbv zeta. cbn [sb_off sb_acked sb_data]. destruct (rs_insert _ _); try discriminate. cbn [bind]. intros h. injection h as <- <- <-.
  cbn. split; auto. apply Z.eqb_refl.
Qed.
Lemma stop_final code b fi un b' : sb_stop code b = Ok (fi, un, b') -> sb_is_fin b' = true /\ sb_data b' = [].
Proof.
  unfold sb_stop. destruct (sb_error b); [discriminate|]. destruct (sb_reset b) as [[[f u] b1]| |] eqn:E; try discriminate. cbn [bind]. intros h. injection h as <- <- <-.
  apply reset_final in E. auto.
Qed.
Lemma shut_final b fi un b' : sb_shutdown b = Ok (fi, un, b') -> sb_is_fin b' = true /\ sb_data b' = [].
Proof. unfold sb_shutdown. destruct (sb_shut b); [discriminate|]. apply reset_final. Qed.
Lemma fin_unwritable s : sb_is_fin (st_send s) = true -> st_writable s = false.
Proof. unfold st_writable. intros ->. rewrite andb_false_r. auto. Qed.
Lemma nil_unflushable s : sb_data (st_send s) = [] -> st_flushable s = false.
Proof. unfold st_flushable, sb_is_flushable, sb_is_empty. intros ->. reflexivity. Qed.

Section P.
Variable P : params.
Hypothesis hp : params_ok P.

(** The same for a property [pr] of streams and a queue [Q]. *)
Section Q.
Variable pr : stream -> bool.
Variable Q : conn -> list skey.
Definition lq (x : Z) (c : conn) : Prop := exists s, ent x c = Some (s, false) /\ pr s = true.
Hypothesis pr_new : forall sid local c s c1, gocs P sid local c s c1 ->
  (forall z, linked z (Q c1) = false -> linked z (Q c) = false) /\
  (pr s = true -> linked sid (Q c1) = false -> ent sid c = Some (s, false)).

Lemma q_one c c1 c' sid local s s' x : gocs P sid local c s c1 -> c_streams c' = aset sid (s', false) (c_streams c1) ->
  (x <> sid -> linked x (Q c') = false -> linked x (Q c1) = false) ->
  (pr s' = true -> linked sid (Q c') = false -> pr s = true /\ linked sid (Q c1) = false) ->
  lq x c' -> linked x (Q c') = false -> lq x c /\ linked x (Q c) = false.
Proof.
  intros hg e h1 h2 (s0 & he & hr) hl. destruct (pr_new _ _ _ _ _ hg) as (p1 & p2). rewrite (ent_upd c1 c' sid s' false) in he by auto. destruct (x =? sid) eqn:E.
  - assert (x = sid) by lia. subst x. injection he as <-. destruct (h2 hr hl) as (h3 & h4). split; auto. exists s. split; auto.
  - rewrite (gocs_other _ _ _ _ _ _ _ hg) in he by lia. split; [exists s0; auto|]. apply p1. apply h1; auto. lia.
Qed.
Lemma q_keep c c1 sid local s x : gocs P sid local c s c1 -> lq x c1 -> linked x (Q c1) = false -> lq x c /\ linked x (Q c) = false.
Proof.
  intros hg h1 h2. eapply (q_one c c1 c1 sid local s s); eauto. symmetry. apply aset_same_id. apply (gocs_ent _ _ _ _ _ _ hg).
Qed.
Lemma q_same c c' x : c_streams c' = c_streams c -> Q c' = Q c -> lq x c' -> linked x (Q c') = false -> lq x c /\ linked x (Q c) = false.
Proof. intros e1 e2 (s & h1 & h2) h3. rewrite e2 in h3. split; auto. exists s. split; auto. unfold ent in *. rewrite <- e1. auto. Qed.
Hypothesis Q_mcoll : forall b sid s c, Q (mcoll b sid s c) = if b then q_remove sid (Q c) else Q c.
Lemma lq_mcoll b sid s c x : lq x (mcoll b sid s c) -> linked x (Q (mcoll b sid s c)) = false -> lq x c /\ linked x (Q c) = false.
Proof.
  intros (s0 & h1 & h2) hl. rewrite ent_mcoll in h1. rewrite Q_mcoll in hl. destruct b; cbn [andb] in h1; [|split; auto; exists s0; auto].
  destruct (x =? sid) eqn:E; [discriminate|]. rewrite linked_remove_other in hl by lia. split; auto. exists s0; auto.
Qed.
End Q.

Lemma w_new sid local c s c1 : gocs P sid local c s c1 ->
  (forall z, linked z (c_wq c1) = false -> linked z (c_wq c) = false) /\
  (st_writable s = true -> linked sid (c_wq c1) = false -> ent sid c = Some (s, false)).
Proof.
  intros [h|h1 h2 h3 ->]; [auto|]. unfold create, set_kind.
  assert (hid : k_id (st_key (fresh P sid)) = sid) by (unfold fresh; destruct (new_limits P (is_local sid (p_server P)) (is_bidi sid)); reflexivity).
  destruct (st_writable (fresh P sid)), (is_bidi sid); cn; split; try discriminate; auto; intros z hz; auto;
    try (rewrite <- hid in hz at 1; rewrite ?linked_ins_same in hz; discriminate);
    try (destruct (Z.eq_dec z (k_id (st_key (fresh P sid)))) as [->|n]; [rewrite ?linked_ins_same in hz; discriminate|rewrite linked_ins_other in hz by auto; auto]).
Qed.

Lemma f_new sid local c s c1 : gocs P sid local c s c1 ->
  (forall z, linked z (c_fq c1) = false -> linked z (c_fq c) = false) /\
  (st_flushable s && negb (st_stopped s) = true -> linked sid (c_fq c1) = false -> ent sid c = Some (s, false)).
Proof.
  intros [h|h1 h2 h3 ->]; [auto|]. split.
  - unfold create, set_kind. destruct (st_writable (fresh P sid)), (is_bidi sid); cn; auto.
  - unfold fresh; destruct (new_limits P (is_local sid (p_server P)) (is_bidi sid)); discriminate.
Qed.

Definition lW : Z -> conn -> Prop := lq st_writable.
Definition lF : Z -> conn -> Prop := lq (fun s => st_flushable s && negb (st_stopped s)).

Ltac lkt := repeat match goal with
  | h : linked _ (if ?b then _ else _) = _ |- _ => destruct b
  | h : linked _ (let _ := _ in _) = _ |- _ => cbv zeta in h
  | h : linked ?x (q_insert ?k _) = _ |- _ => rewrite linked_insert_other in h by congruence
  | h : linked ?x (q_remove ?k _) = _ |- _ => rewrite linked_remove_other in h by congruence
  | h : linked ?x (q_update ?k _) = _ |- _ => rewrite linked_update in h
  end; auto.
Ltac w1 c c1 sid s hg hl hn := refine (q_one st_writable c_wq w_new c c1 _ sid _ s _ _ hg _ _ _ hl hn); [cn; reflexivity|cn; try solve [intros ? ?; lkt]|cn].
Ltac w2 c sid s he hl hn := refine (q_one st_writable c_wq w_new c c _ sid true s _ _ (gocs_old _ _ _ _ _ he) _ _ _ hl hn); [cn; reflexivity|cn; try solve [intros ? ?; lkt]|cn; auto].
Ltac ws := eapply (q_same st_writable c_wq); eauto.
Ltac wm := eapply (lq_mcoll st_writable c_wq w_new mc_wq); eauto.

Lemma w_step g x op c o c' : kinds P c -> TxC P g c -> cn_step P op c = Ok (o, c') -> lW x c' -> linked x (c_wq c') = false ->
  (op = CnWritableNext /\ o = CoNext (Some x)) \/ (lW x c /\ linked x (c_wq c) = false).
Proof.
  intros hk H h hl hn. unfold lW in *.
  assert (hgk : forall sid local s c1, gocs P sid local c s c1 -> k_id (st_key s) = sid).
  { intros sid local s c1 hg. destruct hg as [h'|_ _ _ ->]; [apply (hk _ _ _ h')|].
    unfold fresh; destruct (new_limits P (is_local sid (p_server P)) (is_bidi sid)); reflexivity. }
  assert (hsb : forall x s, ent x c = Some (s, false) -> exists W, Sb W (st_send s)) by (intros; eexists; eapply t_sb; eauto).
  destruct op; cbn [cn_step] in h; try (match goal with |- CnWritableNext = CnWritableNext /\ _ \/ _ => fail 1 | _ => right end).
  - apply stream_ok in h as [(-> & -> & _)|(s & c1 & r & hg & _ & hw & hle & -> & ->)]; auto. w1 c c1 sid s hg hl hn. auto.
  - apply reset_ok in h as [(-> & -> & _)|(s & c1 & r & delta & credit & hg & _ & hw & hle & -> & ->)]; auto. w1 c c1 sid s hg hl hn. auto.
  - apply stop_ok in h as [(-> & -> & _)|(s & c1 & hg & -> & _ & h)]; auto.
    destruct h as [(ee & hst & ->)|(fi & un & b' & hst & ->)]; auto.
    + eapply (q_keep st_writable c_wq w_new); eauto.
    + w1 c c1 sid s hg hl hn; [pose proof (hgk _ _ _ _ hg); intros; lkt|]. rewrite fin_unwritable by (eapply stop_final; eauto). discriminate.
  - injection h as <- <-. ws.
  - apply max_stream_data_ok in h as [(-> & -> & _)|(s & c1 & hg & -> & _ & ->)]; auto. pose proof (hgk _ _ _ _ hg) as hid.
    cbv zeta in hl, hn. w1 c c1 sid s hg hl hn. intros q1 q2. rewrite q1, <- hid, linked_insert_same in q2. discriminate.
  - unfold cn_max_streams in h. dif h; [discriminate|]. injection h as <- <-. ws; unfold set_kind; destruct bidi; auto.
  - unfold cn_streams_blocked in h. dif h; [discriminate|]. injection h as <- <-. auto.
  - apply recv_ok in h as [(e & -> & -> & _)|h]; auto.
    destruct h as (s & r & he & hrd & [(e & hw & -> & ->)|(bytes & fin & full & hw & -> & haf & ->)]); cbv zeta in hl, hn.
    + match type of hl with context [mcoll ?b0 sid ?s' ?c0] =>
        change (lq st_writable x (mcoll b0 sid s' c0)) in hl; change (linked x (c_wq (mcoll b0 sid s' c0)) = false) in hn end.
      apply (lq_mcoll st_writable c_wq w_new mc_wq) in hl as (hl & hn'); auto. w2 c sid s he hl hn'.
    + match type of hl with context [mcoll ?b0 sid ?s' ?c0] =>
        change (lq st_writable x (mcoll b0 sid s' c0)) in hl; change (linked x (c_wq (mcoll b0 sid s' c0)) = false) in hn end.
      apply (lq_mcoll st_writable c_wq w_new mc_wq) in hl as (hl & hn'); auto. w2 c sid s he hl hn'.
  - apply send_ok in h as [(-> & -> & _)|(hd & _ & h)]; auto. cbv zeta in h.
    match type of h with context [set_c_blk ?b c] => set (c0 := set_c_blk b c) in h end.
    destruct h as [(-> & _ & hl0 & _ & ->)|[(-> & -> & _)|[(-> & -> & _)|h]]].
    + destruct (p_blocked P); [|auto]. ws; unfold set_kind; destruct (is_bidi sid); auto.
    + auto.
    + auto.
    + destruct h as (s & c1 & hg & h). change (lq st_writable x c0 /\ linked x (c_wq c0) = false).
      assert (hid : k_id (st_key s) = sid).
      { destruct hg as [h'|_ _ _ ->]; [apply (hk _ _ _ h')|]. unfold fresh; destruct (new_limits P (is_local sid (p_server P)) (is_bidi sid)); reflexivity. }
      assert (hs : exists W, Sb W (st_send s)).
      { destruct hg as [h'| _ _ _ ->]; [eapply hsb; eauto|]. exists []. unfold fresh, new_limits. destruct hp as (_ & _ & _ & p1 & p2 & p3 & _).
        destruct (is_local sid (p_server P)), (is_bidi sid); cbn; apply sb_new_ok; auto. unfold max_varint. lia. }
      destruct hs as (W & hs).
      destruct h as [(e0 & _ & -> & ->)|[(n & _ & _ & _ & -> & ->)|(n & hc & hnz & [(e0 & hw & -> & ->)|h])]].
      * apply (lq_mcoll st_writable c_wq w_new mc_wq) in hl as (hl & hn'); auto. eapply (q_keep st_writable c_wq w_new); eauto.
      * eapply (q_keep st_writable c_wq w_new); [exact hg|exact hl|]. cn_in hn. destruct (st_writable s); auto.
        destruct (Z.eq_dec x sid) as [->|n0]; [rewrite <- hid, linked_insert_same in hn; discriminate|rewrite linked_insert_other in hn by congruence; auto].
      * assert (hf : st_writable s = false).
        { apply fin_unwritable. destruct zc; [|eapply write_err_final; eauto]. eapply write_zc_err_final; [eauto| |eauto|eauto].
          pose proof (zlen_nonneg data). pose proof (t_cap _ _ _ H). unfold send_len. destr_if; lia. }
        refine (q_one st_writable c_wq w_new c0 c1 _ sid _ s s _ hg _ _ _ hl hn); [symmetry; cn; apply aset_same_id; apply (gocs_ent _ _ _ _ _ _ hg)|cn; intros; lkt|congruence].
      * destruct h as (sent & b0 & hw & hle & -> & bl & blocked & _ & ->).
        change (st_writable (set_send b0 s)) with (st_writable (set_send (sb_update_blocked bl b0) s)) in *.
        w1 c0 c1 sid s hg hl hn. cbv zeta. intros q1 q2. rewrite q1 in q2. cbn [negb] in q2. rewrite andb_true_r in q2.
        assert (hx : st_writable s = true).
        { assert (hwr : exists d f, write_result W (st_send s) d f sent b0).
          { pose proof (zlen_nonneg data). pose proof (t_cap _ _ _ H). destruct zc.
            - pose proof (sb_write_zc_spec W (st_send s) data (send_len (c_txcap c) (zlen data)) (send_fin (c_txcap c) (zlen data) fin) hs ltac:(unfold send_len; destr_if; lia)) as q.
              rewrite hw in q. eauto.
            - pose proof (sb_write_spec W (st_send s) (take (send_len (c_txcap c) (zlen data)) data) (send_fin (c_txcap c) (zlen data) fin) hs) as q.
              rewrite hw in q. eauto. }
          destruct hwr as (d & f & r1 & _ & _ & _ & r2 & _ & r3 & r4 & _ & _ & _ & _ & r5 & _).
          unfold st_writable in *. cbn [set_send st_send st_lowat sb_update_blocked sb_shut sb_off sb_max_data] in q1. change (sb_is_fin (sb_update_blocked bl b0)) with (sb_is_fin b0) in q1.
          rewrite r4, r3, r2 in q1. apply andb_true_iff in q1 as (q1 & q3). apply andb_true_iff in q1 as (q1 & q4). rewrite q1. cbn [andb].
          apply andb_true_iff. split; [|lia]. apply negb_true_iff in q4. apply negb_true_iff. unfold sb_is_fin in *.
          destruct (sb_fin_off (st_send s)) as [fo|] eqn:Ef; auto. destruct r5 as (-> & _ & _ & r5); [discriminate|]. rewrite r5 in q4. rewrite r2 in q4. rewrite Z.add_0_r in q4. auto. }
        rewrite hx in q2. cbn [andb] in q2. split; auto.
        revert q2. repeat match goal with |- context [if ?b then _ else _] => destruct b end; rewrite <- ?hid; rewrite ?linked_insert_same; try discriminate; auto.
  - apply priority_ok in h as [(-> & _)|(s & c1 & hg & -> & h)]; auto.
    destruct h as [(-> & _)| ->]; [eapply (q_keep st_writable c_wq w_new); eauto|].
    cbv zeta in hl, hn. w1 c c1 sid s hg hl hn. rewrite ?linked_update; auto.
  - apply shutdown_ok in h as [(-> & (e & ->))|(s & he & -> & [h|h])]; auto.
    + destruct h as (n & r & -> & hsh & ->). w2 c sid s he hl hn.
    + destruct h as (fi & un & b' & cap & -> & _ & hst & hle & hc & ->). w2 c sid s he hl hn. rewrite fin_unwritable by (eapply shut_final; eauto). discriminate.
  - destruct (cn_capacity sid c) as [[r c1]| |] eqn:E; try discriminate. cbn [bind] in h.
    apply capacity_ok in E as [(-> & -> & _)|(s & he & [(e & _ & -> & ->)|(n & _ & -> & ->)])]; injection h as <- <-; auto. wm.
  - apply writable_ok in h as [(-> & -> & _)|(s & he & [(e & _ & -> & ->)|(n & hcp & [(_ & -> & ->)|(_ & -> & _ & bl & bs & hbl & ->)])])]; auto; [wm|].
    pose proof (proj2 (proj2 (hk _ _ _ he))) as hid. cbv zeta in hl, hn. w2 c sid s he hl hn. intros q1 q2. rewrite q1 in q2.
    destruct (len <=? n) eqn:El; cbn [andb] in q2; [rewrite <- hid, linked_insert_same in q2; discriminate|].
    exfalso. unfold st_writable in q1. cbn [set_send set_lowat st_send st_lowat sb_update_blocked sb_shut sb_off sb_max_data] in q1.
    unfold sb_cap in hcp. destruct (sb_error (st_send s)); [discriminate|]. dif hcp; [discriminate|]. injection hcp as <-. lia.
  - apply readable_next_ok in h as [(-> & -> & _)|(k & tl & e & -> & ->)]; auto.
  - apply writable_next_ok in h as [(-> & ->)|(sid & _ & _ & -> & ->)]; [right; auto|].
    destruct (Z.eq_dec x sid) as [->|n]; [left; auto|]. right. cn_in hn. rewrite linked_remove_other in hn by auto. split; auto.
  - unfold update_tx_cap in h. destruct (c_max_tx c <? c_tx c) eqn:E; [discriminate|]. cbn in h. injection h as <- <-. auto.
  - unfold cn_send_max_streams in h. cbv zeta in h. dif h; injection h as <- <-; auto. ws; unfold set_kind; destruct bidi; auto.
  - unfold cn_send_data_blocked in h. destruct (c_blk c); [destruct fits|]; injection h as <- <-; auto.
  - unfold cn_send_streams_blocked in h. cbv zeta in h. dif h; [|injection h as <- <-; auto].
    destruct (l_blk_at (if bidi then c_bidi c else c_uni c)); [destruct fits|]; injection h as <- <-; auto.
    ws; unfold set_kind; destruct bidi; auto.
  - apply send_max_stream_data_ok in h as [(-> & ->)|[(-> & _ & ->)|(s & full & he & hf & hm & h)]]; auto.
    cbv zeta in h. destruct h as [(-> & -> & ->)|(-> & -> & ->)]; w2 c sid s he hl hn.
  - apply send_max_data_ok in h as (f & b' & [(-> & ->)|(-> & ->)]); auto.
  - unfold cn_send_stop in h. destruct (aget sid (c_stopped c)); [destruct fits|]; injection h as <- <-; auto.
  - unfold cn_send_reset in h. destruct (aget sid (c_reset c)) as [[code fi]|] eqn:E; [destruct fits|]; injection h as <- <-; auto.
  - unfold cn_send_sdb in h. destruct (aget sid (c_blocked c)); [destruct fits|]; injection h as <- <-; auto.
  - unfold cn_send_stream in h. dif h; [injection h as <- <-; auto|].
    apply send_stream_loop_ok in h as (skips & _ & [(-> & _ & ->)|(k & tl & s & bytes & fin & b' & hq0 & he & hns & hroom & hem & -> & ->)]); auto.
    w2 c (k_id k) s he hl hn. intros q1 q2. split; auto. rewrite <- q1. unfold sb_emit in hem. 
    destruct (emit_bufs _ _ _ _ _ _ _ _) as [[[[[post k0] out] next] buffered]| |]; try discriminate. cbn [bind] in hem. injection hem as _ _ <-. reflexivity.
  - apply ack_ok in h as (-> & [->|[(sid & f & s & d & b' & hi & he & hak & ->)|(sid & code & fi & s & _ & he & ->)]]); auto; [|wm].
    cbv zeta in hl, hn.
    match type of hl with context [mcoll ?b0 sid ?s' ?c0] => change (lq st_writable x (mcoll b0 sid s' c0)) in hl; change (linked x (c_wq (mcoll b0 sid s' c0)) = false) in hn end.
    apply (lq_mcoll st_writable c_wq w_new mc_wq) in hl as (hl & hn'); auto.
    w2 c sid s he hl hn'. intros q1 q2. split; auto. rewrite <- q1. unfold sb_ack_and_drop, sb_ack in hak. destruct (rs_insert _ _); try discriminate. cbn [bind] in hak.
    cbv zeta in hak. cn_in hak. repeat (dif hak; [injection hak as _ <-; reflexivity|]). cbn [sb_data] in hak. destruct (drop_count _ _); injection hak as _ <-; reflexivity.
  - apply lost_ok in h as (-> & h). destruct h as [->|[(sid & f & s & n & b' & hi & he & hns & hrt & ->)|[(sid & code & fi & hi & ->)|[(sid & code & s & hi & he & hf & ->)|[(sid & s & hi & he & ->)|[(hi & ->)|[(bidi & hi & ->)|(bidi & l & hi & hb & ->)]]]]]]]; auto.
    + w2 c sid s he hl hn. intros q1 q2. split; auto. rewrite <- q1. unfold sb_retransmit in hrt. cbv zeta in hrt. repeat (dif hrt; [injection hrt as _ <-; reflexivity|]).
      destruct (retr_bufs _ _ _ _ _) as [[[dd pp] nn]| |]; try discriminate. cbn [bind] in hrt. injection hrt as _ <-. reflexivity.
    + ws; unfold set_kind; destruct bidi; auto.
    + ws; unfold set_kind; destruct bidi; auto.
Qed.
End P.
