(** The invariant of the send side over histories. *)
Require Import Verif.Base Verif.Errors Verif.Assoc Verif.OctetsModel Verif.FlowControlModel Verif.RangeBufModel
  Verif.RangesModel Verif.RangesProofs Verif.RecvBufModel
  Verif.SendBufModel Verif.SendSpec Verif.SendBufProofs Verif.SendBufProofs2 Verif.SendBufProofs3
  Verif.SendProofs Verif.SendProofs2 Verif.SendProofs3
  Verif.StreamsModel Verif.StreamsSpec Verif.StreamsProofs
  Verif.StreamsEffects Verif.StreamsShape Verif.StreamsShape2 Verif.StreamsRecv Verif.StreamsTx Verif.StreamsTx2 Verif.StreamsTx3.

Ltac snt := unfold log, set_kind;
  match goal with |- TxC _ _ (set_c_sent (_ ++ [?f]) _) => idtac end.

Section P.
Variable P : params.
Hypothesis hP : params_ok P.

Lemma tx_logged g c c1 f : TxC P g c1 -> c_sent c1 = c_sent c -> (forall x, on_stream x f = []) -> (forall x code final, f <> SfReset x code final) ->
  TxC P g (log f c1).
Proof.
  intros H h1 h2 h3. unfold log. eapply (tx_quiet P g g c1 _ [f]); eauto; cn; auto; try apply H.
  - intros. apply same_at_refl.
  - intros k; auto.
  - intros x. cbn. rewrite h2. auto.
  - intros x code final [q|q]; [left; auto|]. cn_in q. apply in_app_iff in q as [q|[q|[]]]; [right; auto|]. destruct (h3 _ _ _ q).
Qed.

Lemma tx_recv_op g c sid cap o c' : TxC P g c -> cn_recv P sid cap c = Ok (o, c') -> TxC P g c'.
Proof.
  intros H h. apply recv_ok in h as [(e & _ & -> & _)|h]; auto.
  destruct h as (s & r & he & hrd & [(e & hw & -> & ->)|(bytes & fin & full & hw & -> & haf & ->)]);
  match goal with |- TxC _ _ (set_c_rq ?q ?x) => apply (tx_same P g x); auto end.
  - apply tx_mcoll; [|unfold ent; cn; apply aget_aset_same|auto]. rcvo (tx_recv P g c).
  - apply tx_mcoll; [|unfold ent; cn; apply aget_aset_same|auto]. rcvo (tx_recv P g c).
Qed.

Lemma tx_writable g c sid len o c' : TxC P g c -> cn_writable sid len c = Ok (o, c') -> TxC P g c'.
Proof.
  intros H h. apply writable_ok in h as [(_ & -> & _)|(s & he & [(e & _ & _ & ->)|(n & _ & [(_ & _ & ->)|(_ & _ & _ & bl & bs & _ & ->)])])]; auto.
  - apply tx_mcoll; auto. intros q. apply andb_true_iff in q. tauto.
  - rcvo (tx_recv P g c).
Qed.

Lemma tx_max_sd g c sid now rtt fits o c' : TxC P g c -> cn_send_max_stream_data sid now rtt fits c = Ok (o, c') -> TxC P g c'.
Proof.
  intros H h. apply send_max_stream_data_ok in h as [(-> & ->)|[(-> & _ & ->)|(s & full & he & hf & hm & h)]]; auto.
  { apply (tx_same P g c); auto. }
  cbv zeta in h. destruct h as [(-> & -> & ->)|(-> & -> & ->)].
  - eapply (tx_recv P g c); [eassumption|eassumption|reflexivity|left; reflexivity|..]; auto; try discriminate.
    + exists [SfMaxStreamData sid]. split; reflexivity.
    + intros x code final. apply (resets_log c [SfMaxStreamData sid]); try reflexivity. intros x0 c0 f0 [q|[]]. discriminate.
  - rcvo (tx_recv P g c).
Qed.

Theorem tx_step g op c o c' : op_ok op -> kinds P c -> NoDup (akeys (c_streams c)) -> TxC P g c ->
  cn_step P op c = Ok (o, c') -> TxC P (g_step op o c g) c'.
Proof.
  intros hop hk hn H h. destruct op; cbn [cn_step] in h; try (eapply tx_stop; eauto; fail); try (eapply tx_max_stream_data; eauto; fail);
    try (eapply tx_send; eauto; fail); try (eapply tx_shutdown; eauto; fail); try (eapply tx_send_stream; eauto; fail);
    try (eapply tx_ack; eauto; fail); try (eapply tx_lost; eauto; fail); ghost.
  - apply stream_ok in h as [(_ & -> & _)|(s & c1 & r & hg & _ & hw & hle & _ & ->)]; auto.
    pose proof (tx_goc P hP _ _ _ _ _ _ (proj1 hop) H hg) as H1. pose proof (gocs_ent _ _ _ _ _ _ hg) as he. rcvo (tx_recv P g c1).
  - apply reset_ok in h as [(_ & -> & _)|(s & c1 & r & delta & credit & hg & _ & hw & hle & _ & ->)]; auto.
    pose proof (tx_goc P hP _ _ _ _ _ _ (proj1 hop) H hg) as H1. pose proof (gocs_ent _ _ _ _ _ _ hg) as he. rcvo (tx_recv P g c1).
  - injection h as <- <-. eapply (tx_quiet P g g c _ []); eauto; cn; auto; try (rewrite app_nil_r; auto; fail); try apply H.
    + intros. apply same_at_refl.
    + intros k; auto.
    + intros hf. pose proof (t_fac _ _ _ H hf). lia.
  - unfold cn_max_streams in h. dif h; [discriminate|]. injection h as <- <-.
    unfold set_kind. destruct bidi; apply (tx_same P g c); auto.
  - unfold cn_streams_blocked in h. dif h; [discriminate|]. injection h as <- <-. auto.
  - eapply tx_recv_op; eauto.
  - apply priority_ok in h as [(-> & _)|(s & c1 & hg & _ & h)]; auto.
    pose proof (tx_goc P hP _ _ _ _ _ _ (proj1 hop) H hg) as H1. pose proof (gocs_ent _ _ _ _ _ _ hg) as he.
    destruct h as [(-> & _)| ->]; auto. rcvo (tx_recv P g c1). intros x. cn. rewrite linked_update. auto.
  - destruct (cn_capacity sid c) as [[r c1]| |] eqn:E; try discriminate. cbn [bind] in h.
    apply capacity_ok in E as [(-> & -> & _)|(s & he & [(e & _ & -> & ->)|(n & _ & -> & ->)])]; injection h as <- <-; auto.
    apply tx_mcoll; auto. intros q. apply andb_true_iff in q. tauto.
  - eapply tx_writable; eauto.
  - apply readable_next_ok in h as [(_ & -> & _)|(k & tl & _ & _ & ->)]; auto; apply (tx_same P g c); auto.
  - apply writable_next_ok in h as [(_ & ->)|(sid & _ & _ & _ & ->)]; auto; apply (tx_same P g c); auto.
  - unfold update_tx_cap in h. destruct (c_max_tx c <? c_tx c) eqn:E; [discriminate|]. cbn in h. injection h as <- <-.
    cbn in hop. destruct hP as (_ & _ & _ & _ & _ & _ & _ & p1 & p2).
    pose proof (ceil_range (Z.min cwnd (c_max_tx c - c_tx c)) (p_num P) (p_den P) ltac:(lia) ltac:(lia) ltac:(lia)) as (k1 & k2).
    eapply (tx_quiet P g g c _ []); eauto; cn; auto; try (rewrite app_nil_r; auto; fail).
    + intros. apply same_at_refl.
    + intros k; auto.
    + intros hf. specialize (k2 hf). lia.
  - unfold cn_send_max_streams in h. cbv zeta in h. dif h; injection h as <- <-; auto.
    eapply tx_logged; [|reflexivity|reflexivity|discriminate]. unfold set_kind. destruct bidi; apply (tx_same P g c); auto.
  - unfold cn_send_data_blocked in h. destruct (c_blk c); [destruct fits|]; injection h as <- <-; auto; apply (tx_same P g c); auto.
  - unfold cn_send_streams_blocked in h. cbv zeta in h. dif h; [|injection h as <- <-; auto].
    destruct (l_blk_at (if bidi then c_bidi c else c_uni c)); [destruct fits|]; injection h as <- <-; auto.
    eapply tx_logged; [|reflexivity|reflexivity|discriminate]. unfold set_kind. destruct bidi; apply (tx_same P g c); auto.
  - eapply tx_max_sd; eauto.
  - apply send_max_data_ok in h as (f & b & [(_ & ->)|(_ & ->)]).
    + apply (tx_same P g c); auto.
    + eapply (tx_logged g (set_c_maxdata b (set_c_fc f c)) (set_c_maxdata b (set_c_fc f c)) SfMaxData); [|reflexivity|reflexivity|discriminate]. apply (tx_same P g c); auto.
  - unfold cn_send_stop in h. destruct (aget sid (c_stopped c)); [destruct fits|]; injection h as <- <-; auto.
    eapply tx_logged; [|reflexivity|reflexivity|discriminate]. apply (tx_same P g c); auto.
  - unfold cn_send_reset in h. destruct (aget sid (c_reset c)) as [[code fi]|] eqn:E; [destruct fits|]; injection h as <- <-; auto.
    unfold log. eapply (tx_quiet P g g c _ [SfReset sid code fi]); eauto; cn; auto; try apply H.
    + intros. apply same_at_refl.
    + intros k; auto.
    + intros x code0 final [q|q].
      * cn_in q. left. destruct (Z.eq_dec sid x) as [->|n]; [rewrite aget_adel_same in q; discriminate|].
        rewrite aget_adel_other in q by auto. auto.
      * cn_in q. apply in_app_iff in q as [q|[q|[]]]; [right; auto|]. injection q as <- <- <-. left. auto.
  - unfold cn_send_sdb in h. destruct (aget sid (c_blocked c)); [destruct fits|]; injection h as <- <-; auto; apply (tx_same P g c); auto.
Qed.

(** ** What one step sends, and the connection's limit *)
Lemma coll_sent b sid s c : c_sent (mcoll b sid s c) = c_sent c /\ c_max_tx (mcoll b sid s c) = c_max_tx c.
Proof. unfold mcoll, coll, set_kind. destruct b, (st_local s), (is_bidi sid); auto. Qed.

Lemma step_sent op c o c' : cn_step P op c = Ok (o, c') -> c_sent c' = c_sent c ++ logged o /\
  c_max_tx c' = match op with CnMaxData m => Z.max (c_max_tx c) m | _ => c_max_tx c end.
Proof.
  intros h. destruct op; cbn [cn_step] in h.
  - apply stream_ok in h as [(-> & -> & _)|(s & c1 & r & hg & _ & hw & hle & -> & ->)]; [rewrite app_nil_r; auto|].
    pose proof (gocs_rest _ _ _ _ _ _ hg) as hr. cn. rewrite (gr_sent _ _ hr), (gr_max_tx _ _ hr), app_nil_r. auto.
  - apply reset_ok in h as [(-> & -> & _)|(s & c1 & r & delta & credit & hg & _ & hw & hle & -> & ->)]; [rewrite app_nil_r; auto|].
    pose proof (gocs_rest _ _ _ _ _ _ hg) as hr. cn. rewrite (gr_sent _ _ hr), (gr_max_tx _ _ hr), app_nil_r. auto.
  - apply stop_ok in h as [(-> & -> & _)|(s & c1 & hg & -> & _ & h)]; [rewrite app_nil_r; auto|].
    pose proof (gocs_rest _ _ _ _ _ _ hg) as hr.
    destruct h as [(e & hst & ->)|(fi & un & b & hst & ->)]; cn; rewrite (gr_sent _ _ hr), (gr_max_tx _ _ hr), app_nil_r; auto.
  - injection h as <- <-. cn. rewrite app_nil_r. auto.
  - apply max_stream_data_ok in h as [(-> & -> & _)|(s & c1 & hg & -> & _ & ->)]; [rewrite app_nil_r; auto|].
    pose proof (gocs_rest _ _ _ _ _ _ hg) as hr. cn. rewrite (gr_sent _ _ hr), (gr_max_tx _ _ hr), app_nil_r. auto.
  - unfold cn_max_streams in h. dif h; [discriminate|]. injection h as <- <-. unfold set_kind. destruct bidi; cn; rewrite app_nil_r; auto.
  - unfold cn_streams_blocked in h. dif h; [discriminate|]. injection h as <- <-. rewrite app_nil_r; auto.
  - apply recv_ok in h as [(e & -> & -> & _)|h]; [rewrite app_nil_r; auto|].
    destruct h as (s & r & he & hrd & [(e & hw & -> & ->)|(bytes & fin & full & hw & -> & haf & ->)]); cn;
    match goal with |- context [mcoll ?b ?sid ?s ?c] => destruct (coll_sent b sid s c) as (-> & ->) end; cn; rewrite app_nil_r; auto.
  - apply send_ok in h as [(-> & -> & _)|(hd & _ & h)]; [rewrite app_nil_r; auto|]. cbv zeta in h.
    match type of h with context [set_c_blk ?b c] => set (c0 := set_c_blk b c) in h end.
    destruct h as [(-> & _ & _ & _ & ->)|[(-> & -> & _)|[(-> & -> & _)|h]]].
    + rewrite app_nil_r. unfold set_kind. destruct (p_blocked P), (is_bidi sid); auto.
    + rewrite app_nil_r. auto.
    + rewrite app_nil_r. auto.
    + destruct h as (s & c1 & hg & h). pose proof (gocs_rest _ _ _ _ _ _ hg) as hr.
      pose proof (gr_sent _ _ hr) as e1. pose proof (gr_max_tx _ _ hr) as e2. unfold c0 in e1, e2. cn_in e1. cn_in e2.
      destruct h as [(e & _ & -> & ->)|[(n & _ & _ & _ & -> & ->)|(n & hc & hnz & [(e & _ & -> & ->)|h])]].
      * match goal with |- context [mcoll ?b ?sid ?s ?c] => destruct (coll_sent b sid s c) as (-> & ->) end. rewrite app_nil_r; auto.
      * cn. rewrite app_nil_r; auto.
      * cn. rewrite app_nil_r; auto.
      * destruct h as (sent & b & hw & hle & ho & bl & blocked & _ & ->). cn. split; auto. rewrite e1. subst o.
        destruct (_ && _); cbn; rewrite app_nil_r; auto.
  - apply priority_ok in h as [(-> & (e & _ & ho))|(s & c1 & hg & -> & h)].
    + destruct ho as [->|(_ & ->)]; rewrite app_nil_r; auto.
    + pose proof (gocs_rest _ _ _ _ _ _ hg) as hr. destruct h as [(-> & _)| ->]; cn; rewrite (gr_sent _ _ hr), (gr_max_tx _ _ hr), app_nil_r; auto.
  - apply shutdown_ok in h as [(-> & (e & ->))|(s & he & -> & [h|h])].
    + rewrite app_nil_r; auto.
    + destruct h as (n & r & -> & _ & ->). cn. rewrite app_nil_r; auto.
    + destruct h as (fi & un & b & cap & -> & _ & hst & hle & hc & ->). cn. rewrite app_nil_r; auto.
  - destruct (cn_capacity sid c) as [[r c1]| |] eqn:E; try discriminate. cbn [bind] in h.
    apply capacity_ok in E as [(-> & -> & _)|(s & he & [(e & _ & -> & ->)|(n & _ & -> & ->)])]; injection h as <- <-; try (rewrite app_nil_r; auto; fail).
    match goal with |- context [mcoll ?b ?sid ?s ?c] => destruct (coll_sent b sid s c) as (-> & ->) end. rewrite app_nil_r; auto.
  - apply writable_ok in h as [(-> & -> & _)|(s & he & [(e & _ & -> & ->)|(n & _ & [(_ & -> & ->)|(_ & -> & _ & bl & bs & _ & ->)])])]; try (cn; rewrite app_nil_r; auto; fail).
    match goal with |- context [mcoll ?b ?sid ?s ?c] => destruct (coll_sent b sid s c) as (-> & ->) end. rewrite app_nil_r; auto.
  - apply readable_next_ok in h as [(-> & -> & _)|(k & tl & _ & -> & ->)]; cn; rewrite app_nil_r; auto.
  - apply writable_next_ok in h as [(-> & ->)|(sid & _ & _ & -> & ->)]; cn; rewrite app_nil_r; auto.
  - unfold update_tx_cap in h. destruct (c_max_tx c <? c_tx c) eqn:E; [discriminate|]. cbn in h. injection h as <- <-. cn; rewrite app_nil_r; auto.
  - unfold cn_send_max_streams in h. cbv zeta in h. dif h; injection h as <- <-; [|rewrite app_nil_r; auto]. unfold set_kind. destruct bidi; cn; auto.
  - unfold cn_send_data_blocked in h. destruct (c_blk c); [destruct fits|]; injection h as <- <-; cn; rewrite app_nil_r; auto.
  - unfold cn_send_streams_blocked in h. cbv zeta in h. dif h; [|injection h as <- <-; rewrite app_nil_r; auto].
    destruct (l_blk_at (if bidi then c_bidi c else c_uni c)); [destruct fits|]; injection h as <- <-; try (rewrite app_nil_r; auto; fail).
    unfold set_kind. destruct bidi; cn; auto.
  - apply send_max_stream_data_ok in h as [(-> & ->)|[(-> & _ & ->)|(s & full & he & hf & hm & h)]]; try (cn; rewrite app_nil_r; auto; fail).
    cbv zeta in h. destruct h as [(-> & -> & ->)|(-> & -> & ->)]; cn; rewrite ?app_nil_r; auto.
  - apply send_max_data_ok in h as (f & b & [(-> & ->)|(-> & ->)]); cn; rewrite ?app_nil_r; auto.
  - unfold cn_send_stop in h. destruct (aget sid (c_stopped c)); [destruct fits|]; injection h as <- <-; cn; rewrite ?app_nil_r; auto; cbn; rewrite ?app_nil_r; auto.
  - unfold cn_send_reset in h. destruct (aget sid (c_reset c)) as [[code fi]|] eqn:E; [destruct fits|]; injection h as <- <-; cn; rewrite ?app_nil_r; auto; cbn; rewrite ?app_nil_r; auto.
  - unfold cn_send_sdb in h. destruct (aget sid (c_blocked c)); [destruct fits|]; injection h as <- <-; cn; rewrite ?app_nil_r; auto; cbn; rewrite ?app_nil_r; auto.
  - unfold cn_send_stream in h. dif h; [injection h as <- <-; rewrite app_nil_r; auto|].
    apply send_stream_loop_ok in h as (skips & _ & [(-> & _ & ->)|(k & tl & s & bytes & fin & b & hq & he & hns & hroom & hem & -> & ->)]); cn; auto.
    cbn. rewrite app_nil_r. auto.
  - apply ack_ok in h as (-> & [->|[(sid & f & s & d & b & hi & he & hak & ->)|(sid & code & fi & s & _ & he & ->)]]); cn; try (rewrite app_nil_r; auto; fail);
    match goal with |- context [mcoll ?b ?sid ?s ?c] => destruct (coll_sent b sid s c) as (-> & ->) end; cn; rewrite app_nil_r; auto.
  - apply lost_ok in h as (-> & h).
    destruct h as [->|[(sid & f & s & n & b & hi & he & hns & hrt & ->)|[(sid & code & fi & hi & ->)|[(sid & code & s & _ & _ & _ & ->)|
      [(sid & s & hn & he & ->)|[(hn & ->)|[(b & _ & ->)|(b & l & _ & _ & ->)]]]]]]]; unfold set_kind; try destruct b; cn; rewrite ?app_nil_r; auto; cbn; rewrite ?app_nil_r; auto.
Qed.
End P.

(** ** Histories *)
Definition ghost (P : params) (ops : list cn_op) (outs : list cn_out) : gh :=
  mkGh (fun x => accepted_on x ops outs) (fun x => limit_on P x ops outs) (fun x => finished_on x ops outs)
       (fun k => acked_at k ops outs) (fun x => cut_on x ops outs).

Lemma shape_kinds P i adv gr c : Shape P i adv gr c -> kinds P c.
Proof.
  intros hh x s f he. destruct (sh_kind _ _ _ _ _ hh x (st_bidi s) (st_local s) (k_id (st_key s)) f) as (h1 & h2 & h3).
  { unfold sk. rewrite he. reflexivity. }
  assert (h0 : 0 <= x). { apply (sh_pos _ _ _ _ _ hh). unfold known, sk. rewrite he. discriminate. }
  rewrite local_own, bidi_spec by auto. auto.
Qed.

Lemma events_snoc ops outs op o : length ops = length outs -> events (ops ++ [op]) (outs ++ [o]) = events ops outs ++ [(op, o)].
Proof.
  unfold events. revert outs. induction ops as [|a ops IH]; intros [|b outs] h; try discriminate; auto. cbn. f_equal. apply IH. cbn in h. lia.
Qed.

Lemma run_length P ops : forall c outs c', cn_run P ops c = Ok (outs, c') -> length ops = length outs.
Proof.
  induction ops as [|a ops IH]; intros c outs c' h; cbn [cn_run] in h.
  - injection h as <- <-. auto.
  - destruct (cn_step P a c) as [[o c1]| |]; try discriminate. cbn [bind] in h.
    destruct (cn_run P ops c1) as [[os c2]| |] eqn:E2; try discriminate. cbn in h. injection h as <- <-. cbn. f_equal. eauto.
Qed.

Lemma acked_snoc k ops outs op o : length ops = length outs -> acked_at k (ops ++ [op]) (outs ++ [o]) <->
  acked_at k ops outs \/ (op = CnAck k /\ (k < length (sent_frames outs))%nat).
Proof.
  intros hl. unfold acked_at. split.
  - intros (n & h1 & h2). assert (hn : (n < length (ops ++ [op]))%nat) by (apply nth_error_Some; congruence).
    rewrite app_length in hn. cbn in hn. destruct (Nat.eq_dec n (length ops)) as [->|ne].
    + right. rewrite nth_error_app2, Nat.sub_diag in h1 by lia. injection h1 as ->. split; auto.
      rewrite hl, firstn_app, Nat.sub_diag, firstn_all, app_nil_r in h2. auto.
    + left. exists n. rewrite nth_error_app1 in h1 by lia. split; auto.
      rewrite firstn_app in h2. replace (n - length outs)%nat with O in h2 by lia. rewrite app_nil_r in h2. auto.
  - intros [(n & h1 & h2)|(-> & h2)].
    + exists n. assert (n < length ops)%nat by (apply nth_error_Some; congruence).
      rewrite nth_error_app1 by lia. split; auto. rewrite firstn_app. replace (n - length outs)%nat with O by lia. rewrite app_nil_r. auto.
    + exists (length ops). rewrite nth_error_app2, Nat.sub_diag by lia. split; auto.
      rewrite hl, firstn_app, Nat.sub_diag, firstn_all, app_nil_r. auto.
Qed.

Theorem tx_history P i ops outs c : history P i ops outs c ->
  TxC P (ghost P ops outs) c /\ c_sent c = sent_frames outs /\ c_max_tx c = limit_all i ops.
Proof.
  revert ops outs c. apply history_ind.
  - intros hp (_ & _ & h3 & h4 & _). ands; auto. destruct hp as (_ & _ & _ & _ & _ & _ & _ & p1 & p2).
    destruct (ceil_range (Z.min (i_cwnd i) (i_tx i)) (p_num P) (p_den P) ltac:(lia) p1 p2) as (k1 & k2).
    constructor; cbn [cn_new c_streams c_fq c_sent c_txbuf c_tx c_txcap c_max_tx c_reset]; auto; try discriminate.
    + intros x _. cbn. ands; auto; intros (e & [] & _).
    + intros hf. specialize (k2 hf). lia.
    + intros x code final [q|q]; [discriminate|destruct q].
  - intros ops outs c op o c' hist (H & hs & hm) hok h.
    pose proof (shape_history _ _ _ _ _ hist) as hsh. pose proof (shape_kinds _ _ _ _ _ hsh) as hk.
    pose proof (sh_nodup _ _ _ _ _ hsh) as hn. destruct hist as (hp & hst & hf & hr). pose proof (run_length _ _ _ _ _ hr) as hl.
    destruct (step_sent _ _ _ _ _ h) as (s1 & s2). ands.
    + eapply tx_ghost; [eapply tx_step; eauto| |].
      * intros x. unfold same_at, ghost, accepted_on, limit_on, finished_on, cut_on. cbn [g_w g_l g_fin g_rst g_step].
        rewrite events_snoc, flat_map_app, fold_left_app by auto. cbn [flat_map fold_left fst snd]. rewrite app_nil_r. ands; auto.
        -- split.
           ++ intros [(e & q1 & q2)|q]; [exists e|exists (op, o)]; rewrite in_app_iff; cbn; auto.
           ++ intros (e & q1 & q2). apply in_app_iff in q1 as [q1|[<-|[]]]; [left; eauto|right; auto].
        -- split.
           ++ intros [(e & q1 & q2)|q]; [exists e|exists (op, o)]; rewrite in_app_iff; cbn; auto.
           ++ intros (e & q1 & q2). apply in_app_iff in q1 as [q1|[<-|[]]]; [left; eauto|right; auto].
      * intros k q. cbn in q |- *. apply acked_snoc; auto. rewrite <- hs. auto.
    + rewrite s1, hs. unfold sent_frames. rewrite flat_map_app. cbn. rewrite app_nil_r. auto.
    + rewrite s2. unfold limit_all. rewrite fold_left_app. cbn. fold (limit_all i ops). rewrite <- hm. destruct op; auto.
Qed.
