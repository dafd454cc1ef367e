(** The receive side of a connection: flow control is never overrun, limits
    never shrink, nothing underflows. *)
Require Import Verif.Base Verif.Errors Verif.Assoc Verif.OctetsModel Verif.FlowControlModel Verif.RangeBufModel
  Verif.RangeBufProofs Verif.RecvBufModel Verif.RecvBufProofs Verif.RecvBufProofs2 Verif.RecvSpec Verif.RecvBufProofs3
  Verif.SendBufModel Verif.StreamsModel Verif.StreamsSpec Verif.StreamsProofs
  Verif.StreamsEffects Verif.StreamsShape Verif.StreamsShape2.

(** ** The receive buffers *)
Definition rcvs (m : list (Z * (stream * bool))) : list (Z * recvbuf) :=
  map (fun e => (fst e, st_recv (fst (snd e)))) m.
Definition rcv (c : conn) : list (Z * recvbuf) := rcvs (c_streams c).

Lemma aget_rcvs x m : aget x (rcvs m) = option_map (fun e => st_recv (fst e)) (aget x m).
Proof. induction m as [|[k e] m IH]; cbn; auto. destruct (x =? k); auto. Qed.
Lemma rcvs_aset x e m : rcvs (aset x e m) = aset x (st_recv (fst e)) (rcvs m).
Proof. induction m as [|[k v] m IH]; cbn; auto. destruct (x =? k); cbn; auto. f_equal. exact IH. Qed.
Lemma aset_id {V} x (v : V) m : aget x m = Some v -> aset x v m = m.
Proof.
  induction m as [|[k w] m IH]; cbn; [discriminate|]. destruct (x =? k) eqn:E; intros h.
  - injection h as ->. f_equal. f_equal. lia.
  - f_equal. auto.
Qed.
Lemma rcvs_quiet x e e' m : aget x m = Some e -> st_recv (fst e') = st_recv (fst e) -> rcvs (aset x e' m) = rcvs m.
Proof. intros h1 h2. rewrite rcvs_aset, h2. apply aset_id. rewrite aget_rcvs, h1. reflexivity. Qed.

(** The limit may be moved to its next value without shrinking. *)
Definition due (f : flowctl) : Prop := fc_max_data f <= fc_max_data_next f.

Record Rx (m : list (Z * recvbuf)) (rx : Z) (f : flowctl) (maxd : bool) (almost : list Z) (sent : list sentf) : Prop := {
  rx_inv : forall x r, In (x, r) m -> rv_inv r;
  rx_sum : asum rv_len m <= rx;
  rx_max : rx <= fc_max_data f;
  rx_cons : fc_consumed f + asum rv_len m <= rx + asum rv_off m;
  rx_pos : 0 <= fc_consumed f;
  rx_win : 0 <= fc_window f <= fc_max_window f;
  rx_due : maxd = true \/ In SfMaxData sent -> due f;
  rx_sdue : forall x, In x almost \/ In (SfMaxStreamData x) sent -> exists r, aget x m = Some r /\ due (rv_fc r) }.

Definition RxC (c : conn) : Prop := Rx (rcv c) (c_rx c) (c_fc c) (c_maxdata c) (c_almost c) (c_sent c).

Lemma rx_offs m rx f maxd almost sent : Rx m rx f maxd almost sent ->
  0 <= asum rv_off m <= asum rv_len m /\ fc_consumed f <= fc_max_data f.
Proof.
  intros H. assert (0 <= asum rv_off m <= asum rv_len m).
  { split; [apply asum_nonneg|apply asum_le]; intros k v h; pose proof (i_off _ (rx_inv _ _ _ _ _ _ H _ _ h)); lia. }
  destruct H. lia.
Qed.

(** Rewriting one buffer. *)
Lemma rx_put m rx f maxd almost sent x r r' rx' f' :
  Rx m rx f maxd almost sent -> aget x m = Some r -> rv_inv r' ->
  (due (rv_fc r) -> due (rv_fc r')) ->
  0 <= rv_len r' - rv_len r <= rx' - rx -> rx' <= fc_max_data f' ->
  fc_max_data f' = fc_max_data f -> fc_window f <= fc_window f' <= fc_max_window f' ->
  fc_consumed f <= fc_consumed f' ->
  fc_consumed f' - fc_consumed f + (rv_len r' - rv_len r) <= rx' - rx + (rv_off r' - rv_off r) ->
  Rx (aset x r' m) rx' f' maxd almost sent.
Proof.
  intros H hg hi hd h1 h2 h3 h4 h5 h6.
  destruct H as [q1 q3 q4 q5 q7 q8 q9 q10]. unfold due, fc_max_data_next in *.
  constructor; rewrite ?asum_aset, ?hg; auto; try lia.
  - intros k v hk. apply in_aset in hk as [(-> & ->)|hk]; eauto.
  - intros h. specialize (q9 h). unfold due, fc_max_data_next in *. lia.
  - intros k hk. destruct (q10 k hk) as (r0 & hr & hd0). destruct (Z.eq_dec x k) as [<-|n].
    + exists r'. rewrite aget_aset_same. split; auto. apply hd. congruence.
    + exists r0. rewrite aget_aset_other by auto. auto.
Qed.

Lemma rx_new m rx f maxd almost sent x r' :
  Rx m rx f maxd almost sent -> aget x m = None -> rv_inv r' -> rv_len r' = 0 -> rv_off r' = 0 ->
  Rx (aset x r' m) rx f maxd almost sent.
Proof.
  intros H hg hi h1 h2. destruct H as [q1 q3 q4 q5 q7 q8 q9 q10].
  constructor; rewrite ?asum_aset, ?hg; auto; try lia.
  - intros k v hk. apply in_aset in hk as [(-> & ->)|hk]; eauto.
  - intros k hk. destruct (q10 k hk) as (r0 & hr & hd0). exists r0. rewrite aget_aset_other by congruence. auto.
Qed.

(** Changing the flags. *)
Lemma rx_flags m rx f maxd almost sent f' maxd' almost' sent' :
  Rx m rx f maxd almost sent ->
  fc_consumed f' = fc_consumed f -> fc_max_data f <= fc_max_data f' ->
  fc_window f <= fc_window f' <= fc_max_window f' ->
  (maxd' = true \/ In SfMaxData sent' -> due f') ->
  (forall x, In x almost' \/ In (SfMaxStreamData x) sent' ->
     (In x almost \/ In (SfMaxStreamData x) sent) \/ exists r, aget x m = Some r /\ due (rv_fc r)) ->
  Rx m rx f' maxd' almost' sent'.
Proof.
  intros H h1 h2 h3 h4 h5. destruct H as [q1 q3 q4 q5 q7 q8 q9 q10].
  constructor; auto; try lia. intros x hx. destruct (h5 x hx); auto.
Qed.

(** Nothing that matters changes. *)
Definition told (sent sent' : list sentf) : Prop :=
  (In SfMaxData sent' -> In SfMaxData sent) /\ forall x, In (SfMaxStreamData x) sent' -> In (SfMaxStreamData x) sent.
Lemma told_refl sent : told sent sent.
Proof. split; auto. Qed.
Lemma told_snoc sent fr : fr <> SfMaxData -> (forall x, fr <> SfMaxStreamData x) -> told sent (sent ++ [fr]).
Proof.
  intros h1 h2. split; [intros h|intros x h]; apply in_app_iff in h as [h|[h|[]]]; auto; exfalso; [congruence|]; eapply h2; eauto.
Qed.
Lemma rx_quiet c c' : RxC c -> rcv c' = rcv c -> c_rx c' = c_rx c -> c_fc c' = c_fc c ->
  c_maxdata c' = c_maxdata c -> c_almost c' = c_almost c -> told (c_sent c) (c_sent c') -> RxC c'.
Proof.
  unfold RxC. intros H -> -> -> -> -> (h1 & h2). pose proof (rx_win _ _ _ _ _ _ H).
  eapply rx_flags; eauto; try lia.
  - intros [h|h]; apply (rx_due _ _ _ _ _ _ H); auto.
  - intros x [h|h]; auto.
Qed.

Section P.
Variable P : params.
Hypothesis hP : params_ok P.

Lemma fresh_recv sid : rv_inv (st_recv (fresh P sid)) /\ rv_len (st_recv (fresh P sid)) = 0 /\ rv_off (st_recv (fresh P sid)) = 0.
Proof.
  destruct hP as (h1 & h2 & h3 & h4 & h5 & h6 & h7 & _). unfold fresh, new_limits.
  destruct (is_local sid (p_server P)), (is_bidi sid); cbn [st_new st_recv]; (split; [apply rv_new_inv; lia|auto]).
Qed.

Lemma rx_goc sid local c s c1 : RxC c -> gocs P sid local c s c1 -> RxC c1.
Proof.
  intros H [h|h1 h2 h3 h4]; auto. destruct (create_rest P sid c). unfold RxC, rcv.
  rewrite streams_create, rcvs_aset, gr_rx, gr_fc, gr_maxdata, gr_almost, gr_sent. cbn [fst].
  destruct (fresh_recv sid) as (f1 & f2 & f3). apply rx_new; auto.
  rewrite aget_rcvs. unfold ent in h1. rewrite h1. auto.
Qed.
Lemma rx_ent c sid s f : RxC c -> ent sid c = Some (s, f) -> rv_inv (st_recv s) /\ aget sid (rcv c) = Some (st_recv s).
Proof.
  intros H h. assert (h2 : aget sid (rcv c) = Some (st_recv s)).
  { unfold rcv. rewrite aget_rcvs. unfold ent in h. rewrite h. auto. }
  split; auto. apply aget_in in h2. eapply (rx_inv _ _ _ _ _ _ H); eauto.
Qed.
Lemma rx_goc_ent sid local c s c1 : RxC c -> gocs P sid local c s c1 ->
  RxC c1 /\ rv_inv (st_recv s) /\ aget sid (rcv c1) = Some (st_recv s) /\ goc_rest c c1.
Proof.
  intros H hg. pose proof (rx_goc _ _ _ _ _ H hg) as H1. pose proof (gocs_ent _ _ _ _ _ _ hg) as he.
  destruct (rx_ent _ _ _ _ H1 he). ands; auto. apply (gocs_rest _ _ _ _ _ _ hg).
Qed.

(** Collecting changes nothing here. *)
Lemma rx_mcoll b sid s c : ent sid c = Some (s, false) -> RxC c -> RxC (mcoll b sid s c).
Proof.
  intros he H. unfold mcoll. destruct b; auto. apply (rx_quiet c); auto; unfold coll, set_kind;
    destruct (st_local s), (is_bidi sid); try reflexivity; try apply told_refl;
    unfold rcv; cn; eapply rcvs_quiet; eauto.
Qed.
Lemma rx_send_only sid s b c c' f : ent sid c = Some (s, f) -> RxC c ->
  c_streams c' = aset sid (set_send b s, false) (c_streams c) ->
  c_rx c' = c_rx c -> c_fc c' = c_fc c -> c_maxdata c' = c_maxdata c -> c_almost c' = c_almost c ->
  told (c_sent c) (c_sent c') -> RxC c'.
Proof.
  intros he H h1 h2 h3 h4 h5 h6. eapply rx_quiet; eauto. unfold rcv. rewrite h1. eapply rcvs_quiet; eauto.
Qed.

Lemma rx_stream sid off data fin c o c' : RxC c -> op_ok (CnStream sid off data fin) ->
  cn_stream P sid off data fin c = Ok (o, c') -> RxC c'.
Proof.
  intros H (_ & hoff & _) h. apply stream_ok in h as [(_ & -> & _)|h]; auto.
  destruct h as (s & c1 & r & hg & _ & hw & hle & _ & ->).
  destruct (rx_goc_ent _ _ _ _ _ H hg) as (H1 & hi & he & hr).
  pose proof (rv_write_spec data off fin _ hi hoff) as E. cbv zeta in E. rewrite hw in E.
  destruct E as (e1 & e2 & e3 & e4 & e5 & e6 & e7 & e8 & e9 & e10 & e11).
  destruct (rb_from_views data off fin) as (_ & _ & vM & _). rewrite vM in *.
  unfold RxC, rcv. cn. rewrite rcvs_aset. cbn [fst].
  replace (st_recv (set_recv r s)) with r by reflexivity.
  set (d := sat_sub (off + zlen data) (rv_len (st_recv s))) in *.
  assert (hd : 0 <= rv_len r - rv_len (st_recv s) <= d).
  { rewrite e9. unfold d, sat_sub. destruct (touches data fin); lia. }
  assert (ho : rv_drain (st_recv s) = true -> rv_off r = rv_len r /\ rv_off (st_recv s) = rv_len (st_recv s)).
  { intros Ed. destruct (i_drain _ hi Ed). auto. }
  assert (ho' : rv_drain (st_recv s) = false -> rv_off r = rv_off (st_recv s)).
  { intros Ed. apply (e10 Ed). }
  clear e5 e6 e7 e8 e9 e10 e11. clearbody d.
  pose proof (i_off _ hi). pose proof (i_off _ e1).
  rewrite (gr_rx _ _ hr), (gr_fc _ _ hr) in *.
  pose proof (rx_win _ _ _ _ _ _ H); pose proof (rx_max _ _ _ _ _ _ H).
  eapply rx_put; [exact H1|exact he|auto|rewrite e4; auto| | | | | |];
    rewrite ?(gr_rx _ _ hr), ?(gr_fc _ _ hr);
    destruct (rv_drain (st_recv s)) eqn:Ed; unfold fc_add_consumed;
    cbn [fc_max_data fc_consumed fc_window fc_max_window]; try lia.
Qed.

Lemma rx_reset sid code final c o c' : RxC c -> op_ok (CnReset sid code final) ->
  cn_reset P sid code final c = Ok (o, c') -> RxC c'.
Proof.
  intros H (_ & _ & hfin & _) h. apply reset_ok in h as [(_ & -> & _)|h]; auto.
  destruct h as (s & c1 & r & delta & credit & hg & _ & hw & hle & _ & ->).
  destruct (rx_goc_ent _ _ _ _ _ H hg) as (H1 & hi & he & hr).
  pose proof (rv_reset_spec code final _ hi hfin) as E. rewrite hw in E.
  destruct E as (e1 & e2 & e3 & e4 & e5 & e6 & e7 & e8 & e9 & e10 & e11 & _).
  unfold RxC, rcv. cn. rewrite rcvs_aset. cbn [fst].
  replace (st_recv (set_recv r s)) with r by reflexivity.
  pose proof (i_off _ hi).
  pose proof (rx_win _ _ _ _ _ _ H); pose proof (rx_max _ _ _ _ _ _ H).
  eapply rx_put; [exact H1|exact he|auto|rewrite e3; auto| | | | | |];
    rewrite ?(gr_rx _ _ hr), ?(gr_fc _ _ hr); unfold fc_add_consumed;
    cbn [fc_max_data fc_consumed fc_window fc_max_window]; lia.
Qed.

Lemma rx_put_same sid s r c c' f' : RxC c -> ent sid c = Some (s, false) ->
  rv_inv r -> rv_len r = rv_len (st_recv s) -> rv_off (st_recv s) <= rv_off r ->
  (due (rv_fc (st_recv s)) -> due (rv_fc r)) ->
  fc_max_data f' = fc_max_data (c_fc c) -> fc_window (c_fc c) <= fc_window f' <= fc_max_window f' ->
  fc_consumed (c_fc c) <= fc_consumed f' <= fc_consumed (c_fc c) + (rv_off r - rv_off (st_recv s)) ->
  rcv c' = aset sid r (rcv c) -> c_rx c' = c_rx c -> c_fc c' = f' -> c_maxdata c' = c_maxdata c ->
  c_almost c' = c_almost c -> c_sent c' = c_sent c -> RxC c'.
Proof.
  intros H he h1 h2 h3 h4 h5 h6 h7 h8 h9 h10 h11 h12 h13.
  destruct (rx_ent _ _ _ _ H he) as (hi & ha). pose proof (rx_max _ _ _ _ _ _ H).
  unfold RxC. rewrite h8, h9, h10, h11, h12, h13. eapply rx_put; eauto; try lia.
Qed.

Lemma almost_due r : rv_inv r -> rv_almost_full r = Ok true -> due (rv_fc r).
Proof.
  intros hi. unfold rv_almost_full, fc_should_update, due, fc_max_data_next.
  destruct (rv_fin_off r); [discriminate|]. destr_if; [discriminate|]. intros h. injection h as h.
  pose proof (i_window _ hi). lia.
Qed.
Lemma almost_no_panic r : rv_inv r -> exists b, rv_almost_full r = Ok b.
Proof.
  intros hi. unfold rv_almost_full, fc_should_update. destruct (rv_fin_off r); eauto.
  pose proof (i_consumed _ hi). pose proof (i_off _ hi). pose proof (i_limit _ hi). destr_if; [lia|]. eauto.
Qed.

Lemma rx_recv sid cap c o c' : RxC c -> op_ok (CnRecv sid cap) -> cn_recv P sid cap c = Ok (o, c') -> RxC c'.
Proof.
  intros H (_ & hcap) h. apply recv_ok in h as [(e & _ & -> & _)|h]; auto.
  destruct h as (s & r & he & hrd & [(e & hw & -> & ->)|(bytes & fin & full & hw & -> & haf & ->)]);
    destruct (rx_ent _ _ _ _ H he) as (hi & ha);
    pose proof (rv_emit_spec cap _ hi hcap) as E; rewrite hw in E;
    pose proof (rx_win _ _ _ _ _ _ H).
  - destruct E as (e1 & e2 & e3 & e4 & e5 & _).
    match goal with |- RxC (set_c_rq ?q ?x) => apply (rx_quiet x); try reflexivity; try apply told_refl end.
    apply rx_mcoll; [apply ent_put_same|].
    eapply (rx_put_same sid s r c _ (c_fc c)); eauto; try reflexivity; try lia; try (rewrite e4; auto).
    unfold rcv, cn_put. cn. rewrite rcvs_aset. reflexivity.
  - destruct E as (_ & _ & _ & e1 & e2 & e3 & e4 & e5 & e6 & e7 & e8 & _).
    match goal with |- RxC (set_c_rq ?q ?x) => apply (rx_quiet x); try reflexivity; try apply told_refl end.
    apply rx_mcoll; [unfold ent; cn; apply aget_aset_same|].
    pose proof (zlen_nonneg bytes) as hz.
    assert (K1 : RxC (set_c_fc (fc_add_consumed (zlen bytes) (c_fc c)) (cn_put sid (set_recv r s) c))).
    { eapply (rx_put_same sid s r c _ (fc_add_consumed (zlen bytes) (c_fc c))); eauto; try reflexivity;
        unfold fc_add_consumed; cbn [fc_max_data fc_consumed fc_window fc_max_window]; try lia.
      - rewrite e8. unfold due, fc_max_data_next, fc_add_consumed. cbn. lia.
      - unfold rcv, cn_put. cn. rewrite rcvs_aset. reflexivity. }
    pose proof K1 as K2. unfold RxC in K2 |- *. cn. revert K2. unfold cn_put, rcv. cn. intros K2.
    eapply rx_flags; [exact K2| | | | |]; try lia.
    + cbn. lia.
    + intros h. apply (rx_due _ _ _ _ _ _ K2 h).
    + intros x [hx|hx]; [|auto]. destruct full; [|auto].
      unfold set_add in hx. match type of hx with In _ (if ?b then _ else _) => destruct b end; [auto|]. apply in_app_iff in hx as [hx|[<-|[]]]; auto.
      right. exists r. rewrite rcvs_aset, aget_aset_same. split; auto. apply almost_due; auto.
Qed.

Lemma rx_shutdown sid d code cwnd c o c' : RxC c -> cn_shutdown P sid d code cwnd c = Ok (o, c') -> RxC c'.
Proof.
  intros H h. apply shutdown_ok in h as [(-> & _)|(s & he & -> & [h|h])]; auto.
  - destruct h as (n & r & -> & hs & ->). destruct (rx_ent _ _ _ _ H he) as (hi & ha).
    pose proof (rv_shutdown_spec _ hi) as E. rewrite hs in E.
    destruct E as (e1 & e2 & e3 & e4 & e5 & e6 & e7 & e8 & _). pose proof (rx_win _ _ _ _ _ _ H). pose proof (i_off _ hi).
    eapply (rx_put_same sid s r c _ (fc_add_consumed n (c_fc c))); eauto; try reflexivity;
        unfold fc_add_consumed; cbn [fc_max_data fc_consumed fc_window fc_max_window]; try lia.
    + rewrite e8. auto.
    + unfold rcv. cn. rewrite rcvs_aset. reflexivity.
  - destruct h as (final & unsent & b & cap & -> & _ & _ & _ & _ & ->).
    eapply rx_send_only; eauto; try reflexivity. apply told_refl.
Qed.

Lemma rx_send zc sid data fin c o c' : RxC c -> cn_send P zc sid data fin c = Ok (o, c') -> RxC c'.
Proof.
  intros H h. apply send_ok in h as [(_ & -> & _)|(_ & _ & h)]; auto. cbv zeta in h.
  match type of h with context [set_c_blk ?b c] => set (c0 := set_c_blk b c) in h end.
  assert (H0 : RxC c0) by (apply (rx_quiet c); auto; apply told_refl).
  destruct h as [(_ & _ & _ & _ & ->)|[(_ & -> & _)|[(_ & -> & _)|h]]]; auto.
  - destruct (p_blocked P); auto. unfold set_kind. destruct (is_bidi sid); (apply (rx_quiet c0); auto; apply told_refl).
  - destruct h as (s & c1 & hg & h). destruct (rx_goc_ent _ _ _ _ _ H0 hg) as (H1 & hi & ha & hr).
    pose proof (gocs_ent _ _ _ _ _ _ hg) as he.
    destruct h as [(e & _ & _ & ->)|[(n & _ & _ & _ & _ & ->)|(n & _ & _ & [(e & _ & _ & ->)|h])]].
    + apply rx_mcoll; auto.
    + apply (rx_quiet c1); auto; apply told_refl.
    + apply (rx_quiet c1); auto; apply told_refl.
    + destruct h as (sent & b & _ & _ & _ & bl & blocked & _ & ->).
      eapply rx_send_only; eauto; try reflexivity. apply told_refl.
Qed.

Lemma rx_writable sid len c o c' : RxC c -> cn_writable sid len c = Ok (o, c') -> RxC c'.
Proof.
  intros H h. apply writable_ok in h as [(_ & -> & _)|(s & he & [(e & _ & _ & ->)|(n & _ & [(_ & _ & ->)|(_ & _ & _ & bl & bs & _ & ->)])])]; auto.
  - apply rx_mcoll; auto.
  - apply (rx_quiet c); auto; try reflexivity; [|apply told_refl]. unfold rcv. cn. eapply rcvs_quiet; eauto.
Qed.

Lemma set_del_in x y l : In x (set_del y l) -> In x l.
Proof. unfold set_del. rewrite filter_In. tauto. Qed.
Lemma set_mem_in x l : set_mem x l = true -> In x l.
Proof. unfold set_mem. rewrite existsb_exists. intros (y & h1 & h2). replace x with y by lia. auto. Qed.
Lemma set_add_in x y l : In x (set_add y l) -> In x l \/ x = y.
Proof. unfold set_add. destruct (existsb (Z.eqb y) l); auto. rewrite in_app_iff. cbn. intuition. Qed.

Lemma ensure_spec m f : 0 <= fc_window f <= fc_max_window f ->
  let f' := fc_ensure_lower m f in
  fc_max_data f' = fc_max_data f /\ fc_consumed f' = fc_consumed f /\
  fc_window f <= fc_window f' <= fc_max_window f'.
Proof. intros h. cbv zeta. unfold fc_ensure_lower, fc_set_window. destr_if; cbn; repeat split; auto; lia. Qed.

Lemma rx_max_stream_data sid now rtt fits c o c' : RxC c -> cn_send_max_stream_data sid now rtt fits c = Ok (o, c') -> RxC c' /\
  forall s, ent sid c = Some (s, false) -> forall m, o = CoMaxStreamData sid m -> fc_max_data (rv_fc (st_recv s)) <= m.
Proof.
  intros H h. pose proof (rx_win _ _ _ _ _ _ H) as hw.
  apply send_max_stream_data_ok in h as [(-> & ->)|[(-> & _ & ->)|(s & full & he & hf & hm & h)]].
  { split; [auto|discriminate]. }
  { split; [|discriminate]. unfold RxC in *. cn. eapply rx_flags; eauto; try lia.
    - apply (rx_due _ _ _ _ _ _ H).
    - intros x [hx|hx]; auto. left. left. eapply set_del_in; eauto. }
  destruct (rx_ent _ _ _ _ H he) as (hi & ha). apply set_mem_in in hm.
  destruct (rx_sdue _ _ _ _ _ _ H sid (or_introl hm)) as (r0 & hr0 & hd). rewrite ha in hr0. injection hr0 as <-.
  assert (hr : exists f1, (if full then rv_autotune now rtt (st_recv s) else st_recv s) = rv_set_fc f1 (st_recv s) /\
     fc_max_data f1 = fc_max_data (rv_fc (st_recv s)) /\ fc_consumed f1 = fc_consumed (rv_fc (st_recv s)) /\
     fc_window (rv_fc (st_recv s)) <= fc_window f1 <= fc_max_window f1 /\
     fc_last_update f1 = fc_last_update (rv_fc (st_recv s))).
  { pose proof (i_window _ hi) as w. destruct full.
    - exists (fc_autotune now rtt (rv_fc (st_recv s))). split; [reflexivity|].
      destruct (fc_autotune_spec now rtt (rv_fc (st_recv s)) w) as (a1 & a2 & a3 & a4 & a5). auto.
    - exists (rv_fc (st_recv s)). split; [destruct (st_recv s); reflexivity|]. ands; auto; lia. }
  destruct hr as (f1 & -> & a1 & a2 & a3 & a5) in h. cbv zeta in h.
  assert (hd1 : due f1) by (unfold due, fc_max_data_next in *; lia).
  pose proof (i_window _ hi) as hwi.
  destruct h as [(-> & -> & ->)|(-> & -> & ->)].
  - cbn [rv_fc rv_set_fc]. split.
    + assert (hi2 : rv_inv (rv_update_max_data now (rv_set_fc f1 (st_recv s)))).
      { unfold rv_update_max_data. cbn [rv_fc rv_set_fc rv_data rv_off rv_len rv_fin_off rv_error rv_drain].
        destruct (fc_update_committed now f1) as (u1 & u2 & u3 & u4 & u5).
        apply (rv_set_fc_inv (fc_update_max_data now f1) _ hi); unfold due, fc_max_data_next in *; lia. }
      destruct (ensure_spec (fc_window f1 * 3 / 2) (c_fc c) hw) as (w1 & w2 & w3).
      pose proof (rx_max _ _ _ _ _ _ H) as hmx.
      assert (K : Rx (aset sid (rv_update_max_data now (rv_set_fc f1 (st_recv s))) (rcv c)) (c_rx c)
                     (fc_ensure_lower (fc_window f1 * 3 / 2) (c_fc c)) (c_maxdata c) (c_almost c) (c_sent c)).
      { eapply rx_put; [exact H|exact ha|auto| | | | | | |]; try lia.
        - intros _. apply Z.le_refl.
        - cbn. lia.
        - cbn. lia. }
      unfold RxC, rcv. cn. rewrite rcvs_aset. eapply rx_flags; [exact K| | | | |]; try lia.
      * intros [q|q]; apply (rx_due _ _ _ _ _ _ K); auto. right. apply in_app_iff in q as [q|[q|[]]]; auto; discriminate.
      * intros x [q|q]; [left; left; eapply set_del_in; eauto|].
        apply in_app_iff in q as [q|[q|[]]]; [auto|]. injection q as <-. right. eexists.
        split; [apply aget_aset_same|]. apply Z.le_refl.
    + intros s0 he0 m hm0. injection hm0 as <-. rewrite he in he0. injection he0 as <-. unfold due in hd1. lia.
  - split; [|discriminate]. pose proof (rx_max _ _ _ _ _ _ H) as hmx.
    unfold RxC, rcv. cn. rewrite rcvs_aset. eapply rx_put; [exact H|exact ha| | | | | | | |]; cbn [st_recv set_recv fst rv_len rv_off rv_fc rv_set_fc]; auto; try lia.
    apply rv_set_fc_inv; auto; try lia.
Qed.

Lemma rx_max_data now rtt fits c o c' : RxC c -> cn_send_max_data now rtt fits c = Ok (o, c') -> RxC c' /\
  forall m, o = CoMaxData m -> fc_max_data (c_fc c) <= m.
Proof.
  intros H. pose proof (rx_win _ _ _ _ _ _ H) as hw. destruct (rx_offs _ _ _ _ _ _ H) as (_ & hc).
  unfold cn_send_max_data, fc_should_update. destr_if; [discriminate|]. cbn [bind]. cbv zeta. intros h.
  set (f0 := c_fc c) in *.
  set (org := (fc_max_data f0 - fc_consumed f0 <? fc_window f0 / 2) && (fc_max_data f0 <? fc_max_data_next f0)) in *.
  set (f1 := if org then fc_autotune now rtt f0 else f0) in *.
  assert (hf : fc_max_data f1 = fc_max_data f0 /\ fc_consumed f1 = fc_consumed f0 /\ fc_window f0 <= fc_window f1 <= fc_max_window f1).
  { unfold f1. destruct org; [|ands; auto; lia].
    destruct (fc_autotune_spec now rtt f0 hw) as (a1 & a2 & a3 & a4 & a5). auto. }
  destruct hf as (a1 & a2 & a3).
  assert (hd : org || c_maxdata c = true -> due f1).
  { intros q. apply orb_true_iff in q as [q|q].
    - unfold org in q. unfold due, fc_max_data_next in *. lia.
    - pose proof (rx_due _ _ _ _ _ _ H (or_introl q)) as d. unfold due, fc_max_data_next in *. fold f0 in d. lia. }
  destruct ((org || c_maxdata c) && fits) eqn:E2; injection h as <- <-.
  - apply andb_true_iff in E2 as (E2 & _). specialize (hd E2).
    split; [|intros m q; injection q as <-; cbn; unfold due in hd; lia].
    unfold RxC, log. cn. eapply rx_flags; [exact H| | | | |]; cbn [fc_update_max_data fc_consumed fc_max_data fc_window fc_max_window]; fold f0; auto.
    + unfold due in hd. lia.
    + intros _. apply Z.le_refl.
    + intros x [q|q]; [auto|]. apply in_app_iff in q as [q|[q|[]]]; [auto|discriminate].
  - split; [|discriminate]. unfold RxC. cn. eapply rx_flags; [exact H| | | | |]; fold f0; auto; try lia.
    intros [q|q]; [auto|]. pose proof (rx_due _ _ _ _ _ _ H (or_intror q)) as d. unfold due, fc_max_data_next in *. fold f0 in d. lia.
Qed.

Lemma rx_step op c o c' : RxC c -> op_ok op -> cn_step P op c = Ok (o, c') -> RxC c'.
Proof.
  intros H hop h. pose proof (rx_win _ _ _ _ _ _ H) as hw. destruct op; cbn [cn_step] in h.
  - eapply rx_stream; eauto.
  - eapply rx_reset; eauto.
  - apply stop_ok in h as [(_ & -> & _)|(s & c1 & hg & _ & _ & [(e & _ & ->)|(fi & u & b & _ & ->)])]; auto.
    + eapply rx_goc; eauto.
    + destruct (rx_goc_ent _ _ _ _ _ H hg) as (H1 & hi & ha & hr). pose proof (gocs_ent _ _ _ _ _ _ hg) as he.
      eapply rx_send_only; eauto; try reflexivity. apply told_refl.
  - injection h as <- <-. apply (rx_quiet c); auto. apply told_refl.
  - apply max_stream_data_ok in h as [(_ & -> & _)|(s & c1 & hg & _ & _ & ->)]; auto.
    destruct (rx_goc_ent _ _ _ _ _ H hg) as (H1 & hi & ha & hr). pose proof (gocs_ent _ _ _ _ _ _ hg) as he.
    eapply rx_send_only; eauto; try reflexivity. apply told_refl.
  - unfold cn_max_streams in h. dif h; [discriminate|]. injection h as <- <-.
    unfold set_kind. destruct bidi; (apply (rx_quiet c); auto; apply told_refl).
  - unfold cn_streams_blocked in h. dif h; [discriminate|]. injection h as <- <-. auto.
  - eapply rx_recv; eauto.
  - eapply rx_send; eauto.
  - apply priority_ok in h as [(-> & _)|(s & c1 & hg & _ & h)]; auto.
    destruct (rx_goc_ent _ _ _ _ _ H hg) as (H1 & hi & ha & hr). pose proof (gocs_ent _ _ _ _ _ _ hg) as he.
    destruct h as [(-> & _)| ->]; auto. apply (rx_quiet c1); auto; try apply told_refl.
    unfold rcv. cn. eapply rcvs_quiet; eauto.
  - eapply rx_shutdown; eauto.
  - destruct (cn_capacity sid c) as [[r c1]| |] eqn:E; try discriminate. cbn [bind] in h.
    apply capacity_ok in E as [(-> & -> & _)|(s & he & [(e & _ & -> & ->)|(n & _ & -> & ->)])]; injection h as <- <-; auto.
    apply rx_mcoll; auto.
  - eapply rx_writable; eauto.
  - apply readable_next_ok in h as [(_ & -> & _)|(k & tl & _ & _ & ->)]; auto; (apply (rx_quiet c); auto; apply told_refl).
  - apply writable_next_ok in h as [(_ & ->)|(sid & _ & _ & _ & ->)]; auto; (apply (rx_quiet c); auto; apply told_refl).
  - unfold update_tx_cap in h. destruct (c_max_tx c <? c_tx c); [discriminate|]. cbn in h. injection h as <- <-.
    apply (rx_quiet c); auto; apply told_refl.
  - unfold cn_send_max_streams in h. cbv zeta in h. dif h; injection h as <- <-; auto.
    unfold log, set_kind. destruct bidi; (apply (rx_quiet c); auto; apply told_snoc; discriminate).
  - unfold cn_send_data_blocked in h. destruct (c_blk c); [destruct fits|]; injection h as <- <-; auto; (apply (rx_quiet c); auto; apply told_refl).
  - unfold cn_send_streams_blocked in h. cbv zeta in h. dif h; [|injection h as <- <-; auto].
    destruct (l_blk_at (if bidi then c_bidi c else c_uni c)); [destruct fits|]; injection h as <- <-; auto.
    unfold log, set_kind. destruct bidi; (apply (rx_quiet c); auto; apply told_snoc; discriminate).
  - eapply rx_max_stream_data; eauto.
  - eapply rx_max_data; eauto.
  - unfold cn_send_stop in h. destruct (aget sid (c_stopped c)); [destruct fits|]; injection h as <- <-; auto.
    unfold log. apply (rx_quiet c); auto; apply told_snoc; discriminate.
  - unfold cn_send_reset in h. destruct (aget sid (c_reset c)) as [[code fi]|]; [destruct fits|]; injection h as <- <-; auto.
    unfold log. apply (rx_quiet c); auto; apply told_snoc; discriminate.
  - unfold cn_send_sdb in h. destruct (aget sid (c_blocked c)); [destruct fits|]; injection h as <- <-; auto; (apply (rx_quiet c); auto; apply told_refl).
  - unfold cn_send_stream in h. dif h; [injection h as <- <-; auto|].
    apply send_stream_loop_ok in h as (skips & _ & [(_ & _ & ->)|(k & tl & s & bytes & fin & b & _ & he & _ & _ & _ & _ & ->)]).
    + apply (rx_quiet c); auto; apply told_refl.
    + eapply rx_send_only; eauto; try reflexivity. apply told_snoc; discriminate.
  - apply ack_ok in h as (_ & [->|[(sid & f & s & d & b & _ & he & _ & ->)|(sid & code & fi & s & _ & he & ->)]]); auto.
    + match goal with |- RxC (set_c_txbuf ?q ?x) => apply (rx_quiet x); try reflexivity; try apply told_refl end.
      apply rx_mcoll; [unfold ent; cn; apply aget_aset_same|]. eapply rx_send_only; eauto; try reflexivity. apply told_refl.
    + apply rx_mcoll; auto.
  - apply lost_ok in h as (_ & h).
    destruct h as [->|[(sid & f & s & n & b & _ & he & _ & _ & ->)|[(sid & code & fi & _ & ->)|[(sid & code & s & _ & _ & _ & ->)|
      [(sid & s & hn & he & ->)|[(hn & ->)|[(b & _ & ->)|(b & l & _ & _ & ->)]]]]]]]; auto.
    + eapply rx_send_only; eauto; try reflexivity. apply told_refl.
    + apply nth_error_In in hn. unfold RxC. cn. eapply rx_flags; [exact H| | | | |]; auto; try lia.
      * apply (rx_due _ _ _ _ _ _ H).
      * intros x [q|q]; auto. apply set_add_in in q as [q| ->]; auto.
    + apply nth_error_In in hn. unfold RxC. cn. eapply rx_flags; [exact H| | | | |]; auto; try lia.
      intros _. apply (rx_due _ _ _ _ _ _ H); auto.
    + unfold set_kind. destruct b; (apply (rx_quiet c); auto; apply told_refl).
    + unfold set_kind. destruct b; (apply (rx_quiet c); auto; apply told_refl).
Qed.

Lemma rx_history i ops outs c : history P i ops outs c -> RxC c.
Proof.
  revert ops outs c. apply (history_ind P i (fun _ _ c => RxC c)).
  - intros hp (h1 & h2 & _). unfold RxC, rcv. cbn. constructor; cbn; try lia; try tauto.
  - intros ops outs c op o c' _ H hop h. eapply rx_step; eauto.
Qed.
End P.

Lemma rx_hist P i ops outs c : history P i ops outs c -> RxC c.
Proof. intros h. eapply rx_history; eauto. apply h. Qed.
