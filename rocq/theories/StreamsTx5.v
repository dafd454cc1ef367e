(** No history of a connection's streams ends in a panic, as long as the send
    capacity is not scaled up. *)
Require Import Verif.Base Verif.Errors Verif.Assoc Verif.OctetsModel Verif.FlowControlModel Verif.RangeBufModel
  Verif.RangesModel Verif.RangesProofs Verif.RecvBufModel Verif.RecvBufProofs Verif.RecvBufProofs2 Verif.RecvBufProofs3
  Verif.SendBufModel Verif.SendSpec Verif.SendBufProofs Verif.SendBufProofs2 Verif.SendBufProofs3
  Verif.SendProofs Verif.SendProofs2 Verif.SendProofs3
  Verif.StreamsModel Verif.StreamsSpec Verif.StreamsProofs
  Verif.StreamsEffects Verif.StreamsShape Verif.StreamsShape2 Verif.StreamsRecv Verif.StreamsTx Verif.StreamsTx2 Verif.StreamsTx3 Verif.StreamsTx4.

Lemma mcollect_no_panic (b : bool) sid s c : ent sid c = Some (s, false) -> (if b then cn_collect sid c else Ok c) <> Panic.
Proof. intros h. destruct b; [|discriminate]. unfold cn_collect. apply get_ent in h. rewrite h. discriminate. Qed.

Section P.
Variable P : params.
Hypothesis hP : params_ok P.
Hypothesis hF : p_num P <= p_den P.

Lemma cap_no_panic g c x s f : TxC P g c -> ent x c = Some (s, f) -> sb_cap (st_send s) <> Panic.
Proof.
  intros H h. pose proof (t_sb _ _ _ _ _ _ H h) as hs. unfold sb_cap. destruct (sb_error (st_send s)); [discriminate|].
  pose proof (i_off _ _ hs). destr_if; [lia|discriminate].
Qed.

Lemma capacity_no_panic g c sid : TxC P g c -> cn_capacity sid c <> Panic.
Proof.
  intros H. unfold cn_capacity. destruct (cn_get sid c) as [s|] eqn:E; [|discriminate]. apply get_ent in E.
  pose proof (cap_no_panic _ _ _ _ _ H E). destruct (sb_cap (st_send s)) as [n|e|]; [discriminate| |congruence].
  pose proof (mcollect_no_panic (st_complete s && negb (st_readable s)) _ _ _ E) as q.
  destruct (if st_complete s && negb (st_readable s) then cn_collect sid c else Ok c); cbn [bind]; congruence.
Qed.

Lemma next_no_panic g c l : TxC P g c -> next_writable l c <> Panic.
Proof.
  intros H. induction l as [|k l IH]; cbn [next_writable]; [discriminate|].
  destruct (cn_get (k_id k) c) as [s|] eqn:E; auto. apply get_ent in E. pose proof (cap_no_panic _ _ _ _ _ H E).
  destruct (sb_cap (st_send s)); try discriminate; [|congruence]. destr_if; [discriminate|auto].
Qed.

Lemma loop_no_panic g room : forall n c, TxC P g c -> (length (c_fq c) <= n)%nat -> send_stream_loop n room c <> Panic.
Proof.
  assert (hq : forall k tl, (length (q_remove (k_id k) (k :: tl)) <= length tl)%nat).
  { intros k tl. unfold q_remove. cbn [filter]. rewrite Z.eqb_refl. cbn [negb]. clear. induction tl; cbn; [lia|]. destr_if; cbn; lia. }
  assert (hx : forall c q, TxC P g c -> (forall x, linked x q = true -> linked x (c_fq c) = true) -> TxC P g (set_c_fq q c)).
  { intros c q H h. eapply (tx_quiet P g g c _ []); eauto; cn; auto; try (rewrite app_nil_r; auto; fail); try apply H.
    - intros. apply same_at_refl.
    - intros k; auto. }
  induction n as [|n IH]; intros c H hl; cbn [send_stream_loop]; destruct (c_fq c) as [|k tl] eqn:E; try discriminate.
  { cbn in hl. lia. }
  assert (hs : send_stream_loop n room (set_c_fq (q_remove (k_id k) (k :: tl)) c) <> Panic).
  { apply IH.
    - apply hx; auto. intros x h. rewrite linked_iff in h |- *. rewrite E. apply ids_q_remove in h. tauto.
    - cn. pose proof (hq k tl). cbn in hl. lia. }
  destruct (cn_get (k_id k) c) as [s|] eqn:Eg; auto. apply get_ent in Eg.
  destruct (st_stopped s) eqn:Es; auto. cbv zeta. destr_if; auto.
  assert (he : sb_error (st_send s) = None). { unfold st_stopped in Es. destruct (sb_error (st_send s)); [discriminate|auto]. }
  destruct (tin_emit _ _ _ _ _ _ _ _ (room - (1 + varint_len (k_id k) + varint_len (sb_off_front (st_send s)) + 2)) (t_tin _ _ _ H _ _ _ Eg)) as (by_ & fi & b & e1 & _).
  - rewrite E. unfold linked. cbn [existsb]. rewrite Z.eqb_refl. reflexivity.
  - lia.
  - auto.
  - rewrite e1. cbn [bind]. discriminate.
Qed.

Theorem no_panic g op c : op_ok op -> kinds P c -> NoDup (akeys (c_streams c)) -> TxC P g c -> RxC c -> cn_step P op c <> Panic.
Proof.
  intros hop hk hn H R.
  assert (hmax : c_tx c <= c_max_tx c). { pose proof (t_fac _ _ _ H hF). pose proof (t_cap _ _ _ H). lia. }
  assert (hrx : c_rx c <= fc_max_data (c_fc c)) by apply (rx_max _ _ _ _ _ _ R).
  destruct op; cbn [cn_step].
  - destruct hop as (h1 & h2 & h3). unfold cn_stream. destr_if; [discriminate|]. destr_if; [lia|].
    pose proof (goc_panic P sid false c). destruct (cn_get_or_create P sid false c) as [[s c1]|e|] eqn:Eg; [|destruct e; discriminate|congruence].
    apply goc_gocs in Eg. destruct (rx_goc_ent P hP _ _ _ _ _ R Eg) as (_ & q1 & _). cbv zeta. destr_if; [discriminate|].
    pose proof (rv_write_spec data off fin (st_recv s) q1 h2) as W. cbv zeta in W.
    destruct (rv_write (rb_from data off fin) (st_recv s)); cbn [bind]; [discriminate|discriminate|contradiction].
  - destruct hop as (h1 & h2 & h3). unfold cn_reset. destr_if; [discriminate|]. destr_if; [lia|].
    pose proof (goc_panic P sid false c). destruct (cn_get_or_create P sid false c) as [[s c1]|e|] eqn:Eg; [|destruct e; discriminate|congruence].
    apply goc_gocs in Eg. destruct (rx_goc_ent P hP _ _ _ _ _ R Eg) as (_ & q1 & _). cbv zeta.
    pose proof (rv_reset_spec code final (st_recv s) q1 ltac:(lia)) as W.
    destruct (rv_reset code final (st_recv s)) as [[[d cr]|e|] r]; [destr_if; discriminate|discriminate|contradiction].
  - destruct hop as (h1 & h2). unfold cn_stop. destr_if; [discriminate|].
    pose proof (goc_panic P sid false c). destruct (cn_get_or_create P sid false c) as [[s c1]|e|] eqn:Eg; [|destruct e; discriminate|congruence].
    apply goc_gocs in Eg. pose proof (tx_goc P hP _ _ _ _ _ _ h1 H Eg) as H1. pose proof (gocs_ent _ _ _ _ _ _ Eg) as he.
    destruct (sb_error (st_send s)) eqn:Ee.
    + unfold sb_stop. rewrite Ee. discriminate.
    + destruct (tin_stop _ _ _ _ _ _ _ _ code (t_tin _ _ _ H1 _ _ _ he) Ee) as (b & e1 & _). rewrite e1. discriminate.
  - discriminate.
  - unfold cn_max_stream_data. destr_if; [discriminate|].
    pose proof (goc_panic P sid false c). destruct (cn_get_or_create P sid false c) as [[s c1]|e|] eqn:Eg; [discriminate|destruct e; discriminate|congruence].
  - unfold cn_max_streams. destr_if; discriminate.
  - unfold cn_streams_blocked. destr_if; discriminate.
  - destruct hop as (_ & hcap). unfold cn_recv. destr_if; [discriminate|]. destruct (cn_get sid c) as [s|] eqn:Eg; [|discriminate]. apply get_ent in Eg.
    destr_if; [discriminate|]. destruct (rx_ent _ _ _ _ R Eg) as (hi & ha). pose proof (rv_emit_spec cap _ hi hcap) as W.
    destruct (rv_emit cap (st_recv s)) as [[[bytes fin]|e|] r]; [| |contradiction].
    + destruct W as (_ & _ & _ & hi' & _). cbv zeta. destruct (almost_no_panic r hi') as (full & hf). cn. rewrite hf. cbn [bind].
      match goal with |- context [if st_complete ?s' then cn_collect sid ?c0 else Ok ?c0] =>
        pose proof (mcollect_no_panic (st_complete s') sid s' c0) as q; destruct (if st_complete s' then cn_collect sid c0 else Ok c0) end.
      * discriminate.
      * discriminate.
      * destruct q; auto. destruct full, (st_readable (set_recv r s)); unfold ent; cn; apply aget_aset_same.
    + cbv zeta. pose proof (mcollect_no_panic (st_complete (set_recv r s)) sid (set_recv r s) (cn_put sid (set_recv r s) c) (ent_put_same _ _ _)) as q.
      destruct (if st_complete (set_recv r s) then _ else _); cbn [bind]; congruence.
  - cbn in hop. unfold cn_send. destr_if; [discriminate|]. destr_if; [lia|]. cbv zeta.
    match goal with |- context [cn_get_or_create P sid true ?c0] => set (c2 := c0) end.
    assert (hc2 : TxC P g c2 /\ c_txcap c2 = c_txcap c). { unfold c2. destr_if; split; auto. apply (tx_same P g c); auto. }
    clearbody c2. destruct hc2 as (H2 & hcp).
    pose proof (goc_panic P sid true c2). destruct (cn_get_or_create P sid true c2) as [[s c1]|e|] eqn:Eg; [|destruct e; discriminate|congruence].
    apply goc_gocs in Eg. pose proof (tx_goc P hP _ _ _ _ _ _ hop H2 Eg) as H1. pose proof (gocs_ent _ _ _ _ _ _ Eg) as he. pose proof (gocs_rest _ _ _ _ _ _ Eg) as hr.
    pose proof (cap_no_panic _ _ _ _ _ H1 he). destruct (sb_cap (st_send s)) as [n|e|] eqn:Ec; [| |congruence].
    2:{ pose proof (mcollect_no_panic (st_complete s && negb (st_readable s)) _ _ _ he) as q.
        destruct (if st_complete s && negb (st_readable s) then cn_collect sid c1 else Ok c1); cbn [bind]; congruence. }
    apply cap_ok_err in Ec. destruct ((c_txcap c2 =? 0) && (0 <? zlen data)) eqn:Ez; [discriminate|].
    pose proof (t_cap _ _ _ H1) as hcap1. rewrite (gr_txcap _ _ hr) in hcap1.
    pose proof (tin_write _ _ _ _ _ _ _ _ zc data (c_txcap c2) fin (t_tin _ _ _ H1 _ _ _ he) hcap1 Ec) as W.
    specialize (W ltac:(intros (w1 & w2); rewrite w1 in Ez; cbn in Ez; lia)). cbv zeta in W. unfold send_len, send_fin in W.
    pose proof (zlen_nonneg data) as hz.
    destruct (c_txcap c2 <? zlen data) eqn:El.
    + match type of W with context [match ?w with _ => _ end] => destruct w as [[sent b]|e|] end; [|discriminate|contradiction].
      match goal with |- context [let '(_, _) := ?w in _] => destruct w as [b2 bl2] end. cbn [fst snd].
      match goal with |- context [c_txcap ?x <? 0] => assert (hle : c_txcap x = c_txcap c2 - sent) end.
      { rewrite <- (gr_txcap _ _ hr). repeat match goal with |- context [if ?b then _ else _] => destruct b end; reflexivity. }
      rewrite hle. destruct W as (w1 & _). destr_if; [lia|]. destr_if; discriminate.
    + match type of W with context [match ?w with _ => _ end] => destruct w as [[sent b]|e|] end; [|discriminate|contradiction].
      match goal with |- context [let '(_, _) := ?w in _] => destruct w as [b2 bl2] end. cbn [fst snd].
      match goal with |- context [c_txcap ?x <? 0] => assert (hle : c_txcap x = c_txcap c2 - sent) end.
      { rewrite <- (gr_txcap _ _ hr). repeat match goal with |- context [if ?b then _ else _] => destruct b end; reflexivity. }
      rewrite hle. destruct W as (w1 & _). destr_if; [lia|]. destr_if; discriminate.
  - unfold cn_priority. pose proof (goc_panic P sid true c).
    destruct (cn_get_or_create P sid true c) as [[s c1]|e|] eqn:Eg; [destr_if; discriminate|destruct e; discriminate|congruence].
  - unfold cn_shutdown. cbv zeta. destr_if; [discriminate|]. destruct (cn_get sid c) as [s|] eqn:Eg; [|discriminate]. apply get_ent in Eg.
    destruct d.
    + destruct (rx_ent _ _ _ _ R Eg) as (hi & ha). pose proof (rv_shutdown_spec _ hi) as W.
      destruct (rv_shutdown (st_recv s)) as [[n r]|e|]; [discriminate|discriminate|contradiction].
    + destruct (sb_shut (st_send s)) eqn:Es.
      { unfold sb_shutdown. rewrite Es. discriminate. }
      destruct (tin_shutdown _ _ _ _ _ _ _ _ (t_tin _ _ _ H _ _ _ Eg) Es) as (b & e1 & _). rewrite e1.
      pose proof (i_emit _ _ (t_sb _ _ _ _ _ _ H Eg)). pose proof (off_le _ _ _ _ _ _ hn H Eg).
      unfold update_tx_cap. cn. unfold sat_sub. destr_if; [lia|]. cbn [bind]. discriminate.
  - pose proof (capacity_no_panic g c sid H) as q. destruct (cn_capacity sid c) as [[r c1]| |] eqn:Eg; try discriminate; [|congruence].
    cbn [bind]. apply capacity_ok in Eg as [(-> & _)|(s & _ & [(e & _ & -> & _)|(n & _ & -> & _)])]; discriminate.
  - unfold cn_writable. pose proof (capacity_no_panic g c sid H) as q. destruct (cn_capacity sid c) as [[r c1]| |] eqn:Eg; try discriminate; [|congruence].
    cbn [bind]. apply capacity_ok in Eg as [(-> & _)|(s & he & [(e & _ & -> & _)|(n & hc & -> & ->)])]; try discriminate.
    destr_if; [discriminate|]. apply get_ent in he as hg. rewrite hg. cbv zeta. destr_if; [lia|]. cn.
    pose proof (cap_no_panic _ _ _ _ _ H he). destruct (sb_cap (st_send s)); [|discriminate|congruence].
    destr_if; [destr_if; discriminate|destr_if; discriminate].
  - unfold cn_readable_next. destruct (c_rq c); discriminate.
  - unfold cn_writable_next. destr_if; [discriminate|]. pose proof (next_no_panic g c (c_wq c) H).
    destruct (next_writable (c_wq c) c) as [[x|]| |]; cbn [bind]; try discriminate. congruence.
  - unfold update_tx_cap. destr_if; [lia|]. discriminate.
  - unfold cn_send_max_streams. cbv zeta. destr_if; discriminate.
  - unfold cn_send_data_blocked. destruct (c_blk c); [destruct fits|]; discriminate.
  - unfold cn_send_streams_blocked. cbv zeta. destr_if; [|discriminate]. destruct (l_blk_at (if bidi then c_bidi c else c_uni c)); [destruct fits|]; discriminate.
  - unfold cn_send_max_stream_data. destr_if; [discriminate|]. destruct (cn_get sid c) as [s|] eqn:Eg; [|discriminate]. apply get_ent in Eg.
    destruct (rx_ent _ _ _ _ R Eg) as (hi & _). destruct (almost_no_panic _ hi) as (full & hf). rewrite hf. cbn [bind]. cbv zeta. destruct fits; discriminate.
  - unfold cn_send_max_data. unfold fc_should_update. pose proof (proj2 (rx_offs _ _ _ _ _ _ R)). destr_if; [lia|]. cbn [bind]. cbv zeta. destr_if; discriminate.
  - unfold cn_send_stop. destruct (aget sid (c_stopped c)); [destruct fits|]; discriminate.
  - unfold cn_send_reset. destruct (aget sid (c_reset c)) as [[code fi]|]; [destruct fits|]; discriminate.
  - unfold cn_send_sdb. destruct (aget sid (c_blocked c)); [destruct fits|]; discriminate.
  - unfold cn_send_stream. destr_if; [discriminate|]. apply (loop_no_panic g); auto.
  - unfold cn_ack. destruct (nth_error (c_sent c) i) as [[sid f|sid code fi| | | | |]|] eqn:Ei; try discriminate.
    + destruct (cn_get sid c) as [s|] eqn:Eg; [|discriminate]. apply get_ent in Eg.
      destruct (frames_on_in sid f (c_sent c)) as (j & hj); [eapply nth_error_In; eauto|].
      destruct (tin_ack _ _ _ _ _ _ _ _ j f (t_tin _ _ _ H _ _ _ Eg) hj) as (d & b & e1 & _). rewrite e1. cbn [bind]. unfold collect_on_ack.
      match goal with |- context [if ?cond then cn_collect sid ?c0 else Ok ?c0] =>
        pose proof (mcollect_no_panic cond sid _ c0 (ent_put_same _ _ _)) as q; destruct (if cond then cn_collect sid c0 else Ok c0) end; cbn [bind]; congruence.
    + destruct (cn_get sid c) as [s|] eqn:Eg; [|discriminate]. apply get_ent in Eg. unfold collect_on_ack.
      match goal with |- context [if ?cond then cn_collect sid ?c0 else Ok ?c0] =>
        pose proof (mcollect_no_panic cond sid _ c0 Eg) as q; destruct (if cond then cn_collect sid c0 else Ok c0) end; cbn [bind]; congruence.
  - unfold cn_lost. destruct (nth_error (c_sent c) i) as [[sid f|sid code fi|sid code|sid| |b|b l]|] eqn:Ei; try discriminate.
    + destruct (cn_get sid c) as [s|] eqn:Eg; [|discriminate]. apply get_ent in Eg. destruct (st_stopped s) eqn:Es; [discriminate|].
      destruct (frames_on_in sid f (c_sent c)) as (j & hj); [eapply nth_error_In; eauto|].
      assert (he : sb_error (st_send s) = None). { unfold st_stopped in Es. destruct (sb_error (st_send s)); [discriminate|auto]. }
      destruct (tin_lost _ _ _ _ _ _ _ _ j f (t_tin _ _ _ H _ _ _ Eg) hj he) as (d & b & e1 & _). rewrite e1. cbn [bind]. discriminate.
    + destruct (cn_get sid c); [destr_if|]; discriminate.
    + destruct (cn_get sid c); discriminate.
    + cbv zeta. destruct (l_blk_sent (if b then c_bidi c else c_uni c)); discriminate.
Qed.
End P.

Theorem history_no_panic P i ops outs c op : history P i ops outs c -> p_num P <= p_den P -> op_ok op -> cn_step P op c <> Panic.
Proof.
  intros hist hf hok. pose proof (shape_history _ _ _ _ _ hist) as hsh. destruct (tx_history _ _ _ _ _ hist) as (H & _).
  eapply no_panic; eauto.
  - apply hist.
  - eapply shape_kinds; eauto.
  - apply (sh_nodup _ _ _ _ _ hsh).
  - eapply rx_hist; eauto.
Qed.

Lemma run_no_panic P i : params_ok P -> start_ok i -> p_num P <= p_den P -> forall ops, Forall op_ok ops -> cn_run P ops (cn_new P i) <> Panic.
Proof.
  intros hp hi hf ops. induction ops as [|op ops IH] using rev_ind; [discriminate|]. intros ho. apply Forall_app in ho as (h1 & h2).
  apply Forall_inv in h2. specialize (IH h1). destruct (cn_run P ops (cn_new P i)) as [[outs c]|e|] eqn:E; [| |congruence].
  - assert (hist : history P i ops outs c) by (split; [|split; [|split]]; auto).
    pose proof (history_no_panic _ _ _ _ _ _ hist hf h2) as q. destruct (cn_step P op c) as [[o c2]|e|] eqn:Es; [| |congruence].
    + rewrite (run_app_ok P ops [op] _ outs c [o] c2); auto; [discriminate|]. cbn. rewrite Es. reflexivity.
    + clear -E Es. revert E. generalize (cn_new P i). intros c0. revert outs c0. induction ops as [|a ops IH]; intros outs c0 h; cbn [cn_run app] in *.
      * injection h as <- <-. rewrite Es. discriminate.
      * destruct (cn_step P a c0) as [[o1 c1]| |]; try discriminate. cbn [bind] in *.
        destruct (cn_run P ops c1) as [[os c3]| |] eqn:E3; try discriminate. cbn in h. injection h as <- <-.
        specialize (IH _ _ E3). destruct (cn_run P (ops ++ [op]) c1) as [[]| |]; cbn [bind]; congruence.
  - clear -E. revert E. generalize (cn_new P i). intros c0. revert c0. induction ops as [|a ops IH]; intros c0 h; cbn [cn_run app] in *; [discriminate|].
    destruct (cn_step P a c0) as [[o1 c1]| |]; try discriminate. cbn [bind] in *.
    destruct (cn_run P ops c1) as [[os c3]| |] eqn:E3; try discriminate. cbn [bind] in h; injection h as ->; specialize (IH _ E3).
    destruct (cn_run P (ops ++ [op]) c1) as [[]| |]; cbn [bind]; congruence.
Qed.
