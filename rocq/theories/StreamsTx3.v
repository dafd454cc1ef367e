(** Every operation keeps the invariant of the send side. *)
Require Import Verif.Base Verif.Errors Verif.Assoc Verif.OctetsModel Verif.FlowControlModel Verif.RangeBufModel
  Verif.RangesModel Verif.RangesProofs Verif.RecvBufModel
  Verif.SendBufModel Verif.SendSpec Verif.SendBufProofs Verif.SendBufProofs2 Verif.SendBufProofs3
  Verif.SendProofs Verif.SendProofs2 Verif.SendProofs3
  Verif.StreamsModel Verif.StreamsSpec Verif.StreamsProofs
  Verif.StreamsEffects Verif.StreamsShape Verif.StreamsShape2 Verif.StreamsRecv Verif.StreamsTx Verif.StreamsTx2.

Lemma ceil_range a n d : 0 <= a -> 0 <= n -> 0 < d -> 0 <= (a * n + d - 1) / d /\ (n <= d -> (a * n + d - 1) / d <= a).
Proof.
  intros ha hn hd. split; [apply Z.div_pos; nia|]. intros h.
  apply Z.lt_succ_r. apply Z.div_lt_upper_bound; nia.
Qed.

Lemma stop_err code b e : sb_stop code b = Err e -> sb_error b <> None.
Proof.
  unfold sb_stop. destruct (sb_error b); [congruence|]. unfold sb_reset, sb_ack. cbv zeta.
  match goal with |- context [rs_insert ?a ?r] => destruct (rs_insert a r) end; cbn [bind]; discriminate.
Qed.
Lemma stop_ok_err code b r : sb_stop code b = Ok r -> sb_error b = None.
Proof. unfold sb_stop. destruct (sb_error b); [discriminate|auto]. Qed.
Lemma shutdown_ok_shut b r : sb_shutdown b = Ok r -> sb_shut b = false.
Proof. unfold sb_shutdown. destruct (sb_shut b); [discriminate|auto]. Qed.
Lemma cap_ok_err b n : sb_cap b = Ok n -> sb_error b = None.
Proof. unfold sb_cap. destruct (sb_error b); [discriminate|auto]. Qed.

Lemma resets_log c sent x code final c' : c_reset c' = c_reset c -> c_sent c' = c_sent c ++ sent ->
  (forall x code final, ~ In (SfReset x code final) sent) -> resets c' x code final -> resets c x code final.
Proof.
  unfold resets. intros -> -> h [q|q]; auto. apply in_app_iff in q as [q|q]; auto. destruct (h _ _ _ q).
Qed.
Lemma resets_same c x code final c' : c_reset c' = c_reset c -> c_sent c' = c_sent c ->
  resets c' x code final -> resets c x code final.
Proof. unfold resets. intros -> ->. auto. Qed.
Lemma mcoll_txbuf b sid s c v : set_c_txbuf v (mcoll b sid s c) = mcoll b sid s (set_c_txbuf v c).
Proof. unfold mcoll, coll, set_kind. destruct b, (st_local s), (is_bidi sid); reflexivity. Qed.

Ltac gs := cbn [g_step g_w g_l g_fin g_rst wrote raised finishes cut].
Ltac dlink q := match type of q with linked _ (if ?b then _ else _) = true => destruct b eqn:? end.
Ltac qg := intros; apply same_at_quiet; cbn; auto.
Ltac ghost := eapply tx_ghost; [|qg|apply more_ack_step].
Ltac rcvo t := eapply t; [eassumption|eassumption|reflexivity|first [left; reflexivity|right; eexists; reflexivity]|..]; auto; try reflexivity; try discriminate; try (intros ? ? ?; apply resets_same; reflexivity);
  try (exists (@nil sentf); split; [rewrite app_nil_r; reflexivity|reflexivity]).
Ltac ext0 := exists (@nil sentf); split; [rewrite app_nil_r; reflexivity|reflexivity].

Section P.
Variable P : params.
Hypothesis hP : params_ok P.

Lemma tx_stop g sid code c o c' : op_ok (CnStop sid code) -> NoDup (akeys (c_streams c)) -> TxC P g c -> cn_stop P sid code c = Ok (o, c') ->
  TxC P (g_step (CnStop sid code) o c g) c'.
Proof.
  intros (hs & _) hn H h. apply stop_ok in h as [(-> & -> & _)|(s & c1 & hg & -> & _ & h)].
  { ghost. auto. }
  pose proof (tx_goc P hP _ _ _ _ _ _ hs H hg) as H1. pose proof (gocs_ent _ _ _ _ _ _ hg) as he.
  pose proof (gocs_rest _ _ _ _ _ _ hg) as hr. pose proof (nodup_goc _ _ _ _ _ _ hn hg) as hn1.
  destruct h as [(e & hst & ->)|(fi & un & b & hst & ->)].
  - eapply tx_ghost; [eassumption| |apply more_ack_step]. intros x. unfold same_at. cbn [g_w g_l g_fin g_rst g_step wrote raised finishes cut].
    rewrite app_nil_r. ands; auto; [tauto|]. split; [tauto|]. intros [q|q]; auto. subst x.
    apply (t_isr _ _ _ H1 _ _ _ he). right. eapply stop_err; eauto.
  - pose proof (stop_ok_err _ _ _ hst) as hne. pose proof (t_tin _ _ _ H1 _ _ _ he) as ht.
    destruct (tin_stop _ _ _ _ _ _ _ _ code ht hne) as (b' & s1 & s2 & s3 & s4 & s5 & s6 & s7).
    rewrite hst in s1. injection s1 as -> -> ->. pose proof (buf_le _ _ _ _ _ _ hn1 H1 he) as hb. pose proof (off_le _ _ _ _ _ _ hn1 H1 he) as ho.
    pose proof (t_sb _ _ _ _ _ _ H1 he) as hsb. pose proof (i_emit _ _ hsb) as hem.
    eapply (tx_upd P g _ c1 _ sid s (set_send b' s) false false []); eauto; cn; try (rewrite ?app_nil_r; auto; fail).
    + intros x hx. unfold same_at. cbn. rewrite app_nil_r. ands; auto; [tauto|]. split; [tauto|]. intros [q|q]; auto. congruence.
    + apply more_ack_step.
    + gs. rewrite app_nil_r. eapply tin_mono; [exact s7| | |auto].
      * tauto.
      * intros y q. rewrite <- (app_nil_r (c_sent c1)). eapply acked_in_mono; eauto. apply more_ack_step.
    + cbn. split; auto. intros _. right. congruence.
    + intros b1 b2. cbn. rewrite app_nil_r. eapply t_uni; eauto.
    + unfold sat_sub. lia.
    + unfold sat_sub. lia.
    + apply H1.
    + intros hf. pose proof (t_fac _ _ _ H1 hf). unfold sat_sub. lia.
    + intros q. destruct (i_reset _ _ hsb q) as (_ & _ & q1). split; [right; congruence|lia].
    + intros x code0 final [q|q]; [|left; right; auto]. cn_in q. destruct (Z.eq_dec sid x) as [->|n].
      * rewrite aget_aset_same in q. injection q as <- <-. right. ands; auto. right. congruence.
      * rewrite aget_aset_other in q by auto. left. left. auto.
    + discriminate.
Qed.

Lemma tx_max_stream_data g sid m c o c' : op_ok (CnMaxStreamData sid m) -> kinds P c -> TxC P g c -> cn_max_stream_data P sid m c = Ok (o, c') ->
  TxC P (g_step (CnMaxStreamData sid m) o c g) c'.
Proof.
  intros (hs & hm) hk H h. apply max_stream_data_ok in h as [(-> & -> & _)|(s & c1 & hg & -> & _ & h)].
  { ghost. auto. }
  pose proof (tx_goc P hP _ _ _ _ _ _ hs H hg) as H1. pose proof (gocs_ent _ _ _ _ _ _ hg) as he.
  pose proof (kinds_goc _ _ _ _ _ _ hk hg _ _ _ he) as (_ & _ & hkey).
  cbv zeta in h. subst c'. pose proof (t_tin _ _ _ H1 _ _ _ he) as ht.
  eapply (tx_upd P g _ c1 _ sid s (set_send (sb_update_max_data m (st_send s)) s) false false []); eauto; cn; try (rewrite ?app_nil_r; auto; fail); try (cbn; lia).
  - intros x hx. unfold same_at. cbn. rewrite app_nil_r. destruct (sid =? x) eqn:E; [lia|]. ands; auto; tauto.
  - apply more_ack_step.
  - intros x hx. destr_if; auto. rewrite linked_insert_other by congruence. auto.
  - gs. rewrite app_nil_r, Z.eqb_refl.
    eapply tin_mono with (G := g_fin g sid) (BA := acked_in g (c_sent c1) sid); [|tauto| |intros q; exact q].
    + eapply tin_max; [exact ht|auto|]. cbn [negb]. rewrite !andb_true_r. intros q.
      unfold st_flushable in *. cn_in q. clear ht. dlink q; auto.
    + intros y q. rewrite <- (app_nil_r (c_sent c1)). eapply acked_in_mono; eauto. intros k hk1. cbn. auto.
  - pose proof (t_isr _ _ _ H1 _ _ _ he) as q. cbn. unfold is_reset in *. cbn in *. tauto.
  - intros b1 b2. cbn. rewrite app_nil_r. eapply t_uni; eauto.
  - apply H1.
  - apply H1.
Qed.

Lemma sent_data_nil n (data : list Z) : n = 0 -> take n data = [].
Proof. intros ->. reflexivity. Qed.

Lemma tx_send g zc sid data fin c o c' : op_ok (CnSend zc sid data fin) -> kinds P c -> NoDup (akeys (c_streams c)) -> TxC P g c ->
  cn_send P zc sid data fin c = Ok (o, c') -> TxC P (g_step (CnSend zc sid data fin) o c g) c'.
Proof.
  intros hs hk hn H h. cbn in hs.
  assert (hq : forall e c2, TxC P g c2 -> TxC P (g_step (CnSend zc sid data fin) (CoErr e) c g) c2).
  { intros e c2 H2. eapply tx_ghost; [exact H2| |apply more_ack_step]. qg. destruct fin; tauto. }
  apply send_ok in h as [(-> & -> & _)|(hd & _ & h)]; auto. cbv zeta in h.
  match type of h with context [set_c_blk ?b c] => set (c0 := set_c_blk b c) in h end.
  assert (H0 : TxC P g c0) by (apply (tx_same P g c); auto).
  destruct h as [(-> & _ & _ & _ & ->)|[(-> & -> & _)|[(-> & -> & _)|h]]]; auto.
  { apply hq. destruct (p_blocked P); auto. unfold set_kind. destruct (is_bidi sid); apply (tx_same P g c0); auto. }
  destruct h as (s & c1 & hg & h). pose proof (tx_goc P hP _ _ _ _ _ _ hs H0 hg) as H1. pose proof (gocs_ent _ _ _ _ _ _ hg) as he.
  assert (hk0 : kinds P c0) by exact hk.
  pose proof (kinds_goc _ _ _ _ _ _ hk0 hg _ _ _ he) as (_ & _ & hkey). pose proof (gocs_rest _ _ _ _ _ _ hg) as hr.
  destruct h as [(e & _ & -> & ->)|[(n & _ & _ & _ & -> & ->)|(n & hc & hnz & [(e & _ & -> & ->)|h])]].
  - apply hq. apply tx_mcoll; auto. intros q. apply andb_true_iff in q. tauto.
  - apply hq. apply (tx_same P g c1); auto.
  - apply hq. apply (tx_same P g c1); auto.
  - destruct h as (sent & b & hw & hle & ho & bl & blocked & _ & ->).
    pose proof (t_tin _ _ _ H1 _ _ _ he) as ht. pose proof (t_cap _ _ _ H) as hcap.
    pose proof (tin_write _ _ _ _ _ _ _ _ zc data (c_txcap c) fin ht hcap (cap_ok_err _ _ hc) hnz) as K. cbv zeta in K. rewrite hw in K.
    destruct K as (k1 & k2 & k3 & k4 & k5 & k6 & k7 & k8).
    pose proof (zlen_nonneg data) as hz.
    assert (hcl : send_len (c_txcap c) (zlen data) <= zlen data) by (unfold send_len; destr_if; lia).
    assert (hwr : wrote sid (CnSend zc sid data fin) o = take sent data).
    { subst o. cbn. destruct ((sent =? 0) && (0 <? send_len (c_txcap c) (zlen data))) eqn:E; [|rewrite Z.eqb_refl; auto].
      symmetry. apply sent_data_nil. lia. }
    assert (hfi : finishes sid (CnSend zc sid data fin) o <-> fin = true /\ sent = zlen data).
    { subst o. cbn. destruct ((sent =? 0) && (0 <? send_len (c_txcap c) (zlen data))) eqn:E; destruct fin;
        intuition (try discriminate; try lia). }
    assert (hwo : forall x, x <> sid -> wrote x (CnSend zc sid data fin) o = [] /\ ~ finishes x (CnSend zc sid data fin) o).
    { intros x hx. subst o. cbn. destruct ((sent =? 0) && (0 <? send_len (c_txcap c) (zlen data))); [destruct fin; tauto|].
      destruct (sid =? x) eqn:E; [lia|]. destruct fin; split; auto. intros (q & _). congruence. }
    pose proof (gr_txcap _ _ hr) as e1. pose proof (gr_tx _ _ hr) as e2. pose proof (gr_txbuf _ _ hr) as e3. pose proof (gr_max_tx _ _ hr) as e4.
    unfold c0 in e1, e2, e3, e4. cn_in e1. cn_in e2. cn_in e3. cn_in e4.
    eapply (tx_upd P g _ c1 _ sid s (set_send (sb_update_blocked bl b) s) false false []); eauto; cn; try (rewrite ?app_nil_r; auto; fail); try (cbn [sb_buffered sb_off sb_update_blocked]; lia).
    + intros x hx. destruct (hwo x hx) as (w1 & w2). apply same_at_quiet; auto.
    + apply more_ack_step.
    + intros x hx. destr_if; auto. rewrite linked_insert_other by congruence. auto.
    + cbn [g_step g_w g_l g_fin raised]. rewrite hwr. eapply tin_mono; [apply (k8 (g_fin g sid \/ finishes sid (CnSend zc sid data fin) o) (linked sid
      (if
        (sb_is_flushable b ||
         (zlen data =? 0) && send_fin (c_txcap c) (zlen data) fin) &&
        negb (st_flushable s)
       then q_insert (st_key s) (c_fq c1)
       else c_fq c1) && negb false) bl)|tauto| |auto].
      * rewrite hfi. tauto.
      * cbn [negb]. rewrite !andb_true_r. intros q. clear ht. dlink q; auto.
      * intros y q. rewrite <- (app_nil_r (c_sent c1)). eapply acked_in_mono; eauto. apply more_ack_step.
    + pose proof (t_isr _ _ _ H1 _ _ _ he) as q. cbn [g_step g_rst cut]. revert q. unfold is_reset. cbn. rewrite k4, k5, (cap_ok_err _ _ hc). tauto.
    + intros hf. pose proof (t_fac _ _ _ H hf). lia.
    + intros q. assert (hsh : sb_shut (st_send s) = true).
      { destruct q as [q|q]; auto. rewrite (cap_ok_err _ _ hc) in q. congruence. }
      split; [left; cbn; congruence|]. cbn. rewrite k2, (k7 hsh). lia.
Qed.

Lemma tx_shutdown g sid d code cwnd c o c' : op_ok (CnShutdown sid d code cwnd) -> NoDup (akeys (c_streams c)) -> TxC P g c ->
  cn_shutdown P sid d code cwnd c = Ok (o, c') -> TxC P (g_step (CnShutdown sid d code cwnd) o c g) c'.
Proof.
  intros (hs & _ & hcw) hn H h. apply shutdown_ok in h as [(-> & (e & ->))|(s & he & -> & [h|h])].
  { eapply tx_ghost; [exact H| |apply more_ack_step]. qg. destruct d; tauto. }
  { destruct h as (n & r & -> & _ & ->). ghost. rcvo (tx_recv P g c). }
  destruct h as (fi & un & b & cap & -> & _ & hst & hle & hc & ->).
  pose proof (shutdown_ok_shut _ _ hst) as hne. pose proof (t_tin _ _ _ H _ _ _ he) as ht.
  destruct (tin_shutdown _ _ _ _ _ _ _ _ ht hne) as (b' & s1 & s2 & s3 & s4 & s5 & s6 & s7).
  rewrite hst in s1. injection s1 as -> -> ->. pose proof (buf_le _ _ _ _ _ _ hn H he) as hb. pose proof (off_le _ _ _ _ _ _ hn H he) as ho.
  pose proof (t_sb _ _ _ _ _ _ H he) as hsb. pose proof (i_emit _ _ hsb) as hem.
  assert (hcr : 0 <= cap /\ (p_num P <= p_den P -> cap <= c_max_tx c - sat_sub (c_tx c) (sb_off (st_send s) - sb_emit_off (st_send s)))).
  { destruct hP as (_ & _ & _ & _ & _ & _ & _ & p1 & p2). rewrite hc.
    match goal with |- context [Z.min cwnd ?v] => set (V := v) in *; pose proof (ceil_range (Z.min cwnd V) (p_num P) (p_den P)) as (c1 & c2); try lia end.
  }
  eapply (tx_upd P g _ c _ sid s (set_send b' s) false false []); eauto; cn; try (rewrite ?app_nil_r; auto; fail).
  - intros x hx. unfold same_at. cbn. rewrite app_nil_r. ands; auto; [tauto|]. split; [tauto|]. intros [q|q]; auto. congruence.
  - apply more_ack_step.
  - gs. rewrite app_nil_r. eapply tin_mono; [exact s7| | |auto].
    + tauto.
    + intros y q. rewrite <- (app_nil_r (c_sent c)). eapply acked_in_mono; eauto. apply more_ack_step.
  - cbn. split; auto. intros _. left. auto.
  - intros b1 b2. cbn. rewrite app_nil_r. eapply t_uni; eauto.
  - unfold sat_sub. lia.
  - unfold sat_sub. lia.
  - tauto.
  - intros hf. destruct hcr as (_ & q). specialize (q hf). lia.
  - intros q. destruct (i_reset _ _ hsb q) as (_ & _ & q1). split; [left; auto|lia].
  - intros x code0 final [q|q]; [|left; right; auto]. cn_in q. destruct (Z.eq_dec sid x) as [->|n].
    + rewrite aget_aset_same in q. injection q as <- <-. right. ands; auto. left. auto.
    + rewrite aget_aset_other in q by auto. left. left. auto.
  - discriminate.
Qed.

Lemma tx_send_stream g room c o c' : kinds P c -> NoDup (akeys (c_streams c)) -> TxC P g c ->
  cn_send_stream room c = Ok (o, c') -> TxC P (g_step (CnSendStream room) o c g) c'.
Proof.
  intros hk hn H h. unfold cn_send_stream in h. dif h; [injection h as <- <-; ghost; auto|].
  assert (hdq : forall skips x, linked x (dropq skips (c_fq c)) = true -> linked x (c_fq c) = true).
  { intros skips x q. apply linked_iff in q. apply linked_iff. unfold ids in *. apply in_map_iff in q as (k & <- & q).
    apply in_dropq in q as (q & _). apply in_map. auto. }
  apply send_stream_loop_ok in h as (skips & _ & [(-> & _ & ->)|(k & tl & s & bytes & fin & b & hq & he & hns & hroom & hem & -> & ->)]).
  { ghost. apply (tx_same P g c); auto. intros x. cn. apply hdq. }
  destruct (hk _ _ _ he) as (_ & _ & hkey). pose proof (t_tin _ _ _ H _ _ _ he) as ht.
  assert (hlk : linked (k_id k) (c_fq c) = true).
  { apply hdq with (skips := skips). rewrite hq. cbn. rewrite Z.eqb_refl. auto. }
  rewrite hlk in ht. cbn [negb andb] in ht.
  assert (hne : sb_error (st_send s) = None) by (unfold st_stopped in hns; destruct (sb_error (st_send s)); [discriminate|auto]).
  destruct (tin_emit _ _ _ _ _ _ _ _ (room - (1 + varint_len (k_id k) + varint_len (sb_off_front (st_send s)) + 2)) ht eq_refl ltac:(lia) hne)
    as (bytes' & fin' & b' & e1 & e2 & e3 & e4 & e5 & e6 & e7 & e8).
  rewrite hem in e1. injection e1 as <- <- <-. pose proof (buf_le _ _ _ _ _ _ hn H he) as hb. pose proof (off_le _ _ _ _ _ _ hn H he) as ho.
  set (sid := k_id k) in *. set (fr := mkFrame (sb_off_front (st_send s)) bytes fin) in *.
  assert (hb' : 0 <= sb_buffered b).
  { eapply buffered_nonneg. eapply (tin_sb _ _ _ _ _ _ _ _ (e8 false ltac:(discriminate))). }
  assert (hlq : forall x, linked x (if negb (st_flushable (set_send b s)) then q_remove sid (dropq skips (c_fq c))
           else if k_inc (st_key s) then q_insert (st_key s) (q_remove sid (dropq skips (c_fq c))) else dropq skips (c_fq c)) = true ->
           (x <> sid -> linked x (c_fq c) = true) /\ (x = sid -> sb_is_flushable b = true)).
  { intros x q. unfold st_flushable in q. cn_in q. destruct (sb_is_flushable b); cbn [negb] in q.
    - split; auto. intros hx. dlink q; [|eauto]. rewrite linked_insert_other in q by congruence. rewrite linked_remove_other in q by auto. eauto.
    - split; intros hx; [rewrite linked_remove_other in q by auto; eauto|]. subst x. rewrite linked_remove_same in q. discriminate. }
  eapply (tx_upd P g _ c _ sid s (set_send b s) false false [SfStream sid fr]); eauto; cn; try (rewrite ?app_nil_r; auto; fail); try lia.
  - intros x hx. apply same_at_quiet; cbn; auto.
  - apply more_ack_step.
  - intros x hx. cbn. destruct (sid =? x) eqn:Ex; [lia|auto].
  - gs. rewrite app_nil_r, frames_on_app. cbn [frames_on flat_map on_stream]. rewrite Z.eqb_refl. cbn [app].
    eapply tin_mono; [apply (e8 (linked sid (if negb (st_flushable (set_send b s)) then q_remove sid (dropq skips (c_fq c))
           else if k_inc (st_key s) then q_insert (st_key s) (q_remove sid (dropq skips (c_fq c))) else dropq skips (c_fq c)))) |tauto| |].
    + intros q. apply (hlq sid q). auto.
    + intros y q. eapply acked_in_mono; eauto. apply more_ack_step.
    + intros q. apply andb_true_iff in q. tauto.
  - pose proof (t_isr _ _ _ H _ _ _ he) as q. cbn [g_step g_rst cut]. revert q. unfold is_reset. rewrite e4, e5. tauto.
  - intros b1 b2. cbn. rewrite app_nil_r. eapply t_uni; eauto.
  - unfold sat_sub. lia.
  - apply H.
  - apply H.
  - unfold is_reset. rewrite e4, e5. auto.
  - intros x code final [q|q]; [left; left; auto|]. cn_in q. apply in_app_iff in q as [q|[q|[]]]; [left; right; auto|discriminate].
Qed.

Lemma tx_ack g i c o c' : NoDup (akeys (c_streams c)) -> TxC P g c -> cn_ack i c = Ok (o, c') -> TxC P (g_step (CnAck i) o c g) c'.
Proof.
  intros hn H h. apply ack_ok in h as (-> & [->|[(sid & f & s & d & b & hi & he & hak & ->)|(sid & code & fi & s & _ & he & ->)]]).
  { ghost. auto. }
  2:{ ghost. apply tx_mcoll; auto. intros q. apply andb_true_iff in q as (q & _). apply andb_true_iff in q. tauto. }
  cbv zeta. rewrite mcoll_txbuf. apply tx_mcoll.
  2:{ unfold ent. cn. apply aget_aset_same. }
  2:{ intros q. apply andb_true_iff in q as (q & _). apply andb_true_iff in q. tauto. }
  pose proof (t_tin _ _ _ H _ _ _ he) as ht. destruct (frames_on_in sid f (c_sent c)) as (j & hj); [eapply nth_error_In; eauto|].
  destruct (tin_ack _ _ _ _ _ _ _ _ j f ht hj) as (d' & b' & e1 & e2 & e3 & e4 & e5 & e6 & e7 & e8).
  rewrite hak in e1. injection e1 as <- <-. pose proof (buf_le _ _ _ _ _ _ hn H he) as hb.
  assert (hb' : 0 <= sb_buffered b).
  { eapply buffered_nonneg. eapply (tin_sb _ _ _ _ _ _ _ _ (e8 (fun _ => True) (fun _ _ => I))). }
  eapply (tx_upd P g _ c _ sid s (set_send b s) false false []); eauto; cn; try (rewrite ?app_nil_r; auto; fail); try lia.
  - intros x hx. apply same_at_quiet; cbn; auto.
  - apply more_ack_step.
  - gs. rewrite app_nil_r. eapply tin_mono; [apply (e8 (acked_in (g_step (CnAck i) CoOk c g) (c_sent c) sid))|tauto|auto|auto].
    intros x [q|q].
    + rewrite <- (app_nil_r (c_sent c)). eapply acked_in_mono; eauto. apply more_ack_step.
    + exists i, f. ands; auto. cbn. right. split; auto. apply nth_error_Some. congruence.
  - pose proof (t_isr _ _ _ H _ _ _ he) as q. cbn [g_step g_rst cut]. revert q. unfold is_reset. rewrite e5, e6. tauto.
  - intros b1 b2. cbn. rewrite app_nil_r. eapply t_uni; eauto.
  - unfold sat_sub. destr_if; lia.
  - apply H.
  - apply H.
  - unfold is_reset. rewrite e5, e6. auto.
Qed.

Lemma tx_lost g i c o c' : kinds P c -> TxC P g c -> cn_lost i c = Ok (o, c') -> TxC P (g_step (CnLost i) o c g) c'.
Proof.
  intros hk H h. apply lost_ok in h as (-> & h).
  destruct h as [->|[(sid & f & s & n & b & hi & he & hns & hrt & ->)|[(sid & code & fi & hi & ->)|[(sid & code & s & _ & _ & _ & ->)|
      [(sid & s & hn & he & ->)|[(hn & ->)|[(b & _ & ->)|(b & l & _ & _ & ->)]]]]]]].
  - ghost. auto.
  - pose proof (t_tin _ _ _ H _ _ _ he) as ht. destruct (frames_on_in sid f (c_sent c)) as (j & hj); [eapply nth_error_In; eauto|].
    assert (hne : sb_error (st_send s) = None) by (unfold st_stopped in hns; destruct (sb_error (st_send s)); [discriminate|auto]).
    destruct (hk _ _ _ he) as (_ & _ & hkey).
    destruct (tin_lost _ _ _ _ _ _ _ _ j f ht hj hne) as (d' & b' & e1 & e2 & e3 & e4 & e5 & e6 & e7 & e8).
    rewrite hrt in e1. injection e1 as <- <-.
    eapply (tx_upd P g _ c _ sid s (set_send b s) false false []); eauto; cn; try (rewrite ?app_nil_r; auto; fail); try lia.
    + intros x hx. apply same_at_quiet; cbn; auto.
    + apply more_ack_step.
    + intros x hx. destr_if; auto. rewrite linked_insert_other by congruence. auto.
    + gs. rewrite app_nil_r. eapply tin_mono with (BA := acked_in g (c_sent c) sid); [apply e8 with (q' := linked sid (if (st_flushable (set_send b s) || ((zlen (sf_bytes f) =? 0) && sf_fin f)) && negb (st_flushable s)
                     then q_insert (st_key s) (c_fq c) else c_fq c))|tauto| |].
      * cbn [negb]. rewrite andb_true_r. clear ht. intros q. dlink q; auto.
      * intros y q. rewrite <- (app_nil_r (c_sent c)). eapply acked_in_mono; eauto. apply more_ack_step.
      * intros q. apply andb_true_iff in q. tauto.
    + pose proof (t_isr _ _ _ H _ _ _ he) as q. cbn [g_step g_rst cut]. revert q. unfold is_reset. rewrite e5, e6. tauto.
    + intros b1 b2. cbn. rewrite app_nil_r. eapply t_uni; eauto.
    + apply H.
    + apply H.
    + unfold is_reset. rewrite e5, e6. auto.
  - ghost. eapply (tx_quiet P g g c _ []); eauto; cn; try (rewrite ?app_nil_r; auto; fail); try apply H.
    + intros. apply same_at_refl.
    + intros k; auto.
    + intros x code0 final [q|q]; [|right; auto]. cn_in q. destruct (Z.eq_dec sid x) as [->|n].
      * rewrite aget_aset_same in q. injection q as <- <-. right. eapply nth_error_In; eauto.
      * rewrite aget_aset_other in q by auto. left. auto.
  - ghost. apply (tx_same P g c); auto.
  - ghost. apply (tx_same P g c); auto.
  - ghost. apply (tx_same P g c); auto.
  - ghost. unfold set_kind. destruct b; apply (tx_same P g c); auto.
  - ghost. unfold set_kind. destruct b; apply (tx_same P g c); auto.
Qed.
End P.
