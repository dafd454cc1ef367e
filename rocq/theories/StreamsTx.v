(** The send side of one stream as the connection drives it: what the buffer
    knows about the history, step by step. *)
Require Import Verif.Base Verif.Errors Verif.Assoc Verif.OctetsModel Verif.RangeBufModel Verif.RangesModel Verif.RangesProofs
  Verif.SendBufModel Verif.SendSpec Verif.SendBufProofs Verif.SendBufProofs2 Verif.SendBufProofs3
  Verif.SendProofs Verif.SendProofs2 Verif.SendProofs3
  Verif.StreamsModel Verif.StreamsProofs Verif.StreamsEffects.

(** Once everything is acknowledged no buffer is left. *)
Definition alldone (b : sendbuf) : Prop :=
  (forall x, 0 <= x < sb_off b -> covers (rs_ranges (sb_acked b)) x) -> sb_data b = [].

Lemma Sb_nil W s : Sb W s -> (forall x, ~ pending (sb_data s) x /\ ~ consumed (sb_data s) x) -> sb_data s = [].
Proof.
  intros h hn. destruct (i_chain _ _ h) as (base & b1 & b2 & b3). destruct (chain_le _ _ _ _ b2) as (l1 & [l2|(l2 & l3 & l4)]); auto.
  destruct (proj1 (chain_cover _ _ _ _ base b2) ltac:(lia)) as [q|q]; destruct (hn base); tauto.
Qed.

Lemma complete_empty W s : Sb W s -> alldone s -> sb_is_complete s = true -> sb_data s = [] /\ sb_buffered s = 0.
Proof.
  intros h hd hc. assert (e : sb_data s = []).
  { apply hd. unfold sb_is_complete in hc. destruct (i_fin _ _ h) as [q|q]; rewrite q in hc; [discriminate|].
    destruct (i_ack _ _ h) as (a1 & a2 & a3). pose proof (i_emit _ _ h).
    destruct (Z.eq_dec (sb_off s) 0) as [z|z]; [lia|].
    apply (proj1 (eq_range_iff (sb_acked s) (sb_off s) a1 ltac:(unfold ends_below in *; eapply Forall_impl; [|exact a3]; cbn; lia) ltac:(lia))). auto. }
  split; auto. rewrite (i_buf _ _ h), e. reflexivity.
Qed.

Definition tin (md : Z) (W : list Z) (L : Z) (G : Prop) (BA : Z -> Prop) (fr : list sframe) (q : bool) (b : sendbuf) : Prop :=
  exists ops outs st, Hist md ops outs st /\ ss_gone st = false /\ ss_buf st = b /\ frames outs = fr /\
    written ops outs = W /\ limit md ops = L /\ (fin_written ops outs <-> G) /\
    (forall x, byte_acked ops outs x -> BA x) /\ (q = true -> ss_flush st = true) /\ alldone b.

Lemma tin_sb md W L G BA fr q b : tin md W L G BA fr q b -> Sb W b /\ alldone b.
Proof. intros (ops & outs & st & h & _ & <- & _ & <- & _ & _ & _ & _ & hd). split; [apply h|auto]. Qed.

Lemma tin_mono md W L G BA fr q b (G' : Prop) (BA' : Z -> Prop) (q' : bool) : tin md W L G BA fr q b ->
  (G <-> G') -> (forall x, BA x -> BA' x) -> (q' = true -> q = true) -> tin md W L G' BA' fr q' b.
Proof.
  intros (ops & outs & st & h1 & h2 & h3 & h4 & h5 & h6 & h7 & h8 & h9 & h10) hG hB hq.
  exists ops, outs, st. ands; auto. rewrite h7. auto.
Qed.

Lemma tin_new md BA : 0 <= md <= max_varint -> tin md [] md False BA [] false (sb_new md).
Proof.
  intros hm. exists [], [], (sn_new md). ands; auto; try discriminate.
  - apply hist_new. auto.
  - split; [|tauto]. intros (op & o & [] & _).
  - intros x (i & f & q & _). destruct i; discriminate.
  - intros _. reflexivity.
Qed.

Lemma hist_blocked md ops outs st b : Hist md ops outs st ->
  Hist md ops outs (mkSS (sb_update_blocked b (ss_buf st)) (ss_flush st) (ss_sent st) (ss_gone st)).
Proof.
  intros h. destruct h. constructor; cbn [ss_buf ss_flush ss_sent ss_gone]; auto.
  apply sb_blocked_ok. auto.
Qed.

Lemma tin_blocked md W L G BA fr q b bl : tin md W L G BA fr q b -> tin md W L G BA fr q (sb_update_blocked bl b).
Proof.
  intros (ops & outs & st & h1 & h2 & h3 & h4 & h5 & h6 & h7 & h8 & h9 & h10).
  exists ops, outs, (mkSS (sb_update_blocked bl (ss_buf st)) (ss_flush st) (ss_sent st) (ss_gone st)).
  ands; auto; [apply hist_blocked; auto|cbn; congruence].
Qed.

Lemma sn_write_eq zc data txcap fin st : ss_gone st = false -> sb_error (ss_buf st) = None -> ~ (txcap = 0 /\ 0 < zlen data) ->
  sn_write zc data txcap fin st =
  let cap := send_len txcap (zlen data) in
  let fin := send_fin txcap (zlen data) fin in
  match (if zc then sb_write_zc data cap fin (ss_buf st) else sb_write (take cap data) fin (ss_buf st)) with
  | Panic => Panic
  | Err e => Ok (SoWrite (Err e), st)
  | Ok (sent, s) =>
      let s' := sb_update_blocked (if sent <? cap then Some (sb_max_data s) else None) s in
      Ok (SoWrite (if (sent =? 0) && (0 <? cap) then Err Done else Ok sent),
          mkSS s' (ss_flush st || ((sb_is_flushable s || ((zlen data =? 0) && fin)) && negb (sb_is_flushable (ss_buf st)))) (ss_sent st) false)
  end.
Proof.
  intros h1 h2 h3. unfold sn_write. rewrite h1, h2. cbv zeta.
  destruct ((txcap =? 0) && (0 <? zlen data)) eqn:E; [lia|]. unfold send_len, send_fin.
  destruct (txcap <? zlen data).
  - destruct (if zc then _ else _) as [[sent s]|e|]; auto. destruct (sent <? txcap); reflexivity.
  - destruct (if zc then _ else _) as [[sent s]|e|]; auto. destruct (sent <? zlen data); reflexivity.
Qed.

Lemma in_fin_snoc ops outs op o : length ops = length outs ->
  (fin_written (ops ++ [op]) (outs ++ [o]) <-> fin_written ops outs \/ fin_write op o).
Proof. apply fin_written_snoc. Qed.

Lemma byte_acked_quiet ops outs op o x : length ops = length outs -> (forall i, op <> SnAck i) ->
  byte_acked (ops ++ [op]) (outs ++ [o]) x -> byte_acked ops outs x.
Proof. intros hl hn h. apply byte_acked_snoc in h; auto. destruct h as [h|(i & f & q & _)]; auto. destruct (hn _ q). Qed.

Lemma tin_write md W L G BA fr q b (zc : bool) data txcap fin : tin md W L G BA fr q b -> 0 <= txcap -> sb_error b = None ->
  ~ (txcap = 0 /\ 0 < zlen data) ->
  let cap := send_len txcap (zlen data) in
  let fin' := send_fin txcap (zlen data) fin in
  match (if zc then sb_write_zc data cap fin' b else sb_write (take cap data) fin' b) with
  | Panic => False
  | Err _ => True
  | Ok (n, b') => 0 <= n <= cap /\ sb_off b' = sb_off b + n /\ sb_buffered b' = sb_buffered b + n /\
      sb_shut b' = sb_shut b /\ sb_error b' = None /\ sb_emit_off b' = sb_emit_off b /\ (sb_shut b = true -> n = 0) /\
      forall (G' : Prop) (q' : bool) (bl : option Z), (G' <-> G \/ (fin = true /\ n = zlen data)) ->
      (q' = true -> q = true \/ (sb_is_flushable b' || ((zlen data =? 0) && fin')) && negb (sb_is_flushable b) = true) ->
      tin md (W ++ take n data) L G' BA fr q' (sb_update_blocked bl b')
  end.
Proof.
  intros (ops & outs & st & h1 & h2 & h3 & h4 & h5 & h6 & h7 & h8 & h9 & h10) hcap he hn. cbv zeta.
  pose proof (zlen_nonneg data) as hz.
  destruct (hist_write md ops outs st zc data txcap fin h1 hcap) as (r & st' & g1 & g2 & g3).
  rewrite sn_write_eq in g1; auto; [|congruence]. cbv zeta in g1. rewrite h3 in g1.
  assert (hc : 0 <= send_len txcap (zlen data) <= zlen data) by (unfold send_len; destr_if; lia).
  pose proof (h_sb _ _ _ _ h1) as hs. rewrite h3 in hs.
  set (cap := send_len txcap (zlen data)) in *. set (fin' := send_fin txcap (zlen data) fin) in *.
  assert (hp : write_post (written ops outs) b (take cap data) fin' (if zc then sb_write_zc data cap fin' b else sb_write (take cap data) fin' b)).
  { destruct zc; [apply sb_write_zc_spec|apply sb_write_spec]; auto. }
  assert (zt : zlen (take cap data) = cap) by (rewrite zlen_take by lia; lia).
  destruct (if zc then sb_write_zc data cap fin' b else sb_write (take cap data) fin' b) as [[n b']|e|]; auto.
  cbn in hp. destruct hp as (w1 & w2 & w3 & w4 & w5 & w6 & w7 & w8 & w9 & w10 & w11 & w12 & w13 & w14 & w15 & w16).
  rewrite zt in *. injection g1 as gr gs. ands; auto; try lia.
  intros G' q' bl hG hq. pose proof (h_len _ _ _ _ h1) as hl.
  exists (ops ++ [write_op zc data txcap fin]), (outs ++ [SoWrite r]),
    (mkSS (sb_update_blocked bl (ss_buf st')) (ss_flush st') (ss_sent st') (ss_gone st')).
  assert (ha : accepted (write_op zc data txcap fin) (SoWrite r) = take n data).
  { subst r. destruct ((n =? 0) && (0 <? cap)) eqn:E.
    - assert (n = 0) as -> by lia. destruct zc; reflexivity.
    - destruct zc; reflexivity. }
  ands.
  - apply hist_blocked. auto.
  - subst st'. reflexivity.
  - subst st'. reflexivity.
  - rewrite frames_app. cbn. rewrite app_nil_r. auto.
  - rewrite written_snoc, ha by auto. congruence.
  - rewrite limit_app. destruct zc; cbn; auto.
  - rewrite in_fin_snoc by auto. rewrite hG, h7. apply or_iff_compat_l. subst r.
    destruct ((n =? 0) && (0 <? cap)) eqn:E.
    + split; [destruct zc, fin; cbn; tauto|]. intros (_ & q0). lia.
    + destruct zc, fin; cbn; intuition (auto; discriminate).
  - intros x hx. apply h8. eapply byte_acked_quiet; eauto. intros i. destruct zc; discriminate.
  - intros hq'. subst st'. cbn [ss_flush]. destruct (hq hq') as [q0|q0]; [rewrite h9 by auto; auto|].
    rewrite q0. apply orb_true_r.
  - intros hcov. change (sb_data b' = []). change (sb_off (sb_update_blocked bl b')) with (sb_off b') in hcov.
    change (sb_acked (sb_update_blocked bl b')) with (sb_acked b') in hcov. rewrite w11, w5 in hcov.
    destruct (i_ack _ _ hs) as (a1 & a2 & a3). pose proof (i_emit _ _ hs).
    assert (n = 0).
    { destruct (Z.eq_dec n 0); auto. exfalso. pose proof (i_off _ _ hs).
      destruct (hcov (sb_off b) ltac:(lia)) as (s1 & e1 & q1 & q2).
      unfold ends_below in a3. rewrite Forall_forall in a3. specialize (a3 _ q1). cbn in a3. lia. }
    subst n. assert (ed : sb_data b = []) by (apply h10; intros x hx; apply hcov; lia).
    apply (Sb_nil _ _ w2). intros x. rewrite w15, w16, ed. split; [intros [q0|q0]; [apply (pending_nil _ q0)|lia]|apply consumed_nil].
Qed.

Lemma sb_emit_nil cap s bytes fin b : sb_data s = [] -> sb_emit cap s = Ok (bytes, fin, b) -> sb_data b = [].
Proof.
  unfold sb_emit. intros ->. rewrite skipn_nil, firstn_nil. cbn [emit_bufs bind]. cbv zeta. cbn [bind app].
  intros h. injection h as _ _ <-. reflexivity.
Qed.

Lemma tin_emit md W L G BA fr q b n : tin md W L G BA fr q b -> q = true -> 0 <= n -> sb_error b = None ->
  exists bytes fin b', sb_emit n b = Ok (bytes, fin, b') /\
    sb_off b' = sb_off b /\ sb_buffered b' = sb_buffered b - zlen bytes /\ sb_shut b' = sb_shut b /\ sb_error b' = sb_error b /\
    zlen bytes <= n /\
    (sb_off_front b < sb_off b -> 0 < n -> 0 < zlen bytes) /\
    forall (q' : bool), (q' = true -> sb_is_flushable b' = true) ->
    tin md W L G BA (fr ++ [mkFrame (sb_off_front b) bytes fin]) q' b'.
Proof.
  intros (ops & outs & st & h1 & h2 & h3 & h4 & h5 & h6 & h7 & h8 & h9 & h10) hq hn he. subst b.
  pose proof (h_sb _ _ _ _ h1) as hs. pose proof (h_len _ _ _ _ h1) as hl.
  destruct (sb_emit_spec _ _ n hs hn) as (out & fin & s' & e1 & e2 & e3 & e4 & e5 & e6 & e7 & e8 & e9
     & e10 & e11 & e12 & e13 & e14 & e15 & e16).
  destruct (hist_emit md ops outs st n h1 hn h2 he (h9 hq)) as (f & st' & g1 & g2 & _).
  unfold sn_emit in g1. rewrite (h9 hq), h2, he, e1 in g1. cbn [negb bind] in g1. injection g1 as gf gs.
  exists out, fin, s'. ands; auto. intros q' hq'.
  exists (ops ++ [SnEmit n]), (outs ++ [SoFrame (Some f)]), st'. ands; auto; subst st'; auto.
  - rewrite frames_app. cbn. congruence.
  - rewrite written_snoc by auto. cbn. rewrite app_nil_r. auto.
  - rewrite limit_app. auto.
  - rewrite in_fin_snoc by auto. cbn. tauto.
  - intros x hx. apply h8. eapply byte_acked_quiet; eauto. discriminate.
  - intros hc. rewrite e8, e13 in hc. eapply sb_emit_nil; eauto.
Qed.

Lemma map_nth_fst (l : list (sframe * bool * bool)) fr i f : map sent_frame l = fr -> nth_error fr i = Some f ->
  exists a o, nth_error l i = Some (f, a, o).
Proof.
  intros <- h. rewrite nth_error_map in h. destruct (nth_error l i) as [[[f0 a] o]|]; [|discriminate]. cbn in h. injection h as <-. eauto.
Qed.

Lemma drop_all W ack l : forall base e, chain W base l e -> e <= ack -> drop_count ack l = length l.
Proof.
  induction l as [|b l IH]; intros base e hc he; [reflexivity|]. cbn [drop_count length].
  pose proof hc as hc0. destruct hc as (c1 & c2 & c3).
  assert (hm : rb_off b < rbM b).
  { pose proof (buf_ok_bounds _ _ c1). lia. }
  pose proof (chain_le _ _ _ _ c3) as (k & _).
  assert (rbM b <= ack) by lia.
  destruct (ack <=? rb_off b) eqn:E1; [lia|]. destruct (_ && _) eqn:E2; [lia|].
  f_equal. eapply IH; eauto.
Qed.

Lemma tin_ack md W L G BA fr q b i f : tin md W L G BA fr q b -> nth_error fr i = Some f ->
  exists d b', sb_ack_and_drop (sf_off f) (zlen (sf_bytes f)) b = Ok (d, b') /\
    sb_off b' = sb_off b /\ sb_buffered b' = sb_buffered b - d /\ 0 <= d /\ sb_shut b' = sb_shut b /\ sb_error b' = sb_error b /\
    (sb_is_flushable b' = true -> sb_is_flushable b = true) /\
    forall (BA' : Z -> Prop), (forall x, BA x \/ in_frame f x -> BA' x) -> tin md W L G BA' fr q b'.
Proof.
  intros (ops & outs & st & h1 & h2 & h3 & h4 & h5 & h6 & h7 & h8 & h9 & h10) hi. subst b.
  pose proof (h_sb _ _ _ _ h1) as hs. pose proof (h_len _ _ _ _ h1) as hl.
  destruct (hist_ack md ops outs st i h1) as (st' & g1 & g2).
  destruct (map_nth_fst _ _ _ _ (h_sent _ _ _ _ h1) ltac:(rewrite h4; eauto)) as (a & lo & hn).
  destruct (h_frame _ _ _ _ h1 f) as (b1 & b2 & b3); [rewrite h4; eapply nth_error_In; eauto|].
  pose proof (zlen_nonneg (sf_bytes f)) as lf.
  destruct (sb_ack_and_drop_spec _ _ (sf_off f) (zlen (sf_bytes f)) hs b1 lf b3) as
    (d & s' & e1 & e2 & (e3 & e4 & e5 & e6 & e7 & e8) & e9 & e10 & e11 & e12 & e13 & e14 & e15).
  unfold sn_ack in g1. rewrite hn, h2, e1 in g1. cbn [bind] in g1. injection g1 as gs.
  exists d, s'. ands; auto.
  { intros hf. apply (flushable_iff _ _ e2) in hf as (x & hx). apply (flushable_iff _ _ hs). eauto. }
  intros BA' hB.
  exists (ops ++ [SnAck i]), (outs ++ [SoNone]), st'. ands; auto; try (subst st'; auto; fail).
  - rewrite frames_app. cbn. rewrite app_nil_r. auto.
  - rewrite written_snoc by auto. cbn. rewrite app_nil_r. auto.
  - rewrite limit_app. auto.
  - rewrite in_fin_snoc by auto. cbn. tauto.
  - intros x hx. apply byte_acked_snoc in hx; auto. apply hB. destruct hx as [hx|(j & g & q1 & q2 & q3)]; auto.
    right. injection q1 as <-. rewrite h4 in q2. congruence.
  - intros hc. rewrite e3 in hc.
    (* everything is acknowledged *)
    unfold sb_ack_and_drop in e1. destruct (sb_ack_spec _ _ _ _ hs b1 lf b3) as (s1 & k1 & k2 & (k3 & k4 & k5 & k6 & _) & k7 & k8 & k9 & k10 & k11).
    rewrite k1 in e1. cbn [bind] in e1.
    destruct (i_ack _ _ k2) as (a1 & a2 & a3). pose proof (i_emit _ _ k2) as ie. pose proof (i_off _ _ k2) as io.
    assert (ra : rs_ranges (sb_acked s') = rs_ranges (sb_acked s1)) by congruence.
    assert (hfull : sb_off s1 <= sb_ack_off s1).
    { rewrite ack_off_eq. destruct (Z_le_gt_dec (sb_off s1) 0) as [z|z].
      { pose proof (ack_end_bound _ _ a1 a3 ltac:(lia)). lia. }
      pose proof (proj2 (eq_range_iff (sb_acked s1) (sb_off s1) a1 ltac:(unfold ends_below in *; eapply Forall_impl; [|exact a3]; cbn; lia) ltac:(lia))) as hr.
      assert (hr' : rs_eq_range (sb_acked s1) (0, sb_off s1) = true) by (apply hr; intros x hx; rewrite <- ra; apply hc; lia).
      unfold rs_eq_range in hr'. unfold ack_end. destruct (rs_ranges (sb_acked s1)) as [|[r1 r2] [|r l]]; try discriminate.
      cbn [fst snd] in hr'. apply andb_true_iff in hr' as (q1 & q2). destruct (r1 =? 0) eqn:Er; lia. }
    destruct (sb_is_empty s1) eqn:Ee.
    { injection e1 as _ <-. unfold sb_is_empty in Ee. destruct (sb_data s1); [auto|discriminate]. }
    assert (h0 : sf_off f <= sb_ack_off s1) by (unfold frame_end in b3; lia).
    destruct (sb_ack_off s1 <? sf_off f) eqn:E1; [lia|].
    destruct (i_chain _ _ k2) as (base & c1 & c2 & c3).
    rewrite (drop_all _ _ _ _ _ c2 hfull) in e1.
    destruct (length (sb_data s1)) as [|k] eqn:El.
    + injection e1 as _ <-. destruct (sb_data s1); [auto|discriminate].
    + injection e1 as _ <-. cbn [sb_data]. destruct (sb_data s1) as [|r0 l0]; [auto|]. cbn [length] in El. injection El as El. rewrite <- El. cbn [skipn]. apply skipn_all.
Qed.

Lemma tin_lost md W L G BA fr q b i f : tin md W L G BA fr q b -> nth_error fr i = Some f -> sb_error b = None ->
  exists n b', sb_retransmit (sf_off f) (zlen (sf_bytes f)) b = Ok (n, b') /\
    sb_off b' = sb_off b /\ sb_buffered b' = sb_buffered b + n /\ 0 <= n /\ sb_shut b' = sb_shut b /\ sb_error b' = sb_error b /\
    (sb_is_flushable b = true -> sb_is_flushable b' = true) /\
    forall (q' : bool), (q' = true -> q = true \/ (sb_is_flushable b' || ((zlen (sf_bytes f) =? 0) && sf_fin f)) && negb (sb_is_flushable b) = true) ->
    tin md W L G BA fr q' b'.
Proof.
  intros (ops & outs & st & h1 & h2 & h3 & h4 & h5 & h6 & h7 & h8 & h9 & h10) hi he. subst b.
  pose proof (h_sb _ _ _ _ h1) as hs. pose proof (h_len _ _ _ _ h1) as hl.
  destruct (hist_lost md ops outs st i h1) as (st' & g1 & g2).
  destruct (map_nth_fst _ _ _ _ (h_sent _ _ _ _ h1) ltac:(rewrite h4; eauto)) as (a & lo & hn).
  destruct (h_frame _ _ _ _ h1 f) as (b1 & b2 & b3); [rewrite h4; eapply nth_error_In; eauto|].
  pose proof (zlen_nonneg (sf_bytes f)) as lf.
  destruct (sb_retransmit_spec _ _ (sf_off f) (zlen (sf_bytes f)) hs b1 lf b3) as
    (n & s' & e1 & e2 & (e3 & e4 & e5 & e6 & e7 & e8) & e9 & e10 & e11 & e12 & e13 & e14 & e15).
  unfold sn_lost in g1. rewrite hn, h2, he, e1 in g1. cbn [bind] in g1. injection g1 as gs.
  exists n, s'. ands; auto.
  { intros hf. apply (flushable_iff _ _ hs) in hf as (x & hx). apply (flushable_iff _ _ e2). eauto. }
  intros q' hq.
  exists (ops ++ [SnLost i]), (outs ++ [SoNone]), st'. ands; auto; try (subst st'; auto; fail).
  - rewrite frames_app. cbn. rewrite app_nil_r. auto.
  - rewrite written_snoc by auto. cbn. rewrite app_nil_r. auto.
  - rewrite limit_app. auto.
  - rewrite in_fin_snoc by auto. cbn. tauto.
  - intros x hx. apply h8. eapply byte_acked_quiet; eauto. discriminate.
  - intros hq'. subst st'. cbn [ss_flush]. destruct (hq hq') as [q0|q0]; [rewrite h9 by auto; auto|].
    rewrite q0. apply orb_true_r.
  - intros hc. rewrite e3, e9 in hc. specialize (h10 hc). unfold sb_retransmit, sb_is_empty in e1. rewrite h10 in e1.
    injection e1 as _ <-. auto.
Qed.

Lemma tin_max md W L G BA fr q b m (q' : bool) : tin md W L G BA fr q b -> 0 <= m <= max_varint ->
  (q' = true -> q = true \/ sb_is_flushable (sb_update_max_data m b) && negb (sb_is_flushable b) = true) ->
  tin md W (Z.max L m) G BA fr q' (sb_update_max_data m b).
Proof.
  intros (ops & outs & st & h1 & h2 & h3 & h4 & h5 & h6 & h7 & h8 & h9 & h10) hm hq. subst b.
  pose proof (h_len _ _ _ _ h1) as hl.
  destruct (hist_max_data md ops outs st m h1 hm) as (st' & g1 & g2).
  unfold sn_max_data in g1. rewrite h2 in g1. injection g1 as gs.
  exists (ops ++ [SnMaxData m]), (outs ++ [SoNone]), st'. ands; auto; try (subst st'; auto; fail).
  - rewrite frames_app. cbn. rewrite app_nil_r. auto.
  - rewrite written_snoc by auto. cbn. rewrite app_nil_r. auto.
  - rewrite limit_app. cbn. congruence.
  - rewrite in_fin_snoc by auto. cbn. tauto.
  - intros x hx. apply h8. eapply byte_acked_quiet; eauto. discriminate.
  - intros hq'. subst st'. cbn [ss_flush]. destruct (hq hq') as [q0|q0]; [rewrite h9 by auto; auto|].
    rewrite q0. apply orb_true_r.
Qed.

Lemma tin_stop md W L G BA fr q b code : tin md W L G BA fr q b -> sb_error b = None ->
  exists b', sb_stop code b = Ok (sb_emit_off b, sb_off b - sb_emit_off b, b') /\
    sb_off b' = sb_emit_off b /\ sb_buffered b' = 0 /\ sb_error b' = Some code /\ sb_shut b' = sb_shut b /\
    sb_is_flushable b' = false /\ tin md W L G BA fr q b'.
Proof.
  intros (ops & outs & st & h1 & h2 & h3 & h4 & h5 & h6 & h7 & h8 & h9 & h10) he. subst b.
  pose proof (h_len _ _ _ _ h1) as hl. pose proof (h_sb _ _ _ _ h1) as hs.
  destruct (hist_stop md ops outs st code h1) as (r & st' & g1 & g2 & g3 & _).
  destruct (sb_reset_spec _ _ hs) as (s1 & r1 & r2 & r3 & r4 & r5 & r6 & r7 & r8 & r9 & r10 & r11).
  unfold sn_stop in g1. rewrite h2 in g1. unfold sb_stop in *. rewrite he, r1 in *. cbn [bind] in *. injection g1 as gr gs.
  eexists. split; [reflexivity|]. cbn [sb_off sb_buffered sb_error sb_shut]. ands; auto.
  { unfold sb_is_flushable, sb_is_empty. cbn [sb_data]. rewrite r2. reflexivity. }
  exists (ops ++ [SnStop code]), (outs ++ [SoReset r]), st'. ands; auto; try (subst st'; auto; fail).
  - rewrite frames_app. cbn. rewrite app_nil_r. auto.
  - rewrite written_snoc by auto. cbn. rewrite app_nil_r. auto.
  - rewrite limit_app. auto.
  - rewrite in_fin_snoc by auto. cbn. tauto.
  - intros x hx. apply h8. eapply byte_acked_quiet; eauto. discriminate.
  - intros _. auto.
Qed.

Lemma tin_shutdown md W L G BA fr q b : tin md W L G BA fr q b -> sb_shut b = false ->
  exists b', sb_shutdown b = Ok (sb_emit_off b, sb_off b - sb_emit_off b, b') /\
    sb_off b' = sb_emit_off b /\ sb_buffered b' = 0 /\ sb_error b' = sb_error b /\ sb_shut b' = true /\
    sb_is_flushable b' = false /\ tin md W L G BA fr q b'.
Proof.
  intros (ops & outs & st & h1 & h2 & h3 & h4 & h5 & h6 & h7 & h8 & h9 & h10) he. subst b.
  pose proof (h_len _ _ _ _ h1) as hl. pose proof (h_sb _ _ _ _ h1) as hs.
  destruct (hist_shutdown md ops outs st h1) as (r & st' & g1 & g2 & g3 & _). specialize (g3 h2 he).
  destruct (sb_reset_spec _ _ hs) as (s1 & r1 & r2 & r3 & r4 & r5 & r6 & r7 & r8 & r9 & r10 & r11).
  unfold sn_shutdown in g1. rewrite h2 in g1. unfold sb_shutdown in *. rewrite he in *. rewrite sb_reset_shut, r1 in *.
  cbn [bind] in *. injection g1 as gr gs.
  eexists. split; [reflexivity|]. cbn [sb_off sb_buffered sb_error sb_shut]. ands; auto.
  { unfold sb_is_flushable, sb_is_empty. cbn [sb_data]. rewrite r2. reflexivity. }
  exists (ops ++ [SnShutdown]), (outs ++ [SoReset r]), st'. ands; auto; try (subst st'; auto; fail).
  - rewrite frames_app. cbn. rewrite app_nil_r. auto.
  - rewrite written_snoc by auto. cbn. rewrite app_nil_r. auto.
  - rewrite limit_app. auto.
  - rewrite in_fin_snoc by auto. cbn. tauto.
  - intros x hx. apply h8. eapply byte_acked_quiet; eauto. discriminate.
  - intros _. auto.
Qed.
