(** Every operation keeps the history invariant. *)
Require Import Verif.Base Verif.Errors Verif.RangesModel Verif.RangesProofs Verif.RangeBufModel
  Verif.RangeBufProofs Verif.SendBufModel Verif.SendBufProofs Verif.SendBufProofs2
  Verif.SendBufProofs3 Verif.SendSpec Verif.SendProofs.

Lemma ends_weaken r a b : ends_below a r -> a <= b -> ends_below b r.
Proof. unfold ends_below. intros h l. eapply Forall_impl; [|apply h]. cbn. intros. lia. Qed.

Lemma complete_covers W s x : Sb W s -> sb_is_complete s = true -> 0 <= x < sb_off s ->
  covers (rs_ranges (sb_acked s)) x.
Proof.
  intros h hc hx. unfold sb_is_complete in hc. destruct (sb_fin_off s) as [f|] eqn:E; [|discriminate].
  destruct (i_fin _ _ h) as [q|q]; [congruence|]. rewrite E in q. inv q.
  pose proof (i_ack _ _ h) as (a1 & a2 & a3). pose proof (i_emit _ _ h) as ie.
  apply (eq_range_iff (sb_acked s) (sb_off s) a1 (ends_weaken _ _ (sb_off s) a3 (proj2 ie)) ltac:(lia)); auto.
Qed.

Lemma complete_fin s : sb_is_complete s = true -> sb_fin_off s <> None.
Proof. unfold sb_is_complete. destruct (sb_fin_off s); discriminate. Qed.

Lemma complete_some W s : Sb W s -> sb_is_complete s = true -> sb_off s = 0 ->
  rs_ranges (sb_acked s) <> [].
Proof.
  intros h hc h0. unfold sb_is_complete in hc. destruct (sb_fin_off s) as [f|] eqn:E; [|discriminate].
  destruct (i_fin _ _ h) as [q|q]; [congruence|]. rewrite E in q. inv q.
  pose proof (i_ack _ _ h) as (a1 & a2 & a3). pose proof (i_emit _ _ h) as ie.
  rewrite h0 in hc. apply (eq_range_zero _ a1); auto. eapply ends_weaken; eauto. lia.
Qed.

Lemma sent_nth st outs i f a l : map sent_frame (ss_sent st) = frames outs ->
  nth_error (ss_sent st) i = Some (f, a, l) -> nth_error (frames outs) i = Some f.
Proof. intros <- h. rewrite nth_error_map, h. reflexivity. Qed.

Lemma sent_none st outs i : map sent_frame (ss_sent st) = frames outs ->
  nth_error (ss_sent st) i = None -> (length (frames outs) <= i)%nat.
Proof. intros <- h. rewrite map_length. apply nth_error_None. auto. Qed.

Lemma fin_data_fin ops outs : fin_written_with_data ops outs -> fin_written ops outs.
Proof. intros (p & q & h1 & h2 & _). exists p, q. auto. Qed.

Lemma live_off md ops outs st : Hist md ops outs st -> ~ was_reset outs ->
  sb_off (ss_buf st) = zlen (written ops outs).
Proof. intros h hr. apply (i_live _ _ (h_sb _ _ _ _ h)). rewrite (h_reset _ _ _ _ h). auto. Qed.

Lemma hist_emit md ops outs st n :
  Hist md ops outs st -> 0 <= n -> ss_gone st = false -> sb_error (ss_buf st) = None ->
  ss_flush st = true ->
  exists f st', sn_emit n st = Ok (SoFrame (Some f), st') /\
    Hist md (ops ++ [SnEmit n]) (outs ++ [SoFrame (Some f)]) st' /\
    sf_off f = sb_off_front (ss_buf st) /\ zlen (sf_bytes f) <= n /\
    sb_buffered (ss_buf st') = sb_buffered (ss_buf st) - zlen (sf_bytes f) /\
    sb_fin_off (ss_buf st') = sb_fin_off (ss_buf st) /\
    sf_fin f = match sb_fin_off (ss_buf st) with Some e => e =? frame_end f | None => false end /\
    ss_flush st' = sb_is_flushable (ss_buf st') /\
    (forall x, pending (sb_data (ss_buf st')) x <-> pending (sb_data (ss_buf st)) x /\ ~ in_frame f x) /\
    (sb_off_front (ss_buf st) < sb_off (ss_buf st) -> 0 < n -> 0 < zlen (sf_bytes f)) /\
    ss_gone st' = false /\ sb_error (ss_buf st') = None.
Proof.
  intros h hn hg he hfl. pose proof (h_sb _ _ _ _ h) as hs. pose proof (h_len _ _ _ _ h) as hl.
  destruct (sb_emit_spec _ _ n hs hn) as (out & fin & s' & e1 & e2 & e3 & e4 & e5 & e6 & e7 & e8 & e9
     & e10 & e11 & e12 & e13 & e14 & e15 & e16).
  unfold sn_emit. rewrite hfl, hg, he. cbn [negb]. rewrite e1. cbn [bind].
  set (f := mkFrame (sb_off_front (ss_buf st)) out fin).
  destruct (off_front_spec _ _ hs) as (o1 & o2 & o3 & o4).
  pose proof (i_emit _ _ hs) as ie.
  assert (fe : frame_end f = sb_off_front (ss_buf st) + zlen out) by reflexivity.
  exists f. eexists. split; [reflexivity|]. cbn [ss_buf ss_flush ss_sent ss_gone]. split.
  2:{ ands; auto; congruence. }
  assert (ew : written (ops ++ [SnEmit n]) (outs ++ [SoFrame (Some f)]) = written ops outs).
  { rewrite written_snoc by auto. apply app_nil_r. }
  assert (ef : frames (outs ++ [SoFrame (Some f)]) = frames outs ++ [f]) by (rewrite frames_app; reflexivity).
  assert (er : was_reset (outs ++ [SoFrame (Some f)]) <-> was_reset outs).
  { rewrite was_reset_snoc. split; [intros [q|(r & q)]; [auto|discriminate]|auto]. }
  assert (ea : forall i, frame_acked (ops ++ [SnEmit n]) (outs ++ [SoFrame (Some f)]) i <-> frame_acked ops outs i).
  { intros i. unfold frame_acked. rewrite happened_snoc by auto. split; [|auto].
    intros [q|(q & q')]; [auto|discriminate]. }
  assert (eL : forall i, frame_lost (ops ++ [SnEmit n]) (outs ++ [SoFrame (Some f)]) i <-> frame_lost ops outs i).
  { intros i. unfold frame_lost. rewrite happened_snoc by auto. split; [|auto].
    intros [q|(q & q')]; [auto|discriminate]. }
  assert (eba : forall x, byte_acked (ops ++ [SnEmit n]) (outs ++ [SoFrame (Some f)]) x <-> byte_acked ops outs x).
  { intros x. rewrite byte_acked_snoc by auto. split; [|auto]. intros [q|(i & g & q & _)]; [auto|discriminate]. }
  constructor; cbn [ss_buf ss_flush ss_sent ss_gone]; rewrite ?ew, ?ef, ?er.
  - rewrite !app_length. cbn. lia.
  - auto.
  - rewrite map_app, (h_sent _ _ _ _ h). reflexivity.
  - intros i g a l hi. rewrite ea, eL. destruct (Nat.lt_ge_cases i (length (ss_sent st))) as [q|q].
    + rewrite nth_error_app1 in hi by auto. apply (h_flags _ _ _ _ h _ _ _ _ hi).
    + rewrite nth_error_app2 in hi by auto. destruct (i - length (ss_sent st))%nat eqn:Ei.
      2:{ destruct n0; discriminate. }
      inv hi. assert (length (ss_sent st) = length (frames outs)) by (rewrite <- (h_sent _ _ _ _ h), map_length; auto).
      split; (split; [discriminate|]); intros k; apply happened_lt in k; lia.
  - intros g hgf. apply in_app_iff in hgf as [hgf|[<-|[]]].
    + destruct (h_frame _ _ _ _ h _ hgf) as (k1 & k2 & k3). ands; auto. lia.
    + rewrite fe. ands; [cbn; lia|exact e5|lia].
  - rewrite e7. destruct (Z.max_spec (sb_emit_off (ss_buf st)) (sb_off_front (ss_buf st) + zlen out)) as [(k1 & k2)|(k1 & k2)].
    + right. exists f. rewrite in_app_iff. cbn [In]. split; [auto|congruence].
    + rewrite k2. destruct (h_emit _ _ _ _ h) as [k|(g & g1 & g2)]; [auto|]. right. exists g.
      rewrite in_app_iff. auto.
  - rewrite e9, limit_app. cbn [limit]. destruct (h_max _ _ _ _ h). auto.
  - rewrite limit_app. cbn [limit]. apply h.
  - rewrite <- (h_reset _ _ _ _ h). unfold is_reset. rewrite e11, e12. tauto.
  - discriminate.
  - intros q x. rewrite eba, e13. apply h. auto.
  - intros q x hx. rewrite eba. pose proof (Sb_consumed_range _ _ _ e2 hx) as rx. rewrite e8 in rx.
    destruct (Sb_cover _ _ x hs rx) as [k|[k|k]].
    + right. apply (h_acked _ _ _ _ h q). auto.
    + left. apply in_flight_new; auto. unfold in_frame. cbn [sf_off sf_bytes f].
      destruct (Z_lt_ge_dec x (sb_off_front (ss_buf st) + zlen out)) as [l1|l1].
      * split; [apply o2; auto|auto].
      * exfalso. apply (Sb_excl _ _ x e2); auto. apply e15. split; auto. lia.
    + destruct (h_cons _ _ _ _ h q x k) as [k'|k']; [|auto]. left.
      destruct (in_flight_snoc ops outs (SnEmit n) (SoFrame (Some f)) x hl k') as [p|(i & g & p & _)]; [auto|discriminate].
  - intros q. rewrite e10, fin_written_snoc by auto. cbn [fin_write]. rewrite (h_fin _ _ _ _ h q). tauto.
  - intros g hgf hfin. rewrite e10. apply in_app_iff in hgf as [hgf|[<-|[]]].
    + apply (h_finf _ _ _ _ h); auto.
    + cbn [sf_fin f] in hfin. rewrite e6 in hfin. rewrite fe. destruct (sb_fin_off (ss_buf st)); [|discriminate].
      f_equal. lia.
  - intros final u q. apply in_app_iff in q as [q|[q|[]]]; [|discriminate].
    destruct (h_rfin _ _ _ _ h _ _ q) as (k1 & k2). rewrite e10, e7. split; [auto|].
    destruct (i_reset _ _ hs) as (_ & _ & k3).
    { apply (h_reset _ _ _ _ h). eexists. eauto. }
    lia.
  - intros q qd g hgf hin. rewrite fin_data_snoc in qd by auto. cbn [fin_write] in qd.
    assert (qd' : fin_written_with_data ops outs) by tauto.
    apply in_app_iff in hgf as [hgf|[<-|[]]]; [apply (h_last _ _ _ _ h q qd' g hgf hin)|].
    unfold in_frame in hin. cbn [sf_off sf_bytes f] in hin. cbn [sf_fin f]. rewrite e6.
    pose proof (proj2 (h_fin _ _ _ _ h q) (fin_data_fin _ _ qd')) as nf.
    destruct (i_fin _ _ hs) as [k|k]; [congruence|]. rewrite k. pose proof (live_off _ _ _ _ h q). lia.
  - intros _ _ k. apply (flushable_iff _ _ e2). auto.
  - intros q1 q2. rewrite e13, (h_anyack _ _ _ _ h q1 q2). split; intros (i & q); exists i; apply ea; auto.
Qed.

Lemma hist_ack md ops outs st i : Hist md ops outs st ->
  exists st', sn_ack i st = Ok (SoNone, st') /\ Hist md (ops ++ [SnAck i]) (outs ++ [SoNone]) st'.
Proof.
  intros h. pose proof (h_sb _ _ _ _ h) as hs. pose proof (h_len _ _ _ _ h) as hl.
  unfold sn_ack. destruct (nth_error (ss_sent st) i) as [[[f a0] l0]|] eqn:Ei.
  2:{ eexists. split; [reflexivity|]. apply hist_quiet with (st := st); auto; try discriminate.
      - intros j [q|q]; inv q. eapply sent_none; eauto. apply h.
      - apply h. }
  pose proof (sent_nth _ _ _ _ _ _ (h_sent _ _ _ _ h) Ei) as fi.
  assert (li : (i < length (frames outs))%nat) by (apply nth_error_Some; congruence).
  assert (lS : (i < length (ss_sent st))%nat) by (apply nth_error_Some; congruence).
  destruct (h_frame _ _ _ _ h f (nth_error_In _ _ fi)) as (b1 & b2 & b3).
  pose proof (i_emit _ _ hs) as ie. pose proof (zlen_nonneg (sf_bytes f)) as lf.
  assert (ew : written (ops ++ [SnAck i]) (outs ++ [SoNone]) = written ops outs)
    by (rewrite written_snoc by auto; apply app_nil_r).
  assert (ef : frames (outs ++ [SoNone]) = frames outs) by (rewrite frames_app; apply app_nil_r).
  assert (er : was_reset (outs ++ [SoNone]) <-> was_reset outs).
  { rewrite was_reset_snoc. split; [intros [q|(r & q)]; [auto|discriminate]|auto]. }
  assert (ea : forall j, frame_acked (ops ++ [SnAck i]) (outs ++ [SoNone]) j <-> frame_acked ops outs j \/ j = i).
  { intros j. unfold frame_acked. rewrite happened_snoc by auto. split.
    - intros [q|(q & q')]; [auto|inv q; auto].
    - intros [q| ->]; auto. }
  assert (eL : forall j, frame_lost (ops ++ [SnAck i]) (outs ++ [SoNone]) j <-> frame_lost ops outs j).
  { intros j. unfold frame_lost. rewrite happened_snoc by auto. split; [|auto].
    intros [q|(q & q')]; [auto|discriminate]. }
  assert (eba : forall x, byte_acked (ops ++ [SnAck i]) (outs ++ [SoNone]) x <-> byte_acked ops outs x \/ in_frame f x).
  { intros x. rewrite byte_acked_snoc by auto. split.
    - intros [q|(j & g & q & q1 & q2)]; [auto|]. inv q. rewrite fi in q1. inv q1. auto.
    - intros [q|q]; [auto|]. right. exists i, f. auto. }
  assert (main : forall st', ss_sent st' = set_nth i (f, true, l0) (ss_sent st) ->
     ss_gone st' = ss_gone st -> ss_flush st' = ss_flush st -> Sb (written ops outs) (ss_buf st') ->
     same_rest (ss_buf st) (ss_buf st') ->
     (ss_gone st = true -> ss_buf st' = ss_buf st) ->
     (~ was_reset outs -> forall x, covers (rs_ranges (sb_acked (ss_buf st'))) x <->
        in_frame f x \/ covers (rs_ranges (sb_acked (ss_buf st))) x) ->
     (forall x, pending (sb_data (ss_buf st')) x -> pending (sb_data (ss_buf st)) x) ->
     (forall x, consumed (sb_data (ss_buf st')) x -> consumed (sb_data (ss_buf st)) x) ->
     (~ was_reset outs -> written ops outs = [] -> rs_ranges (sb_acked (ss_buf st')) <> []) ->
     Hist md (ops ++ [SnAck i]) (outs ++ [SoNone]) st').
  { intros st' m1 m2 m3 m4 (m5 & m6 & m7 & m8 & m9 & m10) m11 m12 m13 m14 m15.
    constructor; rewrite ?ew, ?ef, ?er, ?m6, ?m7, ?m8; auto.
    - rewrite !app_length. cbn. lia.
    - rewrite m1, (set_nth_map _ _ _ _ _ Ei) by reflexivity. apply h.
    - intros j g a l hj. rewrite ea, eL. rewrite m1, set_nth_get in hj by auto.
      destruct (Nat.eqb_spec i j) as [<-|ne].
      + inv hj. split; [tauto|]. apply (h_flags _ _ _ _ h _ _ _ _ Ei).
      + destruct (h_flags _ _ _ _ h _ _ _ _ hj) as (k1 & k2). split; [|auto]. rewrite k1.
        split; [auto|]. intros [q|q]; [auto|congruence].
    - apply h.
    - apply h.
    - rewrite limit_app, m2. apply h.
    - rewrite limit_app. apply h.
    - rewrite <- (h_reset _ _ _ _ h). unfold is_reset. rewrite m9, m10. tauto.
    - rewrite m2. intros q. rewrite m11 by auto. apply h. auto.
    - intros q x. rewrite eba, m12 by auto. rewrite (h_acked _ _ _ _ h q x). tauto.
    - intros q x hx. rewrite eba. destruct (h_cons _ _ _ _ h q x (m14 _ hx)) as [k|k]; [|auto]. left.
      destruct (in_flight_snoc ops outs (SnAck i) SoNone x hl k) as [p|(j & g & p & _)]; [auto|discriminate].
    - intros q. rewrite fin_written_snoc by auto. cbn [fin_write]. rewrite (h_fin _ _ _ _ h q). tauto.
    - apply h.
    - intros final u q. apply in_app_iff in q as [q|[q|[]]]; [|discriminate]. apply (h_rfin _ _ _ _ h _ _ q).
    - rewrite fin_data_snoc by auto. cbn [fin_write]. intros q [k|k]; [|tauto]. apply (h_last _ _ _ _ h q k).
    - intros q1 q2 (x & q3). rewrite m3. rewrite m2 in q2. apply (h_flush _ _ _ _ h); auto.
      + intros q. apply q1. apply in_app_iff. auto.
      + exists x. auto.
    - intros q1 q2. split; [|auto]. intros _. exists i. apply ea. auto. }
  destruct (ss_gone st) eqn:Eg.
  - eexists. split; [reflexivity|]. pose proof (h_gone _ _ _ _ h Eg) as hc.
    apply main; cbn [ss_buf ss_flush ss_sent ss_gone]; auto.
    + unfold same_rest. tauto.
    + intros q x. split; [auto|]. intros [k|k]; [|auto]. apply (complete_covers _ _ _ hs hc).
      unfold in_frame, frame_end in *. lia.
    + intros q1 q2. apply (complete_some _ _ hs hc). rewrite (live_off _ _ _ _ h q1), q2. reflexivity.
  - destruct (sb_ack_and_drop_spec _ _ (sf_off f) (zlen (sf_bytes f)) hs) as
      (n & s' & r1 & r2 & r3 & r4 & r5 & r6 & r7 & r8 & r9 & r10); auto.
    rewrite r1. cbn [bind]. eexists. split; [reflexivity|].
    apply main; cbn [ss_buf ss_flush ss_sent ss_gone]; auto; try discriminate.
    intros _ _. rewrite r6. apply uins_nonnil.
Qed.

Lemma hist_lost md ops outs st i : Hist md ops outs st ->
  exists st', sn_lost i st = Ok (SoNone, st') /\ Hist md (ops ++ [SnLost i]) (outs ++ [SoNone]) st'.
Proof.
  intros h. pose proof (h_sb _ _ _ _ h) as hs. pose proof (h_len _ _ _ _ h) as hl.
  unfold sn_lost. destruct (nth_error (ss_sent st) i) as [[[f a0] l0]|] eqn:Ei.
  2:{ eexists. split; [reflexivity|]. apply hist_quiet with (st := st); auto; try discriminate.
      - intros j [q|q]; inv q. eapply sent_none; eauto. apply h.
      - apply h. }
  pose proof (sent_nth _ _ _ _ _ _ (h_sent _ _ _ _ h) Ei) as fi.
  assert (li : (i < length (frames outs))%nat) by (apply nth_error_Some; congruence).
  assert (lS : (i < length (ss_sent st))%nat) by (apply nth_error_Some; congruence).
  destruct (h_frame _ _ _ _ h f (nth_error_In _ _ fi)) as (b1 & b2 & b3).
  pose proof (i_emit _ _ hs) as ie. pose proof (zlen_nonneg (sf_bytes f)) as lf.
  assert (ew : written (ops ++ [SnLost i]) (outs ++ [SoNone]) = written ops outs)
    by (rewrite written_snoc by auto; apply app_nil_r).
  assert (ef : frames (outs ++ [SoNone]) = frames outs) by (rewrite frames_app; apply app_nil_r).
  assert (er : was_reset (outs ++ [SoNone]) <-> was_reset outs).
  { rewrite was_reset_snoc. split; [intros [q|(r & q)]; [auto|discriminate]|auto]. }
  assert (ea : forall j, frame_acked (ops ++ [SnLost i]) (outs ++ [SoNone]) j <-> frame_acked ops outs j).
  { intros j. unfold frame_acked. rewrite happened_snoc by auto. split; [|auto].
    intros [q|(q & q')]; [auto|discriminate]. }
  assert (eL : forall j, frame_lost (ops ++ [SnLost i]) (outs ++ [SoNone]) j <-> frame_lost ops outs j \/ j = i).
  { intros j. unfold frame_lost. rewrite happened_snoc by auto. split.
    - intros [q|(q & q')]; [auto|inv q; auto].
    - intros [q| ->]; auto. }
  assert (eba : forall x, byte_acked (ops ++ [SnLost i]) (outs ++ [SoNone]) x <-> byte_acked ops outs x).
  { intros x. rewrite byte_acked_snoc by auto. split; [|auto].
    intros [q|(j & g & q & q1 & q2)]; [auto|discriminate]. }
  assert (main : forall st', ss_sent st' = set_nth i (f, a0, true) (ss_sent st) ->
     ss_gone st' = ss_gone st -> Sb (written ops outs) (ss_buf st') ->
     same_rest (ss_buf st) (ss_buf st') ->
     (ss_gone st = true -> ss_buf st' = ss_buf st) ->
     sb_acked (ss_buf st') = sb_acked (ss_buf st) ->
     (~ was_reset outs -> forall x, consumed (sb_data (ss_buf st')) x ->
        consumed (sb_data (ss_buf st)) x /\ (in_frame f x -> covers (rs_ranges (sb_acked (ss_buf st))) x)) ->
     (ss_gone st = false -> (exists x, pending (sb_data (ss_buf st')) x) ->
        ((exists x, pending (sb_data (ss_buf st)) x) -> ss_flush st = true) -> ss_flush st' = true) ->
     Hist md (ops ++ [SnLost i]) (outs ++ [SoNone]) st').
  { intros st' m1 m2 m4 (m5 & m6 & m7 & m8 & m9 & m10) m11 m12 m13 m14.
    constructor; rewrite ?ew, ?ef, ?er, ?m6, ?m7, ?m8, ?m12; auto.
    - rewrite !app_length. cbn. lia.
    - rewrite m1, (set_nth_map _ _ _ _ _ Ei) by reflexivity. apply h.
    - intros j g a l hj. rewrite ea, eL. rewrite m1, set_nth_get in hj by auto.
      destruct (Nat.eqb_spec i j) as [<-|ne].
      + inv hj. split; [|tauto]. apply (h_flags _ _ _ _ h _ _ _ _ Ei).
      + destruct (h_flags _ _ _ _ h _ _ _ _ hj) as (k1 & k2). split; [auto|]. rewrite k2.
        split; [auto|]. intros [q|q]; [auto|congruence].
    - apply h.
    - apply h.
    - rewrite limit_app, m2. apply h.
    - rewrite limit_app. apply h.
    - rewrite <- (h_reset _ _ _ _ h). unfold is_reset. rewrite m9, m10. tauto.
    - rewrite m2. intros q. rewrite m11 by auto. apply h. auto.
    - intros q x. rewrite eba. apply h. auto.
    - intros q x hx. rewrite eba. destruct (m13 q x hx) as (k1 & k2).
      destruct (h_cons _ _ _ _ h q x k1) as [k|k]; [|auto].
      destruct (in_flight_snoc ops outs (SnLost i) SoNone x hl k) as [p|(j & g & p & p1 & p2)]; [auto|].
      right. inv p. rewrite fi in p1. inv p1. apply (h_acked _ _ _ _ h q). auto.
    - intros q. rewrite fin_written_snoc by auto. cbn [fin_write]. rewrite (h_fin _ _ _ _ h q). tauto.
    - apply h.
    - intros final u q. apply in_app_iff in q as [q|[q|[]]]; [|discriminate]. apply (h_rfin _ _ _ _ h _ _ q).
    - rewrite fin_data_snoc by auto. cbn [fin_write]. intros q [k|k]; [|tauto]. apply (h_last _ _ _ _ h q k).
    - intros q1 q2 q3. rewrite m2 in q2. apply m14; auto. intros q4. apply (h_flush _ _ _ _ h); auto.
      intros q. apply q1. apply in_app_iff. auto.
    - intros q1 q2. rewrite (h_anyack _ _ _ _ h q1 q2). split; intros (j & q); exists j; apply ea; auto. }
  destruct (ss_gone st) eqn:Eg.
  { eexists. split; [reflexivity|]. pose proof (h_gone _ _ _ _ h Eg) as hc.
    apply main; cbn [ss_buf ss_flush ss_sent ss_gone]; auto; try discriminate.
    - unfold same_rest. tauto.
    - intros q x hx. split; auto. intros k. apply (complete_covers _ _ _ hs hc).
      unfold in_frame, frame_end in *. lia. }
  destruct (sb_error (ss_buf st)) as [e|] eqn:Ee.
  { eexists. split; [reflexivity|].
    assert (hr : was_reset outs) by (apply (h_reset _ _ _ _ h); right; congruence).
    apply main; cbn [ss_buf ss_flush ss_sent ss_gone]; auto; try tauto. unfold same_rest. tauto. }
  destruct (sb_retransmit_spec _ _ (sf_off f) (zlen (sf_bytes f)) hs) as
    (n & s' & r1 & r2 & r3 & r4 & r5 & r6 & r7 & r8 & r9 & r10); auto.
  rewrite r1. cbn [bind]. eexists. split; [reflexivity|].
  apply main; cbn [ss_buf ss_flush ss_sent ss_gone]; auto; try discriminate.
  - intros q x hx. split; auto. intros k. apply ack_end_covers; [apply hs|].
    specialize (r10 x k hx). unfold in_frame in k. lia.
  - intros _ hp hq. apply (flushable_iff _ _ r2) in hp. rewrite hp. cbn [orb].
    destruct (sb_is_flushable (ss_buf st)) eqn:E.
    + apply (flushable_iff _ _ hs) in E. rewrite (hq E). reflexivity.
    + cbn [negb andb]. apply orb_true_r.
Qed.

Lemma hist_max_data md ops outs st m : Hist md ops outs st -> 0 <= m <= max_varint ->
  exists st', sn_max_data m st = Ok (SoNone, st') /\ Hist md (ops ++ [SnMaxData m]) (outs ++ [SoNone]) st'.
Proof.
  intros h hm. pose proof (h_sb _ _ _ _ h) as hs. pose proof (h_len _ _ _ _ h) as hl.
  assert (ew : written (ops ++ [SnMaxData m]) (outs ++ [SoNone]) = written ops outs)
    by (rewrite written_snoc by auto; apply app_nil_r).
  assert (ef : frames (outs ++ [SoNone]) = frames outs) by (rewrite frames_app; apply app_nil_r).
  assert (er : was_reset (outs ++ [SoNone]) <-> was_reset outs).
  { rewrite was_reset_snoc. split; [intros [q|(r & q)]; [auto|discriminate]|auto]. }
  assert (ea : forall j, frame_acked (ops ++ [SnMaxData m]) (outs ++ [SoNone]) j <-> frame_acked ops outs j).
  { intros j. unfold frame_acked. rewrite happened_snoc by auto. split; [|auto].
    intros [q|(q & q')]; [auto|discriminate]. }
  assert (eL : forall j, frame_lost (ops ++ [SnMaxData m]) (outs ++ [SoNone]) j <-> frame_lost ops outs j).
  { intros j. unfold frame_lost. rewrite happened_snoc by auto. split; [|auto].
    intros [q|(q & q')]; [auto|discriminate]. }
  assert (eba : forall x, byte_acked (ops ++ [SnMaxData m]) (outs ++ [SoNone]) x <-> byte_acked ops outs x).
  { intros x. rewrite byte_acked_snoc by auto. split; [|auto].
    intros [q|(j & g & q & q1 & q2)]; [auto|discriminate]. }
  assert (em : limit md (ops ++ [SnMaxData m]) = Z.max (limit md ops) m) by (rewrite limit_app; reflexivity).
  assert (main : forall st', ss_sent st' = ss_sent st -> ss_gone st' = ss_gone st ->
     (ss_buf st' = if ss_gone st then ss_buf st else sb_update_max_data m (ss_buf st)) ->
     (ss_gone st = false -> (exists x, pending (sb_data (ss_buf st)) x) ->
         ss_flush st = true -> ss_flush st' = true) ->
     Hist md (ops ++ [SnMaxData m]) (outs ++ [SoNone]) st').
  { intros st' m1 m2 m3 m4.
    assert (hs' : Sb (written ops outs) (ss_buf st')).
    { rewrite m3. destruct (ss_gone st); auto. apply sb_max_data_ok; auto. lia. }
    assert (eqs : sb_data (ss_buf st') = sb_data (ss_buf st) /\ sb_emit_off (ss_buf st') = sb_emit_off (ss_buf st) /\
      sb_shut (ss_buf st') = sb_shut (ss_buf st) /\ sb_error (ss_buf st') = sb_error (ss_buf st) /\
      sb_acked (ss_buf st') = sb_acked (ss_buf st) /\ sb_fin_off (ss_buf st') = sb_fin_off (ss_buf st) /\
      sb_is_complete (ss_buf st') = sb_is_complete (ss_buf st)).
    { rewrite m3. destruct (ss_gone st); cbn; ands; reflexivity. }
    destruct eqs as (q1 & q2 & q3 & q4 & q5 & q6 & q7).
    constructor; rewrite ?ew, ?ef, ?er, ?em, ?q1, ?q2, ?q5, ?q6, ?q7, ?m1; auto; try apply h.
    - rewrite !app_length. cbn. lia.
    - intros i f a l g. rewrite ea, eL. apply (h_flags _ _ _ _ h _ _ _ _ g).
    - rewrite m3, m2. destruct (h_max _ _ _ _ h) as (k1 & k2). destruct (ss_gone st).
      + split; [lia|discriminate].
      + specialize (k2 eq_refl). cbn. split; lia.
    - pose proof (h_wlim _ _ _ _ h). lia.
    - rewrite <- (h_reset _ _ _ _ h). unfold is_reset. rewrite q3, q4. tauto.
    - rewrite m2. apply h.
    - intros q x. rewrite eba. apply h. auto.
    - intros q x hx. rewrite eba. destruct (h_cons _ _ _ _ h q x hx) as [k|k]; [|auto]. left.
      destruct (in_flight_snoc ops outs (SnMaxData m) SoNone x hl k) as [p|(j & g & p & _)]; [auto|discriminate].
    - intros q. rewrite fin_written_snoc by auto. cbn [fin_write]. rewrite (h_fin _ _ _ _ h q). tauto.
    - intros final u q. apply in_app_iff in q as [q|[q|[]]]; [|discriminate]. apply (h_rfin _ _ _ _ h _ _ q).
    - rewrite fin_data_snoc by auto. cbn [fin_write]. intros q [k|k]; [|tauto]. apply (h_last _ _ _ _ h q k).
    - intros p1 p2 p3. rewrite m2 in p2. apply m4; auto. apply (h_flush _ _ _ _ h); auto.
      intros q. apply p1. apply in_app_iff. auto.
    - intros p1 p2. rewrite (h_anyack _ _ _ _ h p1 p2). split; intros (j & q); exists j; apply ea; auto. }
  unfold sn_max_data. destruct (ss_gone st) eqn:Eg.
  - eexists. split; [reflexivity|]. apply main; auto.
  - eexists. split; [reflexivity|]. apply main; auto. cbn [ss_flush]. intros _ _ ->. reflexivity.
Qed.

(** A reset: the application's shutdown, or STOP_SENDING. *)
Lemma hist_reset md ops outs st op s f u :
  Hist md ops outs st -> (op = SnShutdown \/ exists c, op = SnStop c) -> ss_gone st = false ->
  Sb (written ops outs) s -> sb_data s = [] -> sb_emit_off s = sb_emit_off (ss_buf st) ->
  sb_max_data s = sb_max_data (ss_buf st) -> is_reset s ->
  f = sb_emit_off (ss_buf st) -> sb_fin_off s = Some f ->
  Hist md (ops ++ [op]) (outs ++ [SoReset (Some (f, u))])
       (mkSS s (ss_flush st) (ss_sent st) false).
Proof.
  intros h hop hg hs hd he hm hr ef0 efo. pose proof (h_len _ _ _ _ h) as hl.
  set (o := SoReset (Some (f, u))).
  assert (ac : accepted op o = []) by (destruct hop as [->|(c & ->)]; reflexivity).
  assert (na : forall i, op <> SnAck i) by (destruct hop as [->|(c & ->)]; discriminate).
  assert (nl : forall i, op <> SnLost i) by (destruct hop as [->|(c & ->)]; discriminate).
  assert (ew : written (ops ++ [op]) (outs ++ [o]) = written ops outs).
  { rewrite written_snoc, ac by auto; apply app_nil_r. }
  assert (ef : frames (outs ++ [o]) = frames outs) by (rewrite frames_app; apply app_nil_r).
  assert (er : was_reset (outs ++ [o])) by (rewrite was_reset_snoc; unfold o; eauto).
  assert (em : limit md (ops ++ [op]) = limit md ops).
  { rewrite limit_app. destruct hop as [->|(c & ->)]; reflexivity. }
  assert (ea : forall j, frame_acked (ops ++ [op]) (outs ++ [o]) j <-> frame_acked ops outs j).
  { intros j. unfold frame_acked. rewrite happened_snoc by auto. split; [|auto].
    intros [q|(q & q')]; [auto|destruct (na _ q)]. }
  assert (eL : forall j, frame_lost (ops ++ [op]) (outs ++ [o]) j <-> frame_lost ops outs j).
  { intros j. unfold frame_lost. rewrite happened_snoc by auto. split; [|auto].
    intros [q|(q & q')]; [auto|destruct (nl _ q)]. }
  constructor; cbn [ss_buf ss_flush ss_sent ss_gone]; rewrite ?ew, ?ef, ?em, ?he, ?hm; auto; try tauto; try discriminate.
  - rewrite !app_length. cbn. lia.
  - apply h.
  - intros i g a l hi. rewrite ea, eL. apply (h_flags _ _ _ _ h _ _ _ _ hi).
  - apply h.
  - apply h.
  - destruct (h_max _ _ _ _ h). auto.
  - apply h.
  - intros g hg1 hg2. pose proof (h_finf _ _ _ _ h g hg1 hg2) as k.
    destruct (h_frame _ _ _ _ h g hg1) as (_ & _ & k3). pose proof (h_sb _ _ _ _ h) as hs0.
    pose proof (i_emit _ _ hs0). destruct (i_fin _ _ hs0) as [q|q]; [congruence|].
    rewrite k in q. inv q. rewrite efo. f_equal. lia.
  - intros final u' q. apply in_app_iff in q as [q|[q|[]]].
    + destruct (h_rfin _ _ _ _ h _ _ q) as (k1 & k2). split; congruence.
    + inv q. auto.
  - intros _ _ (x & hx). rewrite hd in hx. destruct (pending_nil _ hx).
Qed.
