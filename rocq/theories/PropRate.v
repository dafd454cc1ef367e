(** C87: the delivery rate, over every history of packets, acknowledgments and
    losses. *)
Require Import Verif.Base Verif.Assoc Verif.BwModel Verif.RateModel Verif.RateSpec Verif.RateProofs Verif.RateMarks.

(** C87: the amount delivered is the size of all packets acknowledged. *)
Theorem C87_counts t0 evs r : reached t0 evs r -> r_delivered r = acked_bytes evs evs.
Proof. intros h. destruct (reached_inv _ _ _ h) as (k & _). apply k. Qed.
Print Assumptions C87_counts.

(** C87: an acknowledgment of a packet sent after all those acknowledged before
    makes a sample of some packet it acknowledges: the bytes acknowledged since
    that packet was sent, over the time since the last news before it was sent,
    or the time it took to send, if longer.  The rate becomes exactly that,
    unless the time is below the smallest round trip, or the packet was sent
    while the application had nothing to send and the rate is lower. *)
Theorem C87_sample t0 evs r ids now mr r' : reached t0 (evs ++ [RvAck ids now mr]) r' -> r_run evs (r_new t0) = Ok r ->
  (exists id, In id ids /\ forall a, In a (acked evs) -> a < id) ->
  exists pre num size t idle mid r0 first, evs = pre ++ RvSend num size t idle :: mid /\ In (zlen (sizes pre)) ids /\
    r_run pre (r_new t0) = Ok r0 /\ first = (if idle then t else r_first r0) /\ first <= t <= now /\
    let bytes := acked_bytes evs (mid ++ [RvAck ids now mr]) in
    let interval := Z.max (t - first) (now - (if idle then t else last_news t0 pre)) in
    let bw := 8 * (bytes * 1000000000 / interval) in
    s_bw r' = (if (interval <? mr) || (interval =? 0) then s_bw r
               else if r_app_limited r0 && (bw <=? s_bw r) then s_bw r else bw).
Proof.
  intros (ho & e) hr (id0 & hi0 & hlt). rewrite orderly_app in ho. destruct ho as (o1 & (o2 & o3 & _)).
  rewrite r_run_app, hr in e. cbn [bind r_run r_step] in e. destruct (reached_inv t0 evs r (conj o1 hr)) as (h & hd).
  destruct (r_acks ids now r) as [r1| |] eqn:E; cbn [bind] in e; try discriminate.
  destruct (r_generate mr r1) as [r2| |] eqn:E2; cbn [bind] in e; try discriminate. injection e as <-.
  destruct (acks_inv t0 evs ids _ _ _ _ _ h o2 E) as (h1 & b1 & _ & [s1|(_ & _ & bad)]).
  2: { destruct (bad id0 hi0) as (a & ha & hl). specialize (hlt a ha). lia. }
  destruct s1 as (id & p & q1 & q2 & q3 & q4 & q5 & q6 & q7). destruct (j_fl _ _ _ _ _ h id p q2) as (f1 & f2 & f3 & f4 & f5).
  destruct f2 as (pre & num & size & t & idle & mid & r0 & m1 & m2 & m3 & m4 & m5 & m6 & m7 & m8 & m9 & m10 & m11 & m12 & m13).
  exists pre, num, size, t, idle, mid, r0, (dp_first p). split; [exact m1|]. split; [rewrite <- m2; exact q1|]. split; [exact m3|]. split; [exact m9|]. split; [lia|].
  cbv zeta. set (bytes := acked_bytes evs (mid ++ [RvAck ids now mr])).
  assert (hb : r_delivered r1 - s_prior r1 = bytes).
  { rewrite (j_del _ _ _ _ _ h1), q3, m7. unfold bytes, acked_bytes. rewrite acked_app. cbn [acked]. rewrite app_nil_r, !bytes_app.
    rewrite m1 at 2. rewrite acked_app, bytes_app. change (acked (RvSend num size t idle :: mid)) with (acked mid).
    assert (k : bytes_of (sizes evs) (acked pre) = bytes_of (sizes pre) (acked pre)) by (rewrite m1, sizes_app; apply bytes_more; exact m13). lia. }
  pose proof (j_prior _ _ _ _ _ h1) as hp.
  assert (hi : Z.max (s_send r1) (s_ack r1) = Z.max (t - dp_first p) (now - (if idle then t else last_news t0 pre))).
  { rewrite q6, q7, m4, <- m10. unfold sat_sub. lia. }
  revert E2. unfold r_generate. set (r1' := if _ && _ then _ else r1).
  assert (k : r_delivered r1' = r_delivered r1 /\ s_prior r1' = s_prior r1 /\ s_ptime r1' = s_ptime r1 /\ s_app r1' = s_app r1 /\ s_send r1' = s_send r1 /\ s_ack r1' = s_ack r1 /\ s_bw r1' = s_bw r1)
    by (unfold r1'; destruct (_ && _); cbn; repeat split; auto).
  clearbody r1'. destruct k as (k1 & k2 & k3 & k4 & k5 & k6 & k7). cbv zeta. rewrite k1, k2, k3, k4, k5, k6, k7, hi, hb, b1, q5, m8.
  destruct (s_ptime r1); [|congruence]. replace (r_delivered r1 <? s_prior r1) with false by lia. set (itv := Z.max _ _).
  destruct (itv <? mr) eqn:E3; cbn [orb]; [intros e; injection e as <-; reflexivity|].
  destruct (itv =? 0) eqn:E4; [intros e; injection e as <-; reflexivity|].
  unfold r_bandwidth, bw_from_bytes_per_second, mul64. change nanos_per_second with 1000000000. destruct (u64_max <? _) eqn:E5; cbn [bind]; [discriminate|].
  assert (hu : 0 < u64_max) by reflexivity.
  assert (hq : Z.min (bytes * 1000000000 / itv) u64_max = bytes * 1000000000 / itv) by lia. rewrite hq. rewrite (Z.mul_comm _ 8).
  destruct (r_app_limited r0); cbn [negb orb andb].
  - destruct (s_bw r <? _) eqn:E6; intros e; injection e as <-; cbn [s_bw]; [replace (_ <=? s_bw r) with false by lia; reflexivity|replace (_ <=? s_bw r) with true by lia; reflexivity].
  - intros e; injection e as <-. reflexivity.
Qed.
Print Assumptions C87_sample.

(** C87: hence no such sample claims more than was acknowledged since the packet
    was sent, in the time since it was sent. *)
Theorem C87_not_too_high t0 evs r ids now mr r' : reached t0 (evs ++ [RvAck ids now mr]) r' -> r_run evs (r_new t0) = Ok r ->
  (exists id, In id ids /\ forall a, In a (acked evs) -> a < id) -> s_bw r' <> s_bw r ->
  exists pre num size t idle mid, evs = pre ++ RvSend num size t idle :: mid /\ In (zlen (sizes pre)) ids /\
    s_bw r' * Z.max mr (now - t) <= 8 * 1000000000 * acked_bytes evs (mid ++ [RvAck ids now mr]).
Proof.
  intros h hr hx hne. pose proof h as (ho & _). rewrite orderly_app in ho. destruct ho as (o1 & (o2 & o3 & _)).
  destruct (C87_sample t0 evs r ids now mr r' h hr hx) as (pre & num & size & t & idle & mid & r0 & first & m1 & m2 & m3 & m4 & m5 & m6).
  exists pre, num, size, t, idle, mid. split; [exact m1|]. split; [exact m2|]. cbv zeta in m6.
  set (bytes := acked_bytes evs _) in *. set (itv := Z.max (t - first) _) in *.
  assert (hpos : 0 <= bytes) by (apply bytes_nonneg; eapply orderly_sizes; exact o1).
  assert (hn : last_news t0 pre <= t).
  { rewrite m1 in o1. rewrite orderly_app in o1. destruct o1 as (p1 & (p2 & _)).
    destruct (reached_inv t0 pre r0 (conj p1 m3)) as (k & kd). pose proof (j_dt _ _ _ _ _ k). lia. }
  destruct ((itv <? mr) || (itv =? 0)) eqn:E; [congruence|]. destruct (r_app_limited r0 && _); [congruence|]. rewrite m6.
  assert (hi : 0 < itv /\ mr <= itv /\ now - t <= itv) by (destruct idle; lia). destruct hi as (h1 & h2 & h3).
  pose proof (Z.mul_div_le (bytes * 1000000000) itv h1) as hm. assert (hd : 0 <= bytes * 1000000000 / itv) by (apply Z.div_pos; lia).
  set (q := bytes * 1000000000 / itv) in *. assert (q * Z.max mr (now - t) <= q * itv) by (apply Z.mul_le_mono_nonneg_l; lia). lia.
Qed.
Print Assumptions C87_not_too_high.

(** C87: a packet sent while the application had nothing to send never lowers the
    rate. *)
Theorem C87_limited_never_lowers t0 evs r ids now mr r' : reached t0 evs r -> r_step (RvAck ids now mr) r = Ok r' -> s_app r' = true -> s_bw r <= s_bw r'.
Proof.
  intros _ e ha. cbn [r_step] in e. destruct (r_acks ids now r) as [r1| |] eqn:E; cbn [bind] in e; try discriminate.
  assert (hb : s_bw r1 = s_bw r).
  { clear - E. revert r E. induction ids as [|id ids IH]; intros r e; cbn [r_acks] in e; [injection e as <-; auto|].
    destruct (aget id (r_flight r)) as [p|]; [|discriminate]. rewrite (IH _ e). cbn. unfold r_update. destruct (match s_ptime r with None => _ | _ => _ end); reflexivity. }
  pose proof (gen_fields _ _ _ e) as (_ & _ & _ & _ & _ & _ & _ & ga). rewrite ga in ha.
  revert e. unfold r_generate. set (r1' := if _ && _ then _ else r1).
  assert (k : s_app r1' = s_app r1 /\ s_bw r1' = s_bw r1) by (unfold r1'; destruct (_ && _); cbn; auto). clearbody r1'. destruct k as (k1 & k2).
  cbv zeta. destruct (s_ptime r1'); [|intros e; injection e as <-; lia]. destruct (_ <? s_prior r1'); [discriminate|].
  destruct (_ <? mr); [intros e; injection e as <-; cbn; lia|]. destruct (_ =? 0); [intros e; injection e as <-; cbn; lia|].
  destruct (r_bandwidth _ _); cbn [bind]; try discriminate. rewrite k1, ha. cbn [negb orb]. destruct (_ <? a) eqn:E6; intros e; injection e as <-; cbn; lia.
Qed.
Print Assumptions C87_limited_never_lowers.

(** C87: nothing panics: the amount delivered never falls below a mark, and the rate
    is representable unless more than [u64_max] bits per second were
    acknowledged. *)
Theorem C87_no_panic t0 evs r ev : reached t0 evs r -> orderly t0 (evs ++ [ev]) ->
  (forall ids now mr, ev = RvAck ids now mr -> 0 < mr /\ 8 * 1000000000 * acked_bytes evs (evs ++ [ev]) <= u64_max * mr) ->
  r_step ev r <> Panic.
Proof.
  intros h ho hm. destruct (reached_inv _ _ _ h) as (hi & _). destruct ev as [num size t idle|ids now mr|id|v]; cbn [r_step]; try discriminate.
  2: destruct (aget id (r_flight r)); discriminate.
  destruct (hm ids now mr eq_refl) as (m1 & m2). rewrite orderly_app in ho. destruct ho as (o1 & (o2 & _)).
  destruct (r_acks ids now r) as [r1| |] eqn:E; cbn [bind]; [|discriminate|].
  2: { exfalso. clear - E. revert r E. induction ids as [|id ids IH]; intros r e; cbn [r_acks] in e; [discriminate|]. destruct (aget id (r_flight r)); [eauto|discriminate]. }
  destruct (acks_inv t0 evs ids _ _ _ _ _ hi o2 E) as (h1 & _). pose proof (j_prior _ _ _ _ _ h1) as hp. pose proof (j_del _ _ _ _ _ h1) as hd.
  unfold acked_bytes in m2. rewrite acked_app in m2. cbn [acked] in m2. rewrite app_nil_r in m2. rewrite <- hd in m2.
  unfold r_generate. set (r1' := if _ && _ then _ else r1).
  assert (k : r_delivered r1' = r_delivered r1 /\ s_prior r1' = s_prior r1) by (unfold r1'; destruct (_ && _); cbn; auto). clearbody r1'. destruct k as (k1 & k2).
  cbv zeta. destruct (s_ptime r1'); [|discriminate]. rewrite k1, k2. replace (r_delivered r1 <? s_prior r1) with false by lia.
  destruct (_ <? mr) eqn:E3; [discriminate|]. destruct (_ =? 0); [discriminate|]. set (itv := Z.max _ _) in *.
  unfold r_bandwidth, bw_from_bytes_per_second, mul64. change nanos_per_second with 1000000000.
  set (d := r_delivered r1 - s_prior r1). assert (hdd : 0 <= d <= r_delivered r1) by lia.
  assert (hq : 8 * (d * 1000000000 / itv) <= u64_max).
  { pose proof (Z.mul_div_le (d * 1000000000) itv ltac:(lia)) as q. set (x := d * 1000000000 / itv) in *. assert (0 <= x) by (apply Z.div_pos; lia).
    assert (8 * x * mr <= u64_max * mr). { assert (8 * x * mr <= 8 * x * itv) by (apply Z.mul_le_mono_nonneg_l; lia). lia. }
    clear - m1 H0. nia. }
  replace (u64_max <? _) with false; [cbn [bind]; destruct (_ || _); discriminate|]. assert (0 <= d * 1000000000 / itv) by (apply Z.div_pos; lia). lia.
Qed.
Print Assumptions C87_no_panic.

(** The theorems are not vacuous: four packets of 1000 bytes in two flights; the
    second acknowledgment, one second after its packets were sent, measures them. *)
Definition C87_evs : list rate_event :=
  [RvSend 0 1000 0 true; RvSend 1 1000 10 false; RvAck [0; 1] 1000000000 500000000;
   RvSend 2 1000 1000000000 true; RvSend 3 1000 1000000010 false; RvLost 2].
Definition C87_state : rate := Eval vm_compute in match r_run C87_evs (r_new 0) with Ok r => r | _ => r_new 0 end.
Definition C87_after : rate := Eval vm_compute in match r_step (RvAck [3] 2000000000 500000000) C87_state with Ok r => r | _ => r_new 0 end.
Example C87_witness : reached 0 (C87_evs ++ [RvAck [3] 2000000000 500000000]) C87_after /\ r_run C87_evs (r_new 0) = Ok C87_state /\
  (exists id, In id [3] /\ forall a, In a (acked C87_evs) -> a < id) /\ s_bw C87_state = 16000 /\ s_bw C87_after = 8000 /\ r_delivered C87_after = 3000.
Proof.
  split; [split; [cbn; lia|vm_compute; reflexivity]|]. split; [vm_compute; reflexivity|]. split; [|vm_compute; auto].
  exists 3. split; [left; reflexivity|]. intros a [<-|[<-|[]]]; lia.
Qed.

(** C87: while acknowledgments come in the order of sending, the time a sample
    takes to send is counted from when the packet acknowledged last was sent, or
    from the packet that found nothing in flight, if later: that is the [r_first]
    of C87_sample. *)
Theorem C87_send_start t0 evs r : reached t0 evs r -> increasing (acked evs) -> r_first r = last_mark (times evs) t0 evs.
Proof. intros h. apply (reached_marks _ _ _ h). Qed.
Print Assumptions C87_send_start.

(** C87: once the application is said to be limited, packets sent count as limited
    by it until a packet numbered above the last one sent before (and above 1) is
    acknowledged, and no longer; packet numbers are those of one packet number
    space. *)
Theorem C87_limit_lasts t0 pre mid r : reached t0 (pre ++ RvApp true :: mid) r -> existsb says_limit mid = false -> increasing (numbers (pre ++ mid)) ->
  (r_app_limited r = true <-> forall id, In id (acked mid) -> nth (Z.to_nat id) (numbers (pre ++ mid)) 0 <= Z.max (last (numbers pre) 0) 1).
Proof.
  intros h hs hi. unfold r_app_limited. rewrite (limited_marks _ _ _ _ h hs hi). destruct (forallb _ _) eqn:E; split; try discriminate; intros k.
  - rewrite forallb_forall in E. intros id hid. specialize (E id hid). lia.
  - replace (_ =? 0) with false by lia. reflexivity.
  - exfalso. assert (forallb (fun id => nth (Z.to_nat id) (numbers (pre ++ mid)) 0 <=? Z.max (last (numbers pre) 0) 1) (acked mid) = true); [|congruence].
    apply forallb_forall. intros id hid. specialize (k id hid). lia.
Qed.
Print Assumptions C87_limit_lasts.

(** Not vacuous: two packets, the application pauses, two more; the limit outlives
    the first three acknowledgments and ends at the fourth. *)
Definition C87_marks : list rate_event :=
  [RvSend 0 1000 0 true; RvSend 1 1000 10 false; RvApp true; RvSend 2 1000 20 false; RvAck [0; 1] 1000 5].
Definition C87_marks_state : rate := Eval vm_compute in match r_run C87_marks (r_new 0) with Ok r => r | _ => r_new 0 end.
Definition C87_marks_after : rate := Eval vm_compute in match r_step (RvAck [2] 2000 5) C87_marks_state with Ok r => r | _ => r_new 0 end.
Example C87_marks_witness : reached 0 C87_marks C87_marks_state /\ increasing (acked C87_marks) /\ r_first C87_marks_state = 10 /\ r_app_limited C87_marks_state = true /\
  reached 0 (C87_marks ++ [RvAck [2] 2000 5]) C87_marks_after /\ increasing (numbers C87_marks) /\ r_first C87_marks_after = 20 /\ r_app_limited C87_marks_after = false.
Proof.
  split; [split; [cbn; lia|vm_compute; reflexivity]|]. split; [cbn; repeat constructor|]. split; [reflexivity|]. split; [reflexivity|].
  split; [split; [cbn; lia|vm_compute; reflexivity]|]. split; [cbn; repeat constructor|]. split; reflexivity.
Qed.

Definition C87_late : list rate_event := [RvSend 0 1000 0 true; RvSend 1 1 0 false; RvAck [1] 1 1; RvSend 2 1000 1 false; RvAck [2] 1000000001 1].
Definition C87_late_state : rate := Eval vm_compute in match r_run C87_late (r_new 0) with Ok r => r | _ => r_new 0 end.
Definition C87_late_after : rate := Eval vm_compute in match r_step (RvAck [0] 2000000001 1) C87_late_state with Ok r => r | _ => r_new 0 end.

(** A finding: an acknowledgment of an older packet alone recomputes the rate from
    the last sample with the time of then and the bytes of now: here 1000 bytes
    in each of two seconds give a rate of 2000 bytes per second, and more with
    every such acknowledgment. *)
Theorem C87_late_acknowledgment_refuted :
  exists evs r now mr r', reached 0 evs r /\ reached 0 (evs ++ [RvAck [0] now mr]) r' /\ s_bw r = 8000 /\ s_bw r' = 16000 /\
    evs = [RvSend 0 1000 0 true; RvSend 1 1 0 false; RvAck [1] 1 1; RvSend 2 1000 1 false; RvAck [2] 1000000001 1] /\
    now = 2000000001 /\ 8 * 1000000000 * acked_bytes evs [RvAck [2] 1000000001 1; RvAck [0] now mr] < s_bw r' * (now - 0).
Proof.
  exists C87_late, C87_late_state, 2000000001, 1, C87_late_after. split; [split; [cbn; lia|vm_compute; reflexivity]|].
  split; [split; [cbn; lia|vm_compute; reflexivity]|]. split; [reflexivity|]. split; [reflexivity|]. split; [reflexivity|]. split; [reflexivity|]. vm_compute. reflexivity.
Qed.
Print Assumptions C87_late_acknowledgment_refuted.

(** A finding: packet numbers of all packet number spaces are compared: the mark
    that the application had nothing to send is removed by the acknowledgment
    of a packet of another space, sent before the mark. *)
Theorem C87_limited_mark_other_space_refuted :
  exists evs r, reached 0 evs r /\ evs = [RvSend 7 1000 0 true; RvSend 0 1000 1 false; RvApp true; RvAck [0] 5 1] /\ r_app_limited r = false.
Proof.
  exists [RvSend 7 1000 0 true; RvSend 0 1000 1 false; RvApp true; RvAck [0] 5 1]. eexists.
  split; [split; [cbn; lia|vm_compute; reflexivity]|]. split; reflexivity.
Qed.
Print Assumptions C87_limited_mark_other_space_refuted.
