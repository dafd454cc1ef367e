(** Loss detection and congestion control of one path (C50-C54, C73-C75). *)
Require Import Verif.Base Verif.Errors Verif.RttModel Verif.RecoveryModel Verif.RecoverySpec.
Require Import Verif.RecoveryProofs Verif.RecoveryInv Verif.RecoveryMain Verif.RecoverySteps Verif.RecoveryRun Verif.RecoveryCC Verif.RecoveryWin Verif.RecoveryTimer Verif.RecoveryThms.

(** * C50: bytes in flight *)

(** No history of calls panics. *)
Theorem C50_no_panic : forall fl t irtt mds icwp a hy fix_ ops, valid_ops [] ops ->
  rec_run fl ops (rec_new t irtt mds icwp a hy fix_) <> Panic.
Proof. intros. apply (history_ok fl t irtt mds icwp a hy fix_ ops H). Qed.
Print Assumptions C50_no_panic.

(** The only error is OptimisticAckDetected, returned exactly if some ACK frame
    covers the packet number the connection skipped. *)
Theorem C50_errors : forall fl t irtt mds icwp a hy fix_ ops, valid_ops [] ops ->
  let run := rec_run fl ops (rec_new t irtt mds icwp a hy fix_) in
  let skipped_acked := exists e rs d hs now n, In (RAck e rs d hs now (Some n)) ops /\ covered rs n = true in
  (forall err, run = Err err -> err = OptimisticAckDetected /\ skipped_acked) /\
  (forall v xs, run = Ok (v, xs) -> ~ skipped_acked).
Proof.
  intros fl t irtt mds icwp a hy fix_ ops hv. cbv zeta. split.
  - intros err h. destruct (run_err fl ops [] _ [] err (inv_new t irtt mds icwp a hy fix_) (fun k h => h) hv h) as [h1 h2].
    split; [exact h1|apply hits_in; exact h2].
  - intros v xs h hn. apply hits_in in hn. rewrite (run_hit _ _ _ _ _ h) in hn. discriminate hn.
Qed.
Print Assumptions C50_errors.

(** After every history the bytes in flight are the sizes of the in-flight packets
    that were neither acknowledged, nor declared lost, nor discarded. *)
Theorem C50_bytes_in_flight : forall fl t irtt mds icwp a hy fix_ ops v xs, valid_ops [] ops ->
  rec_run fl ops (rec_new t irtt mds icwp a hy fix_) = Ok (v, xs) ->
  exists led, explains fl ops (rec_new t irtt mds icwp a hy fix_) [] v led /\ bf_n (v_bif v) = total in_flight led.
Proof.
  intros fl t irtt mds icwp a hy fix_ ops v xs hv hr. destruct (history_ok fl t irtt mds icwp a hy fix_ ops hv) as [_ h].
  destruct (h v xs hr) as (led & h1 & h2 & _). exists led. split; [exact h1|apply h2].
Qed.
Print Assumptions C50_bytes_in_flight.

(** * C51: frames are reported once *)

(** Every history is explained by a ledger of the packets sent (which says when a
    packet may be given up, see [may_give_up]) such that: no frame is reported
    acknowledged twice; frames reported acknowledged belong to acknowledged packets;
    once next_acked_frame returns nothing all frames of acknowledged packets were
    reported, and once next_lost_frame returns nothing so were all frames of lost
    packets, unless the space was discarded; a frame reported lost belongs to a lost
    packet or a timeout occurred; it is reported lost at most once plus once per
    timeout; and without timeouts no frame is reported both acknowledged and lost. *)
Theorem C51_frames_reported_once : forall fl t irtt mds icwp a hy fix_ ops v xs, valid_ops [] ops ->
  rec_run fl ops (rec_new t irtt mds icwp a hy fix_) = Ok (v, xs) ->
  exists led, explains fl ops (rec_new t irtt mds icwp a hy fix_) [] v led /\
  forall e,
    (NoDup (frames_sent e ops) -> NoDup (reported_acked e ops xs)) /\
    (forall f, In f (reported_acked e ops xs) -> exists x, In x led /\ en_e x = e /\ en_fate x = Acked /\ In f (p_frames (en_p x))) /\
    (forall x f v', discarded e ops = false -> rec_step fl (RNextAcked e) v = Ok (v', OFrame None) ->
       In x led -> en_e x = e -> en_fate x = Acked -> In f (p_frames (en_p x)) -> In f (reported_acked e ops xs)) /\
    (forall x f v', discarded e ops = false -> rec_step fl (RNextLost e) v = Ok (v', OFrame None) ->
       In x led -> en_e x = e -> en_fate x = Lost -> In f (p_frames (en_p x)) -> In f (reported_lost e ops xs)) /\
    (forall f, In f (reported_lost e ops xs) ->
       (exists x, In x led /\ en_e x = e /\ en_fate x = Lost /\ In f (p_frames (en_p x))) \/
       (0 < timeouts ops /\ In f (frames_sent e ops))) /\
    (NoDup (frames_sent e ops) -> forall f, Z.of_nat (times f (reported_lost e ops xs)) <= 1 + timeouts ops) /\
    (NoDup (frames_sent e ops) -> timeouts ops = 0 -> forall f, In f (reported_acked e ops xs) -> ~ In f (reported_lost e ops xs)).
Proof.
  intros fl t irtt mds icwp a hy fix_ ops v xs hv hr. destruct (history_ok fl t irtt mds icwp a hy fix_ ops hv) as [_ h].
  destruct (h v xs hr) as (led & h1 & h2 & h3). exists led. split; [exact h1|]. intros e.
  split; [apply (acked_nodup v led); exact h3|].
  split; [intros f; apply (acked_only v led); exact h3|].
  split; [intros x f v' q1 q2 q3 q4 q5 q6; exact (acked_all fl v v' led ops xs e x f h3 q1 q2 q3 q4 q5 q6)|].
  split; [intros x f v' q1 q2 q3 q4 q5 q6; exact (lost_all fl v v' led ops xs e x f h3 q1 q2 q3 q4 q5 q6)|].
  split; [intros f; apply (lost_only v led); exact h3|].
  split; [intros hn f; apply (lost_times v led); assumption|].
  intros hn ht f q1 q2. exact (not_both v led ops xs e f h3 hn ht q1 q2).
Qed.
Print Assumptions C51_frames_reported_once.

(** ** A concrete history *)
Definition flx : floats := mkFl (fun _ => 0) (fun _ => 0) (fun _ => false) (fun r d => if r then d * 5 / 4 else d * 9 / 8).
Definition hsx : hstatus := mkHs true true true.
Definition dpkt (n : Z) : pkt := mkPkt n [100 + n] 0 None None 1200 true true true false.
Definition r0 (a : alg) (mds icwp : Z) : rec := rec_new 0 333000000 mds icwp a true true.
(** Five packets; the last is acknowledged, which loses the first two; a second
    frame is then acknowledged and reports are collected. *)
Definition hist1 : list rop :=
  [RSent EApp (dpkt 0) hsx 0; RSent EApp (dpkt 1) hsx 1; RSent EApp (dpkt 2) hsx 2; RSent EApp (dpkt 3) hsx 3;
   RSent EApp (dpkt 4) hsx 4; RAck EApp [(4, 5)] 0 hsx 50000000 None; RNextAcked EApp; RNextAcked EApp;
   RNextLost EApp; RNextLost EApp; RNextLost EApp; RAck EApp [(2, 5)] 0 hsx 50000001 (Some 9); RNextAcked EApp].
Definition end1 : rec * list rout := Eval vm_compute in match rec_run flx hist1 (r0 Cubic 1200 10) with Ok x => x | _ => (r0 Cubic 1200 10, []) end.

Ltac vops := repeat match goal with h : rec_run _ _ _ = _ |- _ => clear h | h : rec_step _ _ _ = _ |- _ => clear h end; cbn [app valid_ops valid_ranges]; unfold fresh, dpkt; cbn [p_num p_frames p_acked p_lost p_size p_probe p_inf];
  repeat match goal with |- _ /\ _ => split | |- True => exact I end; try reflexivity; try (intros _; reflexivity); try lia;
  intros n hn; repeat (destruct hn as [hn|hn]; [injection hn as <-; lia|]); destruct hn.

Lemma hist1_valid : valid_ops [] hist1.
Proof. unfold hist1. vops. Qed.
Lemma hist1_run : rec_run flx hist1 (r0 Cubic 1200 10) = Ok end1.
Proof. vm_compute. reflexivity. Qed.

Example C50_C51_witness : valid_ops [] hist1 /\ rec_run flx hist1 (r0 Cubic 1200 10) = Ok end1 /\
  bf_n (v_bif (fst end1)) = 0 /\ NoDup (frames_sent EApp hist1) /\ frames_sent EApp hist1 = [100; 101; 102; 103; 104] /\
  reported_acked EApp hist1 (snd end1) = [104; 103] /\ reported_lost EApp hist1 (snd end1) = [101; 100].
Proof.
  split; [apply hist1_valid|]. split; [apply hist1_run|]. repeat split; try reflexivity. cbn. repeat constructor; cbn; lia.
Qed.
Example C50_error_witness : rec_run flx [RSent EApp (dpkt 0) hsx 0; RAck EApp [(0, 3)] 0 hsx 5 (Some 1)] (r0 Reno 1200 10) = Err OptimisticAckDetected.
Proof. vm_compute. reflexivity. Qed.

(** A packet should be declared lost only if a packet sent after it was
    acknowledged.  This fails for packet number 0: with nothing acknowledged the
    largest acknowledged packet is taken to be 0, so a change of path gives up
    packet 0 once the loss delay has passed. *)
Theorem C51_lost_without_ack_refuted :
  ~ (forall fl t irtt mds icwp a hy fix_ ops v xs n b, valid_ops [] ops ->
     rec_run fl ops (rec_new t irtt mds icwp a hy fix_) = Ok (v, xs) -> In (OLost n b) xs -> 0 < n ->
     exists e rs d hs now k, In (RAck e rs d hs now k) ops).
Proof.
  intros h. set (ops := [RSent EApp (dpkt 0) hsx 0; RPathChange EApp 1000000000]).
  destruct (rec_run flx ops (r0 Cubic 1200 10)) as [[v xs]| |] eqn:e; [|vm_compute in e; discriminate e|vm_compute in e; discriminate e].
  assert (hx : xs = [ONone; OLost 1 1200]). { vm_compute in e. congruence. }
  assert (hv : valid_ops [] ops) by (unfold ops; vops).
  destruct (h flx 0 333000000 1200 10 Cubic true true ops v xs 1 1200 hv e) as (e0 & rs & d & hs & now & k & hin); [subst xs; right; left; reflexivity|lia|].
  destruct hin as [q|[q|[]]]; discriminate q.
Qed.
Print Assumptions C51_lost_without_ack_refuted.

(** A frame should not be reported lost once it was reported acknowledged.  This
    fails after a probe timeout, which queues copies of unacknowledged frames: they
    stay queued when the original packet is acknowledged. *)
Theorem C51_lost_after_acked_refuted :
  ~ (forall fl t irtt mds icwp a hy fix_ ops v xs e f, valid_ops [] ops -> NoDup (frames_sent e ops) ->
     rec_run fl ops (rec_new t irtt mds icwp a hy fix_) = Ok (v, xs) ->
     In f (reported_acked e ops xs) -> ~ In f (reported_lost e ops xs)).
Proof.
  intros h. set (ops := [RSent EApp (dpkt 0) hsx 0; RTimeout hsx 1000000000; RAck EApp [(0, 1)] 0 hsx 1000000001 None; RNextAcked EApp; RNextLost EApp]).
  destruct (rec_run flx ops (r0 Cubic 1200 10)) as [[v xs]| |] eqn:e; [|vm_compute in e; discriminate e|vm_compute in e; discriminate e].
  assert (hx : reported_acked EApp ops xs = [100] /\ reported_lost EApp ops xs = [100]).
  { assert (hx : xs = [ONone; OLost 0 0; OAck (0, 0, 1200, 0); OFrame (Some 100); OFrame (Some 100)]) by (vm_compute in e; congruence). rewrite hx. split; reflexivity. }
  destruct hx as [hx1 hx2].
  assert (hv : valid_ops [] ops) by (unfold ops; vops).
  apply (h flx 0 333000000 1200 10 Cubic true true ops v xs EApp 100 hv); [repeat constructor; cbn; lia|exact e|rewrite hx1; left; reflexivity|rewrite hx2; left; reflexivity].
Qed.
Print Assumptions C51_lost_after_acked_refuted.

(** * C52: the loss detection timer *)

(** After a call that sets the timer, if the application space has a loss deadline
    and either the Handshake space has one or the Initial space has none, the timer
    is the earliest deadline of the three spaces.  (The other cases are refuted
    below.) *)
Theorem C52_earliest_deadline_partial : forall fl ops o v0 v xs x hs now,
  rec_run fl (ops ++ [o]) v0 = Ok (v, xs ++ [x]) -> arms o x = Some (hs, now) ->
  s_loss_time (v_app v) <> None -> s_loss_time (v_hs v) <> None \/ s_loss_time (v_ini v) = None ->
  v_timer v = earlier (s_loss_time (v_ini v)) (earlier (s_loss_time (v_hs v)) (s_loss_time (v_app v))).
Proof. exact loss_exact. Qed.
Print Assumptions C52_earliest_deadline_partial.

(** While bytes are in flight the timer runs, provided packets in flight are
    ack-eliciting and the handshake is complete. *)
Theorem C52_armed_partial : forall fl t irtt mds icwp a hy fix_ ops o v xs x hs now,
  valid_ops [] (ops ++ [o]) -> eliciting (ops ++ [o]) ->
  rec_run fl (ops ++ [o]) (rec_new t irtt mds icwp a hy fix_) = Ok (v, xs ++ [x]) ->
  arms o x = Some (hs, now) -> hs_done hs = true -> bf_n (v_bif v) <> 0 -> v_timer v <> None.
Proof. exact armed. Qed.
Print Assumptions C52_armed_partial.

(** Without a loss deadline in the application space, the timer is the earliest
    probe timeout of the spaces that have packets in flight: the time the last
    ack-eliciting packet was sent plus the probe timeout (and the peer's maximum
    delay in the application space), doubled for each timeout in a row. *)
Theorem C52_probe_timeout : forall fl t irtt mds icwp a hy fix_ ops o v xs x hs now,
  valid_ops [] (ops ++ [o]) -> eliciting (ops ++ [o]) ->
  rec_run fl (ops ++ [o]) (rec_new t irtt mds icwp a hy fix_) = Ok (v, xs ++ [x]) ->
  arms o x = Some (hs, now) -> hs_done hs = true ->
  s_loss_time (v_app v) = None -> bf_n (v_bif v) <> 0 ->
  exists led, explains fl (ops ++ [o]) (rec_new t irtt mds icwp a hy fix_) [] v led /\
    let p e := pto_of e v (ops ++ [o]) led in
    v_timer v = earlier (p EInitial) (earlier (p EHandshake) (p EApp)) /\ v_timer v <> None.
Proof. exact pto_exact. Qed.
Print Assumptions C52_probe_timeout.

(** A history with a deadline in the application space, and one without *)
Definition hist2 : list rop :=
  [RSent EApp (dpkt 0) hsx 0; RSent EApp (dpkt 1) hsx 1000000; RSent EApp (dpkt 2) hsx 2000000].
Definition end2 : rec * list rout := Eval vm_compute in match rec_run flx (hist2 ++ [RAck EApp [(1, 2)] 0 hsx 50000000 None]) (r0 Cubic 1200 10) with Ok x => x | _ => (r0 Cubic 1200 10, []) end.
Definition end2b : rec * list rout := Eval vm_compute in match rec_run flx (hist2 ++ [RAck EApp [(0, 1)] 0 hsx 50000000 None]) (r0 Cubic 1200 10) with Ok x => x | _ => (r0 Cubic 1200 10, []) end.
Example C52_witness :
  rec_run flx (hist2 ++ [RAck EApp [(1, 2)] 0 hsx 50000000 None]) (r0 Cubic 1200 10) = Ok end2 /\
  s_loss_time (v_app (fst end2)) = Some 55125000 /\ v_timer (fst end2) = Some 55125000 /\
  rec_run flx (hist2 ++ [RAck EApp [(0, 1)] 0 hsx 50000000 None]) (r0 Cubic 1200 10) = Ok end2b /\
  s_loss_time (v_app (fst end2b)) = None /\ bf_n (v_bif (fst end2b)) = 2400 /\ v_timer (fst end2b) = Some 152000000 /\
  eliciting (hist2 ++ [RAck EApp [(0, 1)] 0 hsx 50000000 None]) /\ valid_ops [] (hist2 ++ [RAck EApp [(0, 1)] 0 hsx 50000000 None]).
Proof.
  repeat match goal with |- _ /\ _ => split end; try (vm_compute; reflexivity).
  - repeat constructor.
  - unfold hist2. vops.
Qed.

(** The timer should never be later than the earliest loss deadline.  This fails:
    [None < Some _], so a space without a deadline hides the deadlines of earlier
    spaces.  Here the Handshake space has a deadline and the application space has
    none: the timer is set to the probe timeout, later than the deadline. *)
Theorem C52_earliest_deadline_refuted :
  ~ (forall fl t irtt mds icwp a hy fix_ ops o v xs x hs now d, valid_ops [] (ops ++ [o]) ->
     rec_run fl (ops ++ [o]) (rec_new t irtt mds icwp a hy fix_) = Ok (v, xs ++ [x]) -> arms o x = Some (hs, now) ->
     s_loss_time (v_hs v) = Some d -> exists t', v_timer v = Some t' /\ t' <= d).
Proof.
  intros h.
  set (ops := [RSent EHandshake (dpkt 0) hsx 0; RSent EHandshake (dpkt 1) hsx 1000000]).
  set (o := RAck EHandshake [(1, 2)] 0 hsx 50000000 None).
  destruct (rec_run flx (ops ++ [o]) (r0 Cubic 1200 10)) as [[v xs]| |] eqn:e; [|vm_compute in e; discriminate e|vm_compute in e; discriminate e].
  assert (hx : xs = [ONone; ONone] ++ [OAck (0, 0, 1200, 0)] /\ v_timer v = Some 148000000 /\ s_loss_time (v_hs v) = Some 55125000).
  { vm_compute in e. injection e as <- <-. split; [|split]; reflexivity. }
  destruct hx as (-> & ht & hd).
  assert (hv : valid_ops [] (ops ++ [o])).
  { unfold ops, o. vops. }
  destruct (h flx 0 333000000 1200 10 Cubic true true ops o v _ _ hsx 50000000 55125000 hv e eq_refl hd) as (t' & q1 & q2).
  rewrite ht in q1. injection q1 as <-. lia.
Qed.
Print Assumptions C52_earliest_deadline_refuted.

(** While bytes are in flight the timer should run.  This fails if the only packets
    in flight are not ack-eliciting (a padded packet): the space then has no time
    to count from. *)
Theorem C52_armed_refuted :
  ~ (forall fl t irtt mds icwp a hy fix_ ops o v xs x hs now, valid_ops [] (ops ++ [o]) ->
     rec_run fl (ops ++ [o]) (rec_new t irtt mds icwp a hy fix_) = Ok (v, xs ++ [x]) -> arms o x = Some (hs, now) ->
     hs_done hs = true -> bf_n (v_bif v) <> 0 -> v_timer v <> None).
Proof.
  intros h. set (o := RSent EApp (mkPkt 0 [] 0 None None 1200 false true false false) hsx 5).
  destruct (rec_run flx ([] ++ [o]) (r0 Cubic 1200 10)) as [[v xs]| |] eqn:e; [|vm_compute in e; discriminate e|vm_compute in e; discriminate e].
  assert (hx : xs = [] ++ [ONone] /\ v_timer v = None /\ bf_n (v_bif v) = 1200). { vm_compute in e. injection e as <- <-. repeat split. }
  destruct hx as (-> & ht & hb).
  assert (hv : valid_ops [] ([] ++ [o])) by (clear; unfold o; vops).
  refine (h flx 0 333000000 1200 10 Cubic true true [] o v _ _ hsx 5 hv e eq_refl eq_refl _ ht). rewrite hb. discriminate.
Qed.
Print Assumptions C52_armed_refuted.

(** * C53: the congestion window *)

(** After every history the window is at least two datagrams of the smallest size
    ever used and at most the initial window (of the largest size ever used) plus
    one datagram per acknowledged packet. *)
Theorem C53_window_bounds : forall fl t irtt mds icwp a hy fix_ ops lo M v xs, valid_ops [] ops -> 0 <= lo -> 2 <= icwp ->
  Forall (fun n => lo <= n <= M) (mds :: sizes ops) ->
  rec_run fl ops (rec_new t irtt mds icwp a hy fix_) = Ok (v, xs) ->
  exists led, explains fl ops (rec_new t irtt mds icwp a hy fix_) [] v led /\
    2 * lo <= c_cwnd (v_cc v) <= icwp * M + mds * number acked_fate led.
Proof.
  intros fl t irtt mds icwp a hy fix_ ops lo M v xs h1 h2 h3 h4 h5. destruct (window _ _ _ _ _ _ _ _ _ _ _ _ _ h1 h2 h3 h4 h5) as (led & e1 & [[w1 w2 _ _ _] _]).
  exists led. split; [exact e1|]. split; assumption.
Qed.
Print Assumptions C53_window_bounds.

(** A timeout or a change of path leaves the window alone or reduces it to half
    (Reno) or seven tenths (CUBIC) of its value, but not below two datagrams of
    the size configured at the start. *)
Theorem C53_reduction : forall fl t irtt mds icwp a hy fix_ ops o lo M v v' xs x, valid_ops [] ops -> 0 <= lo -> 2 <= icwp ->
  Forall (fun n => lo <= n <= M) (mds :: sizes ops) ->
  rec_run fl ops (rec_new t irtt mds icwp a hy fix_) = Ok (v, xs) -> c_cwnd (v_cc v) < 2 ^ 51 ->
  (exists hs now, o = RTimeout hs now) \/ (exists e now, o = RPathChange e now) -> rec_step fl o v = Ok (v', x) ->
  let w := c_cwnd (v_cc v) in
  c_cwnd (v_cc v') = w \/
  exists r, c_cwnd (v_cc v') = Z.max r (2 * mds) /\
    match c_alg (v_cc v) with Reno => r = w / 2 | Cubic => 7 * w / 10 - 1 <= r <= 7 * w / 10 end.
Proof.
  intros fl t irtt mds icwp a hy fix_ ops o lo M v v' xs x h1 h2 h3 h4 h5 h6 ho hs. cbv zeta.
  destruct (window _ _ _ _ _ _ _ _ _ _ _ _ _ h1 h2 h3 h4 h5) as (led & e1 & [[w1 w2 _ w4 _] _]).
  destruct (lose_window fl o v v' x ho hs) as [q|q]; [left; exact q|right]. rewrite w4 in q.
  destruct (c_alg (v_cc v)); eexists; (split; [exact q|]); [reflexivity|]. apply mul_beta_bounds. lia.
Qed.
Print Assumptions C53_reduction.

Definition hist3 : list rop := hist2 ++ [RAck EApp [(1, 2)] 0 hsx 50000000 None].
Definition end3 : rec * list rout := Eval vm_compute in match rec_step flx (RTimeout hsx 60000000) (fst end2) with Ok (v, x) => (v, [x]) | _ => (r0 Cubic 1200 10, []) end.
Example C53_witness : c_cwnd (v_cc (fst end2)) = 12000 /\ rec_step flx (RTimeout hsx 60000000) (fst end2) = Ok (fst end3, OLost 1 1200) /\
  c_cwnd (v_cc (fst end3)) = 8400 /\ Forall (fun n => 1200 <= n <= 1200) (1200 :: sizes hist3).
Proof. repeat match goal with |- _ /\ _ => split end; try (vm_compute; reflexivity). repeat constructor; cbn; lia. Qed.

(** The window should never be below two datagrams of the current maximum size.
    This fails: the congestion controller keeps the size configured at the start,
    so when path MTU discovery finds a larger one the minimum window is too small. *)
Theorem C53_two_datagrams_refuted :
  ~ (forall fl t irtt mds a hy fix_ ops v xs, valid_ops [] ops -> Forall (fun n => 1200 <= n) (mds :: sizes ops) ->
     rec_run fl ops (rec_new t irtt mds 10 a hy fix_) = Ok (v, xs) -> 2 * v_mds v <= c_cwnd (v_cc v)).
Proof.
  intros h.
  set (round n t := [RSent EApp (dpkt n) hsx t; RSent EApp (dpkt (n + 1)) hsx t; RSent EApp (dpkt (n + 2)) hsx t; RSent EApp (dpkt (n + 3)) hsx t;
    RAck EApp [(n + 3, n + 4)] 0 hsx (t + 50000000) None]).
  set (ops := round 0 0 ++ round 4 100000000 ++ round 8 200000000 ++ [RPmtudMds 1500]).
  destruct (rec_run flx ops (r0 Reno 1200 10)) as [[v xs]| |] eqn:e; [|vm_compute in e; discriminate e|vm_compute in e; discriminate e].
  assert (hx : v_mds v = 1500 /\ c_cwnd (v_cc v) = 2400). { vm_compute in e. injection e as <- _. split; reflexivity. }
  apply (h flx 0 333000000 1200 Reno true true ops v xs) in e; [lia| |repeat constructor; cbn; lia].
  unfold ops, round. vops.
Qed.
Print Assumptions C53_two_datagrams_refuted.

Definition ops53 : list rop := [RUpdateMds 1200; RSent EApp (dpkt 0) hsx 0].
Definition end53 : rec * list rout := Eval vm_compute in match rec_run flx ops53 (r0 Cubic 1500 2) with Ok v => v | _ => (r0 Cubic 1500 2, []) end.
Definition end53b : rec * rout := Eval vm_compute in match rec_step flx (RPathChange EApp 1000000000) (fst end53) with Ok v => v | _ => (r0 Cubic 1500 2, ONone) end.
(** Losing packets should never increase the window.  This fails when the datagram
    size was reduced since the start: the minimum is computed with the old size. *)
Theorem C53_never_increased_by_loss_refuted :
  ~ (forall fl t irtt mds icwp a hy fix_ ops e now v v' xs x, valid_ops [] ops -> 2 <= icwp -> Forall (fun n => 1200 <= n) (mds :: sizes ops) ->
     rec_run fl ops (rec_new t irtt mds icwp a hy fix_) = Ok (v, xs) -> rec_step fl (RPathChange e now) v = Ok (v', x) ->
     c_cwnd (v_cc v') <= c_cwnd (v_cc v)).
Proof.
  intros h. assert (hv : valid_ops [] ops53) by (clear; unfold ops53; vops).
  assert (e1 : rec_run flx ops53 (r0 Cubic 1500 2) = Ok end53) by (vm_compute; reflexivity).
  assert (e2 : rec_step flx (RPathChange EApp 1000000000) (fst end53) = Ok end53b) by (vm_compute; reflexivity).
  pose proof (h flx 0 333000000 1500 2 Cubic true true ops53 EApp 1000000000 (fst end53) (fst end53b) (snd end53) (snd end53b) hv ltac:(lia) ltac:(repeat constructor; cbn; lia) e1 e2) as q.
  vm_compute in q. apply q. reflexivity.
Qed.
Print Assumptions C53_never_increased_by_loss_refuted.

(** * C54: proportional rate reduction *)

(** In a recovery episode entered with [recoverfs] bytes in flight, as long as more
    than the threshold is in flight, what was sent plus what may be sent is at most
    the bytes delivered times ssthresh / recoverfs, rounded up. *)
Theorem C54_proportional : forall ss mds recoverfs l, 0 <= ss -> 0 < recoverfs ->
  obeys ss mds (prr_event recoverfs prr_new) l ->
  Forall (fun x => match x with PAck _ pipe => ss < pipe | _ => True end) l ->
  psent l + pr_snd (prr_run ss mds recoverfs l) <= ceil_div (pdelivered l * ss) recoverfs.
Proof.
  intros ss mds recoverfs l h1 h2 ho hf. unfold prr_run.
  pose proof (prr_prop ss mds l (prr_event recoverfs prr_new) h1 h2 (Z.le_refl _) (Z.le_refl _)) as q. cbv zeta in q.
  destruct (prr_fields ss mds (prr_event recoverfs prr_new) l) as (e1 & e2 & e3). rewrite e1, e2, e3 in q. cbn [prr_event pr_delivered pr_out pr_recoverfs Z.add] in q.
  apply q; auto. cbn [prr_event pr_snd]. unfold ceil_div. cbn. lia.
Qed.
Print Assumptions C54_proportional.

(** In every episode with a threshold of at most the bytes in flight at its start,
    what was sent plus what may be sent is at most the bytes delivered plus one
    datagram per acknowledged packet. *)
Theorem C54_conservation : forall ss mds recoverfs l, 0 <= ss <= recoverfs -> 0 <= mds ->
  obeys ss mds (prr_event recoverfs prr_new) l ->
  psent l + pr_snd (prr_run ss mds recoverfs l) <= pdelivered l + mds * packs l.
Proof.
  intros ss mds recoverfs l h1 h2 ho. unfold prr_run.
  pose proof (prr_conserve ss mds l (prr_event recoverfs prr_new) 0 h1 h2 (Z.le_refl _) (Z.le_refl _) (Z.le_refl _) (Z.le_refl _) ho) as q. cbv zeta in q.
  destruct (prr_fields ss mds (prr_event recoverfs prr_new) l) as (e1 & e2 & e3). rewrite e1, e2 in q. cbn [prr_event pr_delivered pr_out Z.add] in q. lia.
Qed.
Print Assumptions C54_conservation.

(** When no more than the threshold is in flight the allowance does not exceed the
    threshold. *)
Theorem C54_never_above_threshold : forall ss mds recoverfs l d pipe, 0 <= pipe <= ss -> 0 <= d -> 0 <= mds ->
  pipe + pr_snd (prr_run ss mds recoverfs (l ++ [PAck d pipe])) <= ss.
Proof.
  intros ss mds recoverfs l d pipe h hd hm. unfold prr_run. rewrite fold_left_app. cbn [fold_left prr_step]. unfold prr_acked.
  replace (ss <? pipe) with false by lia. cbn [pr_snd]. lia.
Qed.
Print Assumptions C54_never_above_threshold.

Example C54_witness :
  let l := [PAck 1200 10800; PSent 840; PAck 1200 9600; PAck 1200 9000; PSent 1600] in
  obeys 8400 1200 (prr_event 12000 prr_new) l /\
  Forall (fun x => match x with PAck _ pipe => 8400 < pipe | _ => True end) l /\
  psent l = 2440 /\ pr_snd (prr_run 8400 1200 12000 l) = 80 /\ ceil_div (pdelivered l * 8400) 12000 = 2520.
Proof. cbv zeta. repeat split; try (vm_compute; congruence); repeat constructor. Qed.

(** * C73: time with data in flight *)

(** The reported duration is the total time between events during which bytes were
    in flight. *)
Theorem C73_in_flight_duration : forall t l, bev_ok t l ->
  bif_duration (fold_left bif_step l bif_new) = busy 0 t l.
Proof. intros t l h. apply (bif_run_ok l bif_new t h); [apply Z.le_refl|split; reflexivity]. Qed.
Print Assumptions C73_in_flight_duration.
Example C73_witness : bev_ok 0 [BAdd 1200 5; BSub 1200 15; BAdd 10 100; BAdd 5 101; BSub 10 110; BSub 5 120] /\
  busy 0 0 [BAdd 1200 5; BSub 1200 15; BAdd 10 100; BAdd 5 101; BSub 10 110; BSub 5 120] = 30.
Proof. split; [cbn; lia|reflexivity]. Qed.

(** * C74: statistics *)

(** The number of lost packets is that of the packets declared lost, probes of the
    path MTU excepted, and the bytes sent are the sizes of all packets sent. *)
Theorem C74_counters : forall fl t irtt mds icwp a hy fix_ ops v xs, valid_ops [] ops ->
  rec_run fl ops (rec_new t irtt mds icwp a hy fix_) = Ok (v, xs) ->
  exists led, explains fl ops (rec_new t irtt mds icwp a hy fix_) [] v led /\
    c_lost (v_cc v) = number counted led /\ v_bytes_sent v = total (fun _ => true) led.
Proof.
  intros fl t irtt mds icwp a hy fix_ ops v xs hv hr. destruct (counts _ _ _ _ _ _ _ _ _ _ _ hv hr) as (led & e1 & [c1 c2 _]). exists led. auto.
Qed.
Print Assumptions C74_counters.
Example C74_witness : valid_ops [] hist1 /\ rec_run flx hist1 (r0 Cubic 1200 10) = Ok end1 /\ c_lost (v_cc (fst end1)) = 2 /\ v_bytes_sent (fst end1) = 6000.
Proof. split; [apply hist1_valid|]. split; [apply hist1_run|]. split; reflexivity. Qed.

(** The number of lost bytes should be the sum of the sizes of the packets declared
    lost.  This fails: the counter is never updated and always 0. *)
Theorem C74_lost_bytes_refuted :
  ~ (forall fl t irtt mds icwp a hy fix_ ops v xs, valid_ops [] ops ->
     rec_run fl ops (rec_new t irtt mds icwp a hy fix_) = Ok (v, xs) -> In (OAck (2, 2400, 1200, 0)) xs -> 2400 <= v_bytes_lost v).
Proof.
  intros h. specialize (h flx 0 333000000 1200 10 Cubic true true hist1 _ _ hist1_valid hist1_run).
  assert (2400 <= v_bytes_lost (fst end1)); [|vm_compute in H; congruence]. apply h. vm_compute. intuition.
Qed.
Print Assumptions C74_lost_bytes_refuted.

(** * C75: probes *)

(** A timeout without a loss deadline in the application space declares nothing
    lost, leaves the bytes in flight alone, and allows one or two packets to be
    sent whatever the congestion window; the count of timeouts in a row (which
    doubles the next timeout) grows by one. *)
Theorem C75_probe : forall fl t irtt mds icwp a hy fix_ ops v xs hs now v' x,
  rec_run fl ops (rec_new t irtt mds icwp a hy fix_) = Ok (v, xs) ->
  s_loss_time (v_app v) = None -> rec_step fl (RTimeout hs now) v = Ok (v', x) ->
  x = OLost 0 0 /\ v_pto_count v' = v_pto_count v + 1 /\ bf_n (v_bif v') = bf_n (v_bif v) /\ cwnd_available v' = usize_max /\
  exists e, should_elicit_ack e v' = true /\ 1 <= s_probes (get_s e v') <= 2.
Proof.
  intros fl t irtt mds icwp a hy fix_ ops v xs hs now v' x hr hl h. apply (probe_timeout fl hs now v v' x hl); [|exact h].
  apply (pto_nonneg fl ops (rec_new t irtt mds icwp a hy fix_) v xs); [apply Z.le_refl|exact hr].
Qed.
Print Assumptions C75_probe.

(** The frames to send again, unless some are still waiting from the last timeout,
    are those of as many of the oldest packets with data, neither acknowledged nor
    lost, as packets may be sent; the packets themselves are left alone. *)
Definition unacked_data (p : pkt) : bool := p_data p && negb (is_some (p_acked p)) && negb (is_some (p_lost p)).
Lemma pto_frames_spec : forall l n, pto_frames n l = flat_map p_frames (firstn n (filter unacked_data l)).
Proof.
  induction l as [|p l IH]; intros [|n]; cbn [pto_frames filter]; try reflexivity. fold (unacked_data p).
  destruct (unacked_data p); [|apply IH]. cbn [firstn flat_map]. rewrite IH. reflexivity.
Qed.
Theorem C75_frames : forall fl t irtt mds icwp a hy fix_ ops v xs hs now v' x,
  rec_run fl ops (rec_new t irtt mds icwp a hy fix_) = Ok (v, xs) ->
  s_loss_time (v_app v) = None -> rec_step fl (RTimeout hs now) v = Ok (v', x) ->
  exists e, 1 <= s_probes (get_s e v') <= 2 /\ s_sent (get_s e v') = s_sent (get_s e v) /\ s_flost (get_s e v') = s_flost (get_s e v) /\
    s_fpto (get_s e v') = match s_fpto (get_s e v) with
      | [] => flat_map p_frames (firstn (Z.to_nat (s_probes (get_s e v'))) (filter unacked_data (s_sent (get_s e v))))
      | l => l
      end.
Proof.
  intros fl t irtt mds icwp a hy fix_ ops v xs hs now v' x hr hl h.
  assert (hp : 0 <= v_pto_count v) by (apply (pto_nonneg fl ops (rec_new t irtt mds icwp a hy fix_) v xs); [apply Z.le_refl|exact hr]).
  cbn [rec_step] in h. unfold rec_timeout in h. pose proof (lts_none v hl) as hn.
  destruct (loss_time_and_space v) as [q e1]. cbn [fst] in hn. subst q. cbn [bind] in h.
  apply (f_equal (fun r => match r with Ok a => a | _ => (v, x) end)) in h. cbv beta iota zeta in h. apply pair_equal_spec in h. destruct h as [<- _].
  set (e := if 0 <? bf_n (v_bif v) then snd (pto_time_and_space hs now v) else if hs_keys hs then EHandshake else EInitial). exists e. clearbody e.
  rewrite slt_get, get_set. replace (get_s e (set_pto_count (v_pto_count v + 1) v)) with (get_s e v) by (destruct e; reflexivity).
  match goal with |- context [match s_fpto (set_s_probes ?b ?s) with _ => _ end] => change (s_fpto (set_s_probes b s)) with (s_fpto s) end.
  destruct (s_fpto (get_s e v)) eqn:ef; cbn [s_probes s_flost s_fpto s_sent set_s_fpto set_s_probes v_pto_count set_pto_count]; rewrite ?pto_frames_spec; change MAX_PROBES with 2; repeat split; auto; lia.
Qed.
Print Assumptions C75_frames.

(** Timeouts in a row are counted until a packet in flight is newly acknowledged. *)
Theorem C75_count : forall fl o v v' x, rec_step fl o v = Ok (v', x) -> pto_step o x (v_pto_count v) (v_pto_count v').
Proof. exact pto_count_step. Qed.
Print Assumptions C75_count.

Definition end75 : rec * list rout := Eval vm_compute in match rec_step flx (RTimeout hsx 400000000) (fst end2b) with Ok (v, x) => (v, [x]) | _ => (r0 Cubic 1200 10, []) end.
Example C75_witness : s_loss_time (v_app (fst end2b)) = None /\ rec_step flx (RTimeout hsx 400000000) (fst end2b) = Ok (fst end75, OLost 0 0) /\
  v_pto_count (fst end75) = 1 /\ s_probes (get_s EApp (fst end75)) = 1 /\ s_fpto (get_s EApp (fst end75)) <> [] /\ cwnd_available (fst end2b) = 9600 + 0 /\ cwnd_available (fst end75) = usize_max.
Proof. repeat split; vm_compute; reflexivity || discriminate. Qed.
