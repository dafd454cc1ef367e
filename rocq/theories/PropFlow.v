(** C16, C17, C40: receive flow control for one stream and for the connection. *)
Require Import Verif.Base Verif.Errors Verif.FlowControlModel Verif.RecvBufModel Verif.RecvSpec
  Verif.RecvBufProofs4 Verif.RecvBufProofs5 Verif.ConnRecvModel Verif.ConnRecvSpec Verif.ConnRecvProofs Verif.FlowProofs.
From Coq Require Import Sorting.Sorted.

(** C16: the stream limits announced, starting with the initial one, never
    decrease, whatever the timing of updates, retransmissions and autotuning. *)
Theorem C16_stream_limits_never_shrink :
  forall md w mw ops outs st, 0 <= md -> 0 <= w -> 0 <= mw ->
    Forall rv_op_ok ops -> rv_run ops (rv_new md w mw) = Ok (outs, st) ->
    Sorted Z.le (md :: limits outs).
Proof.
  intros md w mw ops outs st h1 h2 h3 hok hr.
  exact (limits_sorted md ops [] [] _ _ _ (rv_hist_new md w mw h1 h2 h3) hok hr).
Qed.
Print Assumptions C16_stream_limits_never_shrink.

Theorem C16_connection_limits_never_shrink :
  forall params md mw ops outs st,
    (forall s, let '(a, b, c) := params s in 0 <= a /\ 0 <= b /\ 0 <= c) -> 0 <= md -> 0 <= mw ->
    Forall cr_op_ok ops -> cr_run params ops (cr_new md mw) = Ok (outs, st) ->
    Sorted Z.le (md :: conn_limits outs).
Proof.
  intros params md mw ops outs st hp h1 h2 hok hr.
  exact (conn_limits_sorted params hp md mw ops [] _ _ _ (cr_new_hist params hp md mw h1 h2) hok hr).
Qed.
Print Assumptions C16_connection_limits_never_shrink.

(** The connection window stays within its maximum, and no more is ever
    consumed than was allowed. *)
Theorem C16_connection_window_bounded :
  forall params md mw ops outs st,
    (forall s, let '(a, b, c) := params s in 0 <= a /\ 0 <= b /\ 0 <= c) -> 0 <= md -> 0 <= mw ->
    Forall cr_op_ok ops -> cr_run params ops (cr_new md mw) = Ok (outs, st) ->
    fc_window (cr_fc st) <= mw /\ fc_consumed (cr_fc st) <= conn_limit md outs.
Proof. intros params md mw ops outs st hp h1 h2. exact (conn_windows params hp md mw h1 h2 ops outs st). Qed.
Print Assumptions C16_connection_window_bounded.

(** C17: when everything the limit allows was received and read, the next
    packet announces a strictly larger limit. *)
Theorem C17_blocked_stream_is_unblocked :
  forall md w mw ops outs st now rtt,
    0 <= md -> 2 <= w -> 2 <= mw -> Forall rv_op_ok ops ->
    rv_run ops (rv_new md w mw) = Ok (outs, st) ->
    (forall op f, In op ops -> ~ final_size_of op f) ->
    zlen (read_bytes outs) = last_limit md outs -> 0 <= now -> 0 <= rtt ->
    exists l st', rv_step (RvLimit now rtt true) st = Ok (OLimit (Some l), st') /\
      last_limit md outs < l.
Proof. exact stream_unblocked. Qed.
Print Assumptions C17_blocked_stream_is_unblocked.

Theorem C17_blocked_connection_is_unblocked :
  forall params md mw ops outs st now rtt,
    (forall s, let '(a, b, c) := params s in 0 <= a /\ 0 <= b /\ 0 <= c) -> 2 <= md -> 2 <= mw ->
    Forall cr_op_ok ops -> cr_run params ops (cr_new md mw) = Ok (outs, st) ->
    sum_of conn_credit outs = conn_limit md outs -> 0 <= now -> 0 <= rtt ->
    exists l st', cr_step params (CrLimit now rtt true) st = Ok (CoLimit (Some l), st') /\
      conn_limit md outs < l.
Proof.
  intros params md mw ops outs st now rtt hp h1 h2.
  exact (conn_unblocked params hp md mw ltac:(lia) ltac:(lia) ops outs st now rtt h1 h2).
Qed.
Print Assumptions C17_blocked_connection_is_unblocked.

(** Finding: with a window of one byte the limit never grows: the whole byte is
    received and read, yet no update is due, so the peer stays blocked. *)
Theorem C17_one_byte_window_never_grows_refuted :
  exists ops outs st,
    Forall rv_op_ok ops /\ rv_run ops (rv_new 1 1 100) = Ok (outs, st) /\
    zlen (read_bytes outs) = last_limit 1 outs /\
    forall now rtt fits, rv_step (RvLimit now rtt fits) st = Ok (OLimit None, st).
Proof.
  exists [RvFrame 0 [5] false; RvRead 10]. eexists _, _.
  split; [repeat constructor; cbn; lia|]. split; [vm_compute; reflexivity|].
  split; [reflexivity|]. intros. reflexivity.
Qed.
Print Assumptions C17_one_byte_window_never_grows_refuted.

Example C17_witness :
  let ops := [RvFrame 0 [5; 6; 7; 8] false; RvRead 10] in
  exists outs st, rv_run ops (rv_new 4 4 16) = Ok (outs, st) /\
    zlen (read_bytes outs) = last_limit 4 outs /\
    exists st', rv_step (RvLimit 3 1 true) st = Ok (OLimit (Some 8), st').
Proof.
  cbv zeta. eexists _, _. split; [vm_compute; reflexivity|]. split; [reflexivity|].
  eexists. vm_compute. reflexivity.
Qed.

(** C40: over any set of distinct streams the highest received offsets add up
    to at most the connection limit. *)
Theorem C40_received_total_within_limit :
  forall params md mw ops outs st l,
    (forall s, let '(a, b, c) := params s in 0 <= a /\ 0 <= b /\ 0 <= c) -> 0 <= md -> 0 <= mw ->
    Forall cr_op_ok ops -> cr_run params ops (cr_new md mw) = Ok (outs, st) -> NoDup l ->
    sum_over l (fun s => top s (combine ops outs)) <= conn_limit md outs.
Proof. intros params md mw ops outs st l hp h1 h2. exact (conn_recv_limit params hp md mw h1 h2 ops outs st l). Qed.
Print Assumptions C40_received_total_within_limit.

(** C40: a frame that would take the total past the limit closes the connection
    with FlowControl. *)
Theorem C40_excess_frame_rejected :
  forall params md mw ops outs st l sid off data fin,
    (forall s, let '(a, b, c) := params s in 0 <= a /\ 0 <= b /\ 0 <= c) -> 0 <= md -> 0 <= mw ->
    Forall cr_op_ok ops -> cr_run params ops (cr_new md mw) = Ok (outs, st) -> NoDup l -> ~ In sid l ->
    conn_limit md outs <
      sum_over l (fun s => top s (combine ops outs)) +
      Z.max (top sid (combine ops outs)) (off + zlen data) ->
    (exists r, cr_get_or_create params sid st = Some r) ->
    cr_step params (CrFrame sid off data fin) st = Err FlowControlE.
Proof.
  intros params md mw ops outs st l sid off data fin hp h1 h2.
  exact (conn_recv_reject params hp md mw h1 h2 ops outs st l sid off data fin).
Qed.
Print Assumptions C40_excess_frame_rejected.

(** Without empty non-FIN frames the connection's received count is exactly the
    sum of the highest offsets. *)
Theorem C40_received_count_exact :
  forall params md mw ops outs st l,
    (forall s, let '(a, b, c) := params s in 0 <= a /\ 0 <= b /\ 0 <= c) -> 0 <= md -> 0 <= mw ->
    Forall cr_op_ok ops -> Forall cr_not_empty ops ->
    cr_run params ops (cr_new md mw) = Ok (outs, st) ->
    NoDup l -> (forall s, top s (combine ops outs) <> 0 -> In s l) ->
    cr_rx st = sum_over l (fun s => top s (combine ops outs)).
Proof. intros params md mw ops outs st l hp h1 h2. exact (conn_rx_exact params hp md mw h1 h2 ops outs st l). Qed.
Print Assumptions C40_received_count_exact.

Theorem C40_recv_never_panics :
  forall params md mw ops,
    (forall s, let '(a, b, c) := params s in 0 <= a /\ 0 <= b /\ 0 <= c) -> 0 <= md -> 0 <= mw ->
    Forall cr_op_ok ops -> cr_run params ops (cr_new md mw) <> Panic.
Proof. intros params md mw ops hp h1 h2. exact (conn_no_panic params hp md mw h1 h2 ops). Qed.
Print Assumptions C40_recv_never_panics.

(** Finding: two empty frames exhaust the connection limit although nothing was
    received; the peer's next legal byte closes the connection. *)
Theorem C40_empty_frames_exhaust_connection_refuted :
  exists ops outs st,
    Forall cr_op_ok ops /\ cr_run (fun _ => (100, 100, 100)) ops (cr_new 100 100) = Ok (outs, st) /\
    (forall s, top s (combine ops outs) = 0) /\
    cr_step (fun _ => (100, 100, 100)) (CrFrame 4 0 [1] false) st = Err FlowControlE.
Proof.
  exists [CrFrame 0 50 [] false; CrFrame 0 50 [] false]. eexists _, _.
  split; [repeat constructor; cbn; lia|]. split; [vm_compute; reflexivity|].
  split; [|vm_compute; reflexivity].
  intros s. cbn. rewrite !andb_false_r. reflexivity.
Qed.
Print Assumptions C40_empty_frames_exhaust_connection_refuted.

Example C40_witness :
  let ops := [CrFrame 0 0 [1; 2; 3] false; CrFrame 4 2 [9] true; CrRead 0 2; CrShutdown 0;
              CrReset 8 7 4; CrLimit 3 1 true] in
  Forall cr_op_ok ops /\ Forall cr_not_empty ops /\
  exists outs st, cr_run (fun _ => (10, 10, 10)) ops (cr_new 10 20) = Ok (outs, st) /\
    sum_over [0; 4; 8] (fun s => top s (combine ops outs)) = 10 /\ cr_rx st = 10 /\
    conn_limit 10 outs = 17.
Proof.
  cbv zeta. split; [repeat constructor; cbn; lia|].
  split; [repeat (apply Forall_cons; [cbn; auto; left; discriminate|]); apply Forall_nil|].
  eexists _, _. split; [vm_compute; reflexivity|]. repeat split.
Qed.
