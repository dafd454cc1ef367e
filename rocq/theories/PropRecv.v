(** C05-C09: the receive side of a stream.  A history is any list of STREAM
    frames, reads, RESET_STREAM frames, read shutdowns and MAX_STREAM_DATA
    updates, started on a fresh stream with any limit and windows. *)
Require Import Verif.Base Verif.Errors Verif.RangeBufModel Verif.RecvBufModel Verif.RecvSpec Verif.RecvBufProofs5.

(** C05: the bytes read are a prefix of the string the frames were cut from. *)
Theorem C05_reads_are_prefix :
  forall md w mw S ops outs st,
    0 <= md -> 0 <= w -> 0 <= mw ->
    Forall rv_op_ok ops -> Forall (cut_from S) ops ->
    rv_run ops (rv_new md w mw) = Ok (outs, st) ->
    exists rest, S = read_bytes outs ++ rest.
Proof. intros md w mw S ops outs st h1 h2 h3. exact (recv_prefix md w mw h1 h2 h3 S ops outs st). Qed.
Print Assumptions C05_reads_are_prefix.

(** Even when frames disagree, the byte read at offset [i] was carried by some
    received frame at that offset. *)
Theorem C05_reads_come_from_frames :
  forall md w mw ops outs st i,
    0 <= md -> 0 <= w -> 0 <= mw ->
    Forall rv_op_ok ops -> rv_run ops (rv_new md w mw) = Ok (outs, st) ->
    0 <= i < zlen (read_bytes outs) ->
    exists op x, In op ops /\ carries op i x /\ zget (read_bytes outs) i = Some x.
Proof. intros md w mw ops outs st i h1 h2 h3. exact (recv_from_frames md w mw h1 h2 h3 ops outs st i). Qed.
Print Assumptions C05_reads_come_from_frames.

Theorem C05_recv_never_panics :
  forall md w mw ops, 0 <= md -> 0 <= w -> 0 <= mw ->
    Forall rv_op_ok ops -> rv_run ops (rv_new md w mw) <> Panic.
Proof. intros md w mw ops h1 h2 h3. exact (recv_no_panic md w mw h1 h2 h3 ops). Qed.
Print Assumptions C05_recv_never_panics.

(** Out of order, overlapping frames of 10 11 12 13 14 with reads in between. *)
Definition ex_ops : list rv_op :=
  [RvFrame 3 [13; 14] true; RvFrame 0 [10; 11] false; RvRead 1; RvFrame 1 [11; 12; 13] false;
   RvRead 100; RvLimit 5 1 true].
Example C05_witness :
  Forall rv_op_ok ex_ops /\ Forall (cut_from [10; 11; 12; 13; 14]) ex_ops /\
  exists st, rv_run ex_ops (rv_new 8 8 16) =
    Ok ([OFrame 5 0; OFrame 0 0; ORead (Ok ([10], false)); OFrame 0 0;
         ORead (Ok ([11; 12; 13; 14], true)); OLimit (Some 13)], st).
Proof.
  split; [repeat constructor; cbn; lia|]. split.
  - repeat constructor; intros o x h; cbn [carries] in h; try contradiction;
      pose proof (zget_some_range _ _ _ h) as r; cbn in r.
    + assert (o = 3 \/ o = 4) as [-> | ->] by lia; exact h.
    + assert (o = 0 \/ o = 1) as [-> | ->] by lia; exact h.
    + assert (o = 1 \/ o = 2 \/ o = 3) as [-> | [-> | ->]] by lia; exact h.
  - eexists. vm_compute. reflexivity.
Qed.

(** C06: once every byte below [n] has arrived, one read with enough room
    returns everything up to [n] at least. *)
Theorem C06_arrived_bytes_are_returned :
  forall md w mw ops outs st n cap,
    0 <= md -> 0 <= w -> 0 <= mw ->
    Forall rv_op_ok ops -> rv_run ops (rv_new md w mw) = Ok (outs, st) ->
    ~ stopped ops -> (forall o, 0 <= o < n -> arrived ops o) ->
    zlen (read_bytes outs) < n -> n <= zlen (read_bytes outs) + cap ->
    exists bytes fin st', rv_step (RvRead cap) st = Ok (ORead (Ok (bytes, fin)), st') /\
      n <= zlen (read_bytes outs ++ bytes).
Proof. intros md w mw ops outs st n cap h1 h2 h3. exact (recv_complete md w mw h1 h2 h3 ops outs st n cap). Qed.
Print Assumptions C06_arrived_bytes_are_returned.

(** Readable exactly when the next read returns data, the end of the stream or
    the reset error; otherwise it returns Done. *)
Theorem C06_readable_iff_read_progresses :
  forall md w mw ops outs st cap,
    0 <= md -> 0 <= w -> 0 <= mw ->
    Forall rv_op_ok ops -> rv_run ops (rv_new md w mw) = Ok (outs, st) -> 0 < cap ->
    exists r st', rv_step (RvRead cap) st = Ok (ORead r, st') /\
      (rv_ready st = true <->
       match r with
       | Ok (bytes, fin) => bytes <> [] \/ fin = true
       | Err (StreamReset _) => True
       | _ => False
       end) /\
      (rv_ready st = false <-> r = Err Done).
Proof. intros md w mw ops outs st cap h1 h2 h3. exact (recv_readable_progress md w mw h1 h2 h3 ops outs st cap). Qed.
Print Assumptions C06_readable_iff_read_progresses.

(** readable_len is the length of the contiguous run after what was read. *)
Theorem C06_readable_len_is_contiguous_run :
  forall md w mw ops outs st m,
    0 <= md -> 0 <= w -> 0 <= mw ->
    Forall rv_op_ok ops -> rv_run ops (rv_new md w mw) = Ok (outs, st) -> ~ stopped ops -> 0 < m ->
    let k := rv_readable_len m st in let r := zlen (read_bytes outs) in
    0 <= k <= m /\ (forall o, r <= o < r + k -> arrived ops o) /\
    (k = m \/ ~ arrived ops (r + k)).
Proof. intros md w mw ops outs st m h1 h2 h3. exact (recv_readable_len md w mw h1 h2 h3 ops outs st m). Qed.
Print Assumptions C06_readable_len_is_contiguous_run.

Example C06_witness :
  let ops := [RvFrame 3 [13] false; RvFrame 0 [10; 11] false; RvRead 1] in
  ~ stopped ops /\ arrived ops 1 /\ ~ arrived ops 2 /\
  exists st, rv_run ops (rv_new 8 8 16) = Ok ([OFrame 4 0; OFrame 0 0; ORead (Ok ([10], false))], st) /\
    rv_ready st = true /\ rv_readable_len 9 st = 1.
Proof.
  cbv zeta. split.
  { intros [h|(op & h & r)]; cbn in h; intuition; subst; cbn in *; discriminate || contradiction. }
  split. { exists (RvFrame 0 [10; 11] false), 11. cbn. auto. }
  split. { intros (op & x & h & c). cbn in h. intuition; subst; vm_compute in c; discriminate || contradiction. }
  eexists. vm_compute. auto.
Qed.

(** Finding: the end of the stream can be lost.  The FIN arrives on a frame
    whose bytes were all read already (a legal retransmission); every byte and
    the final size are known, no read ever reported the end, and the stream is
    not readable. *)
Theorem C06_fin_on_duplicate_frame_is_lost_refuted :
  exists ops outs st,
    Forall rv_op_ok ops /\ rv_run ops (rv_new 100 100 100) = Ok (outs, st) /\ ~ stopped ops /\
    (exists op, In op ops /\ final_size_of op (zlen (read_bytes outs))) /\
    (forall bytes fin, In (ORead (Ok (bytes, fin))) outs -> fin = false) /\
    rv_ready st = false /\ rv_step (RvRead 100) st = Ok (ORead (Err Done), st).
Proof.
  exists [RvFrame 0 [1; 2] false; RvRead 10; RvFrame 0 [1; 2] true]. eexists _, _.
  split; [repeat constructor; cbn; lia|]. split; [vm_compute; reflexivity|].
  split. { intros [h|(op & h & r)]; cbn in h; intuition; subst; cbn in *; discriminate || contradiction. }
  split. { exists (RvFrame 0 [1; 2] true). split; [cbn; auto|reflexivity]. }
  split. { intros bytes fin h. cbn in h. intuition; congruence. }
  split; vm_compute; reflexivity.
Qed.
Print Assumptions C06_fin_on_duplicate_frame_is_lost_refuted.

(** Finding: a RESET_STREAM that arrives after the final size is known throws
    away the unread data and is never reported: reads return Done for ever. *)
Theorem C06_reset_after_fin_is_not_reported_refuted :
  exists ops outs st,
    Forall rv_op_ok ops /\ rv_run ops (rv_new 100 100 100) = Ok (outs, st) /\
    In (RvReset 7 2) ops /\ read_bytes outs = [] /\
    rv_ready st = false /\ rv_step (RvRead 100) st = Ok (ORead (Err Done), st).
Proof.
  exists [RvFrame 0 [1; 2] true; RvReset 7 2]. eexists _, _.
  split; [repeat constructor; cbn; lia|]. split; [vm_compute; reflexivity|].
  split; [cbn; auto|]. split; [reflexivity|]. split; vm_compute; reflexivity.
Qed.
Print Assumptions C06_reset_after_fin_is_not_reported_refuted.

(** C07: an accepted history has one final size and nothing beyond it. *)
Theorem C07_one_final_size :
  forall md w mw ops outs st, 0 <= md -> 0 <= w -> 0 <= mw ->
    Forall rv_op_ok ops -> rv_run ops (rv_new md w mw) = Ok (outs, st) ->
    (forall op1 op2 f1 f2, In op1 ops -> In op2 ops ->
       final_size_of op1 f1 -> final_size_of op2 f2 -> f1 = f2) /\
    (forall op1 op2 f u, In op1 ops -> In op2 ops ->
       final_size_of op1 f -> uses_up_to op2 u -> u <= f).
Proof. intros md w mw ops outs st h1 h2 h3. exact (recv_one_final_size md w mw h1 h2 h3 ops outs st). Qed.
Print Assumptions C07_one_final_size.

(** C07/C08: exactly which STREAM frames are accepted, and with which error the
    others are rejected. *)
Theorem C07_C08_frame_accepted_exactly_when_legal :
  forall md w mw ops outs st off data fin, 0 <= md -> 0 <= w -> 0 <= mw ->
    Forall rv_op_ok ops -> rv_run ops (rv_new md w mw) = Ok (outs, st) -> 0 <= off ->
    let e := off + zlen data in
    (forall f, last_limit md outs < e -> rv_step (RvFrame off data f) st = Err FlowControlE) /\
    (e <= last_limit md outs ->
      ((forall op f, In op ops -> final_size_of op f -> e <= f /\ (fin = true -> e = f)) /\
       (fin = true -> forall op u, In op ops -> uses_up_to op u -> u <= e) ->
       exists o st', rv_step (RvFrame off data fin) st = Ok (o, st')) /\
      (~ ((forall op f, In op ops -> final_size_of op f -> e <= f /\ (fin = true -> e = f)) /\
          (fin = true -> forall op u, In op ops -> uses_up_to op u -> u <= e)) ->
       rv_step (RvFrame off data fin) st = Err FinalSize)).
Proof. intros md w mw ops outs st off data fin h1 h2 h3.
  exact (recv_frame_accepted md w mw h1 h2 h3 ops outs st off data fin). Qed.
Print Assumptions C07_C08_frame_accepted_exactly_when_legal.

Theorem C07_reset_accepted_exactly_when_legal :
  forall md w mw ops outs st code final, 0 <= md -> 0 <= w -> 0 <= mw ->
    Forall rv_op_ok ops -> rv_run ops (rv_new md w mw) = Ok (outs, st) -> 0 <= final ->
    let legal := (forall op f, In op ops -> final_size_of op f -> final = f) /\
                 (forall op u, In op ops -> uses_up_to op u -> u <= final) in
    (legal -> final <= last_limit md outs ->
       exists o st', rv_step (RvReset code final) st = Ok (o, st')) /\
    (legal -> last_limit md outs < final -> rv_step (RvReset code final) st = Err FlowControlE) /\
    (~ legal -> rv_step (RvReset code final) st = Err FinalSize).
Proof. intros md w mw ops outs st code final h1 h2 h3.
  exact (recv_reset_accepted md w mw h1 h2 h3 ops outs st code final). Qed.
Print Assumptions C07_reset_accepted_exactly_when_legal.

(** C08: everything accepted lies below the limit last announced. *)
Theorem C08_accepted_data_below_limit :
  forall md w mw ops outs st op u, 0 <= md -> 0 <= w -> 0 <= mw ->
    Forall rv_op_ok ops -> rv_run ops (rv_new md w mw) = Ok (outs, st) ->
    In op ops -> uses_up_to op u -> u <= last_limit md outs.
Proof. intros md w mw ops outs st op u h1 h2 h3. exact (recv_below_limit md w mw h1 h2 h3 ops outs st op u). Qed.
Print Assumptions C08_accepted_data_below_limit.

Example C07_C08_witness :
  let ops := [RvFrame 2 [1; 2] true; RvFrame 0 [7] false] in
  exists outs st, rv_run ops (rv_new 6 6 6) = Ok (outs, st) /\
    rv_step (RvFrame 4 [1] false) st = Err FinalSize /\
    rv_step (RvFrame 5 [1; 2] false) st = Err FlowControlE /\
    rv_step (RvFrame 0 [7; 8; 9] true) st = Err FinalSize /\
    rv_step (RvReset 1 3) st = Err FinalSize /\
    (exists s, rv_step (RvReset 1 4) st = Ok (OReset (0, 4), s)).
Proof.
  cbv zeta. eexists _, _. split; [vm_compute; reflexivity|].
  repeat split; try (vm_compute; reflexivity). eexists. vm_compute. reflexivity.
Qed.

(** C09: nothing is delivered after the stream was shut down or reset. *)
Theorem C09_no_delivery_after_stop :
  forall md w mw a b outs1 outs2 st1 st2, 0 <= md -> 0 <= w -> 0 <= mw ->
    Forall rv_op_ok (a ++ b) -> rv_run a (rv_new md w mw) = Ok (outs1, st1) ->
    rv_run b st1 = Ok (outs2, st2) -> stopped a -> read_bytes outs2 = [].
Proof. intros md w mw a b o1 o2 s1 s2 h1 h2 h3. exact (recv_stop md w mw h1 h2 h3 a b o1 o2 s1 s2). Qed.
Print Assumptions C09_no_delivery_after_stop.

(** C09: each byte is charged once and credited at most once to the connection,
    and exactly once when the stream is finished.  Histories with empty
    non-FIN frames are excluded: see the refutation below. *)
Theorem C09_credit_each_byte_once :
  forall md w mw ops outs st, 0 <= md -> 0 <= w -> 0 <= mw ->
    Forall rv_op_ok ops -> Forall not_empty_frame ops ->
    rv_run ops (rv_new md w mw) = Ok (outs, st) ->
    exists h, highest ops h /\ sum_of out_charge outs = h /\
      zlen (read_bytes outs) <= sum_of out_credit outs <= h /\
      (stopped ops \/ zlen (read_bytes outs) = h -> sum_of out_credit outs = h).
Proof. intros md w mw ops outs st h1 h2 h3. exact (recv_credit md w mw h1 h2 h3 ops outs st). Qed.
Print Assumptions C09_credit_each_byte_once.

(** Finding: an empty non-FIN frame beyond the received data is charged to the
    connection every time it arrives, although it carries nothing. *)
Theorem C09_empty_frames_charged_repeatedly_refuted :
  exists ops outs st,
    Forall rv_op_ok ops /\ rv_run ops (rv_new 100 100 100) = Ok (outs, st) /\
    (forall op e, In op ops -> ~ uses_up_to op e) /\ sum_of out_charge outs = 120.
Proof.
  exists [RvFrame 60 [] false; RvFrame 60 [] false]. eexists _, _.
  split; [repeat constructor; cbn; lia|]. split; [vm_compute; reflexivity|].
  split; [|reflexivity].
  intros op e h. cbn in h. intuition; subst; cbn in *; intuition congruence.
Qed.
Print Assumptions C09_empty_frames_charged_repeatedly_refuted.

Example C09_witness :
  let ops := [RvFrame 0 [1; 2; 3] false; RvRead 2; RvShutdown; RvFrame 1 [2; 3; 4; 5] false; RvReset 9 8] in
  Forall not_empty_frame ops /\ stopped ops /\
  exists st, rv_run ops (rv_new 100 100 100) =
    Ok ([OFrame 3 0; ORead (Ok ([1; 2], false)); OShutdown (Ok 1); OFrame 2 2; OReset (3, 3)], st).
Proof.
  cbv zeta. split; [repeat (apply Forall_cons; [cbn; auto; left; discriminate|]); apply Forall_nil|].
  split; [left; cbn; auto|]. eexists. vm_compute. reflexivity.
Qed.
