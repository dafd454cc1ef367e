(** C18: datagram queues. *)
Require Import Verif.Base Verif.Errors Verif.DgramModel Verif.DgramSpec Verif.DgramProofs.

(** C18: what was handed out, followed by what is queued, is in push order and
    unmodified; what is missing was thrown away by a call that may do so. *)
Theorem C18_datagrams_in_order cap ops outs q : 0 <= cap -> dg_run ops (dq_new cap) = (outs, q) ->
  exists discarded, shuffle (delivered ops outs ++ dq_queue q) discarded (accepted ops outs) /\
    forall d, In d discarded -> may_discard ops d.
Proof. exact (dgram_fifo cap ops outs q). Qed.
Print Assumptions C18_datagrams_in_order.

(** C18: nothing is lost when no such call was made. *)
Theorem C18_nothing_lost cap ops outs q : 0 <= cap -> dg_run ops (dq_new cap) = (outs, q) ->
  (forall d, ~ may_discard ops d) -> delivered ops outs ++ dq_queue q = accepted ops outs.
Proof. exact (dgram_no_loss cap ops outs q). Qed.
Print Assumptions C18_nothing_lost.

(** C18: the queue stays within its capacity and byte_size is exact. *)
Theorem C18_bounded_and_counted cap ops outs q : 0 <= cap -> dg_run ops (dq_new cap) = (outs, q) ->
  dq_len q <= cap /\ dq_bytes q = total_bytes (dq_queue q).
Proof. exact (dgram_bounded cap ops outs q). Qed.
Print Assumptions C18_bounded_and_counted.

(** C18: a push succeeds exactly when there is room. *)
Theorem C18_push_iff_room cap ops outs q d : 0 <= cap -> dg_run ops (dq_new cap) = (outs, q) ->
  (dq_len q < cap -> exists q', dq_push d q = (Ok tt, q') /\ dq_queue q' = dq_queue q ++ [d]) /\
  (dq_len q = cap -> dq_push d q = (Err Done, q)).
Proof. exact (dgram_push_exact cap ops outs q d). Qed.
Print Assumptions C18_push_iff_room.

(** C18: purging removes exactly the matching datagrams and keeps the order. *)
Theorem C18_purge_exact f q :
  let q' := dq_purge f q in
  subseq (dq_queue q') (dq_queue q) /\
  (forall d, In d (dq_queue q') -> f d = false) /\
  (forall d, f d = false -> count_occ dgeq_dec (dq_queue q') d = count_occ dgeq_dec (dq_queue q) d).
Proof. exact (dgram_purge_exact f q). Qed.
Print Assumptions C18_purge_exact.

(** C18: a received datagram is queued; a full queue gives up its oldest. *)
Theorem C18_newest_kept cap ops outs q d : 1 <= cap -> dg_run ops (dq_new cap) = (outs, q) ->
  exists q', dgram_recv_frame true d q = (Ok tt, q') /\
    (dq_len q < cap -> dq_queue q' = dq_queue q ++ [d]) /\
    (dq_len q = cap -> exists old rest, dq_queue q = old :: rest /\ dq_queue q' = rest ++ [d]).
Proof. exact (dgram_newest_kept cap ops outs q d). Qed.
Print Assumptions C18_newest_kept.

(** C18: what is packed fits the packet, and packing goes on as long as
    something fits. *)
Theorem C18_packing cap ops outs q room max out q' : 0 <= cap -> dg_run ops (dq_new cap) = (outs, q) ->
  2 < room -> dgram_emit room (Some max) q = (out, q') ->
  total_bytes out + 3 * zlen out <= room /\
  match dq_queue q' with
  | [] => True
  | d :: _ => zlen d <= max /\ room < total_bytes out + 3 * zlen out + 3 + zlen d
  end.
Proof. exact (dgram_emit_fits cap ops outs q room max out q'). Qed.
Print Assumptions C18_packing.

(** C18: sending succeeds exactly when datagrams are negotiated, this one fits and
    there is room; a refused datagram changes nothing. *)
Theorem C18_send_iff cap ops outs q max d : 0 <= cap -> dg_run ops (dq_new cap) = (outs, q) ->
  (forall q', dgram_send max d q = (Ok tt, q') <->
     (exists m, max = Some m /\ zlen d <= m) /\ dq_len q < cap /\ q' = mkDgq (dq_queue q ++ [d]) (dq_max q) (dq_bytes q + zlen d)) /\
  (forall r q', dgram_send max d q = (r, q') -> r <> Ok tt -> q' = q /\
     r = Err match max with None => InvalidState | Some m => if m <? zlen d then BufferTooShort else Done end).
Proof. exact (dgram_send_iff cap ops outs q max d). Qed.
Print Assumptions C18_send_iff.

(** C18: peeking shows the first [len] bytes of the oldest datagram, leaves the
    rest of the buffer and the queue alone, and needs only room for those. *)
Theorem C18_peek_exact buf len q : 0 <= len ->
  match dq_queue q with
  | [] => dq_peek_len q = None /\ dq_peek_bytes buf len q = (Err Done, buf)
  | d :: _ =>
      dq_peek_len q = Some (zlen d) /\
      (zlen (take len d) <= zlen buf ->
         dq_peek_bytes buf len q = (Ok (zlen (take len d)), take len d ++ drop (zlen (take len d)) buf)) /\
      (zlen buf < zlen (take len d) -> dq_peek_bytes buf len q = (Err BufferTooShort, buf))
  end.
Proof. exact (dgram_peek_exact buf len q). Qed.
Print Assumptions C18_peek_exact.

(** C18: receiving returns the whole oldest datagram. *)
Theorem C18_recv_exact buf q d rest : dq_queue q = d :: rest -> zlen d <= zlen buf ->
  exists buf' q', dgram_recv buf q = (Ok (zlen d), buf', q') /\ dq_queue q' = rest /\
    take (zlen d) buf' = d /\ drop (zlen d) buf' = drop (zlen d) buf.
Proof. exact (dgram_recv_exact buf q d rest). Qed.
Print Assumptions C18_recv_exact.

(** With a receive queue of size 0, which the configuration allows, processing a
    DATAGRAM frame fails although datagrams are enabled. *)
Theorem C18_empty_capacity_rejects_frame_refuted d :
  fst (dgram_recv_frame true d (dq_new 0)) = Err Done.
Proof. reflexivity. Qed.
Print Assumptions C18_empty_capacity_rejects_frame_refuted.

(** Reading into a buffer that is too short loses the datagram. *)
Theorem C18_short_read_loses_datagram_refuted : exists q q' d buf, dq_queue q = [d] /\
  dgram_recv buf q = (Err BufferTooShort, buf, q') /\ dq_queue q' = [].
Proof. exists (mkDgq [[1; 2; 3]] 5 3). eexists _, _, [0; 0]. split; [reflexivity|]. split; reflexivity. Qed.
Print Assumptions C18_short_read_loses_datagram_refuted.

(** ** The hypotheses are met *)
Definition w_ops : list dg_op :=
  [DgPush [1; 2]; DgSend (Some 10) [3]; DgPeekLen; DgPop; DgFrame [4; 4; 4]; DgSend (Some 2) [1; 1; 1];
   DgPush [5]; DgFrame [6; 6]; DgPurge (fun d => zlen d =? 1); DgEmit 100 (Some 50)].

Example w_C18 :
  fst (dg_run w_ops (dq_new 3)) =
    [OUnit (Ok tt); OUnit (Ok tt); OLen (Some 2); OPop (Some [1; 2]); OUnit (Ok tt); OUnit (Err BufferTooShort);
     OUnit (Ok tt); OUnit (Ok tt); OUnit (Ok tt); OSent [[4; 4; 4]; [6; 6]]] /\
  dq_queue (snd (dg_run w_ops (dq_new 3))) = [].
Proof. split; reflexivity. Qed.

Example w_C18_no_loss : forall d, ~ may_discard [DgPush [1; 2]; DgSend (Some 10) [3]; DgPeekLen; DgPop] d.
Proof.
  intros d [(f & h & _)|[(f & h & _)|[(f & h)|(r & m & h & _)]]]; cbn in h;
    repeat (destruct h as [h|h]; [discriminate|]); exact h.
Qed.
