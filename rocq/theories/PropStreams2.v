(** C10, C11, C12, C14 for all streams of a connection at once; C38, C39, C72:
    what a connection buffers and sends, whatever happens. *)
Require Import Verif.Base Verif.Errors Verif.SendBufModel Verif.SendSpec Verif.StreamsModel Verif.StreamsSpec
  Verif.StreamsTx5 Verif.StreamsTx6 Verif.PropStreams.

(** ** One stream among many *)

(** C10: a STREAM frame carries the bytes the application wrote on that very
    stream at those offsets. *)
Theorem C10_conn_frames P i ops outs c x f : history P i ops outs c -> In f (stream_frames x outs) ->
  0 <= sf_off f /\ frame_end f <= zlen (accepted_on x ops outs) /\
  sf_bytes f = slice (sf_off f) (frame_end f) (accepted_on x ops outs).
Proof. exact (fun H => conn_frames P i ops outs c H x f). Qed.
Print Assumptions C10_conn_frames.

(** C11: no stream accepts more than the largest limit the peer gave for it. *)
Theorem C11_conn_limit P i ops outs c x : history P i ops outs c ->
  zlen (accepted_on x ops outs) <= limit_on P x ops outs /\ highest_sent x outs <= limit_on P x ops outs.
Proof.
  intros H. pose proof (conn_limit P i ops outs c H x) as q. split; [exact q|]. apply highest_le.
  - pose proof (zlen_nonneg (accepted_on x ops outs)). lia.
  - intros f hf. destruct (conn_frames P i ops outs c H x f hf) as (_ & h & _). lia.
Qed.
Print Assumptions C11_conn_limit.

(** C12: a FIN ends what was sent, and unless sending was given up it ends
    exactly what was written. *)
Theorem C12_conn_fin P i ops outs c x f : history P i ops outs c -> In f (stream_frames x outs) -> sf_fin f = true ->
  (forall f', In f' (stream_frames x outs) -> frame_end f' <= frame_end f) /\
  (~ cut_on x ops outs -> finished_on x ops outs /\ frame_end f = zlen (accepted_on x ops outs)).
Proof. exact (fun H => conn_fin P i ops outs c H x f). Qed.
Print Assumptions C12_conn_fin.

(** C12: RESET_STREAM is sent only for a stream given up; it carries the end of
    what was ever sent, which is also where a FIN was if one was sent. *)
Theorem C12_conn_reset P i ops outs c x code final : history P i ops outs c -> In (SfReset x code final) (sent_frames outs) ->
  cut_on x ops outs /\ final = highest_sent x outs /\
  forall f, In f (stream_frames x outs) -> sf_fin f = true -> frame_end f = final.
Proof. exact (fun H => conn_reset P i ops outs c H x code final). Qed.
Print Assumptions C12_conn_reset.

(** C12: after the end of a stream, or after it was given up, no byte is
    accepted; only repeating the empty end succeeds. *)
Theorem C12_conn_after_end P i ops outs c x zc data fin n c' : history P i ops outs c ->
  finished_on x ops outs \/ cut_on x ops outs -> 0 <= x ->
  cn_step P (CnSend zc x data fin) c = Ok (CoWrote n, c') -> n = 0 /\ data = [] /\ fin = true.
Proof. exact (fun H => conn_after_end P i ops outs c H x zc data fin n c'). Qed.
Print Assumptions C12_conn_after_end.

(** C14: a stream that is over, and was not given up, was ended by the
    application and the peer acknowledged every byte of it. *)
Theorem C14_conn_over P i ops outs c x : history P i ops outs c -> over x c -> sendable P x -> ~ cut_on x ops outs ->
  finished_on x ops outs /\ forall y, 0 <= y < zlen (accepted_on x ops outs) -> acked_byte x y ops outs.
Proof. exact (fun H => conn_over P i ops outs c H x). Qed.
Print Assumptions C14_conn_over.

(** ** All streams together *)

(** C38: the count of bytes waiting is the sum over the streams in use. *)
Theorem C38_sum P i ops outs c l : history P i ops outs c -> NoDup l -> (forall x, In x l <-> live x c) ->
  c_txbuf c = total (fun x => match cn_get x c with Some s => sb_buffered (st_send s) | None => 0 end) l.
Proof. exact (fun H => conn_buffered P i ops outs c H l). Qed.
Print Assumptions C38_sum.

(** C38: when it is zero, every byte written on a stream not given up was sent. *)
Theorem C38_nothing_waiting P i ops outs c x y : history P i ops outs c ->
  c_txbuf c = 0 -> ~ cut_on x ops outs -> 0 <= y < zlen (accepted_on x ops outs) ->
  exists f, In f (stream_frames x outs) /\ in_frame f y.
Proof. exact (fun H => conn_nothing_waiting P i ops outs c H x y). Qed.
Print Assumptions C38_nothing_waiting.

(** C39: over any set of streams, the bytes sent, or accepted where sending was
    not given up, add up to at most the largest connection limit of the peer,
    provided the configured capacity factor is at most 1. *)
Theorem C39_send_limit P i ops outs c l v : history P i ops outs c -> p_num P <= p_den P -> NoDup l ->
  (forall x, In x l -> v x <= highest_sent x outs \/ (~ cut_on x ops outs /\ v x <= zlen (accepted_on x ops outs))) ->
  total v l <= limit_all i ops.
Proof. exact (fun H => conn_send_limit P i ops outs c H l v). Qed.
Print Assumptions C39_send_limit.

(** C72: no sequence of frames, calls, acknowledgements and losses panics,
    provided the configured capacity factor is at most 1. *)
Theorem C72_no_panic P i ops : params_ok P -> start_ok i -> p_num P <= p_den P -> Forall op_ok ops ->
  cn_run P ops (cn_new P i) <> Panic.
Proof. exact (fun h1 h2 h3 => run_no_panic P i h1 h2 h3 ops). Qed.
Print Assumptions C72_no_panic.

(** ** Findings *)
Definition fP : params := mkParams false 1000 1000 1000 1000 1000 1000 5000 2 1 true.
Definition fI : start := mkStart 10000 20000 10 8000 1 1 1 1.
Definition fOps : list cn_op := [CnSend false 0 (repeat 7 30) false; CnSendStream 1200].

(** C39 fails with a send capacity factor above 1 (Config's
    set_send_capacity_factor): the factor scales what the peer's connection
    limit leaves, so with a limit of 10 and a factor of 2 the connection accepts
    20 bytes and sends them in a STREAM frame. *)
Theorem C39_factor_refuted : exists P i ops outs c, history P i ops outs c /\
  limit_all i ops < total (fun x => highest_sent x outs) [0].
Proof.
  exists fP, fI, fOps. eexists _, _. split.
  - split; [|split; [|split]].
    + unfold params_ok, fP, max_varint. cbn. lia.
    + unfold start_ok, fI, u64_max. cbn. lia.
    + repeat (constructor; [cbn; unfold zlen, max_varint; cbn; lia|]). constructor.
    + vm_compute. reflexivity.
  - vm_compute. reflexivity.
Qed.
Print Assumptions C39_factor_refuted.

(** C72 fails with a send capacity factor above 1: after more was accepted than
    the limit, the next call computes the limit minus the amount accepted, which
    underflows. *)
Theorem C72_factor_refuted : exists P i ops, params_ok P /\ start_ok i /\ Forall op_ok ops /\ cn_run P ops (cn_new P i) = Panic.
Proof.
  exists fP, fI, [CnSend false 0 (repeat 7 30) false; CnSend false 0 [1] false]. split; [|split; [|split]].
  - unfold params_ok, fP, max_varint. cbn. lia.
  - unfold start_ok, fI, u64_max. cbn. lia.
  - repeat (constructor; [cbn; unfold zlen, max_varint; cbn; lia|]). constructor.
  - vm_compute. reflexivity.
Qed.
Print Assumptions C72_factor_refuted.

(** ** Witnesses *)
(* stream 0 of the peer is answered and over (PropStreams); here the peer also
   stops stream 4 after some of the answer was sent, stream 1 of ours is only
   partly sent, and the limits are raised in between *)
Definition seqZ (n : nat) : list Z := map Z.of_nat (seq 0 n).
Definition vOps : list cn_op :=
  [ CnStream 0 0 [1; 2; 3] true; CnRecv 0 100; CnSend false 0 [7; 8] true; CnSendStream 1200; CnAck 0;
    CnStream 4 0 [9] false; CnSend true 4 (seqZ 20) false; CnSendStream 15; CnMaxStreamData 4 2000; CnMaxData 30000;
    CnStop 4 77; CnSendReset 4 true; CnSend false 1 (seqZ 15) true; CnSendStream 15; CnSendStream 1200;
    CnLost 3 ].
Definition vRun := Eval vm_compute in cn_run wP vOps (cn_new wP wI).
Definition vOuts : list cn_out := Eval cbv in match vRun with Ok (o, _) => o | _ => [] end.
Definition vC : conn := Eval cbv in match vRun with Ok (_, c) => c | _ => cn_new wP wI end.
Example vH : history wP wI vOps vOuts vC.
Proof.
  split; [|split; [|split]].
  - unfold params_ok, wP, max_varint. cbn. lia.
  - unfold start_ok, wI, u64_max. cbn. lia.
  - repeat (constructor; [cbn; unfold zlen, max_varint; cbn; lia|]). constructor.
  - vm_compute. reflexivity.
Qed.
Example v_sent : sent_frames vOuts =
  [ SfStream 0 (mkFrame 0 [7; 8] true); SfStream 4 (mkFrame 0 (seqZ 10) false); SfReset 4 77 10;
    SfStream 1 (mkFrame 0 (seqZ 10) false); SfStream 1 (mkFrame 10 [10; 11; 12; 13; 14] true) ].
Proof. reflexivity. Qed.
(* what was accepted, limits, and the bytes of stream 1 that wait again *)
Example v_accepted : accepted_on 4 vOps vOuts = seqZ 20 /\ accepted_on 1 vOps vOuts = seqZ 15 /\
  limit_on wP 4 vOps vOuts = 2000 /\ limit_all wI vOps = 30000 /\ c_txbuf vC = 10 /\
  map (fun x => highest_sent x vOuts) [0; 1; 4] = [2; 15; 10].
Proof. vm_compute. repeat split. Qed.
Example v_cut : cut_on 4 vOps vOuts.
Proof. exists (CnStop 4 77, CoOk). split; [|reflexivity]. vm_compute. tauto. Qed.
Example v_not_cut : ~ cut_on 0 vOps vOuts /\ ~ cut_on 1 vOps vOuts.
Proof.
  split; intros (e & h & q); vm_compute in h; repeat (destruct h as [<-|h]; [cbn in q; try contradiction; discriminate|]); destruct h.
Qed.
Example v_finished : finished_on 1 vOps vOuts /\ finished_on 0 vOps vOuts.
Proof.
  split; [exists (CnSend false 1 (seqZ 15) true, CoWrote 15)|exists (CnSend false 0 [7; 8] true, CoWrote 2)]; (split; [vm_compute; tauto|split; reflexivity]).
Qed.
Example v_over : over 0 vC /\ sendable wP 0.
Proof. split; [reflexivity|left; reflexivity]. Qed.
Example v_live : forall x, In x [4; 1] <-> live x vC.
Proof.
  intros x. split.
  - intros [<-|[<-|[]]]; eexists; reflexivity.
  - intros (s & h). unfold cn_get, vC in h. cbn -[Z.eqb] in h. destruct (x =? 0); [discriminate|].
    destruct (x =? 4) eqn:E; [left; lia|]. destruct (x =? 1) eqn:E1; [right; left; lia|discriminate].
Qed.
Example v_after_end : exists c', cn_step wP (CnSend false 1 [] true) vC = Ok (CoWrote 0, c').
Proof. eexists. vm_compute. reflexivity. Qed.
(* nothing waits in the history of PropStreams once its last write is sent *)
Example v_waiting : exists outs c, history wP wI (wOps ++ [CnSendStream 1200]) outs c /\ c_txbuf c = 0 /\ accepted_on 1 (wOps ++ [CnSendStream 1200]) outs = [5; 6].
Proof.
  eexists _, _. split; [|split].
  - split; [|split; [|split]]; try apply wH.
    + apply Forall_app. split; [apply wH|]. repeat constructor.
    + vm_compute. reflexivity.
  - reflexivity.
  - reflexivity.
Qed.
