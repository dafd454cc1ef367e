(** C80: what a connection has to tell its peer about its streams and limits is
    never forgotten: it is on its way, or the next packet with room for it says it. *)
Require Import Verif.Base Verif.Errors Verif.StreamsModel Verif.StreamsSpec Verif.StreamsSpec3 Verif.StreamsCtl5.

(** C80: a stream whose sending part was cut short, by shutdown or because the
    peer asked for it, is reset: a RESET_STREAM frame with an error code one of
    the two gave, and the number of bytes sent as the final size, is on its way,
    or the next packet with room for one has it. *)
Theorem C80_reset P i ops outs c sid : history P i ops outs c -> cut_on sid ops outs ->
  exists code, given sid code ops outs /\
  let f := SfReset sid code (highest_sent sid outs) in
  on_the_way f None ops outs \/ exists c', cn_step P (CnSendReset sid true) c = Ok (CoSent (Some f), c').
Proof. intros h hc. destruct (reset_due _ _ _ _ _ h sid hc) as (code & h1 & h2). exists code. split; [exact h1|]. cbv zeta. tauto. Qed.
Print Assumptions C80_reset.

(** C80: error codes sent in RESET_STREAM frames were given for that stream. *)
Theorem C80_reset_code P i ops outs c sid code final : history P i ops outs c ->
  In (SfReset sid code final) (sent_frames outs) -> given sid code ops outs.
Proof. exact (fun h => reset_code P i ops outs c h sid code final). Qed.
Print Assumptions C80_reset_code.

(** C80: after the receiving part of a stream was shut down, all of it has
    arrived, or a STOP_SENDING frame with the error code given is on its way, or
    the next packet with room for one has it. *)
Theorem C80_stop P i ops outs c sid code : history P i ops outs c -> asked_stop sid code ops outs ->
  q_stream_finished sid c = true \/ on_the_way (SfStop sid code) None ops outs \/
  exists c', cn_step P (CnSendStop sid true) c = Ok (CoSent (Some (SfStop sid code)), c').
Proof. intros h ha. pose proof (stop_due P i ops outs c h sid code ha). tauto. Qed.
Print Assumptions C80_stop.

(** C80: STOP_SENDING frames are sent only when the application shut the
    receiving part down, and all those of a stream have the error code it gave. *)
Theorem C80_stop_code P i ops outs c sid code : history P i ops outs c ->
  In (SfStop sid code) (sent_frames outs) ->
  asked_stop sid code ops outs /\ forall code', asked_stop sid code' ops outs -> code' = code.
Proof.
  intros h hs. pose proof (stop_code P i ops outs c h sid code hs) as ha. split; [exact ha|].
  intros code' h'. eapply stop_once; eauto.
Qed.
Print Assumptions C80_stop_code.

(** C80: the limit on the number of streams the peer may open that was announced
    last is the initial one, or its MAX_STREAMS frame is on its way, or the next
    packet with room for one has one with a limit at least as high. *)
Theorem C80_max_streams P i ops outs c bidi : history P i ops outs c ->
  let m := advertised bidi i outs in
  m = first_local bidi i \/ on_the_way (SfMaxStreams bidi) (Some m) ops outs \/
  exists m' c', m <= m' /\ cn_step P (CnSendMaxStreams bidi true) c = Ok (CoMaxStreams bidi m', c').
Proof. exact (fun h => streams_due P i ops outs c h bidi). Qed.
Print Assumptions C80_max_streams.

(** C80: the same of the limit on the bytes of all streams and MAX_DATA ... *)
Theorem C80_max_data P i ops outs c now rtt : history P i ops outs c ->
  let m := told_data i outs in
  m = i_rx i \/ on_the_way SfMaxData (Some m) ops outs \/
  exists m' c', m <= m' /\ cn_step P (CnSendMaxData now rtt true) c = Ok (CoMaxData m', c').
Proof. exact (fun h => data_due P i ops outs c h now rtt). Qed.
Print Assumptions C80_max_data.

(** C80: ... and of the limit on the bytes of a stream and MAX_STREAM_DATA, until
    the stream is over. *)
Theorem C80_max_stream_data P i ops outs c sid m now rtt : history P i ops outs c -> told_on sid outs = Some m ->
  over sid c \/ on_the_way (SfMaxStreamData sid) (Some m) ops outs \/
  exists m' c', m <= m' /\ cn_step P (CnSendMaxStreamData sid now rtt true) c = Ok (CoMaxStreamData sid m', c').
Proof. exact (fun h => stream_data_due P i ops outs c h sid m now rtt). Qed.
Print Assumptions C80_max_stream_data.

(** ** Witnesses *)
Definition xP : params := mkParams true 10 10 10 1000 1000 1000 5000 1 1 true.
Definition xI : start := mkStart 10 20000 1000 8000 2 1 1 1.
(* stream 0 is read, written, shut down both ways and stopped by the peer, with
   two error codes; stream 2 is read to its end; every frame but the first
   STREAM frame and the second RESET_STREAM frame is then lost *)
Definition xOps0 : list cn_op :=
  [ CnStream 0 0 [1; 2; 3; 4; 5; 6] false; CnRecv 0 100; CnSendMaxStreamData 0 10 1 true; CnSendMaxData 10 1 true;
    CnSend false 0 [1; 2; 3] false; CnSendStream 1200; CnShutdown 0 ShutWrite 5 1200; CnSendReset 0 true;
    CnStream 2 0 [1; 2] true; CnRecv 2 10; CnSendMaxStreams false true;
    CnStop 0 9; CnSendReset 0 true; CnShutdown 0 ShutRead 8 1200; CnSendStop 0 true ].
Definition xOps : list cn_op := xOps0 ++ [ CnLost 0; CnLost 1; CnLost 3; CnLost 4; CnLost 6 ].
Definition xOuts0 : list cn_out := Eval vm_compute in match cn_run xP xOps0 (cn_new xP xI) with Ok (o, _) => o | _ => [] end.
Definition xC0 : conn := Eval vm_compute in match cn_run xP xOps0 (cn_new xP xI) with Ok (_, c) => c | _ => cn_new xP xI end.
Definition xOuts : list cn_out := Eval vm_compute in match cn_run xP xOps (cn_new xP xI) with Ok (o, _) => o | _ => [] end.
Definition xC : conn := Eval vm_compute in match cn_run xP xOps (cn_new xP xI) with Ok (_, c) => c | _ => cn_new xP xI end.
Example xH0 : history xP xI xOps0 xOuts0 xC0.
Proof.
  split; [|split; [|split]].
  - unfold params_ok, xP, max_varint. cbn. lia.
  - unfold start_ok, xI, u64_max. cbn. lia.
  - repeat (constructor; [cbn; unfold zlen, max_varint; cbn; lia|]). constructor.
  - vm_compute. reflexivity.
Qed.
Example xH : history xP xI xOps xOuts xC.
Proof.
  split; [|split; [|split]].
  - unfold params_ok, xP, max_varint. cbn. lia.
  - unfold start_ok, xI, u64_max. cbn. lia.
  - repeat (constructor; [cbn; unfold zlen, max_varint; cbn; lia|]). constructor.
  - vm_compute. reflexivity.
Qed.
Example x_put : map fst (all_put xOuts) =
  [SfMaxStreamData 0; SfMaxData; SfStream 0 (SendBufModel.mkFrame 0 [1; 2; 3] false); SfReset 0 5 3; SfMaxStreams false; SfReset 0 9 3; SfStop 0 8] /\
  map snd (all_put xOuts) = [Some 16; Some 21; None; None; Some 2; None; None].
Proof. split; reflexivity. Qed.
Example x_cut : cut_on 0 xOps xOuts /\ given 0 5 xOps xOuts /\ given 0 9 xOps xOuts /\ asked_stop 0 8 xOps xOuts /\
  told_on 0 xOuts = Some 16 /\ told_data xI xOuts = 21 /\ advertised false xI xOuts = 2.
Proof.
  split; [exists (CnStop 0 9, CoOk); split; [vm_compute; tauto|reflexivity]|].
  split; [left; exists 1200; vm_compute; tauto|]. split; [right; vm_compute; tauto|]. split; [exists 1200; vm_compute; tauto|].
  repeat split.
Qed.
(* before the losses everything is on its way; after them it is sent again *)
Example x_way : on_the_way (SfStop 0 8) None xOps0 xOuts0 /\ on_the_way (SfMaxStreamData 0) (Some 16) xOps0 xOuts0 /\
  on_the_way SfMaxData (Some 21) xOps0 xOuts0 /\ on_the_way (SfMaxStreams false) (Some 2) xOps0 xOuts0.
Proof.
  assert (n : forall k, ~ lost_at k xOps0 xOuts0).
  { intros k (j & h & _). apply nth_error_In in h. vm_compute in h. repeat (destruct h as [h|h]; [discriminate h|]). exact h. }
  repeat split; [exists 6%nat|exists 0%nat|exists 1%nat|exists 4%nat]; (split; [reflexivity|apply n]).
Qed.
Example x_again : match cn_run xP [CnSendReset 0 true; CnSendStop 0 true; CnSendMaxStreams false true; CnSendMaxData 30 1 true; CnSendMaxStreamData 0 30 1 true] xC with
  | Ok (o, _) => o = [CoSent (Some (SfReset 0 5 3)); CoSent (Some (SfStop 0 8)); CoMaxStreams false 2; CoMaxData 23; CoMaxStreamData 0 16]
  | _ => False end /\ q_stream_finished 0 xC = false /\ over 2 xC.
Proof. vm_compute. repeat split. Qed.

(** C80, as refuted: RFC 9000 (19.4, 13.3) has the content of a RESET_STREAM
    frame not change when it is sent again.  When the application shuts the
    sending part down and the peer's STOP_SENDING arrives afterwards, a second
    RESET_STREAM frame is sent for the stream, with the other error code. *)
Theorem C80_one_reset_code_refuted : ~ forall P i ops outs c sid a b x y, history P i ops outs c ->
  In (SfReset sid a x) (sent_frames outs) -> In (SfReset sid b y) (sent_frames outs) -> a = b.
Proof.
  intros h. assert (q : (5 : Z) = 9); [|discriminate q].
  apply (h xP xI xOps xOuts xC 0 5 9 3 3 xH); vm_compute; tauto.
Qed.
Print Assumptions C80_one_reset_code_refuted.
