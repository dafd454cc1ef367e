(** C65: STREAMS_BLOCKED frames. *)
Require Import Verif.Base Verif.Errors Verif.StreamsModel Verif.StreamsSpec Verif.StreamsBlk Verif.PropStreams.

(** C65: a STREAMS_BLOCKED frame is sent only if that was configured and for a
    limit at which a call failed; never for less than was announced before, and
    for the same limit again only after the loss of the frame that announced it. *)
Theorem C65_sent P i ops outs c b bi fits m c' : history P i ops outs c ->
  cn_step P (CnSendStreamsBlocked bi fits) c = Ok (CoSent (Some (SfStreamsBlocked b m)), c') ->
  p_blocked P = true /\ blocked_at P i b m ops outs /\
  forall m', In m' (announced b (sent_frames outs)) -> m' <= m /\ (m' = m -> lost_since b m ops outs).
Proof. exact (fun H => blocked_frame P i ops outs c H b bi fits m c'). Qed.
Print Assumptions C65_sent.

(** C65: a limit at which a call failed is announced at the next occasion, unless
    that limit or a larger one already was. *)
Theorem C65_due P i ops outs c b m : history P i ops outs c -> p_blocked P = true -> blocked_at P i b m ops outs ->
  (forall m', In m' (announced b (sent_frames outs)) -> m' < m) ->
  exists m' c', m <= m' /\ cn_step P (CnSendStreamsBlocked b true) c = Ok (CoSent (Some (SfStreamsBlocked b m')), c').
Proof. exact (fun H => blocked_due P i ops outs c H b m). Qed.
Print Assumptions C65_due.

(** C65: the loss of the frame with the largest limit brings it, or one with a
    larger limit, at the next occasion. *)
Theorem C65_lost P i ops outs c b m k o c' : history P i ops outs c ->
  nth_error (sent_frames outs) k = Some (SfStreamsBlocked b m) ->
  (forall m', In m' (announced b (sent_frames outs)) -> m' <= m) ->
  cn_step P (CnLost k) c = Ok (o, c') ->
  exists m' c'', m <= m' /\ cn_step P (CnSendStreamsBlocked b true) c' = Ok (CoSent (Some (SfStreamsBlocked b m')), c'').
Proof. exact (fun H => blocked_lost P i ops outs c H b m k o c'). Qed.
Print Assumptions C65_lost.

(** ** Witnesses *)
(* one stream of each kind is allowed (wI); the second fails, is announced, the
   frame is lost and repeated; after a new limit the next failure is announced *)
Definition bOps : list cn_op :=
  [ CnSend false 1 [1] false; CnSend false 5 [1] false; CnSend false 9 [1] false; CnSendStreamsBlocked true true;
    CnSendStreamsBlocked true true; CnLost 0; CnSendStreamsBlocked true true; CnMaxStreams true 2;
    CnSend false 5 [1] false; CnSend false 9 [1] false ].
Definition bRun := Eval vm_compute in cn_run wP bOps (cn_new wP wI).
Definition bOuts : list cn_out := Eval cbv in match bRun with Ok (o, _) => o | _ => [] end.
Definition bC : conn := Eval cbv in match bRun with Ok (_, c) => c | _ => cn_new wP wI end.
Example bH : history wP wI bOps bOuts bC.
Proof.
  split; [|split; [|split]].
  - unfold params_ok, wP, max_varint. cbn. lia.
  - unfold start_ok, wI, u64_max. cbn. lia.
  - repeat (constructor; [cbn; unfold zlen, max_varint; cbn; lia|]). constructor.
  - vm_compute. reflexivity.
Qed.
(* twice limit 1, the second time after the loss; the second occasion in between sent nothing *)
Example b_announced : announced true (sent_frames bOuts) = [1; 1] /\ nth_error bOuts 4 = Some (CoSent None).
Proof. split; reflexivity. Qed.
(* the hypotheses of C65_due hold with limit 2, and those of C65_sent *)
Example b_due : blocked_at wP wI true 2 bOps bOuts /\ (forall m', In m' (announced true (sent_frames bOuts)) -> m' < 2) /\
  exists c', cn_step wP (CnSendStreamsBlocked true true) bC = Ok (CoSent (Some (SfStreamsBlocked true 2)), c').
Proof.
  split; [|split].
  - exists (firstn 9 bOps), false, 9, [1], false, []. repeat split; reflexivity.
  - intros m' [<-|[<-|[]]]; lia.
  - eexists. vm_compute. reflexivity.
Qed.
(* the hypotheses of C65_lost *)
Example b_lost : nth_error (sent_frames bOuts) 1 = Some (SfStreamsBlocked true 1) /\
  (forall m', In m' (announced true (sent_frames bOuts)) -> m' <= 1) /\ exists c', cn_step wP (CnLost 1) bC = Ok (CoOk, c').
Proof. split; [reflexivity|]. split; [intros m' [<-|[<-|[]]]; lia|]. eexists. vm_compute. reflexivity. Qed.
(* the repetition of limit 1 was due to the loss *)
Example b_lost_since : lost_since true 1 (firstn 6 bOps) (firstn 6 bOuts).
Proof. exists (firstn 5 bOps), 0%nat, []. repeat split; reflexivity. Qed.
