(** C34, C35, C36: which streams a connection has. *)
Require Import Verif.Base Verif.Errors Verif.SendBufModel Verif.StreamsModel Verif.StreamsSpec
  Verif.StreamsShape Verif.StreamsShape2 Verif.StreamsRecv Verif.StreamsShape3.

(** ** Streams the peer opens *)

(** C34: a frame that would open a stream at or over the limit last announced
    is an error of that kind; below it, it opens the stream, unless it carries
    more data than was allowed. *)
Theorem C34_peer_opens P i ops outs c op sid : history P i ops outs c ->
  op_ok op -> frame_on P op sid -> own P sid = false -> unopened sid c ->
  (advertised (bidirectional sid) i outs <= seqno sid -> cn_step P op c = Err StreamLimit) /\
  (seqno sid < advertised (bidirectional sid) i outs ->
     match cn_step P op c with
     | Ok (o, c') => o = CoOk /\ live sid c'
     | Err e => e = FlowControlE
     | Panic => False
     end).
Proof. exact (fun H => peer_open P i ops outs c H op sid). Qed.
Print Assumptions C34_peer_opens.

(** C34: a limit announced is never below the one before. *)
Theorem C34_limit_grows P i ops outs c b fits m c' : history P i ops outs c ->
  cn_step P (CnSendMaxStreams b fits) c = Ok (CoMaxStreams b m, c') -> advertised b i outs <= m.
Proof. exact (fun H => peer_limit_grows P i ops outs c H b fits m c'). Qed.
Print Assumptions C34_limit_grows.

(** C34: the peer has at most as many streams of a kind in use as it was
    allowed at first. *)
Theorem C34_in_use P i ops outs c b l : history P i ops outs c ->
  NoDup l -> (forall x, In x l -> live x c /\ own P x = false /\ bidirectional x = b) ->
  zlen l <= first_local b i.
Proof. exact (fun H => peer_count P i ops outs c H b l). Qed.
Print Assumptions C34_in_use.

(** C34: the limit announced is the first one plus one for each stream of the
    peer that is over. *)
Theorem C34_credit P i ops outs c b fits m c' : history P i ops outs c ->
  cn_step P (CnSendMaxStreams b fits) c = Ok (CoMaxStreams b m, c') ->
  exists l, closed_peer_streams P b c l /\ m = Z.min u64_max (first_local b i + zlen l).
Proof. exact (fun H => peer_credit P i ops outs c H b fits m c'). Qed.
Print Assumptions C34_credit.

(** C34: once the peer used half of what it was allowed at first and a stream
    is over that was not yet accounted for, the new limit is announced. *)
Theorem C34_credit_due P i ops outs c b l x : history P i ops outs c ->
  closed_peer_streams P b c l -> advertised b i outs < Z.min u64_max (first_local b i + zlen l) ->
  (live x c \/ over x c) -> own P x = false -> bidirectional x = b ->
  advertised b i outs - (seqno x + 1) <= first_local b i / 2 ->
  exists c', cn_step P (CnSendMaxStreams b true) c = Ok (CoMaxStreams b (Z.min u64_max (first_local b i + zlen l)), c').
Proof. exact (fun H => peer_credit_due P i ops outs c H b l x). Qed.
Print Assumptions C34_credit_due.

(** ** Streams this side opens *)

(** C35: a call that would open a stream at or over the largest limit the peer
    announced fails and changes no stream; below it, it opens the stream. *)
Theorem C35_own_opens P i ops outs c op sid o c' : history P i ops outs c ->
  op_ok op -> call_opens op sid -> own P sid = true -> unopened sid c ->
  cn_step P op c = Ok (o, c') ->
  (granted (bidirectional sid) i ops <= seqno sid -> o = CoErr StreamLimit /\ unchanged_streams c c') /\
  (seqno sid < granted (bidirectional sid) i ops -> o <> CoErr StreamLimit /\ live sid c').
Proof. exact (fun H => own_open P i ops outs c H op sid o c'). Qed.
Print Assumptions C35_own_opens.

(** C35: the number of streams said to be left is the difference of the limit
    and the largest number used. *)
Theorem C35_left P i ops outs c b : history P i ops outs c ->
  exists n, q_streams_left b c = Some (granted b i ops - n) /\ used_up_to P b c n /\ 0 <= n <= granted b i ops.
Proof. exact (fun H => own_left P i ops outs c H b). Qed.
Print Assumptions C35_left.

(** ** Streams that are over *)

(** C36: what is over stays over, whatever happens. *)
Theorem C36_stays_over P i ops outs c ops2 outs2 c2 x : history P i ops outs c -> Forall op_ok ops2 ->
  cn_run P ops2 c = Ok (outs2, c2) -> over x c -> over x c2 /\ ~ live x c2 /\ q_stream_closed x c2 = true.
Proof.
  intros H ho h hov. pose proof (over_run P i ops2 ops outs c outs2 c2 x H ho h hov) as q.
  split; [exact q|]. unfold over, collected in q. unfold live, q_stream_closed, cn_get, collected.
  destruct (Assoc.aget x (c_streams c2)) as [[s [|]]|]; try discriminate. split; [|reflexivity]. intros (s' & e). discriminate.
Qed.
Print Assumptions C36_stays_over.

(** C36: a frame about it is ignored and changes nothing at all. *)
Theorem C36_frame_ignored P i ops outs c op sid : history P i ops outs c ->
  op_ok op -> frame_on P op sid -> over sid c -> cn_step P op c = Ok (CoIgnored, c).
Proof. exact (fun H => over_frame P i ops outs c H op sid). Qed.
Print Assumptions C36_frame_ignored.

(** C36: calls about it fail, and nothing is sent for it any more. *)
Theorem C36_calls_fail P i ops outs c op sid o c' : history P i ops outs c ->
  op_ok op -> over sid c -> cn_step P op c = Ok (o, c') ->
  match op with
  | CnRecv x _ | CnCapacity x | CnWritable x _ => x = sid -> o = CoErr (InvalidStreamState sid) /\ c' = c
  | CnSend _ x _ _ => x = sid -> (o = CoErr Done \/ o = CoErr (InvalidStreamState sid)) /\ unchanged_streams c c'
  | CnShutdown x _ _ _ => x = sid -> (o = CoErr Done \/ o = CoErr (InvalidStreamState sid)) /\ c' = c
  | CnPriority x _ _ => x = sid -> o = CoOk /\ c' = c
  | CnSendStream _ => forall f, o <> CoSent (Some (SfStream sid f))
  | CnSendMaxStreamData x _ _ _ => forall m, o <> CoMaxStreamData sid m
  | CnWritableNext => o <> CoNext (Some sid)
  | _ => True
  end.
Proof. exact (fun _ => over_call P c op sid o c'). Qed.
Print Assumptions C36_calls_fail.

(** ** Witnesses *)
Definition wP : params := mkParams true 1000 1000 1000 1000 1000 1000 5000 1 1 true.
Definition wI : start := mkStart 10000 20000 10000 8000 2 1 1 1.
(* the peer opens stream 0, it is read and answered, and both ends are
   finished; stream 4 is then opened, and stream 1 by us *)
Definition wOps : list cn_op :=
  [ CnStream 0 0 [1; 2; 3] true; CnRecv 0 100; CnSend false 0 [7; 8] true; CnSendStream 1200; CnAck 0;
    CnStream 4 2 [9] false; CnSend false 1 [5; 6] false ].
Definition wRun := Eval vm_compute in cn_run wP wOps (cn_new wP wI).
Definition wOuts : list cn_out := Eval cbv in match wRun with Ok (o, _) => o | _ => [] end.
Definition wC : conn := Eval cbv in match wRun with Ok (_, c) => c | _ => cn_new wP wI end.
Example wH : history wP wI wOps wOuts wC.
Proof.
  split; [|split; [|split]].
  - unfold params_ok, wP, max_varint. cbn. lia.
  - unfold start_ok, wI, u64_max. cbn. lia.
  - repeat (constructor; [cbn; unfold zlen, max_varint; cbn; lia|]). constructor.
  - vm_compute. reflexivity.
Qed.
Example wH_outs : wOuts = [CoOk; CoRead [1; 2; 3] true; CoWrote 2; CoSent (Some (SfStream 0 (mkFrame 0 [7; 8] true))); CoOk; CoOk; CoWrote 2].
Proof. reflexivity. Qed.
Example w34_unopened : unopened 8 wC /\ unopened 6 wC /\ unopened 2 wC.
Proof. repeat split; intros h; try discriminate; destruct h as (s & h); discriminate. Qed.
Example w34_over : frame_on wP (CnStream 8 0 [1] false) 8 /\ own wP 8 = false /\
  advertised (bidirectional 8) wI wOuts <= seqno 8.
Proof. cbn. split; [auto|]. split; [reflexivity|]. vm_compute. discriminate. Qed.
Example w34_below : frame_on wP (CnReset 2 0 10) 2 /\ own wP 2 = false /\ seqno 2 < advertised (bidirectional 2) wI wOuts.
Proof. cbn. split; [auto|]. split; reflexivity. Qed.
Example w34_credit : closed_peer_streams wP true wC [0] /\
  match cn_step wP (CnSendMaxStreams true true) wC with Ok (o, _) => o = CoMaxStreams true 3 | _ => False end.
Proof.
  split; [|vm_compute; reflexivity]. split; [repeat constructor; intros []|]. intros x. split.
  - intros [<-|[]]. repeat split.
  - intros (h & _ & _). left. unfold over, collected in h.
    assert (q : forall y, y = x -> (if y =? 0 then True else if y =? 4 then False else if y =? 1 then False else False) \/ y <> 0 /\ collected y wC = false \/ y = 0).
    { intros y ->. destruct (x =? 0) eqn:E0; [auto|]. right. left. split; [lia|]. unfold collected, wC. cbn -[Z.eqb].
      destruct (x =? 1) eqn:E1; [rewrite ?E0; destruct (1 =? x) eqn:E1'; [|lia]|destruct (1 =? x) eqn:E1'; [lia|]];
      destruct (4 =? x) eqn:E4; try lia; destruct (0 =? x) eqn:E; try lia; rewrite ?E0, ?E1;
      destruct (x =? 4); reflexivity. }
    destruct (q x eq_refl) as [h1|[h1|h1]]; [|unfold collected in h1; destruct h1 as (_ & h1); rewrite h1 in h; discriminate|auto].
    destruct (x =? 0) eqn:E; [lia|]. destruct (x =? 4), (x =? 1); contradiction.
Qed.
Example w35_over : call_opens (CnSend false 5 [1] false) 5 /\ own wP 5 = true /\ unopened 5 wC /\
  granted (bidirectional 5) wI wOps <= seqno 5.
Proof.
  cbn. split; [auto|]. split; [reflexivity|]. split; [|vm_compute; discriminate].
  split; intros h; try discriminate; destruct h as (s & h); discriminate.
Qed.
Example w36_over : over 0 wC /\ frame_on wP (CnStream 0 0 [1] true) 0.
Proof. split; [reflexivity|]. cbn. auto. Qed.
