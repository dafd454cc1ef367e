(** C37, C70, C71: the order in which streams are served, which streams are
    reported as readable and writable, and what the calls asking for room promise. *)
Require Import Verif.Base Verif.Errors Verif.Assoc Verif.RangeBufModel Verif.SendBufModel Verif.StreamsModel Verif.StreamsSpec Verif.StreamsSpec2
  Verif.StreamsProofs Verif.StreamsShape Verif.StreamsQ5 Verif.StreamsQ7 Verif.StreamsQ8 Verif.StreamsLow Verif.PropStreams.

Lemma sendable_kind P x : 0 <= x -> sendable P x -> is_bidi x = true \/ is_local x (p_server P) = true.
Proof. intros h. unfold sendable. rewrite bidi_spec, local_own by auto. auto. Qed.

Lemma some_buf l : existsb (fun b => negb (rb_is_empty b)) l = true -> exists b, In b l /\ rb_is_empty b = false.
Proof. intros h. apply existsb_exists in h as (b & h1 & h2). exists b. split; auto. apply negb_true_iff. auto. Qed.

(** ** C37 *)

(** C37: the stream that gets a STREAM frame is one no waiting stream goes before. *)
Theorem C37_best P i ops outs c room x f c' y : history P i ops outs c -> Forall roomy ops -> 19 <= room ->
  cn_step P (CnSendStream room) c = Ok (CoSent (Some (SfStream x f)), c') -> waiting y c -> y <> x ->
  ~ goes_before y (priority_of y ops outs) x (priority_of x ops outs).
Proof. exact (sends_best P i ops outs c room x f c' y). Qed.
Print Assumptions C37_best.

(** C37: while a stream waits, a packet with room for a STREAM frame gets one. *)
Theorem C37_served P i ops outs c room o c' y : history P i ops outs c -> Forall roomy ops -> 19 <= room ->
  cn_step P (CnSendStream room) c = Ok (o, c') -> waiting y c -> exists x f, o = CoSent (Some (SfStream x f)).
Proof. exact (sends_some P i ops outs c room o c' y). Qed.
Print Assumptions C37_served.

(** C37: of two incremental streams of one urgency, one that got a frame gets no
    other before the one waiting got its own, whatever happens in between, as long
    as the priorities of the two stay as they are. *)
Theorem C37_round_robin P i ops outs room x y u f mid mouts c room' f' c' :
  history P i (ops ++ CnSendStream room :: mid) (outs ++ CoSent (Some (SfStream x f)) :: mouts) c -> length ops = length outs ->
  Forall roomy (ops ++ CnSendStream room :: mid) -> x <> y ->
  priority_of x ops outs = (u, true) -> priority_of y ops outs = (u, true) ->
  (forall z v b, In (CnPriority z v b) mid -> z <> x /\ z <> y) ->
  (forall a b outs' c', CnSendStream room :: mid = a ++ b -> history P i (ops ++ a) outs' c' -> waiting y c') ->
  (forall f', ~ In (CoSent (Some (SfStream y f'))) mouts) ->
  19 <= room' -> cn_step P (CnSendStream room') c <> Ok (CoSent (Some (SfStream x f')), c').
Proof.
  intros hist hl hr n px py hnp hw hno hro.
  refine (rr_not_first P i u x y _ _ c room' f' c' hist hr (round_robin P i ops outs room x y u f mid mouts c hist hl hr n px py hnp hw hno) _ hro n).
  refine (hw (CnSendStream room :: mid) [] _ c _ hist). rewrite app_nil_r. auto.
Qed.
Print Assumptions C37_round_robin.

Definition sP : params := mkParams true 100000 100000 100000 100000 100000 100000 5000 1 1 true.
Definition sI : start := mkStart 100000 200000 100000 80000 2 1 300000000 1.
Definition sOps : list cn_op := [CnSend false 1073741825 (repeat 7 (Z.to_nat 16400)) false; CnSendStream 16396; CnSendStream 13].
Definition sCheck : bool :=
  match cn_run sP sOps (cn_new sP sI) with
  | Ok (_, c) =>
      match cn_get 1073741825 c with
      | Some s => negb (st_stopped s) && existsb (fun b => negb (rb_is_empty b)) (sb_data (st_send s)) &&
                  match cn_step sP (CnSendStream 1200) c with Ok (CoSent None, _) => true | _ => false end
      | None => false
      end
  | _ => false
  end.

(** C37 fails without the condition on room: the code builds a STREAM frame in a
    packet with 13 bytes left, although the header of one may take 18.  A stream
    whose header does not fit is taken off the queue of streams with data to send
    and not put back: no later packet carries its data, until the application
    writes more or something of it is lost (lib.rs:5240-5262). *)
Theorem C37_served_refuted : exists P i ops outs c x c', history P i ops outs c /\ waiting x c /\
  cn_step P (CnSendStream 1200) c = Ok (CoSent None, c').
Proof.
  assert (h : sCheck = true) by (vm_compute; reflexivity). unfold sCheck in h.
  destruct (cn_run sP sOps (cn_new sP sI)) as [[outs c]| |] eqn:E; try discriminate h.
  destruct (cn_get 1073741825 c) as [s|] eqn:Eg; [|discriminate h]. apply andb_true_iff in h as (h & h3). apply andb_true_iff in h as (h1 & h2).
  destruct (cn_step sP (CnSendStream 1200) c) as [[[| | | | | | | |[f|]| | | | |] c']| |] eqn:Es; try discriminate h3.
  exists sP, sI, sOps, outs, c, 1073741825, c'. split; [|split].
  - split; [|split; [|split]].
    + unfold params_ok, sP, max_varint. cbn. lia.
    + unfold start_ok, sI, u64_max. cbn. lia.
    + repeat (constructor; [cbn; lia|]). constructor.
    + exact E.
  - exists s. split; auto. split; [apply negb_true_iff; auto|]. apply some_buf. auto.
  - exact Es.
Qed.
Print Assumptions C37_served_refuted.

(** ** C70 *)

(** C70: a stream that has something to read is listed by readable(), unless
    stream_readable_next returned it and there was something to read ever since. *)
Theorem C70_readable P i ops outs c x : history P i ops outs c -> can_read x c -> ~ in_readable x c ->
  since P i CnReadableNext (CoNext (Some x)) (fun c => can_read x c /\ ~ in_readable x c) ops outs.
Proof. exact (readable_since P i ops outs c x). Qed.
Print Assumptions C70_readable.

(** C70: a live stream listed by readable() has something to read, unless the
    peer reset it. *)
Theorem C70_listed P i ops outs c x : history P i ops outs c -> in_readable x c -> live x c -> ~ can_read x c ->
  exists code final, In (CnReset x code final) ops.
Proof. exact (fun H => listed_readable P (proj1 H) i ops outs c x H). Qed.
Print Assumptions C70_listed.

(** C70: stream_readable_next returns a stream no listed stream goes before. *)
Theorem C70_order P i ops outs c x c' y : history P i ops outs c -> cn_step P CnReadableNext c = Ok (CoNext (Some x), c') ->
  in_readable y c -> live x c -> live y c -> y <> x -> ~ goes_before y (priority_of y ops outs) x (priority_of x ops outs).
Proof. exact (reads_best P i ops outs c x c' y). Qed.
Print Assumptions C70_order.

(** C70: a stream with more room than asked for is listed by writable(), unless
    stream_writable_next returned it and it had that room ever since. *)
Theorem C70_writable P i ops outs c x : history P i ops outs c -> can_write x c -> ~ in_writable x c ->
  since P i CnWritableNext (CoNext (Some x)) (fun c => can_write x c /\ ~ in_writable x c) ops outs.
Proof. exact (writable_since P i ops outs c x). Qed.
Print Assumptions C70_writable.

(** C70, the full claim that listed streams can be read, fails twice.  First, a
    read of no bytes at the end of a stream that is complete closes the stream,
    then puts it back in the queue of readable streams: stream_readable_next
    returns a stream that no longer exists, and reading it fails with
    InvalidStreamState (lib.rs:5826-5858). *)
Theorem C70_closed_stream_listed_refuted : exists P i ops outs c c' c'' x, history P i ops outs c /\ over x c /\ in_readable x c /\
  cn_step P CnReadableNext c = Ok (CoNext (Some x), c') /\ cn_step P (CnRecv x 100) c' = Ok (CoErr (InvalidStreamState x), c'').
Proof.
  pose (ops := [CnStream 2 0 [] true; CnRecv 2 0]). pose (r := cn_run wP ops (cn_new wP wI)).
  exists wP, wI, ops, (match r with Ok (o, _) => o | _ => [] end), (match r with Ok (_, c) => c | _ => cn_new wP wI end).
  do 2 eexists. exists 2. split; [|split; [|split; [|split]]].
  - split; [|split; [|split]].
    + unfold params_ok, wP, max_varint. cbn. lia.
    + unfold start_ok, wI, u64_max. cbn. lia.
    + repeat (constructor; [cbn; unfold zlen, max_varint; cbn; lia|]). constructor.
    + vm_compute. reflexivity.
  - vm_compute. reflexivity.
  - vm_compute. auto.
  - vm_compute. reflexivity.
  - vm_compute. reflexivity.
Qed.
Print Assumptions C70_closed_stream_listed_refuted.

(** Second, a RESET_STREAM after the end of the stream was received drops the
    data and leaves nothing to read, not even the error: the stream stays listed,
    reading it fails with Done, and since only a read would close it, it is never
    closed (recv_buf.rs:295-335, 121-125). *)
Theorem C70_reset_stream_listed_refuted : exists P i ops outs c x c' c'', history P i ops outs c /\ in_readable x c /\ live x c /\
  In (CnReset x 7 1) ops /\ cn_step P (CnRecv x 100) c = Ok (CoErr Done, c') /\
  cn_step P CnReadableNext c' = Ok (CoNext (Some x), c'').
Proof.
  pose (ops := [CnStream 2 0 [1] true; CnReset 2 7 1]). pose (r := cn_run wP ops (cn_new wP wI)).
  exists wP, wI, ops, (match r with Ok (o, _) => o | _ => [] end), (match r with Ok (_, c) => c | _ => cn_new wP wI end).
  exists 2. do 2 eexists. split; [|split; [|split; [|split; [|split]]]].
  - split; [|split; [|split]].
    + unfold params_ok, wP, max_varint. cbn. lia.
    + unfold start_ok, wI, u64_max. cbn. lia.
    + repeat (constructor; [cbn; unfold zlen, max_varint; cbn; lia|]). constructor.
    + vm_compute. reflexivity.
  - vm_compute. auto.
  - eexists. vm_compute. reflexivity.
  - right. left. reflexivity.
  - vm_compute. reflexivity.
  - vm_compute. reflexivity.
Qed.
Print Assumptions C70_reset_stream_listed_refuted.

(** ** C71 *)

(** C71: after stream_writable said yes, the stream takes that many bytes, unless
    the application had already finished or shut down the stream. *)
Theorem C71_promise P i ops outs c x len c1 zc data fin o c2 : history P i ops outs c -> 0 <= x -> sendable P x ->
  cn_step P (CnWritable x len) c = Ok (CoBool true, c1) -> zlen data <= len -> cn_step P (CnSend zc x data fin) c1 = Ok (o, c2) ->
  o = CoWrote (zlen data) \/ o = CoErr FinalSize /\ (finished_on x ops outs \/ cut_on x ops outs).
Proof. intros h1 h2 h3. exact (writable_promise P i ops outs c x len c1 zc data fin o c2 h1 h2 (sendable_kind _ _ h2 h3)). Qed.
Print Assumptions C71_promise.

(** C71: the stream takes as much of the data as stream_capacity said. *)
Theorem C71_capacity P i ops outs c x n c1 zc data fin o c2 : history P i ops outs c -> 0 <= x -> sendable P x ->
  cn_step P (CnCapacity x) c = Ok (CoCap n, c1) -> cn_step P (CnSend zc x data fin) c1 = Ok (o, c2) ->
  o = (if (Z.min (zlen data) n =? 0) && (0 <? zlen data) then CoErr Done else CoWrote (Z.min (zlen data) n)) \/
  o = CoErr FinalSize /\ (finished_on x ops outs \/ cut_on x ops outs).
Proof. intros h1 h2 h3. exact (capacity_promise P i ops outs c x n c1 zc data fin o c2 h1 h2 (sendable_kind _ _ h2 h3)). Qed.
Print Assumptions C71_capacity.

(** C71: a stream stream_writable_next returns takes at least as many bytes as the
    application last asked for in vain, or at least one, unless the peer stopped it. *)
Theorem C71_next P i ops outs c x c1 o c2 : history P i ops outs c -> cn_step P CnWritableNext c = Ok (CoNext (Some x), c1) ->
  cn_step P (CnCapacity x) c1 = Ok (o, c2) -> (exists n, o = CoCap n /\ asked x ops outs <= n) \/ exists code, o = CoErr (StreamStopped code).
Proof. exact (writable_next_promise P i ops outs c x c1 o c2). Qed.
Print Assumptions C71_next.

(** C71: when stream_writable_next returns nothing, every stream still listed has
    less room than that (a stopped stream may be held back by the connection). *)
Theorem C71_next_none P i ops outs c x c1 o c2 : history P i ops outs c -> cn_step P CnWritableNext c = Ok (CoNext None, c1) -> in_writable x c -> live x c ->
  cn_step P (CnCapacity x) c1 = Ok (o, c2) -> c1 = c /\ ((exists n, o = CoCap n /\ n < asked x ops outs) \/ c_txcap c = 0 /\ exists code, o = CoErr (StreamStopped code)).
Proof. exact (writable_next_none P i ops outs c x c1 o c2). Qed.
Print Assumptions C71_next_none.

(* stream_writable(1, 900) fails, the peer allows more, and stream 1 is returned *)
Definition nOps : list cn_op := [CnSend false 1 (repeat 7 500) false; CnWritable 1 900; CnMaxStreamData 1 2000].
Definition nRun := Eval vm_compute in cn_run wP nOps (cn_new wP wI).
Definition nOuts : list cn_out := match nRun with Ok (o, _) => o | _ => [] end.
Definition nEnd : conn := match nRun with Ok (_, c) => c | _ => cn_new wP wI end.
Example C71_next_witness : history wP wI nOps nOuts nEnd /\ asked 1 nOps nOuts = 900 /\
  (exists c1, cn_step wP CnWritableNext nEnd = Ok (CoNext (Some 1), c1) /\ cn_step wP (CnCapacity 1) c1 = Ok (CoCap 1500, c1)).
Proof.
  split; [split; [|split; [|split]]|split].
  - unfold params_ok, wP, max_varint. cbn. lia.
  - unfold start_ok, wI, u64_max. cbn. lia.
  - repeat (constructor; [cbn; unfold zlen, max_varint; cbn; lia|]). constructor.
  - vm_compute. reflexivity.
  - vm_compute. reflexivity.
  - eexists. split; vm_compute; reflexivity.
Qed.

(** C71: the call returns true on a stream already finished, which takes nothing. *)
Theorem C71_finished_refuted : exists P i ops outs c x c1 c2, history P i ops outs c /\ sendable P x /\
  cn_step P (CnWritable x 1) c = Ok (CoBool true, c1) /\ cn_step P (CnSend false x [7] false) c1 = Ok (CoErr FinalSize, c2).
Proof.
  pose (ops := [CnSend false 1 [5] true]). pose (r := cn_run wP ops (cn_new wP wI)).
  exists wP, wI, ops, (match r with Ok (o, _) => o | _ => [] end), (match r with Ok (_, c) => c | _ => cn_new wP wI end).
  exists 1. do 2 eexists. split; [|split; [|split]].
  - split; [|split; [|split]].
    + unfold params_ok, wP, max_varint. cbn. lia.
    + unfold start_ok, wI, u64_max. cbn. lia.
    + repeat (constructor; [cbn; unfold zlen, max_varint; cbn; lia|]). constructor.
    + vm_compute. reflexivity.
  - left. reflexivity.
  - vm_compute. reflexivity.
  - vm_compute. reflexivity.
Qed.
Print Assumptions C71_finished_refuted.

(** C71: once stream_writable(id, n) returned false, the stream is not reported
    when it gets room for exactly n bytes: the comparison with the low watermark
    is strict (stream/mod.rs:834-838).  Here the peer allows one byte more; a
    write of one byte would succeed, but the stream is not listed as writable. *)
Theorem C71_exact_room_refuted : exists P i ops outs c x c1 c2, history P i ops outs c /\ sendable P x /\
  In (CnWritable x 1, CoBool false) (events ops outs) /\ ~ In CnWritableNext ops /\ ~ in_writable x c /\
  cn_step P CnWritableNext c = Ok (CoNext None, c1) /\ cn_step P (CnSend false x [8] false) c1 = Ok (CoWrote 1, c2).
Proof.
  pose (ops := [CnSend false 1 (repeat 7 1000) false; CnWritable 1 1; CnMaxStreamData 1 1001]). pose (r := cn_run wP ops (cn_new wP wI)).
  exists wP, wI, ops, (match r with Ok (o, _) => o | _ => [] end), (match r with Ok (_, c) => c | _ => cn_new wP wI end).
  exists 1. do 2 eexists. split; [|split; [|split; [|split; [|split; [|split]]]]].
  - split; [|split; [|split]].
    + unfold params_ok, wP, max_varint. cbn. lia.
    + unfold start_ok, wI, u64_max. cbn. lia.
    + repeat (constructor; [cbn; unfold zlen, max_varint; cbn; lia|]). constructor.
    + vm_compute. reflexivity.
  - left. reflexivity.
  - vm_compute. auto.
  - unfold ops. cbn [In]. intuition discriminate.
  - intros h. vm_compute in h. exact h.
  - vm_compute. reflexivity.
  - vm_compute. reflexivity.
Qed.
Print Assumptions C71_exact_room_refuted.

(** ** Witnesses *)
(* three of our streams with data; stream 9 is made urgent *)
Definition qI : start := mkStart 10000 20000 10000 8000 2 1 3 1.
Definition qOps : list cn_op :=
  [ CnSend false 1 (repeat 7 30) false; CnSend false 5 (repeat 8 30) false; CnSend false 9 (repeat 9 10) false; CnPriority 9 3 false;
    CnStream 0 0 [1; 2] false; CnStream 4 0 [1; 2] false ].
Definition qRun := Eval vm_compute in cn_run wP qOps (cn_new wP qI).
Definition qOuts : list cn_out := Eval cbv in match qRun with Ok (o, _) => o | _ => [] end.
Definition qC : conn := Eval cbv in match qRun with Ok (_, c) => c | _ => cn_new wP qI end.
Ltac hist := split; [unfold params_ok, wP, max_varint; cbn; lia|split; [unfold start_ok, qI, u64_max; cbn; lia|split;
  [repeat (constructor; [cbn; unfold zlen, max_varint; cbn; lia|]); constructor|vm_compute; reflexivity]]].
Example qH : history wP qI qOps qOuts qC.
Proof. hist. Qed.
Example q_roomy : Forall roomy qOps.
Proof. repeat (constructor; [cbn; auto|]). constructor. Qed.
(* the hypotheses of C37_best and C37_served: stream 9 is served while 1 waits *)
Example q_waiting : waiting 1 qC /\ waiting 5 qC.
Proof.
  split; (eexists; split; [vm_compute; reflexivity|split; [reflexivity|]]; eexists; split; [left; reflexivity|reflexivity]).
Qed.
Example q_best : (exists f c', cn_step wP (CnSendStream 30) qC = Ok (CoSent (Some (SfStream 9 f)), c')) /\
  goes_before 9 (priority_of 9 qOps qOuts) 1 (priority_of 1 qOps qOuts).
Proof. split; [do 2 eexists; vm_compute; reflexivity|left; cbn; lia]. Qed.
(* round robin: stream 9, then 1, then 5, then 1 again *)
Definition served (o : cn_out) : list Z := match o with CoSent (Some (SfStream x _)) => [x] | _ => [] end.
Definition rOps := qOps ++ [CnSendStream 30; CnSendStream 20; CnSendStream 20; CnSendStream 20; CnSendStream 20].
Example r_turns : match cn_run wP rOps (cn_new wP qI) with Ok (o, _) => flat_map served o | _ => [] end = [9; 1; 5; 1; 5].
Proof. vm_compute. reflexivity. Qed.
(* the hypotheses of C37_round_robin with x = 1, y = 5 and an unrelated call in between *)
Definition tOps := qOps ++ [CnSendStream 30].
Definition tOuts : list cn_out := Eval vm_compute in match cn_run wP tOps (cn_new wP qI) with Ok (o, _) => o | _ => [] end.
Definition tMid : list cn_op := [CnPriority 9 200 true; CnSend false 1 [7; 7] false].
Definition tRun := Eval vm_compute in cn_run wP (tOps ++ CnSendStream 20 :: tMid) (cn_new wP qI).
Definition tF : sframe := Eval vm_compute in match tRun with Ok (o, _) => match nth 7 o CoOk with CoSent (Some (SfStream 1 f)) => f | _ => mkFrame 0 [] true end | _ => mkFrame 0 [] true end.
Definition tM : list cn_out := Eval vm_compute in match tRun with Ok (o, _) => skipn 8 o | _ => [] end.
Definition tC : conn := Eval vm_compute in match tRun with Ok (_, c) => c | _ => cn_new wP qI end.
Example t_hist : history wP qI (tOps ++ CnSendStream 20 :: tMid) (tOuts ++ CoSent (Some (SfStream 1 tF)) :: tM) tC.
Proof. hist. Qed.
Example t_hyps : length tOps = length tOuts /\ Forall roomy (tOps ++ CnSendStream 20 :: tMid) /\
  priority_of 1 tOps tOuts = (127, true) /\ priority_of 5 tOps tOuts = (127, true) /\
  (forall z v b, In (CnPriority z v b) tMid -> z <> 1 /\ z <> 5) /\ (forall f', ~ In (CoSent (Some (SfStream 5 f'))) tM).
Proof.
  split; [reflexivity|]. split; [repeat (constructor; [cbn; lia|]); constructor|]. split; [reflexivity|]. split; [reflexivity|]. split.
  - intros z v b [h|[h|[]]]; [injection h as <- _ _; lia|discriminate].
  - intros f' h. vm_compute in h. intuition discriminate.
Qed.
Example t_waiting a b outs' c' : CnSendStream 20 :: tMid = a ++ b -> history wP qI (tOps ++ a) outs' c' -> waiting 5 c'.
Proof.
  intros e (_ & _ & _ & h).
  assert (ha : a = [] \/ a = [CnSendStream 20] \/ a = [CnSendStream 20; CnPriority 9 200 true] \/ a = CnSendStream 20 :: tMid).
  { unfold tMid in *. destruct a as [|a1 [|a2 [|a3 [|a4 a]]]]; cbn in e; [auto|injection e as <- _|injection e as <- <- _|injection e as <- <- <- _|exfalso]; auto.
    injection e as _ _ _ e. discriminate e. }
  assert (hw : forall c, (exists s, cn_get 5 c = Some s /\ st_stopped s = false /\ match sb_data (st_send s) with b :: _ => rb_is_empty b = false | [] => False end) -> waiting 5 c).
  { intros c (s & h1 & h2 & h3). exists s. split; auto. split; auto. destruct (sb_data (st_send s)) as [|r l]; [destruct h3|]. exists r. split; [left|]; auto. }
  apply hw. destruct ha as [-> |[-> |[-> | ->]]]; vm_compute in h; injection h as _ <-; eexists; (split; [vm_compute; reflexivity|split; reflexivity]).
Qed.
(* C70: streams 0 and 4 are listed; taken off by stream_readable_next, stream 0 is not *)
Example q_listed : in_readable 0 qC /\ in_readable 4 qC /\ can_read 0 qC /\ live 4 qC /\
  exists c', cn_step wP CnReadableNext qC = Ok (CoNext (Some 0), c') /\ can_read 0 c' /\ ~ in_readable 0 c'.
Proof.
  split; [vm_compute; auto|]. split; [vm_compute; auto|]. split; [eexists; split; [vm_compute; reflexivity|reflexivity]|].
  split; [eexists; vm_compute; reflexivity|]. eexists. split; [vm_compute; reflexivity|]. split; [eexists; split; [vm_compute; reflexivity|reflexivity]|].
  intros h. vm_compute in h. intuition discriminate.
Qed.
(* C70: stream 1 has room and is listed; C71: both calls say so *)
Example q_writable : can_write 1 qC /\ in_writable 1 qC /\ sendable wP 1 /\
  (exists c1, cn_step wP (CnWritable 1 500) qC = Ok (CoBool true, c1)) /\
  (exists c1, cn_step wP (CnWritable 1 5000) qC = Ok (CoBool false, c1)) /\ (exists c1, cn_step wP (CnCapacity 1) qC = Ok (CoCap 970, c1)) /\
  exists c', cn_step wP CnWritableNext qC = Ok (CoNext (Some 9), c') /\ can_write 9 c' /\ ~ in_writable 9 c'.
Proof.
  split; [eexists; split; [vm_compute; reflexivity|repeat split; reflexivity]|]. split; [vm_compute; auto|]. split; [left; reflexivity|].
  split; [eexists; vm_compute; reflexivity|]. split; [eexists; vm_compute; reflexivity|]. split; [eexists; vm_compute; reflexivity|].
  eexists. split; [vm_compute; reflexivity|]. split; [eexists; split; [vm_compute; reflexivity|repeat split; reflexivity]|].
  intros h. vm_compute in h. intuition discriminate.
Qed.
