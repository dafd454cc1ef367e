(** Vocabulary for stating what a connection does with its streams, independent
    of how it does it. *)
Require Import Verif.Base Verif.Errors Verif.SendBufModel Verif.SendSpec Verif.StreamsModel.

(** Stream ids (RFC 9000, 2.1): the lowest bit says who opened the stream, the
    next one whether it is bidirectional, the rest counts. *)
Definition opened_by_server (sid : Z) : bool := Z.odd sid.
Definition own (P : params) (sid : Z) : bool := Bool.eqb (opened_by_server sid) (p_server P).
Definition bidirectional (sid : Z) : bool := negb (Z.odd (sid / 2)).
Definition seqno (sid : Z) : Z := sid / 4.

(** Arguments the wire format and the Rust types allow. *)
Definition op_ok (op : cn_op) : Prop :=
  match op with
  | CnStream sid off data _ => 0 <= sid /\ 0 <= off /\ off + zlen data <= max_varint
  | CnReset sid code final => 0 <= sid /\ 0 <= code /\ 0 <= final <= max_varint
  | CnStop sid code => 0 <= sid /\ 0 <= code
  | CnMaxData m => 0 <= m
  | CnMaxStreamData sid m => 0 <= sid /\ 0 <= m <= max_varint
  | CnMaxStreams _ m => 0 <= m
  | CnStreamsBlocked _ m => 0 <= m
  | CnRecv sid cap => 0 <= sid /\ 0 <= cap
  | CnSend _ sid _ _ => 0 <= sid
  | CnPriority sid urg _ => 0 <= sid /\ 0 <= urg < 256
  | CnShutdown sid _ code cwnd => 0 <= sid /\ 0 <= code /\ 0 <= cwnd
  | CnCapacity sid => 0 <= sid
  | CnWritable sid len => 0 <= sid /\ 0 <= len
  | CnCwnd cwnd => 0 <= cwnd
  | CnSendMaxStreamData sid now rtt _ => 0 <= sid /\ 0 <= now /\ 0 <= rtt
  | CnSendMaxData now rtt _ => 0 <= now /\ 0 <= rtt
  | CnSendStop sid _ | CnSendReset sid _ | CnSendStreamDataBlocked sid _ => 0 <= sid
  | CnReadableNext | CnWritableNext | CnSendMaxStreams _ _ | CnSendDataBlocked _
  | CnSendStreamsBlocked _ _ | CnSendStream _ | CnAck _ | CnLost _ => True
  end.

Definition params_ok (P : params) : Prop :=
  0 <= p_rx_bidi_local P /\ 0 <= p_rx_bidi_remote P /\ 0 <= p_rx_uni P /\
  0 <= p_tx_bidi_local P <= max_varint /\ 0 <= p_tx_bidi_remote P <= max_varint /\
  0 <= p_tx_uni P <= max_varint /\
  0 <= p_max_window P /\ 0 <= p_num P /\ 0 < p_den P.
Definition start_ok (i : start) : Prop :=
  0 <= i_rx i /\ 0 <= i_rx_window i /\ 0 <= i_tx i /\ 0 <= i_cwnd i /\
  0 <= i_local_bidi i <= u64_max /\ 0 <= i_local_uni i <= u64_max /\
  0 <= i_peer_bidi i <= u64_max /\ 0 <= i_peer_uni i <= u64_max.

(** A connection's history: what happened, what came of it, where it left off. *)
Definition history (P : params) (i : start) (ops : list cn_op) (outs : list cn_out) (c : conn) : Prop :=
  params_ok P /\ start_ok i /\ Forall op_ok ops /\ cn_run P ops (cn_new P i) = Ok (outs, c).

(** How many streams of a kind the peer, and this side, may open at first. *)
Definition first_local (b : bool) (i : start) : Z := if b then i_local_bidi i else i_local_uni i.
Definition first_peer (b : bool) (i : start) : Z := if b then i_peer_bidi i else i_peer_uni i.

(** The limit on the peer's streams last announced. *)
Definition advertised (b : bool) (i : start) (outs : list cn_out) : Z :=
  fold_left (fun m o => match o with
                        | CoMaxStreams b' m' => if Bool.eqb b b' then m' else m
                        | _ => m
                        end) outs (first_local b i).

(** The largest limit on this side's streams the peer announced. *)
Definition granted (b : bool) (i : start) (ops : list cn_op) : Z :=
  fold_left (fun m op => match op with
                         | CnMaxStreams b' m' => if Bool.eqb b b' then Z.max m m' else m
                         | _ => m
                         end) ops (first_peer b i).

(** A stream is in use, or is over; otherwise it was never opened. *)
Definition live (sid : Z) (c : conn) : Prop := exists s, cn_get sid c = Some s.
Definition over (sid : Z) (c : conn) : Prop := collected sid c = true.
Definition unopened (sid : Z) (c : conn) : Prop := ~ live sid c /\ ~ over sid c.

(** A frame about a stream, sent in a direction that exists. *)
Definition frame_on (P : params) (op : cn_op) (sid : Z) : Prop :=
  match op with
  | CnStream x _ _ _ | CnReset x _ _ => x = sid /\ (bidirectional sid = true \/ own P sid = false)
  | CnStop x _ | CnMaxStreamData x _ => x = sid /\ (bidirectional sid = true \/ own P sid = true)
  | _ => False
  end.

(** A call that opens one of this side's streams if it is not yet open. *)
Definition call_opens (op : cn_op) (sid : Z) : Prop :=
  match op with
  | CnSend _ x _ _ | CnPriority x _ _ => x = sid
  | _ => False
  end.

(** Exactly the streams of a kind, opened by the peer, that are over. *)
Definition closed_peer_streams (P : params) (b : bool) (c : conn) (l : list Z) : Prop :=
  NoDup l /\ forall x, In x l <-> over x c /\ own P x = false /\ bidirectional x = b.

(** [n] is one more than the largest sequence number used by this side. *)
Definition used_up_to (P : params) (b : bool) (c : conn) (n : Z) : Prop :=
  let mine x := (live x c \/ over x c) /\ own P x = true /\ bidirectional x = b in
  (forall x, mine x -> seqno x < n) /\ (n = 0 \/ exists x, mine x /\ seqno x = n - 1).

(** The streams are the same, in the same states. *)
Definition unchanged_streams (c c' : conn) : Prop :=
  forall x, cn_get x c' = cn_get x c /\ collected x c' = collected x c.

(** ** What was sent on a stream *)

(** Bytes of the application accepted for a stream by one call. *)
Definition wrote (sid : Z) (op : cn_op) (o : cn_out) : list Z :=
  match op, o with
  | CnSend _ x data _, CoWrote n => if x =? sid then take n data else []
  | _, _ => []
  end.
(** The call that ended the stream. *)
Definition finishes (sid : Z) (op : cn_op) (o : cn_out) : Prop :=
  match op, o with
  | CnSend _ x data true, CoWrote n => x = sid /\ n = zlen data
  | _, _ => False
  end.
(** The sending part of the stream was given up: by the peer or by the application. *)
Definition cut (sid : Z) (op : cn_op) (o : cn_out) : Prop :=
  match op, o with
  | CnStop x _, CoOk => x = sid
  | CnShutdown x ShutWrite _ _, CoOk => x = sid
  | _, _ => False
  end.
(** The peer raised the limit on what may be sent on the stream. *)
Definition raised (sid : Z) (op : cn_op) (o : cn_out) (l : Z) : Z :=
  match op, o with
  | CnMaxStreamData x m, CoOk => if x =? sid then Z.max l m else l
  | _, _ => l
  end.
(** Frames put in packets that are remembered for acknowledgement and loss. *)
Definition logged (o : cn_out) : list sentf :=
  match o with
  | CoSent (Some f) => [f]
  | CoMaxStreams b _ => [SfMaxStreams b]
  | CoMaxStreamData sid _ => [SfMaxStreamData sid]
  | CoMaxData _ => [SfMaxData]
  | _ => []
  end.

Definition events (ops : list cn_op) (outs : list cn_out) : list (cn_op * cn_out) := combine ops outs.
Definition accepted_on (sid : Z) (ops : list cn_op) (outs : list cn_out) : list Z :=
  flat_map (fun e => wrote sid (fst e) (snd e)) (events ops outs).
Definition finished_on (sid : Z) (ops : list cn_op) (outs : list cn_out) : Prop :=
  exists e, In e (events ops outs) /\ finishes sid (fst e) (snd e).
Definition cut_on (sid : Z) (ops : list cn_op) (outs : list cn_out) : Prop :=
  exists e, In e (events ops outs) /\ cut sid (fst e) (snd e).

(** The largest limit of the peer on a stream, and on the connection. *)
Definition first_limit (P : params) (sid : Z) : Z :=
  match own P sid, bidirectional sid with
  | true, true => p_tx_bidi_remote P
  | true, false => p_tx_uni P
  | false, true => p_tx_bidi_local P
  | false, false => 0
  end.
Definition limit_on (P : params) (sid : Z) (ops : list cn_op) (outs : list cn_out) : Z :=
  fold_left (fun l e => raised sid (fst e) (snd e) l) (events ops outs) (first_limit P sid).
Definition limit_all (i : start) (ops : list cn_op) : Z :=
  fold_left (fun l op => match op with CnMaxData m => Z.max l m | _ => l end) ops (i_tx i).

(** All frames sent, and those of one stream. *)
Definition sent_frames (outs : list cn_out) : list sentf := flat_map logged outs.
Definition on_stream (sid : Z) (f : sentf) : list sframe :=
  match f with SfStream x f => if x =? sid then [f] else [] | _ => [] end.
Definition frames_on (sid : Z) (l : list sentf) : list sframe := flat_map (on_stream sid) l.
Definition stream_frames (sid : Z) (outs : list cn_out) : list sframe := frames_on sid (sent_frames outs).

(** The [k]-th frame was acknowledged after it was sent. *)
Definition acked_at (k : nat) (ops : list cn_op) (outs : list cn_out) : Prop :=
  exists n, nth_error ops n = Some (CnAck k) /\ (k < length (sent_frames (firstn n outs)))%nat.
Definition acked_byte (sid x : Z) (ops : list cn_op) (outs : list cn_out) : Prop :=
  exists k f, nth_error (sent_frames outs) k = Some (SfStream sid f) /\
    sf_off f <= x < sf_off f + zlen (sf_bytes f) /\ acked_at k ops outs.

(** The end of what was ever sent on a stream. *)
Definition highest_sent (sid : Z) (outs : list cn_out) : Z :=
  fold_right (fun f m => Z.max (frame_end f) m) 0 (stream_frames sid outs).
Definition total (v : Z -> Z) (l : list Z) : Z := fold_right (fun x n => v x + n) 0 l.
(** A stream this side may send on. *)
Definition sendable (P : params) (sid : Z) : Prop := bidirectional sid = true \/ own P sid = true.

(** ** Announcing that no stream can be opened *)

(** A call failed because the peer's limit on streams of a kind, then [m], was
    reached. *)
Definition blocked_at (P : params) (i : start) (b : bool) (m : Z) (ops : list cn_op) (outs : list cn_out) : Prop :=
  exists pre zc sid data fin post, ops = pre ++ CnSend zc sid data fin :: post /\
    nth_error outs (length pre) = Some (CoErr StreamLimit) /\ own P sid = true /\ bidirectional sid = b /\ m = granted b i pre.
(** The limits in the STREAMS_BLOCKED frames sent. *)
Definition announced (b : bool) (l : list sentf) : list Z :=
  flat_map (fun f => match f with SfStreamsBlocked b' m => if Bool.eqb b b' then [m] else [] | _ => [] end) l.
(** A frame with limit [m] was lost and none was sent since. *)
Definition lost_since (b : bool) (m : Z) (ops : list cn_op) (outs : list cn_out) : Prop :=
  exists pre k post, ops = pre ++ CnLost k :: post /\
    nth_error (sent_frames (firstn (length pre) outs)) k = Some (SfStreamsBlocked b m) /\
    announced b (sent_frames (skipn (length pre) outs)) = [].
