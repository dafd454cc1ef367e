(** RFC 9000 section 19 and RFC 9221: the wire format of frames, and section 12.4
    Table 3: which packets may carry them.  Stated without the code. *)
Require Import Verif.Base Verif.OctetsSpec Verif.FrameModel.

(** A byte string preceded by its length. *)
Definition with_len (l : list Z) (d : list Z) : Prop :=
  exists ln, qvarint ln (zlen d) /\ l = ln ++ d.

(** The ranges of an ACK frame after the first, from high to low: a gap and a
    length each (section 19.3.1).  [smallest] is the lowest number so far; [hi]
    and [lo] are the highest and lowest number of the next range. *)
Inductive ack_ranges : Z -> list Z -> list (Z * Z) -> Prop :=
| AckNil smallest : ack_ranges smallest [] []
| AckCons smallest lg gap ll len hi lo l ranges :
    qvarint lg gap -> qvarint ll len ->
    hi = smallest - gap - 2 -> lo = hi - len -> 0 <= lo ->
    ack_ranges lo l ranges ->
    ack_ranges smallest (lg ++ ll ++ l) ((lo, hi + 1) :: ranges).

(** The first range. *)
Definition ack_body (l : list Z) (delay : Z) (ranges : list (Z * Z)) : Prop :=
  exists l1 largest l2 l3 count l4 first l5 below,
    l = l1 ++ l2 ++ l3 ++ l4 ++ l5 /\
    qvarint l1 largest /\ qvarint l2 delay /\ qvarint l3 count /\ qvarint l4 first /\
    0 <= largest - first /\ ack_ranges (largest - first) l5 below /\ zlen below = count /\
    ranges = rev ((largest - first, largest + 1) :: below).

Definition ecn_body (l : list Z) (ecn : option (Z * Z * Z)) : Prop :=
  match ecn with
  | None => l = []
  | Some (a, b, c) => exists la lb lc, l = la ++ lb ++ lc /\ qvarint la a /\ qvarint lb b /\ qvarint lc c
  end.

(** [frame_body ty l rest f]: after the type [ty], the bytes [l], followed by
    [rest] in the packet, are the frame [f]. *)
Inductive frame_body : Z -> list Z -> list Z -> frame -> Prop :=
| BPadding n rest : hd 1 rest <> 0 -> frame_body 0x00 (repeat 0 n) rest (FPadding (1 + Z.of_nat n))
| BPing rest : frame_body 0x01 [] rest (FPing None)
| BAck l1 l2 delay ranges ecn rest : ack_body l1 delay ranges -> ecn_body l2 ecn ->
    frame_body (match ecn with None => 0x02 | Some _ => 0x03 end) (l1 ++ l2) rest (FAck delay ranges ecn)
| BResetStream a b c la lb lc rest : qvarint la a -> qvarint lb b -> qvarint lc c ->
    frame_body 0x04 (la ++ lb ++ lc) rest (FResetStream a b c)
| BStopSending a b la lb rest : qvarint la a -> qvarint lb b -> frame_body 0x05 (la ++ lb) rest (FStopSending a b)
| BCrypto a d la ld rest : qvarint la a -> with_len ld d -> frame_body 0x06 (la ++ ld) rest (FCrypto a d)
| BNewToken d ld rest : with_len ld d -> d <> [] -> frame_body 0x07 ld rest (FNewToken d)
(** the low three bits say whether offset, length and FIN are there; without a
    length the frame ends with the packet *)
| BStream (has_off has_len fin : bool) id off d lid loff ld rest :
    qvarint lid id ->
    (if has_off then qvarint loff off else loff = [] /\ off = 0) ->
    (if has_len then with_len ld d else ld = d /\ rest = []) ->
    off + zlen d <= 2 ^ 62 - 1 ->
    frame_body (0x08 + (if has_off then 4 else 0) + (if has_len then 2 else 0) + (if fin then 1 else 0))
      (lid ++ loff ++ ld) rest (FStream id off d fin)
| BMaxData a la rest : qvarint la a -> frame_body 0x10 la rest (FMaxData a)
| BMaxStreamData a b la lb rest : qvarint la a -> qvarint lb b -> frame_body 0x11 (la ++ lb) rest (FMaxStreamData a b)
| BMaxStreamsBidi a la rest : qvarint la a -> frame_body 0x12 la rest (FMaxStreamsBidi a)
| BMaxStreamsUni a la rest : qvarint la a -> frame_body 0x13 la rest (FMaxStreamsUni a)
| BDataBlocked a la rest : qvarint la a -> frame_body 0x14 la rest (FDataBlocked a)
| BStreamDataBlocked a b la lb rest : qvarint la a -> qvarint lb b ->
    frame_body 0x15 (la ++ lb) rest (FStreamDataBlocked a b)
| BStreamsBlockedBidi a la rest : qvarint la a -> frame_body 0x16 la rest (FStreamsBlockedBidi a)
| BStreamsBlockedUni a la rest : qvarint la a -> frame_body 0x17 la rest (FStreamsBlockedUni a)
| BNewConnectionId a b cid token la lb rest : qvarint la a -> qvarint lb b ->
    1 <= zlen cid <= 20 -> zlen token = 16 ->
    frame_body 0x18 (la ++ lb ++ [zlen cid] ++ cid ++ token) rest (FNewConnectionId a b cid token)
| BRetireConnectionId a la rest : qvarint la a -> frame_body 0x19 la rest (FRetireConnectionId a)
| BPathChallenge d rest : zlen d = 8 -> frame_body 0x1a d rest (FPathChallenge d)
| BPathResponse d rest : zlen d = 8 -> frame_body 0x1b d rest (FPathResponse d)
| BConnectionClose a b d la lb ld rest : qvarint la a -> qvarint lb b -> with_len ld d ->
    frame_body 0x1c (la ++ lb ++ ld) rest (FConnectionClose a b d)
| BApplicationClose a d la ld rest : qvarint la a -> with_len ld d ->
    frame_body 0x1d (la ++ ld) rest (FApplicationClose a d)
| BHandshakeDone rest : frame_body 0x1e [] rest FHandshakeDone
| BDatagram (has_len : bool) d ld rest :
    (if has_len then with_len ld d else ld = d /\ rest = []) ->
    frame_body (0x30 + (if has_len then 1 else 0)) ld rest (FDatagram d).

Definition frame_wire (l rest : list Z) (f : frame) : Prop :=
  exists lt ty body, l = lt ++ body /\ qvarint lt ty /\ frame_body ty body rest f.

(** Table 3, by frame type: the packets (I, H, 0, 1) a frame may be in. *)
Definition table3 (f : frame) : list pkt_type :=
  match f with
  | FPadding _ | FPing _ => [PInitial; PHandshake; PZeroRTT; PShort]
  | FAck _ _ _ | FCrypto _ _ => [PInitial; PHandshake; PShort]
  | FConnectionClose _ _ _ => [PInitial; PHandshake; PZeroRTT; PShort]
  | FNewToken _ | FPathResponse _ | FHandshakeDone => [PShort]
  | _ => [PZeroRTT; PShort]
  end.

(** Packets that carry frames. *)
Definition has_frames (pkt : pkt_type) : Prop := In pkt [PInitial; PHandshake; PZeroRTT; PShort].

(** Frames of Table 3 that the code does not take in 0-RTT all the same:
    RETIRE_CONNECTION_ID, which section 12.5 lets a server reject there, and
    CONNECTION_CLOSE, for which nothing does. *)
Definition zero_rtt_exception (f : frame) : Prop :=
  match f with FRetireConnectionId _ | FConnectionClose _ _ _ => True | _ => False end.

Definition accepted_in (pkt : pkt_type) (f : frame) : Prop :=
  In pkt (table3 f) /\ ~ (pkt = PZeroRTT /\ zero_rtt_exception f).

(** A whole payload. *)
Inductive frames_wire : list Z -> pkt_type -> list frame -> Prop :=
| FwNil pkt : frames_wire [] pkt []
| FwCons l rest pkt f fs : frame_wire l rest f -> accepted_in pkt f -> frames_wire rest pkt fs ->
    frames_wire (l ++ rest) pkt (f :: fs).

(** A frame the sender may pass to the encoder. *)
Definition is_v (x : Z) : Prop := 0 <= x < 2 ^ 62.

(** Acknowledged ranges: not empty, in order, with a gap between them. *)
Inductive ack_ok : Z -> list (Z * Z) -> Prop :=
| AckOk1 lo s e : lo < s -> s < e <= 2 ^ 62 -> ack_ok lo [(s, e)]
| AckOkS lo s e l : lo < s -> s < e -> ack_ok e l -> ack_ok lo ((s, e) :: l).

Definition frame_legal (f : frame) : Prop :=
  match f with
  | FPadding len => 1 <= len
  | FPing p => p = None
  | FAck delay ranges ecn =>
      is_v delay /\ ack_ok (-1) ranges /\
      match ecn with None => True | Some (a, b, c) => is_v a /\ is_v b /\ is_v c end
  | FResetStream a b c => is_v a /\ is_v b /\ is_v c
  | FStopSending a b | FMaxStreamData a b | FStreamDataBlocked a b => is_v a /\ is_v b
  | FCrypto off d => is_v off /\ bytes_ok d /\ zlen d < 2 ^ 14
  | FNewToken d => bytes_ok d /\ 1 <= zlen d < 2 ^ 62
  | FStream id off d _ => is_v id /\ is_v off /\ bytes_ok d /\ zlen d < 2 ^ 14 /\ off + zlen d < 2 ^ 62
  | FMaxData a | FMaxStreamsBidi a | FMaxStreamsUni a | FDataBlocked a | FStreamsBlockedBidi a
  | FStreamsBlockedUni a | FRetireConnectionId a => is_v a
  | FNewConnectionId a b cid token =>
      is_v a /\ is_v b /\ bytes_ok cid /\ 1 <= zlen cid <= 20 /\ bytes_ok token /\ zlen token = 16
  | FPathChallenge d | FPathResponse d => bytes_ok d /\ zlen d = 8
  | FConnectionClose a b d => is_v a /\ is_v b /\ bytes_ok d /\ zlen d < 2 ^ 62
  | FApplicationClose a d => is_v a /\ bytes_ok d /\ zlen d < 2 ^ 62
  | FHandshakeDone => True
  | FDatagram d => bytes_ok d /\ zlen d < 2 ^ 14
  | FCryptoHeader _ _ | FStreamHeader _ _ _ _ | FDatagramHeader _ => False
  end.

(** What may follow a frame in the same packet: padding ends where the zeros do. *)
Definition follows (f : frame) (rest : list Z) : Prop :=
  match f with FPadding _ => hd 1 rest <> 0 | _ => True end.
