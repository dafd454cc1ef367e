(** quiche/src/frame.rs: encoding and decoding of frames. *)
Require Import Verif.Base Verif.Errors Verif.RangesModel Verif.OctetsModel.

(** packet::Type (packet.rs:121-139) *)
Inductive pkt_type : Type := PInitial | PRetry | PHandshake | PZeroRTT | PVersionNegotiation | PShort.

(** Frame (frame.rs:58-187).  A [RangeBuf] is its offset, bytes and FIN flag; a
    [RangeSet] is its list of ranges, which is what its equality compares. *)
Inductive frame : Type :=
| FPadding (len : Z)
| FPing (mtu_probe : option Z)
| FAck (ack_delay : Z) (ranges : list range) (ecn : option (Z * Z * Z))
| FResetStream (stream_id error_code final_size : Z)
| FStopSending (stream_id error_code : Z)
| FCrypto (offset : Z) (data : list Z)
| FCryptoHeader (offset length : Z)
| FNewToken (token : list Z)
| FStream (stream_id offset : Z) (data : list Z) (fin : bool)
| FStreamHeader (stream_id offset length : Z) (fin : bool)
| FMaxData (max : Z)
| FMaxStreamData (stream_id max : Z)
| FMaxStreamsBidi (max : Z)
| FMaxStreamsUni (max : Z)
| FDataBlocked (limit : Z)
| FStreamDataBlocked (stream_id limit : Z)
| FStreamsBlockedBidi (limit : Z)
| FStreamsBlockedUni (limit : Z)
| FNewConnectionId (seq_num retire_prior_to : Z) (conn_id reset_token : list Z)
| FRetireConnectionId (seq_num : Z)
| FPathChallenge (data : list Z)
| FPathResponse (data : list Z)
| FConnectionClose (error_code frame_type : Z) (reason : list Z)
| FApplicationClose (error_code : Z) (reason : list Z)
| FHandshakeDone
| FDatagram (data : list Z)
| FDatagramHeader (length : Z).

(** ** Decoding.  The cursor is the list of bytes after it (see OctetsModel). *)

(** The [?] on a read: BufferTooShortError becomes Error::BufferTooShort. *)
Definition rd {A} (o : option A) : res error A :=
  match o with Some a => Ok a | None => Err BufferTooShort end.

Definition get_v (b : list Z) : res error (Z * list Z) := rd (rd_varint b).
Definition get_n (len : Z) (b : list Z) : res error (list Z * list Z) := rd (rd_bytes len b).
Definition get_lv (b : list Z) : res error (list Z * list Z) :=
  let* '(len, b) := get_v b in get_n len b.

(** The loop of the 0x00 arm (frame.rs:196-206). *)
Fixpoint pad_loop (b : list Z) (len : Z) : Z * list Z :=
  match b with
  | 0 :: b => pad_loop b (len + 1)
  | _ => (len, b)
  end.

(** The loop of parse_ack_frame (frame.rs:1277-1295): [count] more blocks.  Each
    turn reads at least two bytes or returns, so [fuel] of one more than the
    number of bytes left is enough; running out of it is a panic here. *)
Fixpoint ack_loop (fuel : nat) (count smallest : Z) (r : rangeset) (b : list Z) : res error (rangeset * list Z) :=
  if count <=? 0 then Ok (r, b)
  else
    match fuel with
    | O => Panic
    | S fuel =>
        let* '(gap, b) := get_v b in
        if smallest <? 2 + gap then Err InvalidFrame
        else
          let largest := (smallest - gap) - 2 in
          let* '(ack_block, b) := get_v b in
          if largest <? ack_block then Err InvalidFrame
          else
            let smallest := largest - ack_block in
            match rs_insert (smallest, largest + 1) r with
            | Ok r => ack_loop fuel (count - 1) smallest r b
            | _ => Panic
            end
    end.

(** parse_ack_frame (frame.rs:1259-1313) *)
Definition parse_ack_frame (ty : Z) (b : list Z) : res error (frame * list Z) :=
  let* '(largest_ack, b) := get_v b in
  let* '(ack_delay, b) := get_v b in
  let* '(block_count, b) := get_v b in
  let* '(ack_block, b) := get_v b in
  if largest_ack <? ack_block then Err InvalidFrame
  else
    let smallest := largest_ack - ack_block in
    match rs_insert (smallest, largest_ack + 1) rs_default with
    | Ok r =>
        let* '(r, b) := ack_loop (S (length b)) block_count smallest r b in
        if Z.odd ty then
          let* '(e0, b) := get_v b in
          let* '(e1, b) := get_v b in
          let* '(ce, b) := get_v b in
          Ok (FAck ack_delay (rs_ranges r) (Some (e0, e1, ce)), b)
        else Ok (FAck ack_delay (rs_ranges r) None, b)
    | _ => Panic
    end.

(** MAX_STREAM_SIZE (frame.rs:48) *)
Definition MAX_STREAM_SIZE : Z := 2 ^ 62.

(** parse_stream_frame (frame.rs:1369-1396) *)
Definition parse_stream_frame (ty : Z) (b : list Z) : res error (frame * list Z) :=
  let* '(stream_id, b) := get_v b in
  let* '(offset, b) := if Z.testbit ty 2 then get_v b else Ok (0, b) in
  let* '(len, b) := if Z.testbit ty 1 then get_v b else Ok (zlen b, b) in
  if MAX_STREAM_SIZE <=? offset + len then Err InvalidFrame
  else
    let* '(data, b) := get_n len b in
    Ok (FStream stream_id offset data (Z.odd ty), b).

(** parse_datagram_frame (frame.rs:1398-1412) *)
Definition parse_datagram_frame (ty : Z) (b : list Z) : res error (frame * list Z) :=
  let* '(len, b) := if Z.odd ty then get_v b else Ok (zlen b, b) in
  let* '(data, b) := get_n len b in
  Ok (FDatagram data, b).

(** The [match frame_type] of from_bytes (frame.rs:195-335); MAX_CID_LEN is 20. *)
Definition parse_frame (ty : Z) (b : list Z) : res error (frame * list Z) :=
  let one (mk : Z -> frame) := let* '(x, b) := get_v b in Ok (mk x, b) in
  let two (mk : Z -> Z -> frame) :=
    let* '(x, b) := get_v b in let* '(y, b) := get_v b in Ok (mk x y, b) in
  if ty =? 0x00 then let '(len, b) := pad_loop b 1 in Ok (FPadding len, b)
  else if ty =? 0x01 then Ok (FPing None, b)
  else if (ty =? 0x02) || (ty =? 0x03) then parse_ack_frame ty b
  else if ty =? 0x04 then
    let* '(x, b) := get_v b in let* '(y, b) := get_v b in let* '(z, b) := get_v b in
    Ok (FResetStream x y z, b)
  else if ty =? 0x05 then two FStopSending
  else if ty =? 0x06 then
    let* '(offset, b) := get_v b in let* '(data, b) := get_lv b in Ok (FCrypto offset data, b)
  else if ty =? 0x07 then
    let* '(len, b) := get_v b in
    if len =? 0 then Err InvalidFrame
    else let* '(token, b) := get_n len b in Ok (FNewToken token, b)
  else if (0x08 <=? ty) && (ty <=? 0x0f) then parse_stream_frame ty b
  else if ty =? 0x10 then one FMaxData
  else if ty =? 0x11 then two FMaxStreamData
  else if ty =? 0x12 then one FMaxStreamsBidi
  else if ty =? 0x13 then one FMaxStreamsUni
  else if ty =? 0x14 then one FDataBlocked
  else if ty =? 0x15 then two FStreamDataBlocked
  else if ty =? 0x16 then one FStreamsBlockedBidi
  else if ty =? 0x17 then one FStreamsBlockedUni
  else if ty =? 0x18 then
    let* '(seq_num, b) := get_v b in
    let* '(retire_prior_to, b) := get_v b in
    let* '(len, b) := rd (rd_u 1 b) in
    if negb ((1 <=? len) && (len <=? 20)) then Err InvalidFrame
    else
      let* '(conn_id, b) := get_n len b in
      let* '(token, b) := get_n 16 b in
      Ok (FNewConnectionId seq_num retire_prior_to conn_id token, b)
  else if ty =? 0x19 then one FRetireConnectionId
  else if ty =? 0x1a then let* '(d, b) := get_n 8 b in Ok (FPathChallenge d, b)
  else if ty =? 0x1b then let* '(d, b) := get_n 8 b in Ok (FPathResponse d, b)
  else if ty =? 0x1c then
    let* '(ec, b) := get_v b in let* '(ft, b) := get_v b in let* '(reason, b) := get_lv b in
    Ok (FConnectionClose ec ft reason, b)
  else if ty =? 0x1d then
    let* '(ec, b) := get_v b in let* '(reason, b) := get_lv b in
    Ok (FApplicationClose ec reason, b)
  else if ty =? 0x1e then Ok (FHandshakeDone, b)
  else if (ty =? 0x30) || (ty =? 0x31) then parse_datagram_frame ty b
  else Err InvalidFrame.

(** The [allowed] table of from_bytes (frame.rs:337-365) *)
Definition frame_allowed (pkt : pkt_type) (f : frame) : bool :=
  match pkt, f with
  | _, FPadding _ | _, FPing _ => true
  | PZeroRTT, FAck _ _ _ | PZeroRTT, FCrypto _ _ | PZeroRTT, FHandshakeDone | PZeroRTT, FNewToken _
  | PZeroRTT, FPathResponse _ | PZeroRTT, FRetireConnectionId _ | PZeroRTT, FConnectionClose _ _ _ => false
  | _, FAck _ _ _ | _, FCrypto _ _ | _, FConnectionClose _ _ _ => true
  | PShort, _ => true
  | PZeroRTT, _ => true
  | _, _ => false
  end.

(** from_bytes (frame.rs:190-370) *)
Definition frame_from_bytes (b : list Z) (pkt : pkt_type) : res error (frame * list Z) :=
  let* '(ty, b) := get_v b in
  let* '(f, b) := parse_frame ty b in
  if frame_allowed pkt f then Ok (f, b) else Err InvalidPacket.

(** The payload loop of recv_single (lib.rs:3444-3465), before the frames are
    acted upon: all frames of a packet.  [fuel] as in [ack_loop]. *)
Fixpoint payload_loop (fuel : nat) (b : list Z) (pkt : pkt_type) : res error (list frame) :=
  match b with
  | [] => Ok []
  | _ =>
      match fuel with
      | O => Panic
      | S fuel =>
          let* '(f, b) := frame_from_bytes b pkt in
          let* fs := payload_loop fuel b pkt in
          Ok (f :: fs)
      end
  end.

(** payload.cap() == 0 is an error (lib.rs:3329-3331 checks it before). *)
Definition payload_frames (b : list Z) (pkt : pkt_type) : res error (list frame) :=
  match b with [] => Err InvalidPacket | _ => payload_loop (length b) b pkt end.

(** ** Encoding *)
Inductive put : Type :=
| PutV (v : Z)            (* put_varint *)
| PutV2 (v : Z)           (* put_varint_with_len(_, 2) *)
| PutU8 (v : Z)           (* put_u8 *)
| PutB (bs : list Z)      (* put_bytes *)
| PutPanic.               (* an arithmetic underflow or unwrap on None *)

Definition do_put (p : put) : om unit :=
  match p with
  | PutV v => put_varint v
  | PutV2 v => put_varint_with_len v 2
  | PutU8 v => put_u 1 v
  | PutB bs => put_bytes bs
  | PutPanic => opanic
  end.

Fixpoint do_puts (l : list put) : om unit :=
  match l with
  | [] => oret tt
  | p :: l => let+ u := do_put p in do_puts l
  end.

(** [a - b] on u64 *)
Definition put_sub (a b : Z) (k : Z -> list put) : list put :=
  if a <? b then [PutPanic] else k (a - b).

(** The block loop of the ACK arm (frame.rs:413-422), [l] in descending order. *)
Fixpoint ack_block_puts (smallest : Z) (l : list range) (tail : list put) : list put :=
  match l with
  | [] => tail
  | (s, e) :: l =>
      put_sub smallest e (fun d => put_sub d 1 (fun gap =>
      put_sub e 1 (fun x => put_sub x s (fun ack_block =>
      PutV gap :: PutV ack_block :: ack_block_puts s l tail))))
  end.

(** encode_crypto_header (frame.rs:1315-1326), encode_stream_header
    (frame.rs:1328-1353), encode_dgram_header (frame.rs:1355-1367) *)
Definition crypto_header_puts (offset length : Z) : list put := [PutV 0x06; PutV offset; PutV2 length].
Definition stream_header_puts (stream_id offset length : Z) (fin : bool) : list put :=
  let ty := Z.lor (Z.lor 0x08 0x04) 0x02 in
  let ty := if fin then Z.lor ty 0x01 else ty in
  [PutV ty; PutV stream_id; PutV offset; PutV2 length].
Definition dgram_header_puts (length : Z) : list put := [PutV (Z.lor 0x30 0x01); PutV2 length].

(** to_bytes (frame.rs:372-599): the writes it makes, in order. *)
Definition frame_puts (f : frame) : list put :=
  match f with
  | FPadding len => repeat (PutV 0) (Z.to_nat len)
  | FPing _ => [PutV 1]
  | FAck ack_delay ranges ecn =>
      PutV (match ecn with None => 2 | Some _ => 3 end) ::
      match rev ranges with
      | [] => [PutPanic]
      | (s, e) :: l =>
          put_sub e 1 (fun x => put_sub x s (fun ack_block =>
          [PutV (e - 1); PutV ack_delay; PutV (zlen l); PutV ack_block] ++
          ack_block_puts s l
            (match ecn with None => [] | Some (e0, e1, ce) => [PutV e0; PutV e1; PutV ce] end)))
      end
  | FResetStream x y z => [PutV 4; PutV x; PutV y; PutV z]
  | FStopSending x y => [PutV 5; PutV x; PutV y]
  | FCrypto offset data => crypto_header_puts offset (zlen data) ++ [PutB data]
  | FCryptoHeader _ _ => []
  | FNewToken token => [PutV 7; PutV (zlen token); PutB token]
  | FStream stream_id offset data fin => stream_header_puts stream_id offset (zlen data) fin ++ [PutB data]
  | FStreamHeader _ _ _ _ => []
  | FMaxData x => [PutV 0x10; PutV x]
  | FMaxStreamData x y => [PutV 0x11; PutV x; PutV y]
  | FMaxStreamsBidi x => [PutV 0x12; PutV x]
  | FMaxStreamsUni x => [PutV 0x13; PutV x]
  | FDataBlocked x => [PutV 0x14; PutV x]
  | FStreamDataBlocked x y => [PutV 0x15; PutV x; PutV y]
  | FStreamsBlockedBidi x => [PutV 0x16; PutV x]
  | FStreamsBlockedUni x => [PutV 0x17; PutV x]
  | FNewConnectionId x y cid token => [PutV 0x18; PutV x; PutV y; PutU8 (zlen cid); PutB cid; PutB token]
  | FRetireConnectionId x => [PutV 0x19; PutV x]
  | FPathChallenge d => [PutV 0x1a; PutB d]
  | FPathResponse d => [PutV 0x1b; PutB d]
  | FConnectionClose x y reason => [PutV 0x1c; PutV x; PutV y; PutV (zlen reason); PutB reason]
  | FApplicationClose x reason => [PutV 0x1d; PutV x; PutV (zlen reason); PutB reason]
  | FHandshakeDone => [PutV 0x1e]
  | FDatagram d => dgram_header_puts (zlen d) ++ [PutB d]
  | FDatagramHeader _ => []
  end.

Definition frame_to_bytes (f : frame) : om Z :=
  let+ before := o_cap in
  let+ u := do_puts (frame_puts f) in
  let+ after := o_cap in
  oret (before - after).

(** ** wire_len (frame.rs:601-812); [None] is a panic. *)
Definition usub (a b : Z) : option Z := if a <? b then None else Some (a - b).

Fixpoint ack_blocks_len (smallest : Z) (l : list range) : option Z :=
  match l with
  | [] => Some 0
  | (s, e) :: l =>
      match usub smallest e with
      | Some d =>
          match usub d 1, usub e 1 with
          | Some gap, Some x =>
              match usub x s, ack_blocks_len s l with
              | Some ack_block, Some n => Some (varint_len gap + varint_len ack_block + n)
              | _, _ => None
              end
          | _, _ => None
          end
      | None => None
      end
  end.

Definition frame_wire_len (f : frame) : option Z :=
  match f with
  | FPadding len => Some len
  | FPing _ => Some 1
  | FAck ack_delay ranges ecn =>
      match rev ranges with
      | [] => None
      | (s, e) :: l =>
          match usub e 1 with
          | Some x =>
              match usub x s, ack_blocks_len s l with
              | Some ack_block, Some n =>
                  Some (1 + varint_len (e - 1) + varint_len ack_delay + varint_len (zlen l) + varint_len ack_block + n +
                        match ecn with
                        | None => 0
                        | Some (e0, e1, ce) => varint_len e0 + varint_len e1 + varint_len ce
                        end)
              | _, _ => None
              end
          | None => None
          end
      end
  | FResetStream x y z => Some (1 + varint_len x + varint_len y + varint_len z)
  | FStopSending x y => Some (1 + varint_len x + varint_len y)
  | FCrypto offset data => Some (1 + varint_len offset + 2 + zlen data)
  | FCryptoHeader offset length => Some (1 + varint_len offset + 2 + length)
  | FNewToken token => Some (1 + varint_len (zlen token) + zlen token)
  | FStream stream_id offset data _ => Some (1 + varint_len stream_id + varint_len offset + 2 + zlen data)
  | FStreamHeader stream_id offset length _ => Some (1 + varint_len stream_id + varint_len offset + 2 + length)
  | FMaxData x | FMaxStreamsBidi x | FMaxStreamsUni x | FDataBlocked x | FStreamsBlockedBidi x
  | FStreamsBlockedUni x | FRetireConnectionId x => Some (1 + varint_len x)
  | FMaxStreamData x y | FStreamDataBlocked x y => Some (1 + varint_len x + varint_len y)
  | FNewConnectionId x y cid token => Some (1 + varint_len x + varint_len y + 1 + zlen cid + zlen token)
  | FPathChallenge _ | FPathResponse _ => Some (1 + 8)
  | FConnectionClose x y reason => Some (1 + varint_len x + varint_len y + varint_len (zlen reason) + zlen reason)
  | FApplicationClose x reason => Some (1 + varint_len x + varint_len (zlen reason) + zlen reason)
  | FHandshakeDone => Some 1
  | FDatagram d => Some (1 + 2 + zlen d)
  | FDatagramHeader length => Some (1 + 2 + length)
  end.

(** ack_eliciting (frame.rs:814-823), probing (frame.rs:825-833) *)
Definition frame_ack_eliciting (f : frame) : bool :=
  match f with FPadding _ | FAck _ _ _ | FApplicationClose _ _ | FConnectionClose _ _ _ => false | _ => true end.
Definition frame_probing (f : frame) : bool :=
  match f with FPadding _ | FNewConnectionId _ _ _ _ | FPathChallenge _ | FPathResponse _ => true | _ => false end.

(** MAX_CRYPTO_STREAM_OFFSET (lib.rs:499) and the check that opens the Crypto arm of
    process_frame (lib.rs:8509-8512). *)
Definition MAX_CRYPTO_STREAM_OFFSET : Z := 65536.
Definition crypto_arm_check (offset : Z) (data : list Z) : res error unit :=
  if MAX_CRYPTO_STREAM_OFFSET <=? offset + zlen data then Err CryptoBufferExceeded else Ok tt.
