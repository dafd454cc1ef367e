(** Model of quiche/src/stream/send_buf.rs, and of the parts of lib.rs that
    drive one send stream: stream_send, STREAM frame emission, ACK and loss of
    STREAM frames, MAX_STREAM_DATA, STOP_SENDING and write shutdown.
    Buffers are [rangebuf]; [usize] indices into the VecDeque are [nat]. *)
Require Import Verif.Base Verif.Errors Verif.RangesModel Verif.RangeBufModel.

(** send_buf.rs:41-42 *)
Definition SEND_BUFFER_SIZE : Z := 4096.

(** struct SendBuf (send_buf.rs:89-130) *)
Record sendbuf : Type := mkSend {
  sb_data : list rangebuf;
  sb_pos : nat;
  sb_off : Z;
  sb_emit_off : Z;
  sb_buffered : Z;
  sb_max_data : Z;
  sb_blocked : option Z;
  sb_fin_off : option Z;
  sb_shut : bool;
  sb_acked : rangeset;
  sb_error : option Z }.

(** new (send_buf.rs:136-142) *)
Definition sb_new (max_data : Z) : sendbuf :=
  mkSend [] O 0 0 0 max_data None None false rs_default None.

(** off_front (send_buf.rs:488-502), from the buffers at and after [pos]. *)
Fixpoint front_of (post : list rangebuf) (off : Z) : Z :=
  match post with
  | [] => off
  | b :: tl => if rb_is_empty b then front_of tl off else rbO b
  end.
Definition sb_off_front (s : sendbuf) : Z := front_of (skipn (sb_pos s) (sb_data s)) (sb_off s).

(** is_empty (send_buf.rs:545-548) *)
Definition sb_is_empty (s : sendbuf) : bool :=
  match sb_data s with [] => true | _ => false end.

(** ack_off (send_buf.rs:550-559) *)
Definition sb_ack_off (s : sendbuf) : Z :=
  match rs_ranges (sb_acked s) with
  | (a, e) :: _ => if a =? 0 then e else 0
  | [] => 0
  end.

(** is_fin, is_complete (send_buf.rs:509-533) *)
Definition sb_is_fin (s : sendbuf) : bool :=
  match sb_fin_off s with Some f => f =? sb_off s | None => false end.
Definition sb_is_complete (s : sendbuf) : bool :=
  match sb_fin_off s with Some f => rs_eq_range (sb_acked s) (0, f) | None => false end.

(** cap (send_buf.rs:561-569): [max_data - off] may underflow. *)
Definition sb_cap (s : sendbuf) : res error Z :=
  match sb_error s with
  | Some e => Err (StreamStopped e)
  | None => if sb_max_data s <? sb_off s then Panic else Ok (sb_max_data s - sb_off s)
  end.

Definition sb_set_fin (f : option Z) (s : sendbuf) : sendbuf :=
  mkSend (sb_data s) (sb_pos s) (sb_off s) (sb_emit_off s) (sb_buffered s) (sb_max_data s)
         (sb_blocked s) f (sb_shut s) (sb_acked s) (sb_error s).

(** reserve_for_write (send_buf.rs:144-187): the reserved length, the fin
    flag, and the buffer with its final offset recorded. *)
Definition sb_reserve (len : Z) (fin : bool) (s : sendbuf) : res error (Z * bool * sendbuf) :=
  let max_off := sb_off s + len in
  let* c := sb_cap s in
  let '(len, fin) := if c <? len then (c, false) else (len, fin) in
  if match sb_fin_off s with Some f => f <? max_off | None => false end then Err FinalSize
  else if match sb_fin_off s with Some f => (max_off =? f) && negb fin | None => false end
  then Err FinalSize
  else
    let s := if fin then sb_set_fin (Some max_off) s else s in
    if max_off <=? sb_ack_off s then Ok (0, fin, s) else Ok (len, fin, s).

(** SendReserve::append_buf (send_buf.rs:52-73): [reserved] is what is left of
    the reservation. *)
Definition sb_append (chunk : list Z) (reserved : Z) (fin : bool) (s : sendbuf)
  : res error (Z * sendbuf) :=
  let len := zlen chunk in
  if reserved <? len then Err BufferTooShort
  else
    let f := (reserved =? len) && fin in
    Ok (reserved - len,
        mkSend (sb_data s ++ [rb_from chunk (sb_off s) f]) (sb_pos s) (sb_off s + len)
               (sb_emit_off s) (sb_buffered s + len) (sb_max_data s) (sb_blocked s)
               (sb_fin_off s) (sb_shut s) (sb_acked s) (sb_error s)).

(** slice::chunks; [fuel] bounds the number of chunks. *)
Fixpoint chunks (fuel : nat) (n : Z) (l : list Z) : list (list Z) :=
  match fuel, l with
  | S fuel, _ :: _ => take n l :: chunks fuel n (drop n l)
  | _, _ => []
  end.

Fixpoint append_all (cs : list (list Z)) (reserved : Z) (fin : bool) (s : sendbuf)
  : res error (Z * sendbuf) :=
  match cs with
  | [] => Ok (reserved, s)
  | c :: cs => let* '(reserved, s) := sb_append c reserved fin s in append_all cs reserved fin s
  end.

(** write (send_buf.rs:189-211); the [Drop] assertion of SendReserve
    (send_buf.rs:75-79) is the [Panic]. *)
Definition sb_write (data : list Z) (fin : bool) (s : sendbuf) : res error (Z * sendbuf) :=
  let* '(reserved, fin, s) := sb_reserve (zlen data) fin s in
  if reserved =? 0 then Ok (0, s)
  else
    let d := take reserved data in
    let* '(rest, s) := append_all (chunks (length d) SEND_BUFFER_SIZE d) reserved fin s in
    if rest =? 0 then Ok (reserved, s) else Panic.

(** append_buf (send_buf.rs:213-238), the zero-copy write: the whole accepted
    part becomes one buffer.  The remainder handed back is [drop n data]. *)
Definition sb_write_zc (data : list Z) (cap : Z) (fin : bool) (s : sendbuf)
  : res error (Z * sendbuf) :=
  let* '(reserved, fin, s) := sb_reserve (Z.min cap (zlen data)) fin s in
  if reserved =? 0 then Ok (0, s)
  else
    let* '(rest, s) := sb_append (take reserved data) reserved fin s in
    if rest =? 0 then Ok (reserved, s) else Panic.

(** The loop of emit (send_buf.rs:247-289) over the buffers from [pos] on:
    buffers afterwards, how far [pos] moved, bytes copied, next_off, and the
    new buffered count.  [written] is how many bytes were copied already; the
    copy goes to [next_off - out_off], so a mismatch would put bytes in the
    wrong place: it is a [Panic] here and proved impossible. *)
Fixpoint emit_bufs (cap next out_off written soff max_data buffered : Z) (post : list rangebuf)
  : res error (list rangebuf * nat * list Z * Z * Z) :=
  match post with
  | [] => Ok ([], O, [], next, buffered)
  | b :: tl =>
      let ff := front_of post soff in
      if (cap <=? 0) || (soff <=? ff) || negb (ff =? next) || (max_data <=? ff)
      then Ok (post, O, [], next, buffered)
      else if rb_is_empty b then
        let* '(p, k, out, next, buffered) :=
          emit_bufs cap next out_off written soff max_data buffered tl in
        Ok (b :: p, S k, out, next, buffered)
      else if negb (next - out_off =? written) then Panic
      else
        let n := Z.min (rbL b) cap in
        if buffered <? n then Panic
        else
          let out := take n (rb_bytes b) in
          let next := rbO b + n in
          if n <? rbL b then Ok (rb_consume n b :: tl, O, out, next, buffered - n)
          else
            let* '(p, k, out', next, buffered) :=
              emit_bufs (cap - n) next out_off (written + n) soff max_data (buffered - n) tl in
            Ok (rb_consume n b :: p, S k, out ++ out', next, buffered)
  end.

(** emit (send_buf.rs:240-305): bytes and the fin flag. *)
Definition sb_emit (cap : Z) (s : sendbuf) : res error (list Z * bool * sendbuf) :=
  let out_off := sb_off_front s in
  let* '(post, k, out, next, buffered) :=
    emit_bufs cap out_off out_off 0 (sb_off s) (sb_max_data s) (sb_buffered s)
              (skipn (sb_pos s) (sb_data s)) in
  let fin := match sb_fin_off s with Some f => f =? next | None => false end in
  Ok (out, fin,
      mkSend (firstn (sb_pos s) (sb_data s) ++ post) (sb_pos s + k) (sb_off s)
             (Z.max (sb_emit_off s) next) buffered (sb_max_data s) (sb_blocked s)
             (sb_fin_off s) (sb_shut s) (sb_acked s) (sb_error s)).

(** update_max_data (send_buf.rs:307-310) *)
Definition sb_update_max_data (m : Z) (s : sendbuf) : sendbuf :=
  mkSend (sb_data s) (sb_pos s) (sb_off s) (sb_emit_off s) (sb_buffered s)
         (Z.max (sb_max_data s) m) (sb_blocked s) (sb_fin_off s) (sb_shut s) (sb_acked s)
         (sb_error s).

(** update_blocked_at (send_buf.rs:312-315) *)
Definition sb_update_blocked (b : option Z) (s : sendbuf) : sendbuf :=
  mkSend (sb_data s) (sb_pos s) (sb_off s) (sb_emit_off s) (sb_buffered s) (sb_max_data s)
         b (sb_fin_off s) (sb_shut s) (sb_acked s) (sb_error s).

(** ack (send_buf.rs:322-325) *)
Definition sb_ack (off len : Z) (s : sendbuf) : res error sendbuf :=
  match rs_insert (off, off + len) (sb_acked s) with
  | Ok a => Ok (mkSend (sb_data s) (sb_pos s) (sb_off s) (sb_emit_off s) (sb_buffered s)
                       (sb_max_data s) (sb_blocked s) (sb_fin_off s) (sb_shut s) a (sb_error s))
  | _ => Panic
  end.

(** How many leading buffers ack_and_drop drops (send_buf.rs:340-358). *)
Fixpoint drop_count (ack_off : Z) (data : list rangebuf) : nat :=
  match data with
  | [] => O
  | b :: tl =>
      if ack_off <=? rb_off b then O
      else if (rb_off b <? ack_off) && (ack_off <? rbM b) then O
      else S (drop_count ack_off tl)
  end.

Definition sum_len (l : list rangebuf) : Z := fold_right (fun b n => rbL b + n) 0 l.

(** ack_and_drop (send_buf.rs:327-378) *)
Definition sb_ack_and_drop (off len : Z) (s : sendbuf) : res error (Z * sendbuf) :=
  let* s := sb_ack off len s in
  let ack_off := sb_ack_off s in
  if sb_is_empty s then Ok (0, s)
  else if ack_off <? off then Ok (0, s)
  else
    match drop_count ack_off (sb_data s) with
    | O => Ok (0, s)
    | k =>
        let dropped := sum_len (firstn k (sb_data s)) in
        Ok (dropped,
            mkSend (skipn k (sb_data s)) (sb_pos s - k) (sb_off s) (sb_emit_off s)
                   (sat_sub (sb_buffered s) dropped) (sb_max_data s) (sb_blocked s)
                   (sb_fin_off s) (sb_shut s) (sb_acked s) (sb_error s))
    end.

(** The loop of retransmit (send_buf.rs:394-432) from index [i] on: buffers
    afterwards, position, bytes marked.  After a split the next buffer starts
    at [max_off], so the loop ends there. *)
Fixpoint retr_bufs (off max_off : Z) (i pos : nat) (l : list rangebuf)
  : res error (list rangebuf * nat * Z) :=
  match l with
  | [] => Ok ([], pos, 0)
  | b :: tl =>
      if max_off <=? rb_off b then Ok (l, pos, 0)
      else if rbM b <? off then
        let* '(l, pos, n) := retr_bufs off max_off (S i) pos tl in Ok (b :: l, pos, n)
      else
        let* '(b, hi) :=
          if (rb_off b <? max_off) && (max_off <? rbM b)
          then let* '(lo, hi) := rb_split_off (max_off - rb_off b) b in Ok (lo, Some hi)
          else Ok (b, None) in
        let new_pos :=
          if (rb_off b <? off) && (off <=? rbM b)
          then Z.min (rb_pos b) (rb_start b + (off - rb_off b)) else rb_start b in
        let marked := rb_pos b - new_pos in
        let b := mkRB (rb_data b) (rb_start b) new_pos (rb_len b) (rb_off b) (rb_fin b) in
        let pos := Nat.min pos i in
        match hi with
        | Some hi => Ok (b :: hi :: tl, pos, marked)
        | None =>
            let* '(l, pos, n) := retr_bufs off max_off (S i) pos tl in
            Ok (b :: l, pos, marked + n)
        end
  end.

(** retransmit (send_buf.rs:380-435) *)
Definition sb_retransmit (off len : Z) (s : sendbuf) : res error (Z * sendbuf) :=
  let max_off := off + len in
  if sb_is_empty s then Ok (0, s)
  else if max_off <=? sb_ack_off s then Ok (0, s)
  else
    let* '(data, pos, n) := retr_bufs off max_off O (sb_pos s) (sb_data s) in
    Ok (n, mkSend data pos (sb_off s) (sb_emit_off s) (sb_buffered s + n) (sb_max_data s)
                  (sb_blocked s) (sb_fin_off s) (sb_shut s) (sb_acked s) (sb_error s)).

(** reset (send_buf.rs:437-455): (final size, unsent length). *)
Definition sb_reset (s : sendbuf) : res error (Z * Z * sendbuf) :=
  let unsent_off := Z.max (sb_off_front s) (sb_emit_off s) in
  let unsent_len := sat_sub (sb_off s) unsent_off in
  let s := mkSend [] (sb_pos s) unsent_off (sb_emit_off s) (sb_buffered s) (sb_max_data s)
                  (sb_blocked s) (Some unsent_off) (sb_shut s) (sb_acked s) (sb_error s) in
  let* s := sb_ack 0 (sb_off s) s in
  Ok (sb_emit_off s, unsent_len,
      mkSend (sb_data s) O (sb_off s) (sb_emit_off s) 0 (sb_max_data s) (sb_blocked s)
             (sb_fin_off s) (sb_shut s) (sb_acked s) (sb_error s)).

(** stop (send_buf.rs:457-470) *)
Definition sb_stop (code : Z) (s : sendbuf) : res error (Z * Z * sendbuf) :=
  match sb_error s with
  | Some _ => Err Done
  | None =>
      let* '(f, u, s) := sb_reset s in
      Ok (f, u, mkSend (sb_data s) (sb_pos s) (sb_off s) (sb_emit_off s) (sb_buffered s)
                       (sb_max_data s) (sb_blocked s) (sb_fin_off s) (sb_shut s) (sb_acked s)
                       (Some code))
  end.

(** shutdown (send_buf.rs:472-481) *)
Definition sb_shutdown (s : sendbuf) : res error (Z * Z * sendbuf) :=
  if sb_shut s then Err Done
  else
    sb_reset (mkSend (sb_data s) (sb_pos s) (sb_off s) (sb_emit_off s) (sb_buffered s)
                     (sb_max_data s) (sb_blocked s) (sb_fin_off s) true (sb_acked s)
                     (sb_error s)).

(** ** One send stream as lib.rs drives it *)

(** is_flushable (stream/mod.rs:841-849) *)
Definition sb_is_flushable (s : sendbuf) : bool :=
  let ff := sb_off_front s in
  negb (sb_is_empty s) && (ff <? sb_off s) && (ff <? sb_max_data s).

(** A STREAM frame put in a packet (lib.rs:5194-5254). *)
Record sframe : Type := mkFrame { sf_off : Z; sf_bytes : list Z; sf_fin : bool }.

(** The stream: its buffer, whether its id is in the flushable queue, the
    STREAM frames sent so far (the [frames] of sent packets kept by recovery),
    each with whether it was acknowledged and whether it was declared lost, and
    whether the stream was collected (removed from the stream map). *)
Record sendst : Type := mkSS {
  ss_buf : sendbuf;
  ss_flush : bool;
  ss_sent : list (sframe * bool * bool);
  ss_gone : bool }.

Definition sn_new (max_data : Z) : sendst := mkSS (sb_new max_data) false [] false.

Inductive sn_op : Type :=
| SnWrite (data : list Z) (cap : Z) (fin : bool)     (* stream_send, [cap] = tx_cap *)
| SnWriteZc (data : list Z) (cap : Z) (fin : bool)   (* stream_send_zc *)
| SnEmit (max_len : Z)           (* the stream's turn, with room for the header *)
| SnNoRoom                       (* the stream's turn, without room for the header *)
| SnAck (i : nat)                (* the i-th STREAM frame sent is acknowledged *)
| SnLost (i : nat)               (* ... is declared lost, or picked for a PTO probe *)
| SnMaxData (m : Z)              (* MAX_STREAM_DATA received *)
| SnStop (code : Z)              (* STOP_SENDING received *)
| SnShutdown                     (* stream_shutdown(Shutdown::Write) *)
| SnCollect.                     (* the stream is collected if its send side is complete *)

Inductive sn_out : Type :=
| SoWrite (r : res error Z)
| SoFrame (f : option sframe)
| SoReset (final : option (Z * Z))  (* RESET_STREAM queued: final size, unsent *)
| SoNone.

(** stream_do_send (lib.rs:5956-6165) for an existing stream (a collected one
    is Err(Done), stream/mod.rs:199-203); connection-level accounting is in
    ConnSendModel. *)
Definition sn_write (zc : bool) (data : list Z) (cap : Z) (fin : bool) (st : sendst)
  : res error (sn_out * sendst) :=
  let s := ss_buf st in
  let len := zlen data in
  let was_flushable := sb_is_flushable s in
  if ss_gone st then Ok (SoWrite (Err Done), st)
  else
    match sb_error s with
    | Some e => Ok (SoWrite (Err (StreamStopped e)), st)
    | None =>
        if (cap =? 0) && (0 <? len) then Ok (SoWrite (Err Done), st)
        else
          let '(cap, fin) := if cap <? len then (cap, false) else (len, fin) in
          match (if zc then sb_write_zc data cap fin s else sb_write (take cap data) fin s) with
          | Panic => Panic
          | Err e => Ok (SoWrite (Err e), st)
          | Ok (sent, s) =>
              let empty_fin := (len =? 0) && fin in
              let s := if sent <? cap
                       then sb_update_blocked (Some (sb_max_data s)) s
                       else sb_update_blocked None s in
              let flush := ss_flush st ||
                ((sb_is_flushable s || empty_fin) && negb was_flushable) in
              let r := if (sent =? 0) && (0 <? cap) then Err Done else Ok sent in
              Ok (SoWrite r, mkSS s flush (ss_sent st) false)
          end
    end.

(** The STREAM part of send_single (lib.rs:5181-5275) when this stream is at
    the front of the flushable queue. *)
Definition sn_emit (max_len : Z) (st : sendst) : res error (sn_out * sendst) :=
  if negb (ss_flush st) then Ok (SoFrame None, st)
  else if ss_gone st then Ok (SoFrame None, mkSS (ss_buf st) false (ss_sent st) true)
  else
    match sb_error (ss_buf st) with
    | Some _ => Ok (SoFrame None, mkSS (ss_buf st) false (ss_sent st) false)
    | None =>
        let off := sb_off_front (ss_buf st) in
        let* '(bytes, fin, s) := sb_emit max_len (ss_buf st) in
        let f := mkFrame off bytes fin in
        Ok (SoFrame (Some f),
            mkSS s (sb_is_flushable s) (ss_sent st ++ [(f, false, false)]) false)
    end.

Fixpoint set_nth {A} (n : nat) (x : A) (l : list A) : list A :=
  match l, n with
  | [], _ => []
  | _ :: tl, O => x :: tl
  | y :: tl, S n => y :: set_nth n x tl
  end.

(** ACK of a STREAM frame (lib.rs:3595-3663) *)
Definition sn_ack (i : nat) (st : sendst) : res error (sn_out * sendst) :=
  match nth_error (ss_sent st) i with
  | None => Ok (SoNone, st)
  | Some (f, _, lost) =>
      let sent := set_nth i (f, true, lost) (ss_sent st) in
      if ss_gone st then Ok (SoNone, mkSS (ss_buf st) (ss_flush st) sent true)
      else
        let* '(_, s) := sb_ack_and_drop (sf_off f) (zlen (sf_bytes f)) (ss_buf st) in
        Ok (SoNone, mkSS s (ss_flush st) sent false)
  end.

(** Loss of a STREAM frame (lib.rs:4144-4216) *)
Definition sn_lost (i : nat) (st : sendst) : res error (sn_out * sendst) :=
  match nth_error (ss_sent st) i with
  | None => Ok (SoNone, st)
  | Some (f, acked, _) =>
      let sent := set_nth i (f, acked, true) (ss_sent st) in
      if ss_gone st then Ok (SoNone, mkSS (ss_buf st) (ss_flush st) sent true)
      else
        match sb_error (ss_buf st) with
        | Some _ => Ok (SoNone, mkSS (ss_buf st) (ss_flush st) sent false)
        | None =>
            let was_flushable := sb_is_flushable (ss_buf st) in
            let empty_fin := (zlen (sf_bytes f) =? 0) && sf_fin f in
            let* '(_, s) := sb_retransmit (sf_off f) (zlen (sf_bytes f)) (ss_buf st) in
            let flush := ss_flush st ||
              ((sb_is_flushable s || empty_fin) && negb was_flushable) in
            Ok (SoNone, mkSS s flush sent false)
        end
  end.

(** MAX_STREAM_DATA (lib.rs:8605-8653) *)
Definition sn_max_data (m : Z) (st : sendst) : res error (sn_out * sendst) :=
  if ss_gone st then Ok (SoNone, st)
  else
    let was_flushable := sb_is_flushable (ss_buf st) in
    let s := sb_update_max_data m (ss_buf st) in
    Ok (SoNone, mkSS s (ss_flush st || (sb_is_flushable s && negb was_flushable))
                     (ss_sent st) false).

(** STOP_SENDING (lib.rs:8421-8510) *)
Definition sn_stop (code : Z) (st : sendst) : res error (sn_out * sendst) :=
  if ss_gone st then Ok (SoReset None, st)
  else
    match sb_stop code (ss_buf st) with
    | Ok (f, u, s) => Ok (SoReset (Some (f, u)), mkSS s (ss_flush st) (ss_sent st) false)
    | Err _ => Ok (SoReset None, st)
    | Panic => Panic
    end.

(** stream_shutdown(Shutdown::Write) (lib.rs:6259-6306): the stream stays in
    the flushable queue. *)
Definition sn_shutdown (st : sendst) : res error (sn_out * sendst) :=
  if ss_gone st then Ok (SoReset None, st)
  else
    match sb_shutdown (ss_buf st) with
    | Ok (f, u, s) => Ok (SoReset (Some (f, u)), mkSS s (ss_flush st) (ss_sent st) false)
    | Err _ => Ok (SoReset None, st)
    | Panic => Panic
    end.

(** collect (stream/mod.rs:587-609), called only for a complete stream
    (lib.rs:3650-3655, 3700-3712, 6021-6035, 5840-5850); leaves the queues. *)
Definition sn_collect (st : sendst) : res error (sn_out * sendst) :=
  let gone := ss_gone st || sb_is_complete (ss_buf st) in
  Ok (SoNone, mkSS (ss_buf st) (ss_flush st && negb gone) (ss_sent st) gone).

(** No room for the header (lib.rs:5210-5222): removed from the queue. *)
Definition sn_no_room (st : sendst) : res error (sn_out * sendst) :=
  Ok (SoNone, mkSS (ss_buf st) false (ss_sent st) (ss_gone st)).

Definition sn_step (op : sn_op) (st : sendst) : res error (sn_out * sendst) :=
  match op with
  | SnWrite data cap fin => sn_write false data cap fin st
  | SnWriteZc data cap fin => sn_write true data cap fin st
  | SnEmit n => sn_emit n st
  | SnNoRoom => sn_no_room st
  | SnAck i => sn_ack i st
  | SnLost i => sn_lost i st
  | SnMaxData m => sn_max_data m st
  | SnStop code => sn_stop code st
  | SnShutdown => sn_shutdown st
  | SnCollect => sn_collect st
  end.

Fixpoint sn_run (ops : list sn_op) (st : sendst) : res error (list sn_out * sendst) :=
  match ops with
  | [] => Ok ([], st)
  | op :: ops =>
      let* '(o, st) := sn_step op st in
      let* '(os, st) := sn_run ops st in
      Ok (o :: os, st)
  end.
