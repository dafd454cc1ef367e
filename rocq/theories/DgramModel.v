(** quiche/src/dgram.rs and the datagram functions of quiche/src/lib.rs. *)
Require Import Verif.Base Verif.Errors.

(** DatagramQueue (dgram.rs:35-39); a datagram is its bytes. *)
Record dgq : Type := mkDgq { dq_queue : list (list Z); dq_max : Z; dq_bytes : Z }.

(** new (dgram.rs:42-48) *)
Definition dq_new (max_len : Z) : dgq := mkDgq [] max_len 0.

(** len, is_full, is_empty, has_pending, byte_size (dgram.rs:87-117) *)
Definition dq_len (q : dgq) : Z := zlen (dq_queue q).
Definition dq_is_full (q : dgq) : bool := dq_len q =? dq_max q.
Definition dq_is_empty (q : dgq) : bool := dq_len q =? 0.

(** push (dgram.rs:50-59) *)
Definition dq_push (d : list Z) (q : dgq) : res error unit * dgq :=
  if dq_is_full q then (Err Done, q)
  else (Ok tt, mkDgq (dq_queue q ++ [d]) (dq_max q) (dq_bytes q + zlen d)).

(** peek_front_len (dgram.rs:61-63) *)
Definition dq_peek_len (q : dgq) : option Z :=
  match dq_queue q with [] => None | d :: _ => Some (zlen d) end.

(** peek_front_bytes (dgram.rs:65-79); [buf] is the caller's buffer, which is
    returned with the copied bytes. *)
Definition dq_peek_bytes (buf : list Z) (len : Z) (q : dgq) : res error Z * list Z :=
  match dq_queue q with
  | d :: _ =>
      let n := Z.min len (zlen d) in
      if zlen buf <? n then (Err BufferTooShort, buf)
      else (Ok n, take n d ++ drop n buf)
  | [] => (Err Done, buf)
  end.

(** pop (dgram.rs:81-89) *)
Definition dq_pop (q : dgq) : option (list Z) * dgq :=
  match dq_queue q with
  | d :: tl => (Some d, mkDgq tl (dq_max q) (sat_sub (dq_bytes q) (zlen d)))
  | [] => (None, q)
  end.

(** purge (dgram.rs:95-101) *)
Definition dq_purge (f : list Z -> bool) (q : dgq) : dgq :=
  let l := filter (fun d => negb (f d)) (dq_queue q) in
  mkDgq l (dq_max q) (fold_left (fun total d => total + zlen d) l 0).

(** dgram_send / dgram_send_buf (lib.rs:6905-6932); [max] is the result of
    dgram_max_writable_len.  The congestion controller hint is left out. *)
Definition dgram_send (max : option Z) (d : list Z) (q : dgq) : res error unit * dgq :=
  match max with
  | None => (Err InvalidState, q)
  | Some m => if m <? zlen d then (Err BufferTooShort, q) else dq_push d q
  end.

(** dgram_recv (lib.rs:6782-6796) *)
Definition dgram_recv (buf : list Z) (q : dgq) : res error Z * list Z * dgq :=
  match dq_pop q with
  | (Some d, q) =>
      if zlen buf <? zlen d then (Err BufferTooShort, buf, q)
      else (Ok (zlen d), d ++ drop (zlen d) buf, q)
  | (None, q) => (Err Done, buf, q)
  end.

(** The Datagram arm of process_frame (lib.rs:8818-8837). *)
Definition dgram_recv_frame (enabled : bool) (d : list Z) (q : dgq) : res error unit * dgq :=
  if negb enabled then (Err InvalidState, q)
  else
    let q := if dq_is_full q then snd (dq_pop q) else q in
    dq_push d q.

(** The datagram loop of send_single (lib.rs:5098-5170): [room] is the room in
    the packet and [max] dgram_max_writable_len.  The result lists the frames
    written.  The loop pops an element on every turn that goes on. *)
Fixpoint dgram_emit_loop (l : list (list Z)) (bytes room max : Z)
  : list (list Z) * list (list Z) * Z * Z :=
  match l with
  | [] => ([], [], bytes, room)
  | d :: tl =>
      let len := zlen d in
      if 3 + len <=? room then
        let '(out, l, bytes, room) := dgram_emit_loop tl (sat_sub bytes len) (room - (3 + len)) max in
        (d :: out, l, bytes, room)
      else if max <? len then dgram_emit_loop tl (sat_sub bytes len) room max
      else ([], l, bytes, room)
  end.

(** The condition and the loop (lib.rs:5091-5172): MAX_DGRAM_OVERHEAD is 2
    (frame.rs:46); [max_dgram_len] was computed before, lib.rs:4121-4125. *)
Definition dgram_emit (room : Z) (max : option Z) (q : dgq) : list (list Z) * dgq :=
  match (if dq_is_empty q then None else max) with
  | Some max =>
      if 2 <? room then
        let '(out, l, bytes, _) := dgram_emit_loop (dq_queue q) (dq_bytes q) room max in
        (out, mkDgq l (dq_max q) bytes)
      else ([], q)
  | None => ([], q)
  end.

(** ** Any history of calls on a queue *)
Inductive dg_op : Type :=
| DgPush (d : list Z)
| DgPop
| DgPeekLen
| DgPeekBytes (buf : list Z) (len : Z)
| DgPurge (f : list Z -> bool)
| DgSend (max : option Z) (d : list Z)
| DgRecv (buf : list Z)
| DgFrame (d : list Z)
| DgEmit (room : Z) (max : option Z).

Inductive dg_out : Type :=
| OUnit (r : res error unit)
| OPop (d : option (list Z))
| OLen (n : option Z)
| OCopy (r : res error Z) (buf : list Z)
| OSent (l : list (list Z)).

Definition dg_step (op : dg_op) (q : dgq) : dg_out * dgq :=
  match op with
  | DgPush d => let '(r, q) := dq_push d q in (OUnit r, q)
  | DgPop => let '(r, q) := dq_pop q in (OPop r, q)
  | DgPeekLen => (OLen (dq_peek_len q), q)
  | DgPeekBytes buf len => let '(r, b) := dq_peek_bytes buf len q in (OCopy r b, q)
  | DgPurge f => (OUnit (Ok tt), dq_purge f q)
  | DgSend max d => let '(r, q) := dgram_send max d q in (OUnit r, q)
  | DgRecv buf => let '(r, b, q) := dgram_recv buf q in (OCopy r b, q)
  | DgFrame d => let '(r, q) := dgram_recv_frame true d q in (OUnit r, q)
  | DgEmit room max => let '(l, q) := dgram_emit room max q in (OSent l, q)
  end.

Fixpoint dg_run (ops : list dg_op) (q : dgq) : list dg_out * dgq :=
  match ops with
  | [] => ([], q)
  | op :: ops => let '(o, q) := dg_step op q in let '(os, q) := dg_run ops q in (o :: os, q)
  end.
