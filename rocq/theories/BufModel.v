(** Byte buffers of the crates around the transport: ConsumeBuffer
    (buffer-pool/src/buffer.rs) and DgramBuffer (datagram-socket/src/buffer.rs).

    A [Vec<u8>] is its memory, as long as its capacity, and its length.  What
    the memory holds beyond the length is part of the model, because
    [set_len] makes it readable.  Simplified: memory newly allocated holds
    zeros (it holds anything), and a vector that grows gets exactly the capacity
    it needs (it may get more).  A sum of [usize] that overflows is a [Panic]
    (with overflow checks off it wraps instead).  The metrics are not
    modelled. *)
Require Import Verif.Base.

Record rvec : Type := mkV { v_mem : list Z; v_len : Z }.
Definition v_empty : rvec := mkV [] 0.
Definition v_cap (v : rvec) : Z := zlen (v_mem v).
Definition v_bytes (v : rvec) : list Z := take (v_len v) (v_mem v).
Definition v_of (l : list Z) : rvec := mkV l (zlen l).
Definition zeros (n : Z) : list Z := repeat 0 (Z.to_nat n).

Definition v_clear (v : rvec) : rvec := mkV (v_mem v) 0.
Definition v_shrink_to (t : Z) (v : rvec) : rvec := mkV (take (Z.max (v_len v) t) (v_mem v)) (v_len v).
Definition v_truncate (n : Z) (v : rvec) : rvec := if n <? v_len v then mkV (v_mem v) n else v.
Definition v_extend (l : list Z) (v : rvec) : rvec :=
  mkV (v_bytes v ++ l ++ drop (v_len v + zlen l) (v_mem v)) (v_len v + zlen l).
Definition v_reserve_exact (n : Z) (v : rvec) : rvec :=
  mkV (v_mem v ++ zeros (v_len v + n - v_cap v)) (v_len v).
Definition v_set_len (n : Z) (v : rvec) : rvec := mkV (v_mem v) n.
(** [v[off..off + l.len()].copy_from_slice(l)] *)
Definition v_write (off : Z) (l : list Z) (v : rvec) : rvec :=
  mkV (take off (v_mem v) ++ l ++ drop (off + zlen l) (v_mem v)) (v_len v).

(** ** ConsumeBuffer *)

(** ConsumeBuffer (buffer.rs:41-44) *)
Record cbuf : Type := mkCb { cb_inner : rvec; cb_head : Z }.
Definition cb_default : cbuf := mkCb v_empty 0.

(** deref (buffer.rs:49-51): the readable bytes *)
Definition cb_read (b : cbuf) : res unit (list Z) :=
  if v_len (cb_inner b) <? cb_head b then Panic else Ok (drop (cb_head b) (v_bytes (cb_inner b))).

(** reuse (buffer.rs:61-68) *)
Definition cb_reuse (trim : Z) (b : cbuf) : bool * cbuf :=
  let v := v_shrink_to trim (v_clear (cb_inner b)) in
  (0 <? v_cap v, mkCb v 0).

(** from_vec (buffer.rs:82-85) *)
Definition cb_from_vec (l : list Z) : cbuf := mkCb (v_of l) 0.
(** into_vec (buffer.rs:87-96); [drain(0..head)] panics past the end *)
Definition cb_into_vec (b : cbuf) : res unit (list Z) :=
  if v_len (cb_inner b) <? cb_head b then Panic else Ok (drop (cb_head b) (v_bytes (cb_inner b))).

Inductive cb_op : Type :=
| CbPop (n : Z)             (* pop_front *)
| CbExpand (n : Z)          (* expand *)
| CbTruncate (n : Z)        (* truncate *)
| CbPrefix (p : list Z)     (* add_prefix *)
| CbExtend (l : list Z)     (* extend *)
| CbWrite (off : Z) (l : list Z).  (* a write through deref_mut *)

(** Each method (buffer.rs:54-58, 98-124, 138-145), with what it returns
    ([true] where it returns nothing) *)
Definition cb_step (op : cb_op) (b : cbuf) : res unit (bool * cbuf) :=
  let v := cb_inner b in
  let h := cb_head b in
  match op with
  | CbPop n =>
      if (u64_max <? h + n) || (v_len v <? h + n) then Panic else Ok (true, mkCb v (h + n))
  | CbExpand n => Ok (true, mkCb (v_set_len n (v_reserve_exact n v)) h)
  | CbTruncate n => if u64_max <? h + n then Panic else Ok (true, mkCb (v_truncate (h + n) v) h)
  | CbPrefix p =>
      if h <? zlen p then Ok (false, b)
      else if v_len v <? h then Panic
      else Ok (true, mkCb (v_write (h - zlen p) p v) (h - zlen p))
  | CbExtend l => Ok (true, mkCb (v_extend l v) h)
  | CbWrite off l =>
      if (v_len v <? h) || (v_len v - h <? off + zlen l) || (off <? 0) then Panic
      else Ok (true, mkCb (v_write (h + off) l v) h)
  end.

(** ** DgramBuffer *)

(** DgramBuffer (buffer.rs:34-37) *)
Record dbuf : Type := mkDb { db_data : rvec; db_start : Z }.

(** new, from_slice, with_capacity_and_headroom, from_vec_with_headroom
    (buffer.rs:41-88); with_capacity is the case without headroom *)
Definition db_new : dbuf := mkDb v_empty 0.
Definition db_from_slice (l : list Z) : dbuf := mkDb (v_of l) 0.
Definition db_with_headroom (capacity headroom : Z) : res unit dbuf :=
  if capacity <? headroom then Panic else Ok (mkDb (mkV (zeros capacity) headroom) headroom).
Definition db_from_vec (l : list Z) (headroom : Z) : res unit dbuf :=
  if zlen l <? headroom then Panic else Ok (mkDb (v_of l) headroom).

(** len, as_slice (buffer.rs:140-152) *)
Definition db_len (b : dbuf) : res unit Z :=
  if v_len (db_data b) <? db_start b then Panic else Ok (v_len (db_data b) - db_start b).
Definition db_read (b : dbuf) : res unit (list Z) :=
  if v_len (db_data b) <? db_start b then Panic else Ok (drop (db_start b) (v_bytes (db_data b))).

Inductive db_op : Type :=
| DbTruncate (n : Z)
| DbAdvance (n : Z)
| DbPrefix (p : list Z)     (* try_add_prefix *)
| DbSplice (n : Z)          (* splice_headroom *)
| DbClear
| DbPut (l : list Z)        (* put, put_slice, put_bytes *)
| DbWrite (off : Z) (l : list Z).  (* a write through as_mut_slice *)

(** Each method (buffer.rs:93-137, 154-157, 222-236), with whether it
    succeeded *)
Definition db_step (op : db_op) (b : dbuf) : res unit (bool * dbuf) :=
  let v := db_data b in
  let h := db_start b in
  match op with
  | DbTruncate n => if u64_max <? h + n then Panic else Ok (true, mkDb (v_truncate (h + n) v) h)
  | DbAdvance n =>
      if (u64_max <? h + n) || (v_len v <? h + n) then Panic else Ok (true, mkDb v (h + n))
  | DbPrefix p =>
      if h <? zlen p then Ok (false, b)
      else if v_len v <? h then Panic
      else Ok (true, mkDb (v_write (h - zlen p) p v) (h - zlen p))
  | DbSplice n =>
      if n <=? h then Ok (true, b)
      else if v_len v <? h then Panic
      else Ok (true, mkDb (v_of (zeros n ++ drop h (v_bytes v))) n)
  | DbClear => Ok (true, mkDb (v_clear v) 0)
  | DbPut l => Ok (true, mkDb (v_extend l v) h)
  | DbWrite off l =>
      if (v_len v <? h) || (v_len v - h <? off + zlen l) || (off <? 0) then Panic
      else Ok (true, mkDb (v_write (h + off) l v) h)
  end.

Fixpoint cb_run (ops : list cb_op) (b : cbuf) : res unit (list bool * cbuf) :=
  match ops with
  | [] => Ok ([], b)
  | op :: ops => let* '(o, b) := cb_step op b in let* '(os, b) := cb_run ops b in Ok (o :: os, b)
  end.
Fixpoint db_run (ops : list db_op) (b : dbuf) : res unit (list bool * dbuf) :=
  match ops with
  | [] => Ok ([], b)
  | op :: ops => let* '(o, b) := db_step op b in let* '(os, b) := db_run ops b in Ok (o :: os, b)
  end.
