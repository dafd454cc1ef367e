(** What a buffer with room at its front is: a number of bytes of room, and the
    readable bytes. *)
Require Import Verif.Base Verif.BufModel.

Record view : Type := mkView { vw_room : Z; vw_bytes : list Z }.

(** What each operation of a DgramBuffer is to do; [None]: it panics. *)
Definition db_does (op : db_op) (w : view) : option (bool * view) :=
  let '(mkView r l) := w in
  match op with
  | DbTruncate n => Some (true, mkView r (take n l))
  | DbAdvance n => if n <=? zlen l then Some (true, mkView (r + n) (drop n l)) else None
  | DbPrefix p => if zlen p <=? r then Some (true, mkView (r - zlen p) (p ++ l)) else Some (false, w)
  | DbSplice n => Some (true, mkView (Z.max r n) l)
  | DbClear => Some (true, mkView 0 [])
  | DbPut s => Some (true, mkView r (l ++ s))
  | DbWrite off s =>
      if (0 <=? off) && (off + zlen s <=? zlen l) then Some (true, mkView r (take off l ++ s ++ drop (off + zlen s) l)) else None
  end.
Definition db_op_ok (op : db_op) : Prop :=
  match op with DbTruncate n | DbAdvance n | DbSplice n => 0 <= n | _ => True end.
(** The sums the operation makes are representable. *)
Definition db_small (op : db_op) (w : view) : Prop :=
  match op with DbTruncate n | DbAdvance n => vw_room w + n <= u64_max | _ => True end.

(** The same for a ConsumeBuffer; [expand] is to make the buffer [n] bytes long,
    counting the room, and keeps what was there. *)
Definition cb_does (op : cb_op) (w : view) (o : option (bool * view)) : Prop :=
  let '(mkView r l) := w in
  match op with
  | CbPop n => o = if n <=? zlen l then Some (true, mkView (r + n) (drop n l)) else None
  | CbExpand n => exists rest, o = Some (true, mkView r (take (n - r) l ++ rest)) /\ zlen (take (n - r) l ++ rest) = n - r
  | CbTruncate n => o = Some (true, mkView r (take n l))
  | CbPrefix p => o = if zlen p <=? r then Some (true, mkView (r - zlen p) (p ++ l)) else Some (false, w)
  | CbExtend s => o = Some (true, mkView r (l ++ s))
  | CbWrite off s =>
      o = if (0 <=? off) && (off + zlen s <=? zlen l) then Some (true, mkView r (take off l ++ s ++ drop (off + zlen s) l)) else None
  end.
Definition cb_op_ok (op : cb_op) : Prop :=
  match op with CbPop n | CbTruncate n | CbExpand n => 0 <= n | _ => True end.
Definition cb_small (op : cb_op) (w : view) : Prop :=
  match op with
  | CbPop n | CbTruncate n => vw_room w + n <= u64_max
  | CbExpand n => vw_room w <= n   (* the room must fit in the new length *)
  | _ => True
  end.

(** What a buffer shows. *)
Definition db_shows (b : dbuf) (w : view) : Prop := db_start b = vw_room w /\ db_read b = Ok (vw_bytes w).
Definition cb_shows (b : cbuf) (w : view) : Prop := cb_head b = vw_room w /\ cb_read b = Ok (vw_bytes w).

(** A buffer as the constructors make them and the operations keep them. *)
Inductive db_made : dbuf -> Prop :=
| dm_new : db_made db_new
| dm_slice l : db_made (db_from_slice l)
| dm_room c h b : 0 <= h -> db_with_headroom c h = Ok b -> db_made b
| dm_vec l h b : 0 <= h -> db_from_vec l h = Ok b -> db_made b
| dm_step b op o b' : db_made b -> db_op_ok op -> db_step op b = Ok (o, b') -> db_made b'.

(** ... and for a ConsumeBuffer, with [expand] never below its room. *)
Inductive cb_made : cbuf -> Prop :=
| cm_default : cb_made cb_default
| cm_vec l : cb_made (cb_from_vec l)
| cm_reuse t b : cb_made b -> 0 <= t -> cb_made (snd (cb_reuse t b))
| cm_step b op o b' : cb_made b -> cb_op_ok op -> (forall n, op = CbExpand n -> cb_head b <= n) ->
    cb_step op b = Ok (o, b') -> cb_made b'.
