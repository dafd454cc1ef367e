(** RFC 9000 section 16: variable length integers, stated without the code. *)
Require Import Verif.Base.

(** The value of a byte string read as a big endian integer. *)
Fixpoint be_value (l : list Z) : Z :=
  match l with [] => 0 | b :: tl => b * 256 ^ zlen tl + be_value tl end.

(** [l] encodes [v]: 2^k bytes whose two top bits are [k] and whose other bits
    are [v]. *)
Definition qvarint (l : list Z) (v : Z) : Prop :=
  bytes_ok l /\ exists k, 0 <= k <= 3 /\ zlen l = 2 ^ k /\ 0 <= v < 2 ^ (8 * 2 ^ k - 2) /\
    be_value l = k * 2 ^ (8 * 2 ^ k - 2) + v.

(** A cursor: a byte buffer and a position inside it. *)
Require Import Verif.OctetsModel.

Definition cursor_ok (c : oct) : Prop := 0 <= oc_off c <= zlen (oc_buf c) /\ bytes_ok (oc_buf c).

(** Arguments the callers may pass: sizes are unsigned, bytes are bytes, and
    variable length integers are below 2^62 with a length of 1, 2, 4 or 8. *)
Definition legal_op (op : oc_op) : Prop :=
  match op with
  | OcGetBytes n | OcPeekBytes n | OcRewind n | OcSliceLast n | OcSkip n => 0 <= n
  | OcPutVarint v => 0 <= v < 2 ^ 62
  | OcPutVarintLen v n => 0 <= v < 2 ^ 62 /\ In n [1; 2; 4; 8]
  | OcPutBytes bs => bytes_ok bs
  | _ => True
  end.

(** Calls that read a length first and then that many bytes. *)
Definition length_prefixed (op : oc_op) : bool :=
  match op with OcGetBytesU8 | OcGetBytesU16 | OcGetBytesVarint => true | _ => false end.

(** How many bytes after the cursor a call of fixed size needs. *)
Definition needs (op : oc_op) : option Z :=
  match op with
  | OcGetU n => Some (Z.of_nat n)
  | OcPeekU8 => Some 1
  | OcGetBytes n | OcPeekBytes n | OcSliceLast n | OcSkip n => Some n
  | OcPutU n _ => Some (Z.of_nat n)
  | OcPutVarintLen _ n => Some n
  | OcPutBytes bs => Some (zlen bs)
  | _ => None
  end.

(** The value a successful read returns, given the bytes after the cursor. *)
Definition reads (op : oc_op) (rest : list Z) : option oc_val :=
  match op with
  | OcGetU n => Some (VInt (be_value (take (Z.of_nat n) rest)))
  | OcPeekU8 => Some (VInt (be_value (take 1 rest)))
  | OcGetBytes n | OcPeekBytes n => Some (VBytes (take n rest))
  | OcSliceLast n => Some (VBytes (drop (zlen rest - n) rest))
  | _ => None
  end.

(** How far a successful call of fixed size moves the cursor. *)
Definition moves (op : oc_op) : Z :=
  match op with
  | OcGetU n | OcPutU n _ => Z.of_nat n
  | OcGetBytes n | OcSkip n | OcPutVarintLen _ n => n
  | OcPutBytes bs => zlen bs
  | _ => 0
  end.

(** The bytes a call writes, if it writes fixed bytes. *)
Definition is_write (op : oc_op) : bool :=
  match op with OcPutU _ _ | OcPutVarint _ | OcPutVarintLen _ _ | OcPutBytes _ => true | _ => false end.
