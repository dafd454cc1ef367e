(** octets/src/lib.rs: cursors over byte buffers and QUIC variable length
    integers.  [Octets] and [OctetsMut] have the same reading functions, so one
    cursor type models both; the Huffman functions are in HuffmanModel. *)
Require Import Verif.Base.

(** BufferTooShortError (octets/src/lib.rs:43-44). *)
Inductive oct_err : Type := TooShort.

(** Octets / OctetsMut (octets/src/lib.rs:132-135, 411-414). *)
Record oct : Type := mkOct { oc_buf : list Z; oc_off : Z }.

(** [&mut self] functions with [?]: an error keeps the cursor as it is then. *)
Definition om (A : Type) : Type := oct -> res oct_err A * oct.
Definition obind {A B} (m : om A) (k : A -> om B) : om B :=
  fun c => match m c with
           | (Ok a, c) => k a c
           | (Err e, c) => (Err e, c)
           | (Panic, c) => (Panic, c)
           end.
Definition oret {A} (a : A) : om A := fun c => (Ok a, c).
Definition ofail {A} : om A := fun c => (Err TooShort, c).
Definition opanic {A} : om A := fun c => (Panic, c).

Notation "'let+' x := m 'in' k" := (obind m (fun x => k))
  (at level 200, x name, m at level 100, k at level 200, right associativity).

(** Big endian integers: [to_be]/[from_be] with the copies of peek_u! and
    put_u! (octets/src/lib.rs:66-121), which keep the low [n] bytes. *)
Fixpoint be_enc (n : nat) (v : Z) : list Z :=
  match n with
  | O => []
  | S n => (v / 256 ^ Z.of_nat n) mod 256 :: be_enc n v
  end.
Definition be_dec (l : list Z) : Z := fold_left (fun a b => a * 256 + b) l 0.

Definition advance (n : Z) (c : oct) : oct := mkOct (oc_buf c) (oc_off c + n).

(** cap (octets/src/lib.rs:367-369): the subtraction panics past the end. *)
Definition o_cap : om Z :=
  fun c => if zlen (oc_buf c) <? oc_off c then (Panic, c) else (Ok (zlen (oc_buf c) - oc_off c), c).

(** peek_u! (octets/src/lib.rs:66-86); slicing past the end panics. *)
Definition peek_u (n : nat) : om Z :=
  fun c =>
    if zlen (oc_buf c) <? oc_off c then (Panic, c)
    else
      let src := drop (oc_off c) (oc_buf c) in
      if zlen src <? Z.of_nat n then (Err TooShort, c)
      else (Ok (be_dec (take (Z.of_nat n) src)), c).

(** get_u! (octets/src/lib.rs:88-96): the error path of peek_u! returns. *)
Definition get_u (n : nat) : om Z :=
  let+ v := peek_u n in fun c => (Ok v, advance (Z.of_nat n) c).

(** Overwriting the bytes at the cursor and advancing. *)
Definition put_list (bs : list Z) : om unit :=
  fun c =>
    let n := zlen bs in
    if zlen (oc_buf c) <? oc_off c + n then (Err TooShort, c)
    else (Ok tt, mkOct (take (oc_off c) (oc_buf c) ++ bs ++ drop (oc_off c + n) (oc_buf c))
                       (oc_off c + n)).

(** put_u! (octets/src/lib.rs:98-121) *)
Definition put_u (n : nat) (v : Z) : om unit := put_list (be_enc n v).

(** varint_len (octets/src/lib.rs:826-838); [None] is unreachable!(). *)
Definition varint_len_opt (v : Z) : option Z :=
  if v <=? 63 then Some 1
  else if v <=? 16383 then Some 2
  else if v <=? 1073741823 then Some 4
  else if v <=? max_varint then Some 8
  else None.
Definition varint_len (v : Z) : Z := match varint_len_opt v with Some n => n | None => 0 end.

(** varint_parse_len (octets/src/lib.rs:841-849) *)
Definition varint_parse_len (first : Z) : option Z :=
  match Z.shiftr first 6 with
  | 0 => Some 1
  | 1 => Some 2
  | 2 => Some 4
  | 3 => Some 8
  | _ => None
  end.

(** get_varint (octets/src/lib.rs:187-209) *)
Definition get_varint : om Z :=
  let+ first := peek_u 1 in
  match varint_parse_len first with
  | None => opanic
  | Some len =>
      let+ cap := o_cap in
      if cap <? len then ofail
      else if len =? 1 then get_u 1
      else if len =? 2 then let+ v := get_u 2 in oret (Z.land v 16383)
      else if len =? 4 then let+ v := get_u 4 in oret (Z.land v 1073741823)
      else let+ v := get_u 8 in oret (Z.land v 4611686018427387903)
  end.

(** [buf[0] |= m] *)
Definition or_first (m : Z) (l : list Z) : list Z :=
  match l with [] => [] | x :: l => Z.lor x m :: l end.

(** put_varint_with_len (octets/src/lib.rs:521-553); [v as u8] etc. keep the
    low bytes, as [be_enc] does. *)
Definition put_varint_with_len (v len : Z) : om unit :=
  let+ cap := o_cap in
  if cap <? len then ofail
  else if len =? 1 then put_u 1 v
  else if len =? 2 then put_list (or_first 64 (be_enc 2 v))
  else if len =? 4 then put_list (or_first 128 (be_enc 4 v))
  else if len =? 8 then put_list (or_first 192 (be_enc 8 v))
  else opanic.

(** put_varint (octets/src/lib.rs:515-517) *)
Definition put_varint (v : Z) : om unit :=
  match varint_len_opt v with
  | None => opanic
  | Some n => put_varint_with_len v n
  end.

(** get_bytes (octets/src/lib.rs:213-226): the bytes of the new cursor. *)
Definition get_bytes (len : Z) : om (list Z) :=
  let+ cap := o_cap in
  if cap <? len then ofail
  else fun c => (Ok (slice (oc_off c) (oc_off c + len) (oc_buf c)), advance len c).

(** get_bytes_with_{u8,u16,varint}_length (octets/src/lib.rs:230-250) *)
Definition get_bytes_with_u8_length : om (list Z) := let+ n := get_u 1 in get_bytes n.
Definition get_bytes_with_u16_length : om (list Z) := let+ n := get_u 2 in get_bytes n.
Definition get_bytes_with_varint_length : om (list Z) := let+ n := get_varint in get_bytes n.

(** peek_bytes (octets/src/lib.rs:312-323), slice (octets/src/lib.rs:337-343) *)
Definition peek_bytes (len : Z) : om (list Z) :=
  let+ cap := o_cap in
  if cap <? len then ofail
  else fun c => (Ok (slice (oc_off c) (oc_off c + len) (oc_buf c)), c).

(** rewind (octets/src/lib.rs:326-334) *)
Definition rewind (len : Z) : om unit :=
  fun c => if oc_off c <? len then (Err TooShort, c) else (Ok tt, advance (- len) c).

(** slice_last (octets/src/lib.rs:346-353) *)
Definition slice_last (len : Z) : om (list Z) :=
  let+ cap := o_cap in
  if cap <? len then ofail
  else fun c => (Ok (slice (zlen (oc_buf c) - len) (zlen (oc_buf c)) (oc_buf c)), c).

(** skip (octets/src/lib.rs:356-364) *)
Definition skip (n : Z) : om unit :=
  let+ cap := o_cap in if cap <? n then ofail else fun c => (Ok tt, advance n c).

(** put_bytes (octets/src/lib.rs:643-659) *)
Definition put_bytes (v : list Z) : om unit :=
  let+ cap := o_cap in
  if cap <? zlen v then ofail
  else if zlen v =? 0 then oret tt
  else put_list v.

(** ** Any sequence of calls *)
Inductive oc_op : Type :=
| OcGetU (n : nat) | OcPeekU8 | OcGetVarint | OcGetBytes (len : Z)
| OcGetBytesU8 | OcGetBytesU16 | OcGetBytesVarint
| OcPeekBytes (len : Z) | OcRewind (len : Z) | OcSliceLast (len : Z) | OcSkip (n : Z)
| OcPutU (n : nat) (v : Z) | OcPutVarint (v : Z) | OcPutVarintLen (v len : Z) | OcPutBytes (bs : list Z).

Inductive oc_val : Type := VInt (v : Z) | VBytes (bs : list Z) | VUnit.

Definition omap {A B} (f : A -> B) (m : om A) : om B := let+ a := m in oret (f a).

Definition oc_step (op : oc_op) : om oc_val :=
  match op with
  | OcGetU n => omap VInt (get_u n)
  | OcPeekU8 => omap VInt (peek_u 1)
  | OcGetVarint => omap VInt get_varint
  | OcGetBytes n => omap VBytes (get_bytes n)
  | OcGetBytesU8 => omap VBytes get_bytes_with_u8_length
  | OcGetBytesU16 => omap VBytes get_bytes_with_u16_length
  | OcGetBytesVarint => omap VBytes get_bytes_with_varint_length
  | OcPeekBytes n => omap VBytes (peek_bytes n)
  | OcRewind n => omap (fun _ => VUnit) (rewind n)
  | OcSliceLast n => omap VBytes (slice_last n)
  | OcSkip n => omap (fun _ => VUnit) (skip n)
  | OcPutU n v => omap (fun _ => VUnit) (put_u n v)
  | OcPutVarint v => omap (fun _ => VUnit) (put_varint v)
  | OcPutVarintLen v n => omap (fun _ => VUnit) (put_varint_with_len v n)
  | OcPutBytes bs => omap (fun _ => VUnit) (put_bytes bs)
  end.

(** Outcomes of the calls and the final cursor; a panic ends the run. *)
Fixpoint oc_run (ops : list oc_op) (c : oct) : option (list (res oct_err oc_val) * oct) :=
  match ops with
  | [] => Some ([], c)
  | op :: ops =>
      match oc_step op c with
      | (Panic, _) => None
      | (r, c) => match oc_run ops c with Some (rs, c) => Some (r :: rs, c) | None => None end
      end
  end.

(** ** Readers and writers as the codecs use them

    The decoders of frames, headers and parameters only read forward and only
    see the bytes after the cursor, so they are modelled on the remaining bytes;
    [None] is BufferTooShort.  OctetsProofs proves that these agree with the
    cursor functions above. *)
Definition rd_u (n : nat) (b : list Z) : option (Z * list Z) :=
  if zlen b <? Z.of_nat n then None
  else Some (be_dec (take (Z.of_nat n) b), drop (Z.of_nat n) b).

Definition rd_bytes (len : Z) (b : list Z) : option (list Z * list Z) :=
  if zlen b <? len then None else Some (take len b, drop len b).

Definition rd_varint (b : list Z) : option (Z * list Z) :=
  match b with
  | [] => None
  | first :: _ =>
      match varint_parse_len first with
      | None => None
      | Some len =>
          if len =? 1 then rd_u 1 b
          else if len =? 2 then
            match rd_u 2 b with Some (v, b) => Some (Z.land v 16383, b) | None => None end
          else if len =? 4 then
            match rd_u 4 b with Some (v, b) => Some (Z.land v 1073741823, b) | None => None end
          else
            match rd_u 8 b with Some (v, b) => Some (Z.land v 4611686018427387903, b) | None => None end
      end
  end.

(** Writers: the bytes written so far and the room left. *)
Definition wr_varint_bytes (v : Z) : list Z :=
  if v <=? 63 then be_enc 1 v
  else if v <=? 16383 then or_first 64 (be_enc 2 v)
  else if v <=? 1073741823 then or_first 128 (be_enc 4 v)
  else or_first 192 (be_enc 8 v).
