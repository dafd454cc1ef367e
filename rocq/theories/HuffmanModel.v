(** octets/src/lib.rs: the Huffman code of HPACK.  Bytes written to a cursor are
    represented by the room left and the list of bytes written so far; the bytes
    read are the list of bytes of the cursor. *)
Require Import Verif.Base Verif.OctetsModel Verif.HuffmanTables.

(** The writing side of a cursor *)
Record wr : Type := mkWr { wr_left : Z; wr_out : list Z }.
Definition put (bs : list Z) (w : wr) : res oct_err wr :=
  if wr_left w <? zlen bs then Err TooShort else Ok (mkWr (wr_left w - zlen bs) (wr_out w ++ bs)).

(** u8::to_ascii_lowercase *)
Definition lower (b : Z) : Z := if (65 <=? b) && (b <=? 90) then b + 32 else b.
Definition lower_if (lc : bool) (b : Z) : Z := if lc then lower b else b.

(** [<<] on u64: shifting by 64 or more panics, bits shifted out are lost *)
Definition shl64 (x n : Z) : res oct_err Z := if 64 <=? n then Panic else Ok (Z.shiftl x n mod 2 ^ 64).
Definition shr64 (x n : Z) : res oct_err Z := if 64 <=? n then Panic else Ok (Z.shiftr x n).

(** The loop over the input of put_huffman_encoded (octets/src/lib.rs:670-698) *)
Fixpoint huff_loop (lc : bool) (v : list Z) (bits pending : Z) (w : wr) : res oct_err (Z * Z * wr) :=
  match v with
  | [] => Ok (bits, pending, w)
  | b :: v =>
      match zget encode_table (lower_if lc b) with
      | None => Panic
      | Some (nbits, code) =>
          let pending := pending + nbits in
          if pending <? 64 then
            let* s := shl64 code (64 - pending) in
            huff_loop lc v (Z.lor bits s) pending w
          else
            let pending := pending - 64 in
            let* s := shr64 code pending in
            let* w := put (be_enc 8 (Z.lor bits s)) w in
            let* bits := if pending =? 0 then Ok 0 else shl64 code (64 - pending) in
            huff_loop lc v bits pending w
      end
  end.

(** The bytes left over (octets/src/lib.rs:714-718) *)
Fixpoint huff_tail (fuel : nat) (bits pending : Z) (w : wr) : res oct_err wr :=
  match fuel with
  | O => Panic
  | S fuel =>
      if 0 <? pending then
        let pending := pending - 8 in
        let* w := put (be_enc 1 (Z.shiftr bits pending)) w in
        huff_tail fuel bits pending w
      else Ok w
  end.

(** put_huffman_encoded (octets/src/lib.rs:665-721); [!7] is the mask of the upper
    bits, so [(pending + 7) & !7] is the next multiple of 8. *)
Definition put_huffman (lc : bool) (v : list Z) (w : wr) : res oct_err wr :=
  let* '(bits, pending, w) := huff_loop lc v 0 0 w in
  if pending =? 0 then Ok w
  else
    let* ones := shr64 (2 ^ 64 - 1) pending in
    let bits := Z.lor bits ones in
    let pending := (pending + 7) / 8 * 8 in
    let* bits := shr64 bits (64 - pending) in
    let* '(pending, w) :=
      if 32 <=? pending then
        let pending := pending - 32 in
        let* w := put (be_enc 4 (Z.shiftr bits pending)) w in
        Ok (pending, w)
      else Ok (pending, w) in
    huff_tail 9 bits pending w.

(** huffman_encoding_len (octets/src/lib.rs:855-883) *)
Definition huff_bits (lc : bool) (v : list Z) : res oct_err Z :=
  fold_left (fun acc b =>
    let* n := acc in
    match zget encode_table (lower_if lc b) with None => Panic | Some (nbits, _) => Ok (n + nbits) end) v (Ok 0).
Definition huff_len (lc : bool) (v : list Z) : res oct_err Z :=
  let* bits := huff_bits lc v in
  let len := bits / 8 in
  let len := if bits mod 8 =? 0 then len else len + 1 in
  if zlen v <? len then Err TooShort else Ok len.

(** One nibble of get_huffman_decoded_with_max_length (octets/src/lib.rs:282-301):
    the state, the end flag and the output so far *)
Record hd : Type := mkHd { hd_state : Z; hd_eos : bool; hd_out : list Z }.
Definition huff_nibble (max data : Z) (d : hd) : res oct_err hd :=
  match zget decode_table (hd_state d) with
  | None => Panic
  | Some row =>
      match zget row data with
      | None => Panic
      | Some (next, sym, flags) =>
          if Z.land flags 4 =? 4 then Err TooShort
          else
            let* out := if Z.land flags 2 =? 2
                        then (if max <? zlen (hd_out d) + 1 then Err TooShort else Ok (hd_out d ++ [sym]))
                        else Ok (hd_out d) in
            Ok (mkHd next (Z.land flags 1 =? 1) out)
      end
  end.
Fixpoint huff_bytes (max : Z) (v : list Z) (d : hd) : res oct_err hd :=
  match v with
  | [] => Ok d
  | b :: v =>
      let* d := huff_nibble max (Z.shiftr b 4) d in
      let* d := huff_nibble max (Z.land b 15) d in
      huff_bytes max v d
  end.

(** get_huffman_decoded_with_max_length (octets/src/lib.rs:264-310) *)
Definition huff_decode (max : Z) (v : list Z) : res oct_err (list Z) :=
  let* d := huff_bytes max v (mkHd 0 false []) in
  if negb (hd_state d =? 0) && negb (hd_eos d) then Err TooShort else Ok (hd_out d).
