(** QPACK without the dynamic table (quiche/src/h3/qpack/).

    Decoders read the remaining bytes, as in OctetsModel; encoders write to [wr], as
    in HuffmanModel.  A header is its name and its value.  u64, u32 and usize are [Z];
    usize has 64 bits, so the casts between it and u64 change nothing. *)
Require Import Verif.Base Verif.OctetsModel Verif.HuffmanModel Verif.QpackTables.

Definition header : Type := list Z * list Z.

(** Error (h3/qpack/mod.rs:45-61) *)
Inductive qerr : Type := QTooShort | QHuffman | QIndex | QValue | QTooLarge.

(** The loop of decode_int (h3/qpack/decoder.rs:287-301): checked_shl fails when the
    shift is 64 or more; smaller shifts lose the bits shifted out *)
Fixpoint int_loop (b : list Z) (val shift : Z) : res qerr (Z * list Z) :=
  match b with
  | [] => Err QTooShort
  | byte :: b =>
      if 64 <=? shift then Err QTooShort
      else
        let inc := Z.shiftl (Z.land byte 127) shift mod 2 ^ 64 in
        if u64_max <? val + inc then Err QTooShort
        else
          let val := val + inc in
          if Z.land byte 128 =? 0 then Ok (val, b) else int_loop b val (shift + 7)
  end.
(** decode_int (h3/qpack/decoder.rs:275-304) *)
Definition decode_int (prefix : Z) (b : list Z) : res qerr (Z * list Z) :=
  let mask := 2 ^ prefix - 1 in
  match b with
  | [] => Err QTooShort
  | first :: b =>
      let val := Z.land first mask in
      if val <? mask then Ok (val, b) else int_loop b val 0
  end.

Definition q_bytes (len : Z) (b : list Z) : res qerr (list Z * list Z) :=
  match rd_bytes len b with Some r => Ok r | None => Err QTooShort end.
(** get_huffman_decoded_with_max_length with its error mapped to HeaderListTooLarge
    (h3/qpack/decoder.rs:201-204, 316-317) *)
Definition q_huff (max : Z) (v : list Z) : res qerr (list Z) :=
  match huff_decode max v with Ok o => Ok o | Err _ => Err QTooLarge | Panic => Panic end.

(** The part of decode_str after the length, also used for names
    (h3/qpack/decoder.rs:197-210, 313-326) *)
Definition q_text (huff : bool) (len max : Z) (b : list Z) : res qerr (list Z * list Z) :=
  let* '(val, b) := q_bytes len b in
  if huff then let* o := q_huff max val in Ok (o, b)
  else if max <? len then Err QTooLarge else Ok (val, b).
(** decode_str (h3/qpack/decoder.rs:306-328) *)
Definition decode_str (max : Z) (b : list Z) : res qerr (list Z * list Z) :=
  match b with
  | [] => Err QTooShort
  | first :: _ =>
      let huff := Z.land first 128 =? 128 in
      let* '(len, b) := decode_int 7 b in
      q_text huff len max b
  end.

(** lookup_static of the decoder (h3/qpack/decoder.rs:267-273) *)
Definition static_entry (idx : Z) : res qerr header :=
  if zlen static_decode_table <=? idx then Err QIndex
  else match zget static_decode_table idx with Some h => Ok h | None => Panic end.

(** on_field_start and on_field_part_decoded (h3/qpack/decoder.rs:93-115) *)
Definition q_charge (n left : Z) : res qerr Z := if left <? n then Err QTooLarge else Ok (left - n).

(** One field line: an iteration of the loop of decode (h3/qpack/decoder.rs:152-260),
    with Representation::from_byte (decoder.rs:46-66).  Returns the header, the
    remaining bytes and the remaining size. *)
Definition decode_line (b : list Z) (left : Z) : res qerr (header * list Z * Z) :=
  match b with
  | [] => Err QTooShort
  | first :: _ =>
      let* left := q_charge 32 left in
      if Z.land first 128 =? 128 then
        let s := Z.land first 64 =? 64 in
        let* '(index, b) := decode_int 6 b in
        if negb s then Err QValue
        else
          let* '(name, value) := static_entry index in
          let* left := q_charge (zlen name + zlen value) left in
          Ok ((name, value), b, left)
      else if Z.land first 64 =? 64 then
        let s := Z.land first 16 =? 16 in
        if negb s then Err QValue
        else
          let* '(idx, b) := decode_int 4 b in
          let* '(name, _) := static_entry idx in
          let* left := q_charge (zlen name) left in
          let* '(value, b) := decode_str left b in
          let* left := q_charge (zlen value) left in
          Ok ((name, value), b, left)
      else if Z.land first 32 =? 32 then
        let huff := Z.land first 8 =? 8 in
        let* '(len, b) := decode_int 3 b in
        let* '(name, b) := q_text huff len left b in
        let* left := q_charge (zlen name) left in
        let* '(value, b) := decode_str left b in
        let* left := q_charge (zlen value) left in
        Ok ((name, value), b, left)
      else if Z.land first 16 =? 16 then
        let* '(_, _) := decode_int 4 b in Err QValue
      else Err QValue
  end.
Fixpoint decode_lines (fuel : nat) (b : list Z) (left : Z) : res qerr (list header) :=
  match b with
  | [] => Ok []
  | _ =>
      match fuel with
      | O => Panic
      | S fuel =>
          let* '(h, b, left) := decode_line b left in
          let* hs := decode_lines fuel b left in
          Ok (h :: hs)
      end
  end.
(** Decoder::decode (h3/qpack/decoder.rs:140-264) *)
Definition qpack_decode (buf : list Z) (max : Z) : res qerr (list header) :=
  let* '(_, b) := decode_int 8 buf in
  let* '(_, b) := decode_int 7 b in
  decode_lines (length b) b max.

(** ** The encoder *)
Definition q_put (bs : list Z) (w : wr) : res qerr wr :=
  match put bs w with Ok w => Ok w | Err _ => Err QTooShort | Panic => Panic end.

(** The loop of encode_int (h3/qpack/encoder.rs:136-141); ten rounds are enough for a
    u64 *)
Fixpoint int_out (fuel : nat) (v : Z) (w : wr) : res qerr wr :=
  match fuel with
  | O => Panic
  | S fuel =>
      if 128 <=? v then
        let* w := q_put [v mod 128 + 128] w in
        int_out fuel (Z.shiftr v 7) w
      else q_put [v mod 256] w
  end.
(** encode_int (h3/qpack/encoder.rs:120-147) *)
Definition encode_int (v first prefix : Z) (w : wr) : res qerr wr :=
  let mask := 2 ^ prefix - 1 in
  if v <? mask then q_put [Z.lor first (v mod 256)] w
  else
    let* w := q_put [Z.lor first (mask mod 256)] w in
    int_out 10 (v - mask) w.

(** encode_str (h3/qpack/encoder.rs:150-174) *)
Definition encode_str (lc : bool) (v : list Z) (first prefix : Z) (w : wr) : res qerr wr :=
  match huff_len lc v with
  | Panic => Panic
  | Ok len =>
      let* w := encode_int len (Z.lor first (Z.shiftl 1 prefix mod 256)) prefix w in
      match put_huffman lc v w with Ok w => Ok w | Err _ => Err QTooShort | Panic => Panic end
  | Err _ =>
      let* w := encode_int (zlen v) first prefix w in
      q_put (map (lower_if lc) v) w
  end.

(** cmp_lowercase (h3/qpack/encoder.rs:94-96): zip stops at the shorter one *)
Fixpoint cmp_lower (a b : list Z) : bool :=
  match a, b with x :: a, y :: b => (x =? lower y) && cmp_lower a b | _, _ => true end.
Fixpoint eq_bytes (a b : list Z) : bool :=
  match a, b with [], [] => true | x :: a, y :: b => (x =? y) && eq_bytes a b | _, _ => false end.
(** The search of lookup_static (h3/qpack/encoder.rs:98-117) *)
Fixpoint find_value (value : list Z) (values : list (list Z * Z)) : option (Z * bool) :=
  match values with
  | [] => None
  | (v, enc) :: tl =>
      if zlen v =? 0 then Some (enc, false)
      else if eq_bytes value v then Some (enc, true)
      else find_value value tl
  end.
Fixpoint find_name (h : header) (row : list (list Z * list (list Z * Z))) : option (Z * bool) :=
  match row with
  | [] => None
  | (name, values) :: tl =>
      if cmp_lower name (fst h) then
        match find_value (snd h) values with
        | Some r => Some r
        | None => match values with (_, enc) :: _ => Some (enc, false) | [] => None end
        end
      else find_name h tl
  end.
(** lookup_static of the encoder (h3/qpack/encoder.rs:87-118) *)
Definition lookup_static (h : header) : option (Z * bool) :=
  match zget static_encode_table (zlen (fst h)) with
  | None => None
  | Some row => find_name h row
  end.

(** One header of encode (h3/qpack/encoder.rs:57-80) *)
Definition encode_header (h : header) (w : wr) : res qerr wr :=
  match lookup_static h with
  | Some (idx, true) => encode_int idx (Z.lor 128 64) 6 w
  | Some (idx, false) =>
      let* w := encode_int idx (Z.lor 64 16) 4 w in
      encode_str false (snd h) 0 7 w
  | None =>
      let* w := encode_str true (fst h) 32 3 w in
      encode_str false (snd h) 0 7 w
  end.
Fixpoint encode_headers (hs : list header) (w : wr) : res qerr wr :=
  match hs with
  | [] => Ok w
  | h :: hs => let* w := encode_header h w in encode_headers hs w
  end.
(** Encoder::encode (h3/qpack/encoder.rs:46-84) *)
Definition qpack_encode (hs : list header) (w : wr) : res qerr wr :=
  let* w := encode_int 0 0 8 w in
  let* w := encode_int 0 0 7 w in
  encode_headers hs w.
(** encode_header_block (h3/mod.rs:1463-1479): the buffer has room for the size of the
    list with 32 more bytes for each field *)
Definition encode_header_block (hs : list header) : res qerr (list Z) :=
  let room := fold_right (fun h n => zlen (fst h) + zlen (snd h) + 32 + n) 0 hs in
  let* w := qpack_encode hs (mkWr room []) in Ok (wr_out w).
