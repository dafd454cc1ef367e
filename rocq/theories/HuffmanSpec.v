(** The Huffman code of RFC 7541 in terms of bit strings. *)
Require Import Verif.Base Verif.HuffmanTables.

(** The [n] low bits of a number, most significant first, and back *)
Fixpoint bits_of (n : nat) (v : Z) : list bool :=
  match n with O => [] | S n => Z.odd (v / 2 ^ Z.of_nat n) :: bits_of n v end.
Definition bval (l : list bool) : Z := fold_left (fun a (b : bool) => 2 * a + if b then 1 else 0) l 0.

(** The bits of a byte string *)
Definition byte_bits (l : list Z) : list bool := flat_map (bits_of 8) l.

(** The code of a symbol (0 to 255; 256 is the end of string) *)
Definition code (s : Z) : list bool :=
  match zget encode_table s with Some (n, c) => bits_of (Z.to_nat n) c | None => [] end.
Definition codes (l : list Z) : list bool := flat_map code l.

Definition ones (n : nat) : list bool := repeat true n.

(** A byte string encodes [l]: the codes of its symbols, padded with at most seven
    ones (RFC 7541, section 5.2) *)
Definition encodes (bs l : list Z) : Prop :=
  exists k, (k <= 7)%nat /\ byte_bits bs = codes l ++ ones k.

Definition is_prefix (a b : list bool) : Prop := exists c, b = a ++ c.

(** RFC 7541 says the code is canonical: ordered by length and then by symbol, each
    code is the next number, extended by zeros.  Sorted by length: *)
Definition by_length : list (Z * Z) :=
  flat_map (fun n => filter (fun e => fst e =? Z.of_nat n) encode_table) (seq 1 30).
Fixpoint canonical (next len : Z) (l : list (Z * Z)) : bool :=
  match l with
  | [] => next =? 2 ^ len
  | (n, c) :: tl => (len <=? n) && (c =? next * 2 ^ (n - len)) && canonical (next * 2 ^ (n - len) + 1) n tl
  end.

(** The bytes needed for the code of [l] *)
Definition enc_len (l : list Z) : Z := (zlen (codes l) + 7) / 8.
(** ASCII letters in lower case *)
Definition lowercase (l : list Z) : list Z := map (fun b => if (65 <=? b) && (b <=? 90) then b + 32 else b) l.
Definition lowered (lc : bool) (l : list Z) : list Z := if lc then lowercase l else l.
