(** Field sections as RFC 9204 describes them, without the dynamic table. *)
Require Import Verif.Base Verif.HuffmanSpec Verif.QpackTables.

Definition field : Type := list Z * list Z.

(** The bytes that continue an integer (RFC 7541, section 5.1): seven bits each, least
    significant first, the top bit set on all but the last *)
Inductive more : list Z -> Z -> Prop :=
| more_last b : 0 <= b < 128 -> more [b] b
| more_next b c v : 128 <= b < 256 -> more c v -> more (b :: c) (b - 128 + 128 * v).
(** An integer with a prefix of [p] bits; the other bits of the first byte are free *)
Definition int_repr (p : Z) (bs : list Z) (v : Z) : Prop :=
  exists b c, bs = b :: c /\ is_byte b /\
    (b mod 2 ^ p < 2 ^ p - 1 /\ c = [] /\ v = b mod 2 ^ p \/
     b mod 2 ^ p = 2 ^ p - 1 /\ exists w, more c w /\ v = 2 ^ p - 1 + w).
(** Integers of 64 bits in at most ten bytes after the first *)
Definition int64 (p : Z) (bs : list Z) (v : Z) : Prop := int_repr p bs v /\ v < 2 ^ 64 /\ zlen bs <= 11.
(** The same, but what is left of a larger number is read *)
Definition int_low (p : Z) (bs : list Z) (v : Z) : Prop :=
  exists w, int_repr p bs w /\ v = w mod 2 ^ 64 /\ zlen bs <= 11 /\ (zlen bs <= 10 -> v = w).

(** Bit [n] of the first byte *)
Definition top (n : Z) (bs : list Z) : bool := match bs with b :: _ => Z.odd (b / 2 ^ n) | [] => false end.

(** A string literal (RFC 9204, section 4.1.2): the flag above the length says whether
    Huffman coding is used *)
Definition text (I : Z -> list Z -> Z -> Prop) (p : Z) (bs s : list Z) : Prop :=
  exists n data, bs = n ++ data /\ I p n (zlen data) /\ bytes_ok s /\
    if top p n then encodes data s else data = s.

(** Field lines (RFC 9204, sections 4.5.2, 4.5.4 and 4.5.6) *)
Inductive line (I : Z -> list Z -> Z -> Prop) : list Z -> field -> Prop :=
| indexed bs idx n v : top 7 bs = true -> top 6 bs = true -> I 6 bs idx -> zget static_decode_table idx = Some (n, v) ->
    line I bs (n, v)
| name_ref bs vs idx n v s : top 7 bs = false -> top 6 bs = true -> top 4 bs = true -> I 4 bs idx ->
    zget static_decode_table idx = Some (n, v) -> text I 7 vs s -> line I (bs ++ vs) (n, s)
| literal ns vs n s : top 7 ns = false -> top 6 ns = false -> top 5 ns = true -> text I 3 ns n -> text I 7 vs s ->
    line I (ns ++ vs) (n, s).
Inductive lines (I : Z -> list Z -> Z -> Prop) : list Z -> list field -> Prop :=
| no_lines : lines I [] []
| one_line bs h tl hs : line I bs h -> lines I tl hs -> lines I (bs ++ tl) (h :: hs).

(** A section: two integers about the dynamic table, and the lines *)
Definition section (I : Z -> list Z -> Z -> Prop) (bs : list Z) (hs : list field) : Prop :=
  exists ric base ls u v, bs = ric ++ base ++ ls /\ I 8 ric u /\ I 7 base v /\ lines I ls hs.

(** The size of a list of fields (RFC 9114, section 4.2.2) *)
Definition field_size (h : field) : Z := zlen (fst h) + zlen (snd h) + 32.
Definition list_size (hs : list field) : Z := fold_right (fun h n => field_size h + n) 0 hs.

(** What is expected of the peer: names in lower case *)
Definition sent_as (h : field) : field := (lowercase (fst h), snd h).
Definition field_ok (h : field) : Prop := bytes_ok (fst h) /\ bytes_ok (snd h).
