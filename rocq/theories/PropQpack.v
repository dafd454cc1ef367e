(** QPACK: integers (C59), field sections (C61) and the limit on their size (C62). *)
Require Import String.
Require Import Verif.Base Verif.OctetsModel Verif.HuffmanModel Verif.HuffmanSpec Verif.QpackTables Verif.QpackModel Verif.QpackSpec Verif.QpackProofs Verif.QpackProofs2.

(** C59: encoding an integer of 64 bits writes one representation of it, whatever the
    buffer, keeps the bits above the prefix and fails exactly when there is no room. *)
Theorem C59_encode v first p : 0 <= v < 2 ^ 64 -> 1 <= p <= 8 -> 0 <= first < 256 -> first mod 2 ^ p = 0 ->
  exists bs, int64 p bs v /\ bytes_ok bs /\ (forall n, p <= n -> top n bs = Z.odd (first / 2 ^ n)) /\
    forall w, 0 <= wr_left w ->
      encode_int v first p w = if wr_left w <? zlen bs then Err QTooShort else Ok (mkWr (wr_left w - zlen bs) (wr_out w ++ bs)).
Proof. intros hv hp hf hz. destruct (int_writes v first p hv hp hf hz) as (bs & h1 & h2 & h3 & h4). exists bs. auto. Qed.
Print Assumptions C59_encode.

(** C59: every representation of an integer of 64 bits is decoded, also one with
    redundant continuation bytes, and the bytes after it are left. *)
Theorem C59_decode p bs v rest : 1 <= p <= 8 -> int64 p bs v -> decode_int p (bs ++ rest) = Ok (v, rest).
Proof. intros hp h. apply int_complete; assumption. Qed.
Print Assumptions C59_decode.

(** C59: what is decoded is the integer represented by the bytes consumed, if these are
    ten or fewer; with eleven it is the integer modulo 2^64. *)
Theorem C59_decode_sound p b v rest : 1 <= p <= 8 -> bytes_ok b -> decode_int p b = Ok (v, rest) ->
  exists bs, b = bs ++ rest /\ int_low p bs v /\ 0 <= v < 2 ^ 64.
Proof. intros hp hb h. destruct (int_sound p b v rest hp hb h) as (bs & h1 & h2 & h3 & _). exists bs. auto. Qed.
Print Assumptions C59_decode_sound.

Theorem C59_roundtrip v first p left rest w' : 0 <= v < 2 ^ 64 -> 1 <= p <= 8 -> 0 <= first < 256 -> first mod 2 ^ p = 0 -> 0 <= left ->
  encode_int v first p (mkWr left []) = Ok w' -> decode_int p (wr_out w' ++ rest) = Ok (v, rest).
Proof.
  intros hv hp hf hz hl h. destruct (C59_encode v first p hv hp hf hz) as (bs & hi & _ & _ & hw). rewrite (hw (mkWr left []) hl) in h. cbn [wr_left wr_out app] in h.
  destruct (left <? zlen bs); [discriminate h|]. injection h as <-. cbn [wr_out]. apply C59_decode; assumption.
Qed.
Print Assumptions C59_roundtrip.

(** C59: decoding never panics, and its only error is a short buffer. *)
Theorem C59_total p b : decode_int p b = Err QTooShort \/ exists v rest, decode_int p b = Ok (v, rest).
Proof. destruct (int_no_panic p b) as [h1 h2]. destruct (decode_int p b) as [[v rest]|e|]; [right; eauto|left; f_equal; apply h2; reflexivity|contradiction]. Qed.
Print Assumptions C59_total.

(** The examples of RFC 7541, appendix C.1 *)
Example C59_witness :
  encode_int 10 0 5 (mkWr 9 []) = Ok (mkWr 8 [10]) /\ encode_int 1337 224 5 (mkWr 9 []) = Ok (mkWr 6 [255; 154; 10]) /\
  encode_int 42 0 8 (mkWr 9 []) = Ok (mkWr 8 [42]) /\ decode_int 5 [31; 154; 10; 7] = Ok (1337, [7]) /\ decode_int 5 [31; 154; 138; 0; 7] = Ok (1337, [7]) /\
  encode_int 1337 224 5 (mkWr 2 []) = Err QTooShort /\ decode_int 5 [31; 154] = Err QTooShort.
Proof. vm_compute. auto 10. Qed.
Example C59_witness_max :
  match encode_int (2 ^ 64 - 1) 0 3 (mkWr 20 []) with Ok w => decode_int 3 (wr_out w) | _ => Panic end = Ok (2 ^ 64 - 1, []).
Proof. vm_compute. reflexivity. Qed.

(** An integer that does not fit in 64 bits should be refused.  The last continuation
    byte is shifted by 63 and its upper bits are lost (checked_shl checks only the
    shift), so 2^64 + 127 is decoded as 127. *)
Theorem C59_truncated_refuted : ~ (forall p b v rest, 1 <= p <= 8 -> bytes_ok b -> decode_int p b = Ok (v, rest) -> exists bs, b = bs ++ rest /\ int_repr p bs v).
Proof.
  intros h. specialize (h 7 ([127; 128; 128; 128; 128; 128; 128; 128; 128; 128; 2]) 127 [] ltac:(lia)). destruct h as (bs & e & b & c & eb & hb & h).
  - repeat constructor; unfold is_byte; lia.
  - vm_compute. reflexivity.
  - rewrite app_nil_r in e. rewrite <- e in eb. injection eb as <- <-. change (127 mod 2 ^ 7) with 127 in h. change (2 ^ 7) with 128 in h. destruct h as [(h & _)|(_ & w & hm & ew)]; [lia|].
    assert (hw : w = 2 ^ 64) by (repeat match goal with hm : more _ _ |- _ => inversion hm; subst; clear hm; try lia end). subst w. discriminate ew.
Qed.
Print Assumptions C59_truncated_refuted.

(** C61: every field section that does not use the dynamic table is decoded to its
    fields, if their size is within the limit. *)
Theorem C61_decode bs hs max : bytes_ok bs -> section int64 bs hs -> list_size hs <= max -> qpack_decode bs max = Ok hs.
Proof. intros hb hs' hm. pose proof (list_size_nonneg hs). rewrite (decode_exact int64 bs hs max reads_int64 hb hs') by lia. destruct (Z.ltb_spec max (list_size hs)); [lia|reflexivity]. Qed.
Print Assumptions C61_decode.

(** C61: what is decoded is what the bytes say, all of them (up to integers that do not
    fit in 64 bits, see C59). *)
Lemma text_low p bs s : text int_code p bs s -> text int_low p bs s.
Proof. intros (n & d & e & (hi & _) & hr). exists n, d. auto. Qed.
Theorem C61_decode_sound bs hs max : bytes_ok bs -> 0 <= max -> qpack_decode bs max = Ok hs -> section int_low bs hs.
Proof.
  intros hb hm h. apply decode_sound in h; [|exact hb|exact hm]. destruct h as [(ric & base & ls & u & v & e & (h1 & _) & (h2 & _) & h3) _]. exists ric, base, ls, u, v. split; [exact e|]. split; [exact h1|]. split; [exact h2|].
  clear -h3. induction h3 as [|b h tl hs hl _ IH]; constructor; [|exact IH]. destruct hl as [b idx n v t7 t6 (hi & _) ht|b vs idx n v s t7 t6 t4 (hi & _) ht hs'|ns vs n s t7 t6 t5 hn hs'].
  - apply (indexed _ _ idx); assumption.
  - apply (name_ref _ _ _ idx n v); try assumption. apply text_low, hs'.
  - apply literal; try assumption; apply text_low; assumption.
Qed.
Print Assumptions C61_decode_sound.

(** C61: encoding a list of headers writes one field section with these fields in
    order, names in lower case and values untouched, whatever the buffer, and fails
    exactly when there is no room. *)
Theorem C61_encode hs : Forall (fun h => field_ok h /\ zlen (fst h) < 2 ^ 64 /\ zlen (snd h) < 2 ^ 64) hs ->
  exists bs, bytes_ok bs /\ section int64 bs (map sent_as hs) /\
    forall w, 0 <= wr_left w ->
      qpack_encode hs w = if wr_left w <? zlen bs then Err QTooShort else Ok (mkWr (wr_left w - zlen bs) (wr_out w ++ bs)).
Proof. intros h. destruct (encode_writes hs h) as (bs & h1 & h2 & h3 & _). exists bs. auto. Qed.
Print Assumptions C61_encode.

(** C61: the buffer of encode_header_block has room for every list that is not empty,
    and the empty list cannot be encoded in it. *)
Theorem C61_room hs : Forall (fun h => field_ok h /\ zlen (fst h) < 2 ^ 64 /\ zlen (snd h) < 2 ^ 64) hs ->
  (hs <> [] -> exists bs, encode_header_block hs = Ok bs /\ section int64 bs (map sent_as hs)) /\ (hs = [] -> encode_header_block hs = Err QTooShort).
Proof.
  intros hf. destruct (encode_writes hs hf) as (bs & h1 & h2 & _ & h4). pose proof (list_size_nonneg hs). unfold encode_header_block. change (fold_right _ 0 hs) with (list_size hs). rewrite (h1 (mkWr (list_size hs) [])) by (cbn [wr_left]; lia). cbn [wr_left]. split.
  - intros hne. exists bs. split; [|exact h2]. clear h2. destruct hs as [|h hs]; [contradiction|]. rewrite zlen_cons in h4. pose proof (@zlen_nonneg header hs). pose proof (@zlen_nonneg field hs). destruct (Z.ltb_spec (list_size (h :: hs)) (zlen bs)); [lia|]. reflexivity.
  - intros ->. cbn [list_size fold_right]. destruct (Z.ltb_spec 0 (zlen bs)); [reflexivity|lia].
Qed.
Print Assumptions C61_room.

(** C61: the peer decodes what was encoded. *)
Theorem C61_roundtrip hs left max w' : Forall (fun h => field_ok h /\ zlen (fst h) < 2 ^ 64 /\ zlen (snd h) < 2 ^ 64) hs -> 0 <= left -> list_size hs <= max ->
  qpack_encode hs (mkWr left []) = Ok w' -> qpack_decode (wr_out w') max = Ok (map sent_as hs).
Proof.
  intros hf hl hm h. destruct (C61_encode hs hf) as (bs & hb & hsec & hw). rewrite (hw (mkWr left []) hl) in h. cbn [wr_left wr_out app] in h. destruct (left <? zlen bs); [discriminate h|]. injection h as <-. cbn [wr_out].
  apply C61_decode; [exact hb|exact hsec|]. replace (list_size (map sent_as hs)) with (list_size hs); [exact hm|]. clear. induction hs as [|h hs IH]; [reflexivity|]. cbn [map]. rewrite !list_size_cons, IH. f_equal.
  unfold field_size, sent_as. cbn [fst snd]. unfold lowercase, zlen. rewrite map_length. reflexivity.
Qed.
Print Assumptions C61_roundtrip.

(** C61: the encoder uses an index of the static table only for an entry with the name
    (in lower case) and, for a whole field, the value; and it finds every entry that
    has a value. *)
Lemma encoder_finds : forallb (fun i => match zget static_decode_table (Z.of_nat i) with
  | Some (n, v) => match lookup_static (n, v) with Some (j, b) => (zlen v =? 0) || (j =? Z.of_nat i) && b | None => false end | None => false end) (seq 0 99) = true.
Proof. vm_compute. reflexivity. Qed.
Theorem C61_table : (forall h idx full, lookup_static h = Some (idx, full) ->
    exists v, zget static_decode_table idx = Some (lowercase (fst h), v) /\ (full = true -> v = snd h)) /\
  (forall idx n v, 0 <= idx < 99 -> zget static_decode_table idx = Some (n, v) -> v <> [] -> lookup_static (n, v) = Some (idx, true)) /\
  zlen static_decode_table = 99.
Proof.
  split; [|split].
  - intros h idx full hl. apply lookup_ok in hl. destruct hl as [_ hl]. exact hl.
  - intros idx n v hi hg hv. pose proof encoder_finds as h. rewrite forallb_forall in h. specialize (h (Z.to_nat idx) ltac:(apply in_seq; lia)). rewrite Z2Nat.id in h by lia. rewrite hg in h.
    destruct (lookup_static (n, v)) as [[j b]|]; [|discriminate h]. destruct (Z.eqb_spec (zlen v) 0) as [e|e]; [destruct v; [contradiction|rewrite zlen_cons in e; pose proof (zlen_nonneg v); lia]|].
    cbn [orb] in h. apply andb_prop in h. destruct h as [h1 ->]. apply Z.eqb_eq in h1. subst. reflexivity.
  - vm_compute. reflexivity.
Qed.
Print Assumptions C61_table.

(** C61: decoding arbitrary bytes never panics. *)
Theorem C61_total bs max : bytes_ok bs -> 0 <= max -> qpack_decode bs max <> Panic.
Proof. exact (decode_no_panic bs max). Qed.
Print Assumptions C61_total.

Definition req : list header := [(bytes ":method"%string, bytes "GET"%string); (bytes ":path"%string, bytes "/index"%string); (bytes "X-Custom"%string, bytes "Value {}"%string)].
Definition req_bytes : list Z := Eval vm_compute in match qpack_encode req (mkWr 100 []) with Ok w => wr_out w | _ => [] end.
Example C61_witness : zlen req_bytes = 26 /\
  qpack_decode req_bytes 1000 = Ok [(bytes ":method"%string, bytes "GET"%string); (bytes ":path"%string, bytes "/index"%string); (bytes "x-custom"%string, bytes "Value {}"%string)] /\
  qpack_encode req (mkWr 25 []) = Err QTooShort.
Proof. vm_compute. auto. Qed.
Example C61_witness_hyp : Forall (fun h => field_ok h /\ zlen (fst h) < 2 ^ 64 /\ zlen (snd h) < 2 ^ 64) req.
Proof. repeat constructor; unfold is_byte; cbn; lia. Qed.
Example C61_witness_errors : qpack_decode [0; 0; 255; 36] 1000 = Err QIndex /\ qpack_decode [0; 0; 128] 1000 = Err QValue /\ qpack_decode [0; 0; 0; 0] 1000 = Err QValue /\ qpack_decode [0] 1000 = Err QTooShort.
Proof. vm_compute. auto. Qed.

(** A section that needs the dynamic table (Required Insert Count other than zero)
    should be refused by a decoder that announces a table of capacity zero (RFC 9204,
    section 2.2.1).  The count and the base are decoded and ignored. *)
Theorem C61_dynamic_refuted : ~ (forall b rest max hs, b <> 0 -> qpack_decode (b :: rest) max <> Ok hs).
Proof. intros h. apply (h 5 [0; 217] 100 [(bytes ":status"%string, bytes "200"%string)]); [lia|]. vm_compute. reflexivity. Qed.
Print Assumptions C61_dynamic_refuted.

(** C62: the fields of a section that was decoded are within the limit, and a section
    that can be decoded at all is refused exactly when they are not, with the error
    that says so. *)
Theorem C62_limit bs hs max : bytes_ok bs -> 0 <= max -> qpack_decode bs max = Ok hs -> list_size hs <= max.
Proof. intros hb hm h. apply decode_sound in h; [|exact hb|exact hm]. apply h. Qed.
Print Assumptions C62_limit.

Theorem C62_exact bs hs big max : bytes_ok bs -> 0 <= big -> 0 <= max -> qpack_decode bs big = Ok hs ->
  qpack_decode bs max = if max <? list_size hs then Err QTooLarge else Ok hs.
Proof. intros hb hg hm h. apply decode_sound in h; [|exact hb|exact hg]. apply (decode_exact int_code); [exact reads_code|exact hb|apply h|exact hm]. Qed.
Print Assumptions C62_exact.

Example C62_witness : list_size req = 7 + 3 + 32 + (5 + 6 + 32) + (8 + 8 + 32) /\
  qpack_decode req_bytes 133 = Ok (map sent_as req) /\ qpack_decode req_bytes 132 = Err QTooLarge.
Proof. vm_compute. auto. Qed.

(** The error for a section that is too large should mean that it is.  Huffman data that
    cannot be decoded is reported by the same error, whatever the limit, and never as
    invalid Huffman coding. *)
Theorem C62_bad_huffman_refuted : ~ (forall bs max, bytes_ok bs -> 0 <= max -> qpack_decode bs max = Err QTooLarge -> exists hs, section int_low bs hs /\ max < list_size hs).
Proof.
  intros h. destruct (h [0; 0; 41; 255; 0] (2 ^ 63)) as (hs & hsec & hl); [repeat constructor; unfold is_byte; lia|lia|vm_compute; reflexivity|].
  clear h. assert (hf : forall hs, ~ section int_low [0; 0; 41; 255; 0] hs); [|exact (hf hs hsec)]. clear hs hsec hl.
  intros hs (ric & base & ls & u & v & e & (wu & (b1 & c1 & -> & _ & h1) & _) & (wv & (b2 & c2 & -> & _ & h2) & _) & h3). cbn [app] in e. injection e as <- e.
  destruct h1 as [(_ & -> & _)|(h1 & _)]; [|discriminate h1]. cbn [app] in e. injection e as <- e. destruct h2 as [(_ & -> & _)|(h2 & _)]; [|discriminate h2]. cbn [app] in e. subst ls. clear u v wu wv.
  inversion h3 as [|bs h tl hs' hl hls e1 e2]; subst. inversion hl as [bs' idx n v t7 t6 hi ht eb eh|bs' vs idx n v s t7 t6 t4 hi ht hs1 eb eh|ns vs n s t7 t6 t5 hn hs1 eb eh]; subst.
  - destruct bs as [|x bs]; [discriminate t7|]. cbn [app] in e1. injection e1 as -> _. discriminate t7.
  - destruct bs' as [|x bs']; [discriminate t6|]. cbn [app] in e1. injection e1 as -> _. discriminate t6.
  - destruct hn as (nn & data & -> & (w & (b & c & -> & _ & hr) & ew & _ & hle) & hnb & he). cbn [app] in e1. injection e1 as eb e1. subst b.
    destruct hr as [(_ & -> & ->)|(hr & _)]; [|discriminate hr]. change (41 mod 2 ^ 3) with 1 in ew, hle. change (1 mod 2 ^ 64) with 1 in ew.
    cbn [top] in he. change (Z.odd (41 / 2 ^ 3)) with true in he. cbv iota in he. destruct data as [|d data]; [discriminate ew|]. destruct data as [|d2 data]; [|rewrite !zlen_cons in ew; pose proof (zlen_nonneg data); lia].
    cbn [app] in e1. injection e1 as ed _. subst d. assert (hd : huff_decode (zlen n) [255] = Ok n).
    { apply PropHuffman.C60_decode; [repeat constructor; unfold is_byte; lia|apply zlen_nonneg|]. split; [exact he|]. split; [exact hnb|lia]. }
    revert hd. unfold huff_decode. cbn [huff_bytes]. clear. intros hd. vm_compute in hd. discriminate hd.
Qed.
Print Assumptions C62_bad_huffman_refuted.
