(** C60: the Huffman code of header strings. *)
Require Import Verif.Base Verif.OctetsModel Verif.OctetsProofs Verif.HuffmanTables Verif.HuffmanModel Verif.HuffmanSpec Verif.HuffmanProofs Verif.HuffmanProofs2.

(** C60: decoding succeeds exactly on the encodings of strings that are not longer
    than the limit, and returns the string. *)
Theorem C60_decode max bs out : bytes_ok bs -> 0 <= max ->
  (huff_decode max bs = Ok out <-> encodes bs out /\ bytes_ok out /\ zlen out <= max).
Proof.
  intros hb hm. pose proof (decode_cases max bs hb hm) as h. split.
  - intros e. rewrite e in h. exact h.
  - intros (h1 & h2 & h3). destruct (huff_decode max bs) as [o|e|]; [| |destruct h].
    + f_equal. destruct h as (g1 & g2 & _). destruct h1 as (k & hk & h1), g1 as (j & hj & g1). apply (good_unique (byte_bits bs)); [split; [exact g2|exists j]|split; [exact h2|exists k]]; auto.
    + destruct h as [_ h]. specialize (h out h1 h2). lia.
Qed.
Print Assumptions C60_decode.

(** C60: everything else is an error, and nothing panics. *)
Theorem C60_decode_total max bs : bytes_ok bs -> 0 <= max ->
  huff_decode max bs = Err TooShort \/ exists out, huff_decode max bs = Ok out.
Proof.
  intros hb hm. pose proof (decode_cases max bs hb hm) as h. destruct (huff_decode max bs) as [o|e|]; [right; eauto|left; destruct h as [-> _]; reflexivity|destruct h].
Qed.
Print Assumptions C60_decode_total.

(** C60: encoding writes an encoding of the string, lowered if asked, and fails
    exactly when the buffer has no room for it. *)
Theorem C60_encode lc v w : bytes_ok v -> 0 <= wr_left w ->
  (wr_left w < enc_len (lowered lc v) /\ put_huffman lc v w = Err TooShort) \/
  (enc_len (lowered lc v) <= wr_left w /\ exists bs, bytes_ok bs /\ zlen bs = enc_len (lowered lc v) /\ encodes bs (lowered lc v) /\
     put_huffman lc v w = Ok (mkWr (wr_left w - zlen bs) (wr_out w ++ bs))).
Proof.
  intros hv hw. pose proof (put_huffman_ok lc v w hv hw) as h. destruct (put_huffman lc v w) as [w'|e|]; [right|left|destruct h].
  - destruct h as (O & h1 & h2 & h3 & h4 & h5). pose proof (encodes_len _ _ h5) as hl. split; [lia|]. exists O. split; [exact h1|]. split; [exact hl|]. split; [exact h5|].
    f_equal. destruct w' as [l o]. cbn in *. subst. reflexivity.
  - destruct h as [-> h]. split; [unfold enc_len; lia|reflexivity].
Qed.
Print Assumptions C60_encode.

(** C60: what was encoded is decoded to the same string. *)
Theorem C60_roundtrip lc v left max w' : bytes_ok v -> 0 <= left -> zlen v <= max -> put_huffman lc v (mkWr left []) = Ok w' ->
  huff_decode max (wr_out w') = Ok (lowered lc v).
Proof.
  intros hv hl hm h. pose proof (put_huffman_ok lc v (mkWr left []) hv hl) as hp. rewrite h in hp. destruct hp as (O & h1 & h2 & _ & _ & h5). cbn [wr_out app] in h2. rewrite h2.
  assert (hz : zlen (lowered lc v) = zlen v) by (destruct lc; [unfold lowered, lowercase, zlen; rewrite map_length|]; reflexivity).
  apply C60_decode; [exact h1|pose proof (zlen_nonneg v); lia|]. split; [exact h5|]. split; [|lia].
  rewrite lowered_map. clear -hv. induction v as [|b v IH]; [constructor|]. apply bytes_ok_cons in hv. destruct hv as [hb hv]. cbn [map]. apply bytes_ok_cons. split; [apply lower_byte; exact hb|auto].
Qed.
Print Assumptions C60_roundtrip.

(** C60: the length promised before encoding is the length written, and the error
    means that the encoding would be longer than the string. *)
Theorem C60_length lc v : bytes_ok v ->
  huff_len lc v = if zlen v <? enc_len (lowered lc v) then Err TooShort else Ok (enc_len (lowered lc v)).
Proof. exact (huff_len_ok lc v). Qed.
Print Assumptions C60_length.

(** C60: a byte string is the encoding of one string at most. *)
Theorem C60_unique bs a b : bytes_ok a -> bytes_ok b -> encodes bs a -> encodes bs b -> a = b.
Proof.
  intros ha hb (k & hk & h) (j & hj & g). apply (good_unique (byte_bits bs)); [split; [exact ha|exists k]|split; [exact hb|exists j]]; auto.
Qed.
Print Assumptions C60_unique.

(** C60: the table of codes is the canonical prefix code with its lengths: 257
    codes, no code a prefix of another, and no bits wasted. *)
Theorem C60_canonical : zlen encode_table = 257 /\ zlen by_length = 257 /\ canonical 0 0 by_length = true /\
  (forall a b, is_byte a -> is_byte b -> is_prefix (code a) (code b) -> a = b).
Proof. split; [|split; [|split]]; try (vm_compute; reflexivity). exact prefix_free. Qed.
Print Assumptions C60_canonical.

(** The padding must be shorter than a byte and made of ones: eight ones, or zeros,
    are refused, and so is the end of string symbol. *)
Example C60_witness_padding :
  huff_decode 10 [255] = Err TooShort /\ huff_decode 10 [24] = Err TooShort /\ huff_decode 10 [31] = Ok [97] /\
  huff_decode 10 [255; 255; 255; 255] = Err TooShort.
Proof. vm_compute. auto. Qed.

(* "www.example.com", RFC 7541 C.4.1 *)
Definition www : list Z := [119; 119; 119; 46; 101; 120; 97; 109; 112; 108; 101; 46; 99; 111; 109].
Definition www_enc : list Z := [241; 227; 194; 229; 242; 58; 107; 160; 171; 144; 244; 255].
Example C60_witness :
  put_huffman false www (mkWr 12 []) = Ok (mkWr 0 www_enc) /\ put_huffman false www (mkWr 11 []) = Err TooShort /\
  huff_decode 15 www_enc = Ok www /\ huff_decode 14 www_enc = Err TooShort /\ huff_len false www = Ok 12 /\
  put_huffman true [87; 87; 87] (mkWr 5 []) = Ok (mkWr 2 [241; 227; 199]) /\
  huff_len false [0; 1; 2] = Err TooShort.
Proof. vm_compute. auto 10. Qed.
