(** What the QPACK encoder writes. *)
Require Import Verif.Base Verif.OctetsModel Verif.OctetsProofs Verif.PktNumProofs Verif.HuffmanModel Verif.HuffmanSpec Verif.HuffmanProofs Verif.HuffmanProofs2 Verif.PropHuffman
  Verif.QpackTables Verif.QpackModel Verif.QpackSpec Verif.QpackProofs.

(** A step that writes [bs] if there is room and fails otherwise *)
Definition writes (f : wr -> res qerr wr) (bs : list Z) : Prop :=
  forall w, 0 <= wr_left w -> f w = if wr_left w <? zlen bs then Err QTooShort else Ok (mkWr (wr_left w - zlen bs) (wr_out w ++ bs)).
Lemma writes_put bs : writes (q_put bs) bs.
Proof. intros w hw. unfold q_put, put. destruct (wr_left w <? zlen bs); reflexivity. Qed.
Lemma writes_seq f g a b : writes f a -> writes g b -> writes (fun w => let* w := f w in g w) (a ++ b).
Proof.
  intros hf hg w hw. rewrite hf by exact hw. rewrite zlen_app. pose proof (zlen_nonneg a). pose proof (zlen_nonneg b). destruct (Z.ltb_spec (wr_left w) (zlen a)); cbn [bind].
  - destruct (Z.ltb_spec (wr_left w) (zlen a + zlen b)); [reflexivity|lia].
  - rewrite hg by (cbn [wr_left]; lia). cbn [wr_left wr_out].
    destruct (Z.ltb_spec (wr_left w - zlen a) (zlen b)), (Z.ltb_spec (wr_left w) (zlen a + zlen b)); try lia; [reflexivity|]. rewrite <- app_assoc. replace (wr_left w - zlen a - zlen b) with (wr_left w - (zlen a + zlen b)) by lia. reflexivity.
Qed.
Lemma writes_ext f g bs : writes f bs -> (forall w, g w = f w) -> writes g bs.
Proof. intros h e w hw. rewrite e. apply h, hw. Qed.

Lemma int_out_writes fuel : forall v, 0 <= v < 128 ^ (Z.of_nat fuel + 1) -> exists c, writes (int_out (S fuel) v) c /\ more c v /\ zlen c <= Z.of_nat fuel + 1.
Proof.
  induction fuel as [|fuel IH]; intros v hv.
  - change (128 ^ (Z.of_nat 0 + 1)) with 128 in hv. exists [v]. split; [|split; [constructor; lia|cbn; lia]]. intros w hw. cbn [int_out]. destruct (Z.leb_spec 128 v); [lia|]. rewrite Z.mod_small by lia. apply writes_put, hw.
  - destruct (Z.leb_spec 128 v) as [hge|hlt].
    + assert (hp : 128 ^ (Z.of_nat (S fuel) + 1) = 128 * 128 ^ (Z.of_nat fuel + 1)) by (rewrite <- Z.pow_succ_r by lia; f_equal; lia).
      destruct (IH (v / 128)) as (c & h1 & h2 & h3); [rewrite hp in hv; split; [apply Z.div_pos; lia|apply Z.div_lt_upper_bound; lia]|].
      exists ((v mod 128 + 128) :: c). split; [|split].
      * apply (writes_ext (fun w => let* w := q_put [v mod 128 + 128] w in int_out (S fuel) (v / 128) w)).
        -- apply (writes_seq _ _ [v mod 128 + 128] c); [apply writes_put|exact h1].
        -- intros w. remember (S fuel) as f. cbn [int_out]. destruct (Z.leb_spec 128 v); [|lia]. rewrite Z.shiftr_div_pow2 by lia. reflexivity.
      * replace v with (v mod 128 + 128 - 128 + 128 * (v / 128)) at 2 by lia. constructor; [lia|exact h2].
      * rewrite zlen_cons. lia.
    + exists [v]. split; [|split; [constructor; lia|cbn; lia]]. intros w hw. remember (S fuel) as f. cbn [int_out]. destruct (Z.leb_spec 128 v); [lia|]. rewrite Z.mod_small by lia. apply writes_put, hw.
Qed.

Lemma first_byte first p m : 1 <= p <= 8 -> 0 <= first < 256 -> first mod 2 ^ p = 0 -> 0 <= m < 2 ^ p ->
  let b := Z.lor first m in is_byte b /\ b mod 2 ^ p = m /\ forall n, p <= n -> b / 2 ^ n = first / 2 ^ n.
Proof.
  intros hp hf hz hm b. assert (hpow : 0 < 2 ^ p) by (apply Z.pow_pos_nonneg; lia). assert (ef : first = first / 2 ^ p * 2 ^ p) by (rewrite (Z.div_mod first (2 ^ p)) at 1; lia).
  assert (eb : b = first / 2 ^ p * 2 ^ p + m). { unfold b. rewrite ef at 1. rewrite <- (lor_shift (first / 2 ^ p) p m), Z.shiftl_mul_pow2 by lia. reflexivity. }
  assert (hb8 : 0 <= b < 2 ^ 8). { unfold b. assert (2 ^ p <= 2 ^ 8) by (apply Z.pow_le_mono_r; lia). apply lor_bound; [lia|change (2 ^ 8) with 256; lia|lia]. }
  change (2 ^ 8) with 256 in hb8. assert (ed : b / 2 ^ p = first / 2 ^ p) by (rewrite eb, Z.div_add_l, (Z.div_small m) by lia; lia).
  split; [exact hb8|]. split; [rewrite eb, Z.add_comm, Z.mod_add, Z.mod_small by lia; reflexivity|].
  intros n hn. replace n with (p + (n - p)) by lia. rewrite Z.pow_add_r, <- !Z.div_div by (try apply Z.pow_pos_nonneg; try lia; apply Z.pow_nonzero; lia). rewrite ed. reflexivity.
Qed.

Lemma int_writes v first p : 0 <= v < 2 ^ 64 -> 1 <= p <= 8 -> 0 <= first < 256 -> first mod 2 ^ p = 0 ->
  exists bs, writes (encode_int v first p) bs /\ int64 p bs v /\ bytes_ok bs /\ forall n, p <= n -> top n bs = Z.odd (first / 2 ^ n).
Proof.
  intros hv hp hf hz. assert (hpow : 2 <= 2 ^ p) by (change 2 with (2 ^ 1) at 1; apply Z.pow_le_mono_r; lia). assert (hpow8 : 2 ^ p <= 256) by (change 256 with (2 ^ 8); apply Z.pow_le_mono_r; lia).
  destruct (Z.ltb_spec v (2 ^ p - 1)) as [hlt|hge].
  - destruct (first_byte first p v hp hf hz ltac:(lia)) as (h1 & h2 & h3). exists [Z.lor first v]. split; [|split; [|split]].
    + intros w hw. unfold encode_int. destruct (Z.ltb_spec v (2 ^ p - 1)); [|lia]. rewrite Z.mod_small by lia. apply writes_put, hw.
    + split; [|split; [lia|cbn; lia]]. exists (Z.lor first v), []. split; [reflexivity|]. split; [exact h1|]. left. rewrite h2. auto.
    + constructor; [exact h1|constructor].
    + intros n hn. cbn [top]. rewrite h3 by exact hn. reflexivity.
  - destruct (first_byte first p (2 ^ p - 1) hp hf hz ltac:(lia)) as (h1 & h2 & h3). destruct (int_out_writes 9 (v - (2 ^ p - 1))) as (c & g1 & g2 & g3).
    { change (128 ^ (Z.of_nat 9 + 1)) with (2 ^ 70). lia. }
    exists (Z.lor first (2 ^ p - 1) :: c). split; [|split; [|split]].
    + apply (writes_ext (fun w => let* w := q_put [Z.lor first (2 ^ p - 1)] w in int_out 10 (v - (2 ^ p - 1)) w)).
      * apply (writes_seq _ _ [_] c); [apply writes_put|exact g1].
      * intros w. unfold encode_int. destruct (Z.ltb_spec v (2 ^ p - 1)); [lia|]. rewrite (Z.mod_small (2 ^ p - 1)) by lia. reflexivity.
    + split; [|split; [lia|rewrite zlen_cons; change (Z.of_nat 9 + 1) with 10 in g3; lia]]. exists (Z.lor first (2 ^ p - 1)), c. split; [reflexivity|]. split; [exact h1|]. right. split; [exact h2|]. exists (v - (2 ^ p - 1)). split; [exact g2|lia].
    + constructor; [exact h1|apply (more_bytes _ _ g2)].
    + intros n hn. cbn [top]. rewrite h3 by exact hn. reflexivity.
Qed.

(** * Strings *)
Lemma byte_bits_inj a : forall b, bytes_ok a -> bytes_ok b -> byte_bits a = byte_bits b -> a = b.
Proof.
  assert (hlen : forall x tl, byte_bits (x :: tl) = bits_of 8 x ++ byte_bits tl) by reflexivity.
  induction a as [|x a IH]; intros [|y b] ha hb e; [reflexivity|discriminate e|discriminate e|]. apply bytes_ok_cons in ha, hb. destruct ha as [hx ha], hb as [hy hb]. rewrite !hlen in e.
  assert (h8 : bits_of 8 x = bits_of 8 y /\ byte_bits a = byte_bits b).
  { pose proof (f_equal (firstn 8) e) as e1. pose proof (f_equal (skipn 8) e) as e2.
    rewrite !firstn_app, !bits_len, Nat.sub_diag, !firstn_O, !app_nil_r, !firstn_all2 in e1 by (rewrite bits_len; lia).
    rewrite !skipn_app, !bits_len, Nat.sub_diag, !skipn_O, !skipn_all2 in e2 by (rewrite bits_len; lia). auto. }
  destruct h8 as [e1 e2]. f_equal; [|apply IH; assumption]. apply (f_equal bval) in e1. rewrite !bval_bits in e1. unfold is_byte in *. change (2 ^ Z.of_nat 8) with 256 in e1. rewrite !Z.mod_small in e1 by lia. exact e1.
Qed.
Lemma encodes_inj a b l : bytes_ok a -> bytes_ok b -> encodes a l -> encodes b l -> a = b.
Proof.
  intros ha hb h g. pose proof (encodes_len _ _ h) as l1. pose proof (encodes_len _ _ g) as l2. destruct h as (k & hk & h), g as (j & hj & g). apply byte_bits_inj; [exact ha|exact hb|].
  assert (k = j). { apply (f_equal (@length bool)) in h, g. rewrite byte_bits_len, app_length in h, g. unfold ones in h, g. rewrite repeat_length in h, g. unfold zlen in l1, l2. lia. }
  subst. rewrite h, g. reflexivity.
Qed.

Lemma lowered_len lc v : zlen (lowered lc v) = zlen v.
Proof. destruct lc; [unfold lowered, lowercase, zlen; rewrite map_length|]; reflexivity. Qed.
Lemma lowered_ok lc v : bytes_ok v -> bytes_ok (lowered lc v).
Proof. intros h. rewrite lowered_map. induction v as [|b v IH]; [constructor|]. apply bytes_ok_cons in h. destruct h as [hb hv]. cbn [map]. apply bytes_ok_cons. split; [apply lower_byte; exact hb|auto]. Qed.

Lemma huffman_writes lc v : bytes_ok v -> exists bs, bytes_ok bs /\ encodes bs (lowered lc v) /\ zlen bs = enc_len (lowered lc v) /\
  writes (fun w => match put_huffman lc v w with Ok w => Ok w | Err _ => Err QTooShort | Panic => Panic end) bs.
Proof.
  intros hv. assert (hn : 0 <= enc_len (lowered lc v)) by (unfold enc_len; pose proof (zlen_nonneg (codes (lowered lc v))); apply Z.div_pos; lia).
  destruct (C60_encode lc v (mkWr (enc_len (lowered lc v)) []) hv hn) as [(h & _)|(_ & bs & h1 & h2 & h3 & _)]; [cbn in h; lia|].
  exists bs. split; [exact h1|]. split; [exact h3|]. split; [exact h2|]. intros w hw. destruct (C60_encode lc v w hv hw) as [(h & ->)|(h & bs' & g1 & g2 & g3 & ->)].
  - destruct (Z.ltb_spec (wr_left w) (zlen bs)); [reflexivity|lia].
  - rewrite (encodes_inj bs' bs _ g1 h1 g3 h3) in *. destruct (Z.ltb_spec (wr_left w) (zlen bs)); [lia|reflexivity].
Qed.

Lemma str_writes lc v first p : bytes_ok v -> zlen v < 2 ^ 64 -> 1 <= p <= 7 -> 0 <= first < 256 -> first mod 2 ^ (p + 1) = 0 ->
  exists bs, writes (encode_str lc v first p) bs /\ text int64 p bs (lowered lc v) /\ bytes_ok bs /\ (forall n, p < n -> top n bs = Z.odd (first / 2 ^ n)) /\ zlen bs <= 11 + zlen v.
Proof.
  intros hv hl hp hf hz. pose proof (zlen_nonneg v). pose proof (C60_length lc v hv) as hlen. assert (hpow : 0 < 2 ^ p) by (apply Z.pow_pos_nonneg; lia).
  assert (e1 : 2 ^ (p + 1) = 2 * 2 ^ p) by (rewrite Z.pow_add_r by lia; lia). assert (hp7 : 2 ^ p <= 128) by (change 128 with (2 ^ 7); apply Z.pow_le_mono_r; lia).
  pose proof (Z.div_mod first (2 ^ (p + 1)) ltac:(lia)) as ef. rewrite hz in ef.
  destruct (Z.ltb_spec (zlen v) (enc_len (lowered lc v))) as [hlt|hge].
  - destruct (int_writes (zlen v) first p) as (n & w1 & i1 & b1 & t1); [lia|lia|exact hf| |].
    { rewrite ef, Z.add_0_r, e1. replace (2 * 2 ^ p * (first / (2 * 2 ^ p))) with (2 * (first / (2 * 2 ^ p)) * 2 ^ p) by ring. apply Z.mod_mul. lia. }
    destruct (reads_cons int64 p n _ reads_int64 ltac:(lia) i1) as (y & tl & en).
    exists (n ++ lowered lc v). split; [|split; [|split; [|split; [|rewrite zlen_app, lowered_len; destruct i1; lia]]]].
    + apply (writes_ext (fun w => let* w := encode_int (zlen v) first p w in q_put (map (lower_if lc) v) w)).
      * apply writes_seq; [exact w1|]. rewrite lowered_map. apply writes_put.
      * intros w. unfold encode_str. rewrite hlen. reflexivity.
    + exists n, (lowered lc v). split; [reflexivity|]. rewrite lowered_len. split; [exact i1|]. split; [apply lowered_ok, hv|]. rewrite t1 by lia.
      replace (first / 2 ^ p) with (2 * (first / (2 * 2 ^ p))).
      * rewrite Z.odd_mul. reflexivity.
      * rewrite ef at 2. rewrite Z.add_0_r, e1. replace (2 * 2 ^ p * (first / (2 * 2 ^ p))) with (2 * (first / (2 * 2 ^ p)) * 2 ^ p) by ring. rewrite Z.div_mul by lia. reflexivity.
    + apply bytes_ok_app. split; [exact b1|apply lowered_ok, hv].
    + intros m hm. subst n. cbn [app top]. rewrite <- (t1 m) by lia. reflexivity.
  - destruct (huffman_writes lc v hv) as (data & b2 & he & hdl & w2).
    assert (ef1 : Z.lor first (Z.shiftl 1 p mod 256) = first + 2 ^ p).
    { rewrite Z.shiftl_mul_pow2, Z.mul_1_l, Z.mod_small by lia. rewrite ef at 1. rewrite Z.add_0_r. replace (2 ^ (p + 1) * (first / 2 ^ (p + 1))) with (Z.shiftl (first / 2 ^ (p + 1)) (p + 1)) by (rewrite Z.shiftl_mul_pow2 by lia; ring). rewrite lor_shift by lia. lia. }
    assert (hf1 : first + 2 ^ p < 256).
    { rewrite <- ef1. apply (lor_bound _ _ 8); [lia|change (2 ^ 8) with 256; lia|]. apply Z.mod_pos_bound. reflexivity. }
    destruct (int_writes (enc_len (lowered lc v)) (first + 2 ^ p) p) as (n & w1 & i1 & b1 & t1); [pose proof (zlen_nonneg data); lia|lia|lia| |].
    { replace (first + 2 ^ p) with ((2 * (first / (2 * 2 ^ p)) + 1) * 2 ^ p); [apply Z.mod_mul; lia|]. rewrite ef at 2. rewrite e1. ring. }
    destruct (reads_cons int64 p n _ reads_int64 ltac:(lia) i1) as (y & tl & en).
    exists (n ++ data). split; [|split; [|split; [|split; [|rewrite zlen_app; destruct i1; lia]]]].
    + apply (writes_ext (fun w => let* w := encode_int (enc_len (lowered lc v)) (first + 2 ^ p) p w in match put_huffman lc v w with Ok w => Ok w | Err _ => Err QTooShort | Panic => Panic end)).
      * exact (writes_seq _ _ _ _ w1 w2).
      * intros w. unfold encode_str. rewrite hlen, ef1. reflexivity.
    + exists n, data. split; [reflexivity|]. rewrite hdl. split; [exact i1|]. split; [apply lowered_ok, hv|]. rewrite t1 by lia.
      replace ((first + 2 ^ p) / 2 ^ p) with (2 * (first / (2 * 2 ^ p)) + 1).
      * rewrite Z.add_comm, Z.odd_add_mul_2. exact he.
      * replace (first + 2 ^ p) with ((2 * (first / (2 * 2 ^ p)) + 1) * 2 ^ p); [rewrite Z.div_mul by lia; reflexivity|]. rewrite ef at 2. rewrite e1. ring.
    + apply bytes_ok_app. auto.
    + intros m hm. subst n. cbn [app top]. cbn [top] in t1. rewrite t1 by lia. f_equal. replace m with ((p + 1) + (m - (p + 1))) by lia.
      rewrite Z.pow_add_r, <- !Z.div_div by (try apply Z.pow_pos_nonneg; try lia; apply Z.pow_nonzero; lia). f_equal.
      rewrite ef at 1. rewrite Z.add_0_r, e1. rewrite (Z.mul_comm (2 * 2 ^ p)), Z.div_add_l by lia. rewrite (Z.div_small (2 ^ p)) by lia. lia.
Qed.

(** * The static table of the encoder *)
Definition value_row_ok (name : list Z) (e : list Z * Z) : bool :=
  (0 <=? snd e) && (snd e <? 99) && match zget static_decode_table (snd e) with Some (n, v) => eq_bytes n name && eq_bytes v (fst e) | None => false end.
Fixpoint rows_ok (i : Z) (t : list (list (list Z * list (list Z * Z)))) : bool :=
  match t with
  | [] => true
  | row :: t => forallb (fun e => (zlen (fst e) =? i) && forallb (value_row_ok (fst e)) (snd e)) row && rows_ok (i + 1) t
  end.
Lemma table_rows : rows_ok 0 static_encode_table = true. Proof. vm_compute. reflexivity. Qed.
Lemma rows_ok_get t : forall i k row, rows_ok i t = true -> zget t k = Some row -> forallb (fun e => (zlen (fst e) =? i + k) && forallb (value_row_ok (fst e)) (snd e)) row = true.
Proof.
  induction t as [|r t IH]; intros i k row h g; [unfold zget in g; destruct (k <? 0); [discriminate g|destruct (Z.to_nat k); discriminate g]|].
  cbn [rows_ok] in h. apply andb_prop in h. destruct h as [h1 h2]. unfold zget in g. destruct (Z.ltb_spec k 0); [discriminate g|]. destruct (Z.to_nat k) as [|m] eqn:em.
  - injection g as <-. replace k with 0 by lia. rewrite Z.add_0_r. exact h1.
  - cbn [nth_error] in g. replace (i + k) with (i + 1 + (k - 1)) by lia. apply IH; [exact h2|]. unfold zget. destruct (Z.ltb_spec (k - 1) 0); [lia|]. replace (Z.to_nat (k - 1)) with m by lia. exact g.
Qed.
Lemma eq_bytes_eq a : forall b, eq_bytes a b = true -> a = b.
Proof. induction a as [|x a IH]; intros [|y b] h; try discriminate h; [reflexivity|]. cbn [eq_bytes] in h. apply andb_prop in h. destruct h as [h1 h2]. apply Z.eqb_eq in h1. rewrite h1, (IH _ h2). reflexivity. Qed.
Lemma cmp_lower_eq a : forall b, length a = length b -> cmp_lower a b = true -> a = lowercase b.
Proof.
  induction a as [|x a IH]; intros [|y b] hl h; try discriminate hl; [reflexivity|]. cbn [cmp_lower] in h. apply andb_prop in h. destruct h as [h1 h2]. apply Z.eqb_eq in h1.
  cbn [lowercase map]. f_equal; [exact h1|]. apply IH; [cbn [length] in hl; lia|exact h2].
Qed.
Lemma find_value_in value vs : forall r, find_value value vs = Some r -> exists v enc, In (v, enc) vs /\ fst r = enc /\ (snd r = true -> v = value).
Proof.
  induction vs as [|[v enc] vs IH]; intros r h; [discriminate h|]. cbn [find_value] in h. destruct (zlen v =? 0); [injection h as <-; exists v, enc; split; [left; reflexivity|split; [reflexivity|discriminate]]|].
  destruct (eq_bytes value v) eqn:e; [injection h as <-; exists v, enc; split; [left; reflexivity|split; [reflexivity|intros _; symmetry; apply eq_bytes_eq, e]]|].
  destruct (IH _ h) as (a & b & h1 & h2). exists a, b. split; [right; exact h1|exact h2].
Qed.
Lemma lookup_ok h idx (full : bool) : lookup_static h = Some (idx, full) ->
  0 <= idx < 99 /\ exists v, zget static_decode_table idx = Some (lowercase (fst h), v) /\ (full = true -> v = snd h).
Proof.
  unfold lookup_static. destruct (zget static_encode_table (zlen (fst h))) as [row|] eqn:er; [|discriminate]. pose proof (rows_ok_get _ _ _ _ table_rows er) as hr. rewrite Z.add_0_l in hr. clear er.
  induction row as [|[name values] row IH]; intros hf; [discriminate hf|]. cbn [find_name] in hf. cbn [forallb fst snd] in hr. apply andb_prop in hr. destruct hr as [hr hrs]. apply andb_prop in hr. destruct hr as [hl hvs].
  destruct (cmp_lower name (fst h)) eqn:ec; [|apply IH; assumption]. apply Z.eqb_eq in hl. apply cmp_lower_eq in ec; [|unfold zlen in hl; lia].
  assert (hin : exists v enc, In (v, enc) values /\ idx = enc /\ (full = true -> v = snd h)).
  { destruct (find_value (snd h) values) as [r|] eqn:efv; [injection hf as ->; destruct (find_value_in _ _ _ efv) as (v & enc & a & b & c); exists v, enc; auto|].
    destruct values as [|[v enc] values]; [discriminate hf|]. injection hf as <- <-. exists v, enc. split; [left; reflexivity|]. split; [reflexivity|discriminate]. }
  destruct hin as (v & enc & hi & -> & hfull). rewrite forallb_forall in hvs. specialize (hvs _ hi). unfold value_row_ok in hvs. cbn [fst snd] in hvs. apply andb_prop in hvs. destruct hvs as [hvs h2]. apply andb_prop in hvs. destruct hvs as [hv0 hv1].
  split; [lia|]. exists v. destruct (zget static_decode_table enc) as [[n v']|]; [|discriminate h2]. apply andb_prop in h2. destruct h2 as [a b]. apply eq_bytes_eq in a, b. subst. auto.
Qed.

(** * Headers *)
Definition sized (h : header) : Prop := field_ok h /\ zlen (fst h) < 2 ^ 64 /\ zlen (snd h) < 2 ^ 64.
Lemma header_writes h : sized h -> exists bs, writes (encode_header h) bs /\ line int64 bs (sent_as h) /\ bytes_ok bs /\ zlen bs <= field_size h - 10.
Proof.
  intros ((hn & hv) & ln & lv). pose proof (zlen_nonneg (fst h)). pose proof (zlen_nonneg (snd h)). unfold field_size. unfold encode_header. destruct (lookup_static h) as [[idx full]|] eqn:el.
  - destruct (lookup_ok _ _ _ el) as (hi & v & ht & hfull). destruct full.
    + specialize (hfull eq_refl). subst v. destruct (int_writes idx (Z.lor 128 64) 6) as (bs & w1 & i1 & b1 & t1); [lia|lia|cbn; lia|reflexivity|].
      exists bs. split; [exact w1|]. split; [|split; [exact b1|destruct i1; lia]]. apply (indexed _ _ idx); [rewrite t1 by lia; reflexivity|rewrite t1 by lia; reflexivity|exact i1|exact ht].
    + destruct (int_writes idx (Z.lor 64 16) 4) as (bs & w1 & i1 & b1 & t1); [lia|lia|cbn; lia|reflexivity|].
      destruct (str_writes false (snd h) 0 7 hv lv) as (vs & w2 & i2 & b2 & _ & l2); [lia|lia|reflexivity|]. exists (bs ++ vs). split; [exact (writes_seq _ _ _ _ w1 w2)|]. split; [|split; [apply bytes_ok_app; auto|rewrite zlen_app; destruct i1; lia]].
      apply (name_ref _ _ _ idx (lowercase (fst h)) v); [rewrite t1 by lia; reflexivity|rewrite t1 by lia; reflexivity|rewrite t1 by lia; reflexivity|exact i1|exact ht|exact i2].
  - destruct (str_writes true (fst h) 32 3 hn ln) as (ns & w1 & i1 & b1 & t1 & l1); [lia|lia|reflexivity|].
    destruct (str_writes false (snd h) 0 7 hv lv) as (vs & w2 & i2 & b2 & _ & l2); [lia|lia|reflexivity|]. exists (ns ++ vs). split; [exact (writes_seq _ _ _ _ w1 w2)|]. split; [|split; [apply bytes_ok_app; auto|rewrite zlen_app; lia]].
    apply literal; [rewrite t1 by lia; reflexivity|rewrite t1 by lia; reflexivity|rewrite t1 by lia; reflexivity|exact i1|exact i2].
Qed.
Lemma headers_writes hs : Forall sized hs -> exists bs, writes (encode_headers hs) bs /\ lines int64 bs (map sent_as hs) /\ bytes_ok bs /\ zlen bs <= list_size hs - 10 * zlen hs.
Proof.
  induction 1 as [|h hs hh _ IH].
  - exists []. split; [|split; [constructor|split; [constructor|cbn; lia]]]. intros w hw. cbn [encode_headers]. change (zlen (@nil Z)) with 0. destruct (Z.ltb_spec (wr_left w) 0); [lia|]. rewrite Z.sub_0_r, app_nil_r. destruct w; reflexivity.
  - destruct IH as (tl & w2 & l2 & b2 & z2). destruct (header_writes h hh) as (bs & w1 & l1 & b1 & z1). exists (bs ++ tl). split; [exact (writes_seq _ _ _ _ w1 w2)|]. split; [constructor; assumption|]. split; [apply bytes_ok_app; auto|]. rewrite zlen_app, list_size_cons, zlen_cons. lia.
Qed.
Lemma int_zero p bs : 1 <= p <= 8 -> int64 p bs 0 -> zlen bs = 1.
Proof.
  intros hp ((b & c & -> & _ & [(_ & -> & _)|(_ & w & hm & e)]) & _); [reflexivity|]. pose proof (more_nonneg _ _ hm). assert (2 <= 2 ^ p) by (change 2 with (2 ^ 1) at 1; apply Z.pow_le_mono_r; lia). lia.
Qed.
Lemma encode_writes hs : Forall sized hs -> exists bs, writes (qpack_encode hs) bs /\ section int64 bs (map sent_as hs) /\ bytes_ok bs /\ 2 <= zlen bs <= 2 + list_size hs - 10 * zlen hs.
Proof.
  intros h. destruct (headers_writes hs h) as (ls & w3 & l3 & b3 & z3). destruct (int_writes 0 0 8) as (a & w1 & i1 & b1 & _); [lia|lia|lia|reflexivity|]. destruct (int_writes 0 0 7) as (b & w2 & i2 & b2 & _); [lia|lia|lia|reflexivity|].
  exists (a ++ b ++ ls). split; [exact (writes_seq _ _ _ _ w1 (writes_seq _ _ _ _ w2 w3))|]. split; [exists a, b, ls, 0, 0; auto|]. split; [apply bytes_ok_app; split; [exact b1|apply bytes_ok_app; auto]|].
  rewrite !zlen_app, (int_zero 8 a), (int_zero 7 b) by (assumption || lia). pose proof (zlen_nonneg ls). lia.
Qed.
