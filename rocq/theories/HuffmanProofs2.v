(** Decoding whole strings, and the encoder. *)
Require Import Verif.Base Verif.OctetsModel Verif.OctetsProofs Verif.PktNumProofs Verif.HuffmanTables Verif.HuffmanModel Verif.HuffmanSpec Verif.HuffmanProofs.

(** * Unique decoding *)
Lemma codes_app a b : codes (a ++ b) = codes a ++ codes b.
Proof. apply flat_map_app. Qed.
Lemma good_strip l : forall tl m, bytes_ok l -> good (codes l ++ tl) m -> exists m', m = l ++ m' /\ good tl m'.
Proof.
  induction l as [|s l IH]; intros tl m hb hg; [exists m; auto|]. apply bytes_ok_cons in hb. destruct hb as [hs hb].
  destruct hg as [hm (k & hk & hg)]. cbn [codes flat_map] in hg. fold (codes l) in hg. rewrite <- app_assoc in hg. destruct m as [|c m].
  - cbn [codes flat_map app] in hg. symmetry in hg. apply (proj2 (code_facts s hs)) in hg. lia.
  - apply bytes_ok_cons in hm. destruct hm as [hc hm]. cbn [codes flat_map] in hg. fold (codes m) in hg. rewrite <- app_assoc in hg.
    assert (s = c).
    { destruct (comparable _ _ _ _ hg) as [h|h]; [apply prefix_free; assumption|symmetry; apply prefix_free; assumption]. }
    subst c. apply app_inv_head in hg. destruct (IH tl m hb) as (m' & -> & h); [split; [exact hm|]; exists k; auto|]. exists m'. split; [reflexivity|exact h].
Qed.
Lemma good_unique bits a b : good bits a -> good bits b -> a = b.
Proof.
  intros [ha (k & hk & ->)] hb. apply good_strip in hb; [|exact ha]. destruct hb as (m & -> & [hm (j & hj & h)]).
  destruct m as [|c m]; [symmetry; apply app_nil_r|]. apply bytes_ok_cons in hm. destruct hm as [hc _]. cbn [codes flat_map] in h. rewrite <- app_assoc in h.
  apply (proj2 (code_facts c hc)) in h. lia.
Qed.

(** * Bits of bytes *)
Lemma bits_mod m v : bits_of m (v mod 2 ^ Z.of_nat m) = bits_of m v.
Proof.
  apply bval_inj; [rewrite !bits_len; reflexivity|]. rewrite !bval_bits, Z.mod_mod; [reflexivity|]. apply Z.pow_nonzero; lia.
Qed.
Lemma bits_split n m v : bits_of (n + m) v = bits_of n (v / 2 ^ Z.of_nat m) ++ bits_of m v.
Proof.
  assert (hp : 0 < 2 ^ Z.of_nat m) by (apply Z.pow_pos_nonneg; lia).
  pose proof (bits_app n m (v / 2 ^ Z.of_nat m) (v mod 2 ^ Z.of_nat m) ltac:(apply Z.mod_pos_bound; lia)) as h.
  rewrite bits_mod in h. rewrite <- h. f_equal. rewrite (Z.mul_comm (v / _)). apply Z.div_mod. lia.
Qed.
Lemma byte_bits_app a b : byte_bits (a ++ b) = byte_bits a ++ byte_bits b.
Proof. apply flat_map_app. Qed.
Lemma byte_bits_len l : length (byte_bits l) = (8 * length l)%nat.
Proof. induction l as [|x l IH]; [reflexivity|]. unfold byte_bits in *. cbn [flat_map length]. rewrite app_length, bits_len, IH. lia. Qed.
Lemma byte_bits_be n v : byte_bits (be_enc n v) = bits_of (8 * n) v.
Proof.
  induction n as [|n IH]; [reflexivity|]. cbn [be_enc byte_bits flat_map]. fold (byte_bits (be_enc n v)). rewrite IH.
  replace (8 * S n)%nat with (8 + 8 * n)%nat by lia. rewrite bits_split. f_equal. rewrite <- (bits_mod 8 (v / 2 ^ _)). f_equal. f_equal. f_equal.
  replace (Z.of_nat (8 * n)) with (8 * Z.of_nat n) by lia. rewrite Z.pow_mul_r by lia. reflexivity.
Qed.
Lemma byte_nibbles b : is_byte b -> bits_of 8 b = bits_of 4 (Z.shiftr b 4) ++ bits_of 4 (Z.land b 15) /\ 0 <= Z.shiftr b 4 < 16 /\ 0 <= Z.land b 15 < 16.
Proof.
  intros hb. unfold is_byte in hb. rewrite Z.shiftr_div_pow2 by lia. change 15 with (Z.ones 4). rewrite Z.land_ones by lia. change (2 ^ 4) with 16. split; [|split; [lia|lia]].
  change (bits_of 8 b) with (bits_of (4 + 4) b). rewrite bits_split. f_equal. change 16 with (2 ^ Z.of_nat 4). rewrite bits_mod. reflexivity.
Qed.

(** * Decoding *)
Definition flag_ok (d : hd) : Prop := (hd_state d =? 0) || hd_eos d = short_ones (path (hd_state d)).

Lemma huff_bytes_exact max v : forall d, bytes_ok v -> is_byte (hd_state d) -> flag_ok d -> zlen (hd_out d) <= max ->
  match huff_bytes max v d with
  | Panic => False
  | Ok d' => is_byte (hd_state d') /\ flag_ok d' /\ zlen (hd_out d') <= max /\ exists l, hd_out d' = hd_out d ++ l /\ bytes_ok l /\
      path (hd_state d) ++ byte_bits v = codes l ++ path (hd_state d')
  | Err _ => forall l, good (path (hd_state d) ++ byte_bits v) l -> max < zlen (hd_out d) + zlen l
  end.
Proof.
  induction v as [|b v IH]; intros d hv hs hf hm.
  - cbn [huff_bytes]. split; [exact hs|]. split; [exact hf|]. split; [exact hm|]. exists []. rewrite !app_nil_r. split; [reflexivity|]. split; [constructor|reflexivity].
  - apply bytes_ok_cons in hv. destruct hv as [hb hv]. destruct (byte_nibbles b hb) as (eb & hn1 & hn2). cbn [huff_bytes byte_bits flat_map]. fold (byte_bits v). rewrite eb.
    rewrite <- app_assoc.
    pose proof (nibble_step max d _ hs hn1) as h1. destruct (huff_nibble max (Z.shiftr b 4) d) as [d1|?|]; cbn [bind]; [| |exact h1].
    2: { intros l hg. destruct h1 as [h1|(s & r & hsb & he & hx)]; [destruct (h1 _ _ hg)|].
         rewrite app_assoc, he, <- app_assoc in hg. replace (code s) with (codes [s]) in hg by (cbn [codes flat_map]; apply app_nil_r).
         apply good_strip in hg; [|repeat constructor; apply hsb]. destruct hg as (m' & -> & _). rewrite zlen_app, zlen_cons, zlen_nil. pose proof (zlen_nonneg m'). lia. }
    destruct h1 as (hs1 & hf1 & l1 & e1 & hb1 & hm1 & p1).
    assert (hx1 : zlen (hd_out d1) <= max) by (destruct hm1 as [hm1|hm1]; [rewrite hm1; exact hm|exact hm1]).
    pose proof (nibble_step max d1 _ hs1 hn2) as h2. destruct (huff_nibble max (Z.land b 15) d1) as [d2|?|]; cbn [bind]; [| |exact h2].
    2: { intros l hg. rewrite app_assoc, p1, <- app_assoc in hg. apply good_strip in hg; [|exact hb1]. destruct hg as (m & -> & hg). rewrite zlen_app. rewrite e1 in h2. rewrite zlen_app in h2.
         destruct h2 as [h2|(s & r & hsb & he & hx)]; [destruct (h2 _ _ hg)|].
         rewrite app_assoc, he, <- app_assoc in hg. replace (code s) with (codes [s]) in hg by (cbn [codes flat_map]; apply app_nil_r).
         apply good_strip in hg; [|repeat constructor; apply hsb]. destruct hg as (m' & -> & _). rewrite zlen_app, zlen_cons, zlen_nil. pose proof (zlen_nonneg m'). lia. }
    destruct h2 as (hs2 & hf2 & l2 & e2 & hb2 & hm2 & p2).
    assert (hx2 : zlen (hd_out d2) <= max) by (destruct hm2 as [hm2|hm2]; [rewrite hm2; exact hx1|exact hm2]).
    specialize (IH d2 hv hs2 hf2 hx2). destruct (huff_bytes max v d2) as [d3|?|]; [| |exact IH].
    + destruct IH as (hs3 & hf3 & hm3 & l3 & e3 & hb3 & p3). split; [exact hs3|]. split; [exact hf3|]. split; [exact hm3|]. exists (l1 ++ l2 ++ l3).
      split; [rewrite e3, e2, e1, !app_assoc; reflexivity|]. split; [apply bytes_ok_app; split; [exact hb1|apply bytes_ok_app; split; [exact hb2|exact hb3]]|].
      rewrite !codes_app, <- !app_assoc, <- p3. rewrite (app_assoc (codes l2)), <- p2, !app_assoc, <- p1, <- !app_assoc. reflexivity.
    + intros l hg. rewrite app_assoc, p1, <- app_assoc in hg. apply good_strip in hg; [|exact hb1]. destruct hg as (m & -> & hg).
      rewrite app_assoc, p2, <- app_assoc in hg. apply good_strip in hg; [|exact hb2]. destruct hg as (m' & -> & hg). specialize (IH m' hg).
      rewrite e2, e1 in IH. rewrite !zlen_app in *. lia.
Qed.

Lemma decode_cases max v : bytes_ok v -> 0 <= max ->
  match huff_decode max v with
  | Ok out => encodes v out /\ bytes_ok out /\ zlen out <= max
  | Err e => e = TooShort /\ forall out, encodes v out -> bytes_ok out -> max < zlen out
  | Panic => False
  end.
Proof.
  intros hv hm. unfold huff_decode. pose proof (huff_bytes_exact max v (mkHd 0 false []) hv) as h.
  cbn [hd_state hd_out] in h. change (path 0) with (@nil bool) in h. cbn [app] in h.
  assert (hfl : flag_ok (mkHd 0 false [])) by reflexivity.
  specialize (h ltac:(unfold is_byte; lia) hfl hm).
  assert (hee : forall e, huff_bytes max v (mkHd 0 false []) = Err e -> e = TooShort).
  { intros []. reflexivity. }
  destruct (huff_bytes max v (mkHd 0 false [])) as [d|e|]; cbn [bind]; [| |exact h].
  - destruct h as (hs & hf & hx & l & el & hl & hp). unfold flag_ok in hf. replace (negb (hd_state d =? 0) && negb (hd_eos d)) with (negb (short_ones (path (hd_state d)))) by (rewrite <- hf; destruct (hd_state d =? 0), (hd_eos d); reflexivity).
    destruct (short_ones (path (hd_state d))) eqn:hso; cbn [negb].
    + apply short_ones_spec in hso. destruct hso as (k & hk & hso). split; [|rewrite el; cbn [app]; rewrite el in hx; auto]. exists k. split; [exact hk|]. rewrite hp, hso, el. reflexivity.
    + split; [reflexivity|]. intros out (k & hk & ho) hob. exfalso. rewrite hp in ho. symmetry in ho.
      assert (hg : good (codes l ++ path (hd_state d)) out) by (split; [exact hob|exists k; auto]).
      apply good_strip in hg; [|exact hl]. destruct hg as (m & -> & [hmb (j & hj & hg)]). destruct m as [|c m].
      * cbn [codes flat_map app] in hg. assert (short_ones (path (hd_state d)) = true); [apply short_ones_spec; exists j; auto|]. rewrite H in hso. discriminate hso.
      * apply bytes_ok_cons in hmb. destruct hmb as [hc _]. cbn [codes flat_map] in hg. rewrite <- app_assoc in hg. destruct (path_ok _ _ _ hs hc hg).
  - split; [apply (hee e eq_refl)|]. intros out (k & hk & ho) hob. specialize (h out). rewrite Z.add_0_l in h. apply h. split; [exact hob|]. exists k. auto.
Qed.

(** * Encoding *)
Lemma table_b : forallb (fun s => match zget encode_table s with Some (n, c) => (5 <=? n) && (n <=? 30) && (0 <=? c) && (c <? 2 ^ n) | None => false end) symbols = true.
Proof. vm_compute. reflexivity. Qed.
Lemma table_entry s : is_byte s -> exists n c, zget encode_table s = Some (n, c) /\ 5 <= n <= 30 /\ 0 <= c < 2 ^ n /\ code s = bits_of (Z.to_nat n) c /\ bval (code s) = c /\ zlen (code s) = n.
Proof.
  intros hs. pose proof table_b as h. rewrite forallb_forall in h. apply symbols_in in hs. specialize (h s hs). unfold code. destruct (zget encode_table s) as [[n c]|]; [|discriminate h].
  exists n, c. rewrite !Bool.andb_true_iff, !Z.leb_le, Z.ltb_lt in h. split; [reflexivity|]. split; [lia|]. split; [lia|]. split; [reflexivity|].
  rewrite bval_bits, Z2Nat.id by lia. unfold zlen. rewrite bits_len, Z2Nat.id by lia. rewrite Z.mod_small by lia. auto.
Qed.
Lemma lower_byte lc b : is_byte b -> is_byte (lower_if lc b).
Proof. unfold is_byte, lower_if, lower. destruct lc; [|lia]. destruct (Z.leb_spec 65 b), (Z.leb_spec b 90); cbn [andb]; lia. Qed.

Definition acc_ok (B : list bool) (bits : Z) : Prop := zlen B < 64 /\ bits = bval B * 2 ^ (64 - zlen B).

Lemma acc_add B bits C : acc_ok B bits -> zlen B + zlen C < 64 -> acc_ok (B ++ C) (Z.lor bits (Z.shiftl (bval C) (64 - (zlen B + zlen C)) mod 2 ^ 64)).
Proof.
  intros [h1 ->] h2. pose proof (zlen_nonneg B). pose proof (zlen_nonneg C). unfold acc_ok. rewrite zlen_app. split; [exact h2|].
  rewrite Z.shiftl_mul_pow2 by lia. pose proof (bval_range C) as hc. unfold zlen in *.
  assert (e : 2 ^ (64 - Z.of_nat (length B)) = 2 ^ (64 - (Z.of_nat (length B) + Z.of_nat (length C))) * 2 ^ Z.of_nat (length C)) by (rewrite <- Z.pow_add_r by lia; f_equal; lia).
  assert (0 < 2 ^ (64 - (Z.of_nat (length B) + Z.of_nat (length C)))) by (apply Z.pow_pos_nonneg; lia).
  assert (hlt : bval C * 2 ^ (64 - (Z.of_nat (length B) + Z.of_nat (length C))) < 2 ^ (64 - Z.of_nat (length B))) by (rewrite e; nia).
  rewrite Z.mod_small.
  2: { split; [nia|]. eapply Z.lt_le_trans; [exact hlt|]. apply Z.pow_le_mono_r; lia. }
  rewrite <- (Z.shiftl_mul_pow2 (bval B)) by lia. rewrite lor_shift by (try split; try lia; nia). rewrite bval_app, e. ring.
Qed.

Lemma acc_full B bits C p : acc_ok B bits -> zlen B + zlen C = 64 + p -> 0 <= p -> p <= zlen C ->
  exists C1 C2, C = C1 ++ C2 /\ zlen C2 = p /\ bits_of 64 (Z.lor bits (Z.shiftr (bval C) p)) = B ++ C1.
Proof.
  intros [h1 ->] h2 hp hp2. pose proof (zlen_nonneg B).
  exists (firstn (length C - Z.to_nat p) C), (skipn (length C - Z.to_nat p) C). rewrite firstn_skipn. split; [reflexivity|].
  assert (hl2 : length (skipn (length C - Z.to_nat p) C) = Z.to_nat p) by (rewrite skipn_length; unfold zlen in *; lia).
  split; [unfold zlen; rewrite hl2; lia|].
  set (C1 := firstn _ C) in *. set (C2 := skipn _ C) in *. assert (hC : C = C1 ++ C2) by (symmetry; apply firstn_skipn).
  assert (hl1 : length C1 = (length C - Z.to_nat p)%nat) by (rewrite hC, app_length, hl2; lia).
  assert (e : Z.shiftr (bval C) p = bval C1).
  { rewrite hC, bval_app, hl2, Z2Nat.id, Z.shiftr_div_pow2 by lia. pose proof (bval_range C2) as hr. rewrite hl2, Z2Nat.id in hr by lia.
    rewrite Z.div_add_l, Z.div_small by lia. lia. }
  rewrite e. rewrite <- (Z.shiftl_mul_pow2 (bval B)) by lia. pose proof (bval_range C1) as hr. replace (64 - zlen B) with (Z.of_nat (length C1)) by (unfold zlen in *; lia).
  rewrite lor_shift by (try lia; exact hr). replace 64%nat with (length B + length C1)%nat by (unfold zlen in *; lia).
  rewrite bits_app by exact hr. rewrite !bits_bval. reflexivity.
Qed.

Lemma acc_rest C2 C1 p : zlen C2 = p -> 0 < p < 64 -> acc_ok C2 (Z.shiftl (bval (C1 ++ C2)) (64 - p) mod 2 ^ 64).
Proof.
  intros h hp. split; [lia|]. rewrite h, Z.shiftl_mul_pow2, bval_app by lia. pose proof (bval_range C2) as hr. unfold zlen in h. rewrite h in *.
  rewrite Z.mul_add_distr_r, <- Z.mul_assoc, <- Z.pow_add_r by lia. replace (p + (64 - p)) with 64 by lia. rewrite Z.add_comm, Z.mod_add by lia.
  assert (e : 2 ^ 64 = 2 ^ p * 2 ^ (64 - p)) by (rewrite <- Z.pow_add_r by lia; f_equal; lia). assert (0 < 2 ^ (64 - p)) by (apply Z.pow_pos_nonneg; lia).
  apply Z.mod_small. rewrite e. nia.
Qed.

Lemma lowered_map lc v : lowered lc v = map (lower_if lc) v.
Proof. destruct lc; [reflexivity|]. cbn [lowered]. symmetry. apply map_id. Qed.
Lemma lowered_nil lc : lowered lc [] = []. Proof. destruct lc; reflexivity. Qed.
Lemma lowered_cons lc b v : lowered lc (b :: v) = lower_if lc b :: lowered lc v. Proof. destruct lc; reflexivity. Qed.

Lemma huff_loop_ok lc v : forall B bits w, bytes_ok v -> acc_ok B bits -> 0 <= wr_left w ->
  match huff_loop lc v bits (zlen B) w with
  | Ok (bits', p', w') => exists O B', bytes_ok O /\ wr_out w' = wr_out w ++ O /\ wr_left w' = wr_left w - zlen O /\ 0 <= wr_left w' /\
      B ++ codes (lowered lc v) = byte_bits O ++ B' /\ acc_ok B' bits' /\ p' = zlen B'
  | Err _ => 8 * wr_left w < zlen (B ++ codes (lowered lc v))
  | Panic => False
  end.
Proof.
  induction v as [|b v IH]; intros B bits w hv ha hw.
  - rewrite lowered_nil. cbn [huff_loop codes flat_map]. exists [], B. rewrite !app_nil_r. split; [constructor|]. split; [reflexivity|]. split; [rewrite zlen_nil; lia|]. repeat split; auto; apply ha.
  - apply bytes_ok_cons in hv. destruct hv as [hb hv]. rewrite lowered_cons. cbn [huff_loop codes flat_map]. fold (codes (lowered lc v)).
    destruct (table_entry _ (lower_byte lc b hb)) as (n & c & -> & hn & hc & _ & hbc & hlc). set (C := code (lower_if lc b)) in *. rewrite <- hbc, <- hlc. pose proof (zlen_nonneg B).
    destruct (Z.ltb_spec (zlen B + zlen C) 64) as [hlt|hge].
    + unfold shl64. destruct (Z.leb_spec 64 (64 - (zlen B + zlen C))); [lia|]. cbn [bind].
      specialize (IH (B ++ C) _ w hv (acc_add B bits C ha hlt) hw). rewrite (zlen_app B C) in IH.
      destruct (huff_loop lc v _ (zlen B + zlen C) w) as [[[bits' p'] w']|?|]; [|rewrite !zlen_app in *; lia|exact IH].
      destruct IH as (O & B' & h1 & h2 & h3 & h4 & h5 & h6). exists O, B'. rewrite <- app_assoc in h5. auto 8.
    + destruct (acc_full B bits C (zlen B + zlen C - 64) ha ltac:(lia) ltac:(lia) ltac:(destruct ha; lia)) as (C1 & C2 & hC & hl2 & hbits).
      unfold shr64. destruct (Z.leb_spec 64 (zlen B + zlen C - 64)); [destruct ha; lia|]. cbn [bind]. unfold put. rewrite be_enc_len. change (Z.of_nat 8) with 8.
      destruct (Z.ltb_spec (wr_left w) 8) as [hl|hl].
      { cbn [bind]. rewrite !zlen_app. pose proof (zlen_nonneg (codes (lowered lc v))). lia. }
      cbn [bind]. set (O1 := be_enc 8 _) in *. assert (hO1 : byte_bits O1 = B ++ C1) by (unfold O1; rewrite byte_bits_be; exact hbits).
      assert (hO1l : zlen O1 = 8) by (unfold O1; rewrite be_enc_len; reflexivity).
      set (w1 := mkWr (wr_left w - 8) (wr_out w ++ O1)).
      assert (ha2 : exists bits2, (if zlen B + zlen C - 64 =? 0 then Ok 0 else shl64 (bval C) (64 - (zlen B + zlen C - 64))) = Ok bits2 /\ acc_ok C2 bits2).
      { destruct (Z.eqb_spec (zlen B + zlen C - 64) 0) as [e0|n0].
        - exists 0. split; [reflexivity|]. destruct C2; [split; [rewrite zlen_nil; lia|reflexivity]|rewrite zlen_cons in hl2; pose proof (zlen_nonneg C2); lia].
        - unfold shl64. destruct (Z.leb_spec 64 (64 - (zlen B + zlen C - 64))); [lia|]. eexists. split; [reflexivity|]. rewrite hC at 1. apply acc_rest; [exact hl2|destruct ha; lia]. }
      destruct ha2 as (bits2 & -> & ha2). cbn [bind]. specialize (IH C2 bits2 w1 hv ha2 ltac:(unfold w1; cbn; lia)). rewrite hl2 in IH.
      destruct (huff_loop lc v bits2 _ w1) as [[[bits' p'] w']|?|].
      * destruct IH as (O & B' & h1 & h2 & h3 & h4 & h5 & h6). exists (O1 ++ O), B'. cbn [w1 wr_out wr_left] in *.
        split; [apply bytes_ok_app; split; [apply be_enc_bytes|exact h1]|]. split; [rewrite h2, app_assoc; reflexivity|]. split; [rewrite zlen_app; lia|]. split; [lia|].
        split; [|exact h6]. rewrite byte_bits_app, hO1, hC, <- !app_assoc, h5. reflexivity.
      * cbn [w1 wr_left] in IH. rewrite hC, !zlen_app in *. apply (f_equal zlen) in hO1. unfold zlen in hO1 at 1. rewrite byte_bits_len, zlen_app in hO1. unfold zlen in hO1l. lia.
      * exact IH.
Qed.

(** The last bytes *)
Lemma be_split n m v : be_enc (n + m) v = be_enc n (v / 256 ^ Z.of_nat m) ++ be_enc m v.
Proof.
  induction n as [|n IH]; [reflexivity|]. cbn [be_enc Nat.add app]. rewrite IH. f_equal. f_equal.
  rewrite Nat2Z.inj_add, Z.add_comm, Z.pow_add_r, Z.div_div by (try apply Z.pow_nonzero; try apply Z.pow_pos_nonneg; lia). reflexivity.
Qed.
Lemma tail_ok fuel : forall m bits w, (m < fuel)%nat -> 0 <= wr_left w ->
  huff_tail fuel bits (8 * Z.of_nat m) w = Err TooShort /\ wr_left w < Z.of_nat m \/
  huff_tail fuel bits (8 * Z.of_nat m) w = Ok (mkWr (wr_left w - Z.of_nat m) (wr_out w ++ be_enc m bits)) /\ Z.of_nat m <= wr_left w.
Proof.
  induction fuel as [|fuel IH]; intros m bits w hm hw; [lia|]. cbn [huff_tail]. destruct m as [|m].
  - right. cbn. destruct w as [l o]. rewrite app_nil_r, Z.sub_0_r. split; [reflexivity|exact hw].
  - destruct (Z.ltb_spec 0 (8 * Z.of_nat (S m))); [|lia]. replace (8 * Z.of_nat (S m) - 8) with (8 * Z.of_nat m) by lia. unfold put. rewrite be_enc_len.
    destruct (Z.ltb_spec (wr_left w) (Z.of_nat 1)); cbn [bind]; [left; split; [reflexivity|lia]|]. set (w1 := mkWr _ _).
    assert (e : be_enc (S m) bits = be_enc 1 (Z.shiftr bits (8 * Z.of_nat m)) ++ be_enc m bits).
    { change (S m) with (1 + m)%nat. rewrite be_split. f_equal. f_equal. rewrite Z.shiftr_div_pow2, Z.pow_mul_r by lia. reflexivity. }
    destruct (IH m bits w1) as [[h1 h2]|[h1 h2]]; [lia|unfold w1; cbn [wr_left]; lia| |]; rewrite h1; [left|right]; unfold w1 in *; cbn [wr_left wr_out] in *.
    + split; [reflexivity|lia].
    + split; [|lia]. rewrite e, <- app_assoc. f_equal. f_equal. lia.
Qed.

Lemma bval_ones k : bval (ones k) = 2 ^ Z.of_nat k - 1.
Proof.
  unfold ones. induction k as [|k IH]; [reflexivity|]. cbn [repeat]. rewrite bval_cons, repeat_length, IH, Nat2Z.inj_succ, Z.pow_succ_r by lia. lia.
Qed.

Lemma put_huffman_ok lc v w : bytes_ok v -> 0 <= wr_left w ->
  match put_huffman lc v w with
  | Ok w' => exists O, bytes_ok O /\ wr_out w' = wr_out w ++ O /\ wr_left w' = wr_left w - zlen O /\ 0 <= wr_left w' /\ encodes O (lowered lc v)
  | Err e => e = TooShort /\ 8 * wr_left w < zlen (codes (lowered lc v))
  | Panic => False
  end.
Proof.
  intros hv hw. unfold put_huffman. pose proof (huff_loop_ok lc v [] 0 w hv ltac:(split; [rewrite zlen_nil; lia|reflexivity]) hw) as h. change (zlen (@nil bool)) with 0 in h. cbn [app] in h.
  destruct (huff_loop lc v 0 0 w) as [[[bits p] w1]|[]|]; cbn [bind]; [|auto|exact h].
  destruct h as (O & B & hO & ho & hl & hl0 & hb & [hB ->] & ->).
  destruct (Z.eqb_spec (zlen B) 0) as [e0|n0].
  { destruct B; [|rewrite zlen_cons in e0; pose proof (zlen_nonneg B); lia]. exists O. repeat split; auto. exists 0%nat. split; [lia|]. rewrite app_nil_r in *. auto. }
  pose proof (zlen_nonneg B). set (q := (zlen B + 7) / 8 * 8). assert (hq : zlen B <= q <= 64 /\ q < zlen B + 8 /\ q mod 8 = 0) by (unfold q; lia).
  unfold shr64 at 1. destruct (Z.leb_spec 64 (zlen B)); [lia|]. cbn [bind].
  assert (eo : Z.shiftr (2 ^ 64 - 1) (zlen B) = 2 ^ (64 - zlen B) - 1).
  { rewrite Z.shiftr_div_pow2 by lia. replace (2 ^ 64 - 1) with ((2 ^ (64 - zlen B) - 1) * 2 ^ zlen B + (2 ^ zlen B - 1)).
    - assert (0 < 2 ^ zlen B) by (apply Z.pow_pos_nonneg; lia). rewrite Z.div_add_l, Z.div_small by lia. lia.
    - replace 64 with ((64 - zlen B) + zlen B) at 2 by lia. rewrite Z.pow_add_r by lia. ring. }
  rewrite eo. assert (0 < 2 ^ (64 - zlen B)) by (apply Z.pow_pos_nonneg; lia). rewrite <- (Z.shiftl_mul_pow2 (bval B)), lor_shift by lia.
  fold q. unfold shr64 at 1. destruct (Z.leb_spec 64 (64 - q)); [lia|]. cbn [bind].
  set (r := Z.to_nat (q - zlen B)). assert (hr : Z.of_nat r = q - zlen B) by (unfold r; lia).
  assert (ev : Z.shiftr (bval B * 2 ^ (64 - zlen B) + (2 ^ (64 - zlen B) - 1)) (64 - q) = bval (B ++ ones r)).
  { rewrite bval_app, bval_ones. unfold ones. rewrite repeat_length, hr, Z.shiftr_div_pow2 by lia. assert (0 < 2 ^ (64 - q)) by (apply Z.pow_pos_nonneg; lia).
    replace (2 ^ (64 - zlen B)) with (2 ^ (q - zlen B) * 2 ^ (64 - q)) by (rewrite <- Z.pow_add_r by lia; f_equal; lia).
    replace (bval B * (2 ^ (q - zlen B) * 2 ^ (64 - q)) + (2 ^ (q - zlen B) * 2 ^ (64 - q) - 1)) with ((bval B * 2 ^ (q - zlen B) + (2 ^ (q - zlen B) - 1)) * 2 ^ (64 - q) + (2 ^ (64 - q) - 1)) by ring.
    rewrite Z.div_add_l, Z.div_small by lia. lia. }
  rewrite ev. set (V := bval (B ++ ones r)).
  set (m := Z.to_nat (q / 8)). assert (hm : 8 * Z.of_nat m = q) by (unfold m; lia).
  assert (hV : byte_bits (be_enc m V) = B ++ ones r).
  { rewrite byte_bits_be. unfold V. replace (8 * m)%nat with (length (B ++ ones r)); [apply bits_bval|]. rewrite app_length. unfold ones, zlen in *. rewrite repeat_length. lia. }
  assert (hend : forall k w2, k = Z.of_nat m -> w2 = mkWr (wr_left w1 - k) (wr_out w1 ++ be_enc m V) -> k <= wr_left w1 ->
    exists O0, bytes_ok O0 /\ wr_out w2 = wr_out w ++ O0 /\ wr_left w2 = wr_left w - zlen O0 /\ 0 <= wr_left w2 /\ encodes O0 (lowered lc v)).
  { intros k w2 -> -> hk. exists (O ++ be_enc m V). cbn [wr_out wr_left]. split; [apply bytes_ok_app; split; [exact hO|apply be_enc_bytes]|]. rewrite ho, app_assoc. split; [reflexivity|].
    rewrite zlen_app, be_enc_len. split; [lia|]. split; [lia|]. exists r. split; [lia|]. rewrite byte_bits_app, hV, app_assoc, hb. reflexivity. }
  assert (herr : wr_left w1 < Z.of_nat m -> 8 * wr_left w < zlen (codes (lowered lc v))).
  { intros hx. rewrite hb, zlen_app. unfold zlen at 1. rewrite byte_bits_len. unfold zlen in *. lia. }
  destruct (Z.leb_spec 32 q) as [h32|h32].
  - unfold put. rewrite be_enc_len. change (Z.of_nat 4) with 4. destruct (Z.ltb_spec (wr_left w1) 4) as [h4|h4]; cbn [bind]; [split; [reflexivity|apply herr; lia]|].
    assert (em : m = (4 + (m - 4))%nat) by lia. assert (e2 : q - 32 = 8 * Z.of_nat (m - 4)) by lia. rewrite e2.
    destruct (tail_ok 9 (m - 4) V (mkWr (wr_left w1 - 4) (wr_out w1 ++ be_enc 4 (Z.shiftr V (8 * Z.of_nat (m - 4)))))) as [[h1 h2]|[h1 h2]]; [lia|cbn [wr_left]; lia| |]; rewrite h1; cbn [wr_left wr_out] in h2.
    + split; [reflexivity|apply herr; lia].
    + apply (hend (Z.of_nat m)); [reflexivity| |lia]. cbn [wr_left wr_out]. rewrite <- app_assoc. f_equal; [lia|]. f_equal. rewrite em at 3. rewrite be_split. f_equal. f_equal.
      rewrite Z.shiftr_div_pow2, Z.pow_mul_r by lia. reflexivity.
  - cbn [bind]. rewrite <- hm. destruct (tail_ok 9 m V w1) as [[h1 h2]|[h1 h2]]; [lia|exact hl0| |]; rewrite h1.
    + split; [reflexivity|apply herr; lia].
    + apply (hend (Z.of_nat m)); [reflexivity|reflexivity|lia].
Qed.

(** ** The length *)
Lemma huff_bits_ok lc v : forall n, bytes_ok v ->
  fold_left (fun acc b => let* n := acc in match zget encode_table (lower_if lc b) with None => Panic | Some (nbits, _) => Ok (n + nbits) end) v (@Ok oct_err _ n) =
  Ok (n + zlen (codes (lowered lc v))).
Proof.
  induction v as [|b v IH]; intros n hv; [rewrite lowered_nil; cbn; f_equal; lia|]. apply bytes_ok_cons in hv. destruct hv as [hb hv]. rewrite lowered_cons. cbn [fold_left bind codes flat_map].
  destruct (table_entry _ (lower_byte lc b hb)) as (k & c & -> & hk & _ & _ & _ & hl). rewrite IH by exact hv. unfold codes. rewrite zlen_app, hl. f_equal. lia.
Qed.
Lemma huff_len_ok lc v : bytes_ok v -> huff_len lc v = if zlen v <? enc_len (lowered lc v) then Err TooShort else Ok (enc_len (lowered lc v)).
Proof.
  intros hv. unfold huff_len, huff_bits. rewrite huff_bits_ok, Z.add_0_l by exact hv. cbn [bind]. unfold enc_len. pose proof (zlen_nonneg (codes (lowered lc v))).
  set (n := zlen (codes (lowered lc v))) in *. replace (if n mod 8 =? 0 then n / 8 else n / 8 + 1) with ((n + 7) / 8); [reflexivity|].
  destruct (Z.eqb_spec (n mod 8) 0); lia.
Qed.
Lemma encodes_len bs l : encodes bs l -> zlen bs = enc_len l.
Proof.
  intros (k & hk & h). apply (f_equal zlen) in h. rewrite zlen_app in h. unfold zlen in h at 1 3. rewrite byte_bits_len in h. unfold ones in h. rewrite repeat_length in h. unfold enc_len. unfold zlen in *. lia.
Qed.
