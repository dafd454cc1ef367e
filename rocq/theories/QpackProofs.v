(** Integers, strings, lines and sections of QPACK. *)
Require Import Verif.Base Verif.OctetsModel Verif.OctetsProofs Verif.PktNumProofs Verif.HuffmanModel Verif.HuffmanSpec Verif.HuffmanProofs Verif.HuffmanProofs2 Verif.PropHuffman
  Verif.QpackTables Verif.QpackModel Verif.QpackSpec.

(** * Bits *)
Lemma flag_top x n : 0 <= n -> (Z.land x (2 ^ n) =? 2 ^ n) = Z.odd (x / 2 ^ n).
Proof.
  intros hn. rewrite <- Z.shiftr_div_pow2, <- Z.testbit_odd by lia.
  assert (e : Z.land x (2 ^ n) = if Z.testbit x n then 2 ^ n else 0).
  { apply Z.bits_inj'. intros m hm. rewrite Z.land_spec, Z.pow2_bits_eqb by lia. destruct (Z.eqb_spec n m) as [->|hne].
    - destruct (Z.testbit x m) eqn:e; cbn [andb]; [rewrite Z.pow2_bits_true by lia; reflexivity|rewrite Z.bits_0; reflexivity].
    - rewrite andb_false_r. destruct (Z.testbit x n); [rewrite Z.pow2_bits_false by lia; reflexivity|rewrite Z.bits_0; reflexivity]. }
  rewrite e. assert (0 < 2 ^ n) by (apply Z.pow_pos_nonneg; lia). destruct (Z.testbit x n); [apply Z.eqb_refl|]. apply Z.eqb_neq. lia.
Qed.
Lemma low7 b : is_byte b -> Z.land b 127 = b mod 128 /\ (Z.land b 128 =? 0) = (b <? 128).
Proof.
  intros hb. unfold is_byte in hb. split; [change 127 with (Z.ones 7); rewrite Z.land_ones by lia; reflexivity|].
  pose proof (flag_top b 7 ltac:(lia)) as h. change (2 ^ 7) with 128 in h.
  destruct (Z.ltb_spec b 128).
  - rewrite Z.div_small in h by lia. assert (Z.land b 128 <> 128) by (intros e; rewrite e in h; discriminate h).
    assert (e : Z.land b 128 = 0 \/ Z.land b 128 = 128).
    { clear h H0. assert (hl : Z.land b 128 = if Z.testbit b 7 then 128 else 0).
      { apply Z.bits_inj'. intros m hm. rewrite Z.land_spec. change 128 with (2 ^ 7). rewrite Z.pow2_bits_eqb by lia. destruct (Z.eqb_spec 7 m) as [<-|hne].
        - destruct (Z.testbit b 7) eqn:e; [rewrite Z.pow2_bits_true by lia; reflexivity|rewrite Z.bits_0; reflexivity].
        - rewrite andb_false_r. destruct (Z.testbit b 7); [rewrite Z.pow2_bits_false by lia; reflexivity|rewrite Z.bits_0; reflexivity]. }
      rewrite hl. destruct (Z.testbit b 7); auto. }
    destruct e as [-> | e]; [reflexivity|contradiction].
  - replace (b / 128) with 1 in h by lia. apply Z.eqb_eq in h. rewrite h. reflexivity.
Qed.

(** * Integers *)
Lemma more_nonneg c w : more c w -> 0 <= w.
Proof. induction 1; lia. Qed.
Lemma more_bytes c w : more c w -> bytes_ok c.
Proof. induction 1; repeat constructor; unfold is_byte; try lia. assumption. Qed.
Lemma more_len c w : more c w -> 1 <= zlen c.
Proof. destruct 1; rewrite zlen_cons; pose proof (zlen_nonneg (@nil Z)); [lia|]. pose proof (zlen_nonneg c). lia. Qed.

Lemma loop_complete c w : more c w -> forall k val rest, 0 <= k -> 0 <= val -> k + zlen c <= 10 -> val + w * 2 ^ (7 * k) < 2 ^ 64 ->
  int_loop (c ++ rest) val (7 * k) = Ok (val + w * 2 ^ (7 * k), rest).
Proof.
  induction 1 as [b hb|b c v hb hc IH]; intros k val rest hk hv hl hs; cbn [app int_loop].
  - rewrite zlen_cons, zlen_nil in hl. destruct (Z.leb_spec 64 (7 * k)); [lia|]. destruct (low7 b) as [-> ->]; [unfold is_byte; lia|].
    assert (0 < 2 ^ (7 * k)) by (apply Z.pow_pos_nonneg; lia). rewrite Z.shiftl_mul_pow2, Z.mod_small, Z.mod_small by (try lia; nia).
    unfold u64_max. destruct (Z.ltb_spec 18446744073709551615 (val + b * 2 ^ (7 * k))); [lia|]. destruct (Z.ltb_spec b 128); [reflexivity|lia].
  - pose proof (more_nonneg _ _ hc) as hw. pose proof (more_len _ _ hc). rewrite zlen_cons in hl. destruct (Z.leb_spec 64 (7 * k)); [lia|]. destruct (low7 b) as [-> ->]; [unfold is_byte; lia|].
    assert (0 < 2 ^ (7 * k)) by (apply Z.pow_pos_nonneg; lia). replace (b mod 128) with (b - 128) by lia.
    assert (e7 : 2 ^ (7 * (k + 1)) = 128 * 2 ^ (7 * k)) by (replace (7 * (k + 1)) with (7 + 7 * k) by lia; rewrite Z.pow_add_r by lia; reflexivity).
    rewrite Z.shiftl_mul_pow2, Z.mod_small by (try lia; nia).
    unfold u64_max. destruct (Z.ltb_spec 18446744073709551615 (val + (b - 128) * 2 ^ (7 * k))); [nia|]. destruct (Z.ltb_spec b 128); [lia|].
    replace (7 * k + 7) with (7 * (k + 1)) by lia. rewrite IH; [|lia|nia|lia|rewrite e7; nia]. f_equal. f_equal. rewrite e7. ring.
Qed.

Lemma loop_sound b : forall k val v rest, bytes_ok b -> 0 <= k -> 0 <= val < 2 ^ 64 -> int_loop b val (7 * k) = Ok (v, rest) ->
  exists c w, b = c ++ rest /\ more c w /\ k + zlen c <= 10 /\ 0 <= v < 2 ^ 64 /\ v = (val + w * 2 ^ (7 * k)) mod 2 ^ 64 /\ (k + zlen c <= 9 -> v = val + w * 2 ^ (7 * k)) /\
    forall rest', int_loop (c ++ rest') val (7 * k) = Ok (v, rest').
Proof.
  induction b as [|x b IH]; intros k val v rest hb hk hval h; [discriminate h|]. cbn [int_loop] in h. apply bytes_ok_cons in hb. destruct hb as [hx hb].
  destruct (Z.leb_spec 64 (7 * k)); [discriminate h|]. destruct (low7 x hx) as [e1 e2]. rewrite e1, e2 in h. unfold is_byte in hx.
  assert (hp : 0 < 2 ^ (7 * k)) by (apply Z.pow_pos_nonneg; lia). rewrite Z.shiftl_mul_pow2 in h by lia.
  pose proof (Z.mod_pos_bound (x mod 128 * 2 ^ (7 * k)) (2 ^ 64) ltac:(lia)) as hm. set (inc := (x mod 128 * 2 ^ (7 * k)) mod 2 ^ 64) in *.
  destruct (Z.ltb_spec u64_max (val + inc)) as [|hle]; [discriminate h|]. unfold u64_max in hle.
  assert (hex : k <= 8 -> inc = x mod 128 * 2 ^ (7 * k)).
  { intros h8. unfold inc. apply Z.mod_small. assert (2 ^ (7 * k) <= 2 ^ 56) by (apply Z.pow_le_mono_r; lia). split; [apply Z.mul_nonneg_nonneg; lia|].
    apply Z.le_lt_trans with (127 * 2 ^ 56); [apply Z.mul_le_mono_nonneg; lia|reflexivity]. }
  destruct (Z.ltb_spec x 128) as [hlt|hge].
  - injection h as <- <-. exists [x], x. split; [reflexivity|]. split; [constructor; lia|]. rewrite zlen_cons, zlen_nil. split; [lia|]. split; [lia|].
    assert (ex : x mod 128 = x) by (apply Z.mod_small; lia). assert (einc : inc = (x * 2 ^ (7 * k)) mod 2 ^ 64) by (unfold inc; rewrite ex; reflexivity). split; [|split].
    + symmetry. rewrite <- Z.add_mod_idemp_r by lia. rewrite <- einc. apply Z.mod_small. lia.
    + intros h9. rewrite hex, ex by lia. reflexivity.
    + intros rest'. cbn [app int_loop]. destruct (Z.leb_spec 64 (7 * k)); [lia|]. rewrite e1, e2, Z.shiftl_mul_pow2 by lia. fold inc. unfold u64_max.
      destruct (Z.ltb_spec 18446744073709551615 (val + inc)); [lia|]. destruct (Z.ltb_spec x 128); [reflexivity|lia].
  - replace (7 * k + 7) with (7 * (k + 1)) in h by lia. apply IH in h; [|exact hb|lia|lia]. destruct h as (c & w & -> & hc & hl & hv & hmod & hexact & hall).
    exists (x :: c), (x - 128 + 128 * w). split; [reflexivity|]. split; [constructor; [lia|exact hc]|]. rewrite zlen_cons. split; [lia|]. split; [exact hv|].
    assert (e7 : 2 ^ (7 * (k + 1)) = 128 * 2 ^ (7 * k)) by (replace (7 * (k + 1)) with (7 + 7 * k) by lia; rewrite Z.pow_add_r by lia; reflexivity).
    assert (ex : x mod 128 = x - 128) by lia. pose proof (more_len _ _ hc). split; [|split].
    + rewrite hmod, hex, e7, ex by lia. f_equal. ring.
    + intros h9. rewrite hexact, hex, e7, ex by lia. ring.
    + intros rest'. cbn [app int_loop]. destruct (Z.leb_spec 64 (7 * k)); [lia|]. rewrite e1, e2, Z.shiftl_mul_pow2 by lia. fold inc. unfold u64_max.
      destruct (Z.ltb_spec 18446744073709551615 (val + inc)); [lia|]. destruct (Z.ltb_spec x 128); [lia|]. replace (7 * k + 7) with (7 * (k + 1)) by lia. apply hall.
Qed.

Lemma mask_mod x p : 0 <= p -> Z.land x (2 ^ p - 1) = x mod 2 ^ p.
Proof. intros h. rewrite <- Z.land_ones by lia. f_equal. rewrite Z.ones_equiv. lia. Qed.

Lemma int_complete p bs v rest : 1 <= p <= 8 -> int64 p bs v -> decode_int p (bs ++ rest) = Ok (v, rest) /\ 0 <= v.
Proof.
  intros hp ((b & c & -> & hb & h) & hv & hl). cbn [app decode_int]. rewrite mask_mod by lia. assert (hpow : 0 < 2 ^ p) by (apply Z.pow_pos_nonneg; lia).
  pose proof (Z.mod_pos_bound b (2 ^ p) hpow). destruct h as [(h1 & -> & ->)|(h1 & w & hc & ->)].
  - destruct (Z.ltb_spec (b mod 2 ^ p) (2 ^ p - 1)); [split; [reflexivity|lia]|lia].
  - rewrite h1, Z.ltb_irrefl. pose proof (more_nonneg _ _ hc). rewrite zlen_cons in hl. rewrite <- (Z.mul_1_r w). change 1 with (2 ^ (7 * 0)) at 2. split; [|cbn; lia].
    replace (2 ^ p - 1 + w * 2 ^ (7 * 0)) with (2 ^ p - 1 + w * 2 ^ (7 * 0)) by reflexivity. change (int_loop (c ++ rest) (2 ^ p - 1) 0) with (int_loop (c ++ rest) (2 ^ p - 1) (7 * 0)).
    apply loop_complete; [exact hc|lia|lia|lia|]. change (2 ^ (7 * 0)) with 1. lia.
Qed.
Lemma int_sound p b v rest : 1 <= p <= 8 -> bytes_ok b -> decode_int p b = Ok (v, rest) ->
  exists bs, b = bs ++ rest /\ int_low p bs v /\ 0 <= v < 2 ^ 64 /\ forall rest', decode_int p (bs ++ rest') = Ok (v, rest').
Proof.
  intros hp hb h. destruct b as [|x b]; [discriminate h|]. cbn [decode_int] in h. rewrite mask_mod in h by lia. assert (hpow : 0 < 2 ^ p) by (apply Z.pow_pos_nonneg; lia).
  assert (hpl : 2 ^ p <= 2 ^ 8) by (apply Z.pow_le_mono_r; lia). change (2 ^ 8) with 256 in hpl.
  pose proof (Z.mod_pos_bound x (2 ^ p) hpow). apply bytes_ok_cons in hb. destruct hb as [hx hb]. destruct (Z.ltb_spec (x mod 2 ^ p) (2 ^ p - 1)) as [hlt|hge].
  - injection h as <- <-. exists [x]. split; [reflexivity|]. split.
    + exists (x mod 2 ^ p). split; [exists x, []; split; [reflexivity|]; split; [exact hx|]; left; auto|]. split; [symmetry; apply Z.mod_small; lia|]. split; [cbn; lia|reflexivity].
    + split; [lia|]. intros rest'. cbn [app decode_int]. rewrite mask_mod by lia. destruct (Z.ltb_spec (x mod 2 ^ p) (2 ^ p - 1)); [reflexivity|lia].
  - assert (e : x mod 2 ^ p = 2 ^ p - 1) by lia. rewrite e in h. change 0 with (7 * 0) in h. apply loop_sound in h; [|exact hb|lia|lia].
    destruct h as (c & w & -> & hc & hl & hv & hmod & hex & hall). change (2 ^ (7 * 0)) with 1 in *. rewrite Z.mul_1_r in *. exists (x :: c). split; [reflexivity|]. split.
    + exists (2 ^ p - 1 + w). split; [exists x, c; split; [reflexivity|]; split; [exact hx|]; right; split; [exact e|]; exists w; auto|]. rewrite zlen_cons. split; [exact hmod|]. split; [lia|]. intros; apply hex; lia.
    + split; [exact hv|]. intros rest'. cbn [app decode_int]. rewrite mask_mod, e, Z.ltb_irrefl by lia. apply (hall rest').
Qed.
Lemma int_no_panic p b : decode_int p b <> Panic /\ forall e, decode_int p b = Err e -> e = QTooShort.
Proof.
  assert (hl : forall b val shift, int_loop b val shift <> Panic /\ forall e, int_loop b val shift = Err e -> e = QTooShort).
  { clear. induction b as [|x b IH]; intros val shift; cbn [int_loop]; [split; [discriminate|intros e h; injection h as <-; reflexivity]|].
    destruct (64 <=? shift); [split; [discriminate|intros e h; injection h as <-; reflexivity]|]. destruct (u64_max <? _); [split; [discriminate|intros e h; injection h as <-; reflexivity]|].
    destruct (Z.land x 128 =? 0); [split; discriminate|apply IH]. }
  unfold decode_int. destruct b as [|x b]; [split; [discriminate|intros e h; injection h as <-; reflexivity]|]. destruct (_ <? _); [split; discriminate|apply hl].
Qed.

(** * What an integer reader must do for the rest *)
Definition reads (I : Z -> list Z -> Z -> Prop) : Prop :=
  forall p bs v, 1 <= p <= 8 -> I p bs v -> 0 <= v /\ forall rest, decode_int p (bs ++ rest) = Ok (v, rest).
Definition int_code (p : Z) (bs : list Z) (v : Z) : Prop :=
  int_low p bs v /\ 0 <= v /\ forall rest, decode_int p (bs ++ rest) = Ok (v, rest).
Lemma reads_code : reads int_code.
Proof. intros p bs v hp (h1 & h2 & h3). auto. Qed.
Lemma reads_int64 : reads int64.
Proof. intros p bs v hp h. split; [destruct (int_complete p bs v [] hp h); assumption|]. intros rest. apply int_complete; assumption. Qed.
Lemma reads_cons I p bs v : reads I -> 1 <= p <= 8 -> I p bs v -> exists b tl, bs = b :: tl.
Proof. intros hr hp h. destruct (hr _ _ _ hp h) as [_ h2]. specialize (h2 []). destruct bs; [discriminate h2|]. eauto. Qed.

(** * Strings *)
Lemma huff_exact data s max : bytes_ok data -> bytes_ok s -> encodes data s -> 0 <= max -> q_huff max data = if max <? zlen s then Err QTooLarge else Ok s.
Proof.
  intros hd hs he hm. unfold q_huff. destruct (Z.ltb_spec max (zlen s)).
  - destruct (C60_decode_total max data hd hm) as [-> | (o & ho)]; [reflexivity|]. apply C60_decode in ho as h; [|exact hd|exact hm].
    destruct h as (h1 & h2 & h3). rewrite (C60_unique _ _ _ h2 hs h1 he) in h3. lia.
  - rewrite (proj2 (C60_decode max data s hd hm)); [reflexivity|]. auto with zarith.
Qed.
Lemma q_text_exact (h : bool) data s max rest : bytes_ok data -> bytes_ok s -> (if h then encodes data s else data = s) -> 0 <= max ->
  q_text h (zlen data) max (data ++ rest) = if max <? zlen s then Err QTooLarge else Ok (s, rest).
Proof.
  intros hd hs he hm. unfold q_text, q_bytes. rewrite rd_bytes_app. cbn [bind]. destruct h.
  - rewrite (huff_exact data s) by assumption. destruct (max <? zlen s); reflexivity.
  - subst data. reflexivity.
Qed.
Lemma q_text_sound (h : bool) len max b s rest : bytes_ok b -> 0 <= len -> 0 <= max -> q_text h len max b = Ok (s, rest) ->
  exists data, b = data ++ rest /\ zlen data = len /\ bytes_ok data /\ bytes_ok s /\ (if h then encodes data s else data = s) /\ zlen s <= max.
Proof.
  intros hb hl hm e. unfold q_text, q_bytes in e. destruct (rd_bytes len b) as [[data b']|] eqn:er; [|discriminate e]. cbn [bind] in e. apply rd_bytes_inv in er; [|exact hl].
  destruct er as [-> hz]. apply bytes_ok_app in hb. destruct hb as [hd _]. exists data. destruct h.
  - unfold q_huff in e. destruct (huff_decode max data) as [o| |] eqn:eh; cbn [bind] in e; try discriminate e. injection e as <- <-. apply C60_decode in eh; [|exact hd|exact hm]. destruct eh as (h1 & h2 & h3). auto 8.
  - destruct (Z.ltb_spec max len); [discriminate e|]. injection e as <- <-. rewrite hz. auto 8 with zarith.
Qed.

Lemma top_cons n bs rest b tl : bs = b :: tl -> top n (bs ++ rest) = Z.odd (b / 2 ^ n).
Proof. intros ->. reflexivity. Qed.

Lemma str_exact I bs s max rest : reads I -> bytes_ok bs -> text I 7 bs s -> 0 <= max ->
  decode_str max (bs ++ rest) = if max <? zlen s then Err QTooLarge else Ok (s, rest).
Proof.
  intros hr hb (n & data & -> & hi & hs & he) hm. apply bytes_ok_app in hb. destruct hb as [hn hd]. destruct (reads_cons I 7 n _ hr ltac:(lia) hi) as (b & tl & ->).
  destruct (hr 7 _ _ ltac:(lia) hi) as [_ hd2]. rewrite <- app_assoc. unfold decode_str. cbn [app]. change (b :: tl ++ data ++ rest) with ((b :: tl) ++ (data ++ rest)). rewrite hd2. cbn [bind].
  change 128 with (2 ^ 7). rewrite flag_top by lia. cbn [top] in he. apply q_text_exact; assumption.
Qed.
Lemma str_sound b s max rest : bytes_ok b -> 0 <= max -> decode_str max b = Ok (s, rest) ->
  exists bs, b = bs ++ rest /\ bytes_ok bs /\ text int_code 7 bs s /\ zlen s <= max.
Proof.
  intros hb hm h. unfold decode_str in h. destruct b as [|x b]; [discriminate h|]. destruct (decode_int 7 (x :: b)) as [[len b2]| |] eqn:ed; cbn [bind] in h; try discriminate h.
  destruct (int_sound 7 _ _ _ ltac:(lia) hb ed) as (n & en & hlow & hv & hall). change 128 with (2 ^ 7) in h. rewrite flag_top in h by lia. rewrite en in hb. apply bytes_ok_app in hb. destruct hb as [hn hb2].
  apply q_text_sound in h; [|exact hb2|lia|exact hm]. destruct h as (data & -> & hz & hd & hs & he & hle). exists (n ++ data). rewrite <- app_assoc. split; [exact en|]. split; [apply bytes_ok_app; auto|]. split; [|exact hle].
  exists n, data. split; [reflexivity|]. rewrite hz. split; [split; [exact hlow|split; [lia|exact hall]]|]. split; [exact hs|].
  destruct n as [|y n]; [specialize (hall []); discriminate hall|]. cbn [app] in en. injection en as -> _. exact he.
Qed.

Lemma entry_exact idx n v : 0 <= idx -> zget static_decode_table idx = Some (n, v) -> static_entry idx = Ok (n, v).
Proof.
  intros h0 h. unfold static_entry. destruct (Z.leb_spec (zlen static_decode_table) idx) as [hl|hl].
  - exfalso. unfold zget in h. destruct (idx <? 0); [discriminate h|]. assert (hx : nth_error static_decode_table (Z.to_nat idx) = None) by (apply nth_error_None; unfold zlen in hl; lia). rewrite hx in h. discriminate h.
  - rewrite h. reflexivity.
Qed.
Lemma entry_sound idx h : static_entry idx = Ok h -> zget static_decode_table idx = Some h.
Proof. unfold static_entry. destruct (_ <=? _); [discriminate|]. destruct (zget static_decode_table idx); [|discriminate]. intros e. injection e as <-. reflexivity. Qed.

Lemma charge n left : q_charge n left = if left <? n then Err QTooLarge else Ok (left - n). Proof. reflexivity. Qed.

Lemma size_nonneg h : 32 <= field_size h.
Proof. unfold field_size. pose proof (zlen_nonneg (fst h)). pose proof (zlen_nonneg (snd h)). lia. Qed.

(** * Lines *)
Lemma line_exact I bs h left rest : reads I -> bytes_ok bs -> line I bs h -> 0 <= left ->
  decode_line (bs ++ rest) left = if left <? field_size h then Err QTooLarge else Ok (h, rest, left - field_size h).
Proof.
  intros hr hb hl h0. destruct hl as [bs idx n v t7 t6 hi ht|bs vs idx n v s t7 t6 t4 hi ht hs|ns vs n s t7 t6 t5 hn hs].
  - destruct (reads_cons I 6 bs _ hr ltac:(lia) hi) as (b & tl & ->). destruct (hr 6 _ _ ltac:(lia) hi) as [hv hd]. unfold decode_line. cbn [app]. cbn [top] in t7, t6.
    rewrite charge. change 128 with (2 ^ 7). change 64 with (2 ^ 6). rewrite !flag_top, t7, t6 by lia. cbn [negb]. change (b :: tl ++ rest) with ((b :: tl) ++ rest). rewrite hd. cbn [bind].
    rewrite (entry_exact _ _ _ hv ht). cbn [bind]. unfold field_size. cbn [fst snd]. pose proof (zlen_nonneg n). pose proof (zlen_nonneg v).
    destruct (Z.ltb_spec left 32); cbn [bind]; [destruct (Z.ltb_spec left (zlen n + zlen v + 32)); [reflexivity|lia]|]. rewrite charge.
    destruct (Z.ltb_spec (left - 32) (zlen n + zlen v)), (Z.ltb_spec left (zlen n + zlen v + 32)); cbn [bind]; try lia; try reflexivity. replace (left - 32 - (zlen n + zlen v)) with (left - (zlen n + zlen v + 32)) by lia. reflexivity.
  - destruct (reads_cons I 4 bs _ hr ltac:(lia) hi) as (b & tl & ->). destruct (hr 4 _ _ ltac:(lia) hi) as [hv hd]. rewrite <- app_assoc. unfold decode_line. cbn [app]. cbn [top] in t7, t6, t4.
    rewrite charge. change 128 with (2 ^ 7). change 64 with (2 ^ 6). change 16 with (2 ^ 4). rewrite !flag_top, t7, t6, t4 by lia. cbn [negb]. change (b :: tl ++ vs ++ rest) with ((b :: tl) ++ (vs ++ rest)). rewrite hd. cbn [bind].
    rewrite (entry_exact _ _ _ hv ht). cbn [bind]. unfold field_size. cbn [fst snd]. pose proof (zlen_nonneg n). pose proof (zlen_nonneg s). apply bytes_ok_app in hb. destruct hb as [_ hb].
    destruct (Z.ltb_spec left 32); cbn [bind]; [destruct (Z.ltb_spec left (zlen n + zlen s + 32)); [reflexivity|lia]|]. rewrite charge.
    destruct (Z.ltb_spec (left - 32) (zlen n)); cbn [bind]; [destruct (Z.ltb_spec left (zlen n + zlen s + 32)); [reflexivity|lia]|].
    rewrite (str_exact I vs s) by (assumption || lia). destruct (Z.ltb_spec (left - 32 - zlen n) (zlen s)); cbn [bind]; [destruct (Z.ltb_spec left (zlen n + zlen s + 32)); [reflexivity|lia]|].
    rewrite charge. destruct (Z.ltb_spec (left - 32 - zlen n) (zlen s)); [lia|]. cbn [bind]. destruct (Z.ltb_spec left (zlen n + zlen s + 32)); [lia|]. replace (left - 32 - zlen n - zlen s) with (left - (zlen n + zlen s + 32)) by lia. reflexivity.
  - destruct hn as (nn & data & -> & hi & hnb & he). destruct (reads_cons I 3 nn _ hr ltac:(lia) hi) as (b & tl & ->). destruct (hr 3 _ _ ltac:(lia) hi) as [hv hd]. rewrite <- !app_assoc. unfold decode_line. cbn [app]. cbn [top app] in t7, t6, t5, he.
    rewrite charge. change 128 with (2 ^ 7). change 64 with (2 ^ 6). rewrite !flag_top, t7, t6 by lia. change (Z.land b 32 =? 32) with (Z.land b (2 ^ 5) =? 2 ^ 5). rewrite flag_top, t5 by lia.
    change (Z.land b 8 =? 8) with (Z.land b (2 ^ 3) =? 2 ^ 3). rewrite flag_top by lia. change (b :: tl ++ data ++ vs ++ rest) with ((b :: tl) ++ (data ++ vs ++ rest)). rewrite hd. cbn [bind].
    unfold field_size. cbn [fst snd]. pose proof (zlen_nonneg n). pose proof (zlen_nonneg s). apply bytes_ok_app in hb. destruct hb as [hb1 hb]. apply bytes_ok_app in hb1. destruct hb1 as [_ hb1].
    destruct (Z.ltb_spec left 32); cbn [bind]; [destruct (Z.ltb_spec left (zlen n + zlen s + 32)); [reflexivity|lia]|].
    rewrite (q_text_exact _ data n) by (assumption || lia). destruct (Z.ltb_spec (left - 32) (zlen n)); cbn [bind]; [destruct (Z.ltb_spec left (zlen n + zlen s + 32)); [reflexivity|lia]|].
    rewrite charge. destruct (Z.ltb_spec (left - 32) (zlen n)); [lia|]. cbn [bind].
    rewrite (str_exact I vs s) by (assumption || lia). destruct (Z.ltb_spec (left - 32 - zlen n) (zlen s)); cbn [bind]; [destruct (Z.ltb_spec left (zlen n + zlen s + 32)); [reflexivity|lia]|].
    rewrite charge. destruct (Z.ltb_spec (left - 32 - zlen n) (zlen s)); [lia|]. cbn [bind]. destruct (Z.ltb_spec left (zlen n + zlen s + 32)); [lia|]. replace (left - 32 - zlen n - zlen s) with (left - (zlen n + zlen s + 32)) by lia. reflexivity.
Qed.

Lemma charge_ok n left r : q_charge n left = Ok r -> n <= left /\ r = left - n.
Proof. rewrite charge. destruct (Z.ltb_spec left n); [discriminate|]. intros h. injection h as <-. auto. Qed.
Ltac ok1 h := match type of h with bind ?r _ = Ok _ => let E := fresh "E" in destruct r as [?x|?e|] eqn:E; cbn [bind] in h; [|discriminate h|discriminate h] end.

Lemma line_sound b left hd rest left' : bytes_ok b -> 0 <= left -> decode_line b left = Ok (hd, rest, left') ->
  exists bs, b = bs ++ rest /\ bytes_ok bs /\ bs <> [] /\ line int_code bs hd /\ field_size hd <= left /\ left' = left - field_size hd.
Proof.
  intros hb h0 h. unfold decode_line in h. destruct b as [|first b]; [discriminate h|]. set (B := first :: b) in *. ok1 h. apply charge_ok in E. destruct E as [hl ->].
  change 128 with (2 ^ 7) in h. change 64 with (2 ^ 6) in h. rewrite !flag_top in h by lia. destruct (Z.odd (first / 2 ^ 7)) eqn:t7; [|destruct (Z.odd (first / 2 ^ 6)) eqn:t6].
  - ok1 h. destruct x as [idx b2]. destruct (negb _) eqn:t6; [discriminate h|]. apply negb_false_iff in t6. ok1 h. destruct x as [n v]. ok1 h. apply charge_ok in E1. destruct E1 as [hl2 ->]. injection h as <- <- <-.
    destruct (int_sound 6 _ _ _ ltac:(lia) hb E) as (bs & en & hlow & hv & hall). rewrite en in hb. apply bytes_ok_app in hb. destruct hb as [hn _]. exists bs. split; [exact en|]. split; [exact hn|].
    destruct bs as [|y bs]; [specialize (hall []); discriminate hall|]. split; [discriminate|]. unfold B in en. cbn [app] in en. injection en as -> _. split; [|unfold field_size; cbn [fst snd]; lia].
    apply (indexed _ _ idx); [exact t7|exact t6| |apply entry_sound; exact E0]. split; [exact hlow|]. split; [lia|exact hall].
  - change 16 with (2 ^ 4) in h. rewrite flag_top in h by lia. destruct (Z.odd (first / 2 ^ 4)) eqn:t4; cbn [negb] in h; [|discriminate h]. ok1 h. destruct x as [idx b2]. ok1 h. destruct x as [n v]. ok1 h. apply charge_ok in E1. destruct E1 as [hl2 ->].
    ok1 h. destruct x as [s b3]. ok1 h. apply charge_ok in E2. destruct E2 as [hl3 ->]. injection h as <- <- <-.
    destruct (int_sound 4 _ _ _ ltac:(lia) hb E) as (bs & en & hlow & hv & hall). rewrite en in hb. apply bytes_ok_app in hb. destruct hb as [hn hb]. apply str_sound in E1; [|exact hb|lia].
    destruct E1 as (vs & -> & hvs & hs & hls). exists (bs ++ vs). rewrite <- app_assoc. split; [exact en|]. split; [apply bytes_ok_app; auto|].
    destruct bs as [|y bs]; [specialize (hall []); discriminate hall|]. split; [discriminate|]. unfold B in en. cbn [app] in en. injection en as -> _. split; [|unfold field_size; cbn [fst snd]; lia].
    apply (name_ref _ _ _ idx n v); [exact t7|exact t6|exact t4| |apply entry_sound; exact E0|exact hs]. split; [exact hlow|]. split; [lia|exact hall].
  - change (Z.land first 32 =? 32) with (Z.land first (2 ^ 5) =? 2 ^ 5) in h. rewrite flag_top in h by lia. destruct (Z.odd (first / 2 ^ 5)) eqn:t5.
    2: { destruct (Z.land first 16 =? 16); [|discriminate h]. ok1 h. destruct x. discriminate h. }
    change (Z.land first 8 =? 8) with (Z.land first (2 ^ 3) =? 2 ^ 3) in h. rewrite flag_top in h by lia. ok1 h. destruct x as [len b2]. ok1 h. destruct x as [n b3]. ok1 h. apply charge_ok in E1. destruct E1 as [hl2 ->].
    ok1 h. destruct x as [s b4]. ok1 h. apply charge_ok in E2. destruct E2 as [hl3 ->]. injection h as <- <- <-.
    destruct (int_sound 3 _ _ _ ltac:(lia) hb E) as (bs & en & hlow & hv & hall). rewrite en in hb. apply bytes_ok_app in hb. destruct hb as [hn hb]. apply q_text_sound in E0; [|exact hb|lia|lia].
    destruct E0 as (data & -> & hz & hd & hnb & he & _). apply bytes_ok_app in hb. destruct hb as [_ hb]. apply str_sound in E1; [|exact hb|lia]. destruct E1 as (vs & -> & hvs & hs & hls).
    exists ((bs ++ data) ++ vs). rewrite <- !app_assoc. split; [exact en|]. split; [apply bytes_ok_app; split; [exact hn|apply bytes_ok_app; auto]|].
    destruct bs as [|y bs]; [specialize (hall []); discriminate hall|]. split; [discriminate|]. unfold B in en. cbn [app] in en. injection en as -> _. split; [|unfold field_size; cbn [fst snd]; lia].
    rewrite app_assoc. apply literal; [exact t7|exact t6|exact t5| |exact hs]. exists (y :: bs), data. split; [reflexivity|]. rewrite hz. split; [split; [exact hlow|split; [lia|exact hall]]|]. split; [exact hnb|exact he].
Qed.

(** * Sections *)
Lemma line_nonempty I bs h : reads I -> line I bs h -> bs <> [].
Proof.
  intros hr [bs' idx n v t7 t6 hi ht|bs' vs idx n v s t7 t6 t4 hi ht hs|ns vs n s t7 t6 t5 hn hs] e.
  - subst. discriminate t7.
  - apply app_eq_nil in e. destruct e as [-> _]. discriminate t6.
  - apply app_eq_nil in e. destruct e as [-> _]. discriminate t5.
Qed.
Lemma list_size_nonneg hs : 0 <= list_size hs.
Proof. induction hs as [|h hs IH]; cbn [list_size fold_right]; [lia|]. pose proof (size_nonneg h). unfold list_size in IH. lia. Qed.
Lemma list_size_cons h hs : list_size (h :: hs) = field_size h + list_size hs. Proof. reflexivity. Qed.

Lemma lines_exact I bs hs : reads I -> lines I bs hs -> forall fuel left, bytes_ok bs -> (length bs <= fuel)%nat -> 0 <= left ->
  decode_lines fuel bs left = if left <? list_size hs then Err QTooLarge else Ok hs.
Proof.
  intros hr hl. induction hl as [|bs h tl hs h1 h2 IH]; intros fuel left hb hf h0.
  - unfold list_size. cbn [fold_right]. destruct fuel; cbn [decode_lines]; destruct (Z.ltb_spec left 0); try lia; reflexivity.
  - pose proof (line_nonempty _ _ _ hr h1) as hne. destruct bs as [|b bs]; [contradiction|]. cbn [app] in *. destruct fuel as [|fuel]; [cbn [length] in hf; lia|]. cbn [decode_lines].
    apply (bytes_ok_app (b :: bs)) in hb. destruct hb as [hb1 hb2]. change (b :: bs ++ tl) with ((b :: bs) ++ tl). rewrite (line_exact I _ h) by assumption. rewrite list_size_cons. pose proof (list_size_nonneg hs).
    destruct (Z.ltb_spec left (field_size h)); cbn [bind]; [destruct (Z.ltb_spec left (field_size h + list_size hs)); [reflexivity|lia]|].
    rewrite IH; [|exact hb2|cbn [length] in hf; rewrite app_length in hf; lia|lia].
    destruct (Z.ltb_spec (left - field_size h) (list_size hs)), (Z.ltb_spec left (field_size h + list_size hs)); try lia; reflexivity.
Qed.
Lemma lines_sound fuel : forall b left hs, bytes_ok b -> 0 <= left -> decode_lines fuel b left = Ok hs -> lines int_code b hs /\ list_size hs <= left.
Proof.
  induction fuel as [|fuel IH]; intros b left hs hb h0 h; cbn [decode_lines] in h; (destruct b as [|x b]; [injection h as <-; split; [constructor|exact h0]|]); [discriminate h|].
  ok1 h. destruct x0 as [[hd rest] left']. ok1 h. injection h as <-. apply line_sound in E; [|exact hb|exact h0]. destruct E as (bs & en & hbs & hne & hl & hsz & ->). rewrite en in hb |- *.
  apply bytes_ok_app in hb. destruct hb as [_ hb]. apply IH in E0; [|exact hb|lia]. destruct E0 as [h1 h2]. split; [constructor; assumption|]. rewrite list_size_cons. lia.
Qed.
Lemma decode_exact I bs hs max : reads I -> bytes_ok bs -> section I bs hs -> 0 <= max ->
  qpack_decode bs max = if max <? list_size hs then Err QTooLarge else Ok hs.
Proof.
  intros hr hb (ric & base & ls & u & v & -> & h1 & h2 & h3) h0. unfold qpack_decode. rewrite (proj2 (hr 8 _ _ ltac:(lia) h1)). cbn [bind]. rewrite (proj2 (hr 7 _ _ ltac:(lia) h2)). cbn [bind].
  apply bytes_ok_app in hb. destruct hb as [_ hb]. apply bytes_ok_app in hb. destruct hb as [_ hb]. apply (lines_exact I); auto.
Qed.
Lemma decode_sound bs hs max : bytes_ok bs -> 0 <= max -> qpack_decode bs max = Ok hs -> section int_code bs hs /\ list_size hs <= max.
Proof.
  intros hb h0 h. unfold qpack_decode in h. ok1 h. destruct x as [u b1]. ok1 h. destruct x as [v b2].
  destruct (int_sound 8 _ _ _ ltac:(lia) hb E) as (ric & -> & l1 & v1 & a1). apply bytes_ok_app in hb. destruct hb as [_ hb].
  destruct (int_sound 7 _ _ _ ltac:(lia) hb E0) as (base & -> & l2 & v2 & a2). apply bytes_ok_app in hb. destruct hb as [_ hb].
  apply lines_sound in h; [|exact hb|exact h0]. destruct h as [h3 h4]. split; [|exact h4]. exists ric, base, b2, u, v. split; [reflexivity|]. split; [split; [exact l1|split; [lia|exact a1]]|]. split; [split; [exact l2|split; [lia|exact a2]]|exact h3].
Qed.

(** * No panics *)
Lemma text_no_panic h len max b : bytes_ok b -> 0 <= len -> 0 <= max -> q_text h len max b <> Panic.
Proof.
  intros hb hl hm. unfold q_text, q_bytes. destruct (rd_bytes len b) as [[data b']|] eqn:er; cbn [bind]; [|discriminate]. apply rd_bytes_inv in er; [|exact hl]. destruct er as [-> _]. apply bytes_ok_app in hb. destruct hb as [hd _].
  destruct h; [|destruct (max <? len); discriminate]. unfold q_huff. destruct (C60_decode_total max data hd hm) as [-> | (o & ->)]; discriminate.
Qed.
Lemma str_no_panic max b : bytes_ok b -> 0 <= max -> decode_str max b <> Panic.
Proof.
  intros hb hm. unfold decode_str. destruct b as [|x b]; [discriminate|]. destruct (decode_int 7 (x :: b)) as [[len b2]| |] eqn:ed; cbn [bind]; [|discriminate|destruct (proj1 (int_no_panic _ _) ed)].
  destruct (int_sound 7 _ _ _ ltac:(lia) hb ed) as (n & en & _ & hv & _). rewrite en in hb. apply bytes_ok_app in hb. destruct hb as [_ hb]. apply text_no_panic; [exact hb|lia|exact hm].
Qed.
Lemma entry_no_panic idx : 0 <= idx -> static_entry idx <> Panic.
Proof.
  intros h. unfold static_entry. destruct (Z.leb_spec (zlen static_decode_table) idx); [discriminate|]. destruct (zget static_decode_table idx) eqn:e; [discriminate|].
  exfalso. unfold zget in e. destruct (Z.ltb_spec idx 0); [lia|]. apply nth_error_None in e. unfold zlen in H. lia.
Qed.
Lemma charge_no_panic n l : q_charge n l <> Panic. Proof. rewrite charge. destruct (l <? n); discriminate. Qed.

Lemma line_no_panic b left : bytes_ok b -> 0 <= left -> decode_line b left <> Panic.
Proof.
  intros hb h0. unfold decode_line. destruct b as [|first b]; [discriminate|]. set (B := first :: b) in *.
  destruct (q_charge 32 left) as [l| |] eqn:e; cbn [bind]; [|discriminate|destruct (charge_no_panic _ _ e)]. apply charge_ok in e. destruct e as [hl ->].
  destruct (Z.land first 128 =? 128).
  - destruct (decode_int 6 B) as [[idx b2]| |] eqn:ed; cbn [bind]; [|discriminate|destruct (proj1 (int_no_panic _ _) ed)]. destruct (negb _); [discriminate|].
    destruct (int_sound 6 _ _ _ ltac:(lia) hb ed) as (n & en & _ & hv & _). destruct (static_entry idx) as [[nm v]| |] eqn:es; cbn [bind]; [|discriminate|destruct (entry_no_panic idx ltac:(lia) es)].
    destruct (q_charge _ _) eqn:ec; cbn [bind]; [discriminate|discriminate|destruct (charge_no_panic _ _ ec)].
  - destruct (Z.land first 64 =? 64).
    + destruct (negb _); [discriminate|]. destruct (decode_int 4 B) as [[idx b2]| |] eqn:ed; cbn [bind]; [|discriminate|destruct (proj1 (int_no_panic _ _) ed)].
      destruct (int_sound 4 _ _ _ ltac:(lia) hb ed) as (n & en & _ & hv & _). rewrite en in hb. apply bytes_ok_app in hb. destruct hb as [_ hb].
      destruct (static_entry idx) as [[nm v]| |] eqn:es; cbn [bind]; [|discriminate|destruct (entry_no_panic idx ltac:(lia) es)].
      destruct (q_charge _ _) eqn:ec; cbn [bind]; [|discriminate|destruct (charge_no_panic _ _ ec)]. apply charge_ok in ec. destruct ec as [hl2 ->].
      destruct (decode_str _ b2) as [[s b3]| |] eqn:e2; cbn [bind]; [|discriminate|refine (False_ind _ (str_no_panic _ _ hb _ e2)); lia].
      destruct (q_charge _ _) eqn:ec; cbn [bind]; [discriminate|discriminate|destruct (charge_no_panic _ _ ec)].
    + destruct (Z.land first 32 =? 32).
      * destruct (decode_int 3 B) as [[len b2]| |] eqn:ed; cbn [bind]; [|discriminate|destruct (proj1 (int_no_panic _ _) ed)].
        destruct (int_sound 3 _ _ _ ltac:(lia) hb ed) as (n & en & _ & hv & _). rewrite en in hb. apply bytes_ok_app in hb. destruct hb as [_ hb].
        destruct (q_text _ len _ b2) as [[nm b3]| |] eqn:et; cbn [bind]; [|discriminate|refine (False_ind _ (text_no_panic _ _ _ _ hb _ _ et)); lia].
        apply q_text_sound in et; [|exact hb|lia|lia]. destruct et as (data & -> & _). apply bytes_ok_app in hb. destruct hb as [_ hb].
        destruct (q_charge _ _) eqn:ec; cbn [bind]; [|discriminate|destruct (charge_no_panic _ _ ec)]. apply charge_ok in ec. destruct ec as [hl2 ->].
        destruct (decode_str _ b3) as [[s b4]| |] eqn:e2; cbn [bind]; [|discriminate|refine (False_ind _ (str_no_panic _ _ hb _ e2)); lia].
        destruct (q_charge _ _) eqn:ec; cbn [bind]; [discriminate|discriminate|destruct (charge_no_panic _ _ ec)].
      * destruct (Z.land first 16 =? 16); [|discriminate]. destruct (decode_int 4 B) as [[idx b2]| |] eqn:ed; cbn [bind]; [discriminate|discriminate|destruct (proj1 (int_no_panic _ _) ed)].
Qed.
Lemma lines_no_panic fuel : forall b left, bytes_ok b -> 0 <= left -> (length b <= fuel)%nat -> decode_lines fuel b left <> Panic.
Proof.
  induction fuel as [|fuel IH]; intros b left hb h0 hf; cbn [decode_lines]; (destruct b as [|x b]; [discriminate|]); [cbn [length] in hf; lia|].
  destruct (decode_line (x :: b) left) as [[[hd rest] left']| |] eqn:e; cbn [bind]; [|discriminate|destruct (line_no_panic _ _ hb h0 e)].
  apply line_sound in e; [|exact hb|exact h0]. destruct e as (bs & en & hbs & hne & hl & hsz & ->). rewrite en in hb. apply bytes_ok_app in hb. destruct hb as [_ hb].
  assert (hlen : (length rest <= fuel)%nat). { apply (f_equal (@length Z)) in en. rewrite app_length in en. destruct bs; [contradiction|]. cbn [length] in *. lia. }
  specialize (IH rest (left - field_size hd) hb ltac:(lia) hlen). destruct (decode_lines fuel rest _); cbn [bind]; [discriminate|discriminate|contradiction].
Qed.
Lemma decode_no_panic b max : bytes_ok b -> 0 <= max -> qpack_decode b max <> Panic.
Proof.
  intros hb h0. unfold qpack_decode. destruct (decode_int 8 b) as [[u b1]| |] eqn:e; cbn [bind]; [|discriminate|destruct (proj1 (int_no_panic _ _) e)].
  destruct (int_sound 8 _ _ _ ltac:(lia) hb e) as (n & -> & _). apply bytes_ok_app in hb. destruct hb as [_ hb].
  destruct (decode_int 7 b1) as [[v b2]| |] eqn:e2; cbn [bind]; [|discriminate|destruct (proj1 (int_no_panic _ _) e2)].
  destruct (int_sound 7 _ _ _ ltac:(lia) hb e2) as (n2 & -> & _). apply bytes_ok_app in hb. destruct hb as [_ hb]. apply lines_no_panic; auto.
Qed.
