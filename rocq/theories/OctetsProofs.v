(** Integers in byte strings: fixed width and variable length. *)
Require Import Verif.Base Verif.OctetsModel Verif.OctetsSpec.

Lemma pow256_pos n : 0 <= n -> 0 < 256 ^ n.
Proof. intros. apply Z.pow_pos_nonneg; lia. Qed.

Lemma pow256_S n : 0 <= n -> 256 ^ (1 + n) = 256 * 256 ^ n.
Proof. intros. rewrite Z.pow_add_r by lia. reflexivity. Qed.

Lemma be_value_app a b : be_value (a ++ b) = be_value a * 256 ^ zlen b + be_value b.
Proof.
  induction a as [|x a IH]; cbn [app be_value]; [lia|]. rewrite IH, zlen_app.
  rewrite Z.pow_add_r by apply zlen_nonneg. lia.
Qed.

Lemma be_dec_value l : be_dec l = be_value l.
Proof.
  unfold be_dec. enough (h : forall a, fold_left (fun a b => a * 256 + b) l a = a * 256 ^ zlen l + be_value l).
  { rewrite h. lia. }
  induction l as [|x l IH]; intros a; cbn [fold_left be_value].
  - change (zlen (@nil Z)) with 0. lia.
  - rewrite IH, zlen_cons, pow256_S by apply zlen_nonneg. lia.
Qed.

Lemma be_value_range l : bytes_ok l -> 0 <= be_value l < 256 ^ zlen l.
Proof.
  induction 1 as [|x l hx hl IH]; cbn [be_value]; [cbn; lia|].
  rewrite zlen_cons, pow256_S by apply zlen_nonneg. unfold is_byte in hx. nia.
Qed.

Lemma be_enc_len n v : zlen (be_enc n v) = Z.of_nat n.
Proof. induction n; cbn [be_enc]; [reflexivity|]. rewrite zlen_cons, IHn. lia. Qed.

Lemma be_enc_bytes n v : bytes_ok (be_enc n v).
Proof.
  induction n; cbn [be_enc]; [constructor|]. constructor; auto. unfold is_byte. apply Z.mod_pos_bound. lia.
Qed.

Lemma be_enc_value n v : be_value (be_enc n v) = v mod 256 ^ Z.of_nat n.
Proof.
  induction n as [|n IH]; cbn [be_enc be_value]; [now rewrite Z.mod_1_r|].
  rewrite IH, be_enc_len. replace (Z.of_nat (S n)) with (1 + Z.of_nat n) by lia.
  pose proof (pow256_pos (Z.of_nat n) ltac:(lia)) as hp. rewrite pow256_S by lia.
  rewrite (Z.mul_comm 256). rewrite Z.rem_mul_r by lia. lia.
Qed.

Lemma be_value_inj a : forall b, bytes_ok a -> bytes_ok b -> zlen a = zlen b ->
  be_value a = be_value b -> a = b.
Proof.
  induction a as [|x a IH]; intros [|y b] ha hb hl hv; auto;
    try (exfalso; unfold zlen in hl; cbn [length] in hl; lia).
  rewrite !zlen_cons in hl. inversion ha as [|? ? a1 a2]; inversion hb as [|? ? b1 b2]; subst. cbn [be_value] in hv.
  pose proof (be_value_range a a2). pose proof (be_value_range b b2).
  assert (e : zlen a = zlen b) by lia. rewrite e in *.
  pose proof (pow256_pos (zlen b) (zlen_nonneg b)).
  assert (x = y) by nia. subst y. f_equal. apply IH; auto. lia.
Qed.

Lemma be_enc_of_value l : bytes_ok l -> be_enc (length l) (be_value l) = l.
Proof.
  intros h. pose proof (be_value_range l h). apply be_value_inj; auto using be_enc_bytes.
  - rewrite be_enc_len. reflexivity.
  - rewrite be_enc_value. apply Z.mod_small. auto.
Qed.

(** ** Readers *)
Lemma rd_u_app n l rest : zlen l = Z.of_nat n -> rd_u n (l ++ rest) = Some (be_value l, rest).
Proof.
  intros h. unfold rd_u. rewrite zlen_app, <- h. pose proof (zlen_nonneg rest).
  replace (zlen l + zlen rest <? zlen l) with false by lia.
  rewrite take_app_exact, drop_app_exact, be_dec_value. reflexivity.
Qed.

Lemma rd_u_inv n b v rest : rd_u n b = Some (v, rest) ->
  exists l, b = l ++ rest /\ zlen l = Z.of_nat n /\ v = be_value l.
Proof.
  unfold rd_u. destruct (zlen b <? Z.of_nat n) eqn:E; [discriminate|]. intros h. injection h as <- <-.
  exists (take (Z.of_nat n) b). rewrite take_drop, zlen_take, be_dec_value by lia. split; auto. split; auto. lia.
Qed.

Lemma rd_bytes_app l rest : rd_bytes (zlen l) (l ++ rest) = Some (l, rest).
Proof.
  unfold rd_bytes. rewrite zlen_app. pose proof (zlen_nonneg rest).
  replace (zlen l + zlen rest <? zlen l) with false by lia.
  rewrite take_app_exact, drop_app_exact. reflexivity.
Qed.

Lemma rd_bytes_inv n b v rest : 0 <= n -> rd_bytes n b = Some (v, rest) -> b = v ++ rest /\ zlen v = n.
Proof.
  intros hn. unfold rd_bytes. destruct (zlen b <? n) eqn:E; [discriminate|]. intros h. injection h as <- <-.
  rewrite take_drop, zlen_take by lia. split; auto. lia.
Qed.

Lemma land_mod v n : 0 <= n -> Z.land v (Z.ones n) = v mod 2 ^ n.
Proof. intros. apply Z.land_ones. auto. Qed.

Lemma parse_len_spec x : is_byte x ->
  varint_parse_len x = Some (2 ^ (x / 64)) /\ 0 <= x / 64 <= 3.
Proof.
  unfold is_byte, varint_parse_len. intros h. rewrite Z.shiftr_div_pow2 by lia. change (2 ^ 6) with 64.
  assert (k : 0 <= x / 64 <= 3) by (split; [apply Z.div_pos; lia|apply Z.lt_succ_r, Z.div_lt_upper_bound; lia]).
  split; auto. assert (x / 64 = 0 \/ x / 64 = 1 \/ x / 64 = 2 \/ x / 64 = 3) as [-> |[-> |[-> | ->]]] by lia; reflexivity.
Qed.

Lemma qvarint_first l v : qvarint l v -> exists x tl k, l = x :: tl /\ 0 <= k <= 3 /\ zlen l = 2 ^ k /\
  bytes_ok l /\ 0 <= v < 2 ^ (8 * 2 ^ k - 2) /\ be_value l = k * 2 ^ (8 * 2 ^ k - 2) + v /\ x / 64 = k.
Proof.
  intros (hb & k & hk & hl & hv & he). destruct l as [|x tl].
  { change (zlen (@nil Z)) with 0 in hl. pose proof (Z.pow_pos_nonneg 2 k). lia. }
  exists x, tl, k. split; auto. repeat (split; [auto; fail|]).
  inv hb. cbn [be_value] in he. pose proof (be_value_range tl H2) as hr. rewrite zlen_cons in hl.
  assert (e : zlen tl = 2 ^ k - 1) by lia. rewrite e in *.
  assert (ep : 2 ^ (8 * 2 ^ k - 2) = 64 * 256 ^ (2 ^ k - 1)).
  { assert (1 <= 2 ^ k) by (pose proof (Z.pow_pos_nonneg 2 k); lia).
    replace 256 with (2 ^ 8) by reflexivity. rewrite <- Z.pow_mul_r by lia. replace 64 with (2 ^ 6) by reflexivity.
    rewrite <- Z.pow_add_r by lia. f_equal. lia. }
  rewrite ep in *. assert (0 < 256 ^ (2 ^ k - 1)) by (apply pow256_pos; pose proof (Z.pow_pos_nonneg 2 k); lia).
  symmetry. apply (Z.div_unique x 64 k (x - 64 * k)); [left|lia]. unfold is_byte in H1. nia.
Qed.

(** What the code computes for an encoding of 2^k bytes. *)
Lemma rd_varint_eq x tl : is_byte x ->
  rd_varint (x :: tl) =
  match rd_u (Z.to_nat (2 ^ (x / 64))) (x :: tl) with
  | Some (v, b) => Some (v mod 2 ^ (8 * 2 ^ (x / 64) - 2), b)
  | None => None
  end.
Proof.
  intros hx. unfold rd_varint. destruct (parse_len_spec x hx) as (-> & hk).
  assert (x / 64 = 0 \/ x / 64 = 1 \/ x / 64 = 2 \/ x / 64 = 3) as [e |[e |[e | e]]] by lia; rewrite e.
  - change (2 ^ 0 =? 1) with true. cbv iota. change (Z.to_nat (2 ^ 0)) with 1%nat. unfold rd_u.
    destruct (zlen (x :: tl) <? Z.of_nat 1); auto. change (take (Z.of_nat 1) (x :: tl)) with [x].
    rewrite be_dec_value. cbn [be_value]. change (zlen (@nil Z)) with 0. change (2 ^ (8 * 2 ^ 0 - 2)) with 64.
    change (256 ^ 0) with 1. unfold is_byte in hx. rewrite Z.mod_small; auto.
    apply Z.div_small_iff in e; lia.
  - change (2 ^ 1 =? 1) with false. change (2 ^ 1 =? 2) with true. cbv iota. change (Z.to_nat (2 ^ 1)) with 2%nat.
    destruct (rd_u 2 (x :: tl)) as [[v b]|]; auto. change 16383 with (Z.ones 14). rewrite land_mod by lia. reflexivity.
  - change (2 ^ 2 =? 1) with false. change (2 ^ 2 =? 2) with false. change (2 ^ 2 =? 4) with true. cbv iota.
    change (Z.to_nat (2 ^ 2)) with 4%nat.
    destruct (rd_u 4 (x :: tl)) as [[v b]|]; auto. change 1073741823 with (Z.ones 30). rewrite land_mod by lia. reflexivity.
  - change (2 ^ 3 =? 1) with false. change (2 ^ 3 =? 2) with false. change (2 ^ 3 =? 4) with false. cbv iota.
    change (Z.to_nat (2 ^ 3)) with 8%nat.
    destruct (rd_u 8 (x :: tl)) as [[v b]|]; auto. change 4611686018427387903 with (Z.ones 62). rewrite land_mod by lia. reflexivity.
Qed.

Lemma pow_split k : 0 <= k <= 3 -> 1 <= 2 ^ k <= 8 /\ 256 ^ (2 ^ k) = 4 * 2 ^ (8 * 2 ^ k - 2).
Proof. intros h. assert (k = 0 \/ k = 1 \/ k = 2 \/ k = 3) as [-> |[-> |[-> | ->]]] by lia; cbn; lia. Qed.

Lemma rd_varint_app l v rest : qvarint l v -> rd_varint (l ++ rest) = Some (v, rest).
Proof.
  intros h. destruct (qvarint_first l v h) as (x & tl & k & -> & hk & hl & hb & hv & he & hx).
  inversion hb as [|? ? b1 b2]; subst. destruct (pow_split _ hk) as (p1 & p2).
  cbn [app]. rewrite rd_varint_eq by auto. change (x :: tl ++ rest) with ((x :: tl) ++ rest).
  rewrite rd_u_app by lia. f_equal. f_equal. rewrite he.
  rewrite Z.add_comm, Z_mod_plus_full. apply Z.mod_small. auto.
Qed.

Lemma rd_varint_inv b v rest : bytes_ok b -> rd_varint b = Some (v, rest) ->
  exists l, b = l ++ rest /\ qvarint l v.
Proof.
  intros hb h. destruct b as [|x tl]; [discriminate|]. inversion hb as [|? ? b1 b2]; subst.
  rewrite rd_varint_eq in h by auto. destruct (parse_len_spec x b1) as (_ & hk).
  destruct (pow_split _ hk) as (p1 & p2).
  destruct (rd_u (Z.to_nat (2 ^ (x / 64))) (x :: tl)) as [[w b']|] eqn:E; [|discriminate].
  injection h as <- <-. destruct (rd_u_inv _ _ _ _ E) as (l & e1 & e2 & ->).
  exists l. split; auto. rewrite e1 in hb. apply bytes_ok_app in hb as (hl & _).
  split; auto. exists (x / 64). assert (e3 : zlen l = 2 ^ (x / 64)) by lia.
  assert (hp : 0 < 2 ^ (8 * 2 ^ (x / 64) - 2)) by (apply Z.pow_pos_nonneg; lia).
  split; auto. split; auto. split; [apply Z.mod_pos_bound; auto|].
  destruct l as [|y l']; [change (zlen (@nil Z)) with 0 in e3; lia|].
  cbn [app] in e1. injection e1 as <- e1. clear E.
  pose proof (be_value_range _ hl) as hr. rewrite e3, p2 in hr.
  assert (q : be_value (x :: l') / 2 ^ (8 * 2 ^ (x / 64) - 2) = x / 64).
  { cbn [be_value]. rewrite zlen_cons in e3. replace (zlen l') with (2 ^ (x / 64) - 1) by lia.
    inversion hl as [|? ? l1 l2]; subst. pose proof (be_value_range l' l2) as hr2.
    replace (zlen l') with (2 ^ (x / 64) - 1) in hr2 by lia.
    assert (ep : 2 ^ (8 * 2 ^ (x / 64) - 2) = 64 * 256 ^ (2 ^ (x / 64) - 1)).
    { generalize dependent (x / 64). intros k. intros.
      assert (k = 0 \/ k = 1 \/ k = 2 \/ k = 3) as [-> |[-> |[-> | ->]]] by lia; reflexivity. }
    rewrite ep. set (P := 256 ^ (2 ^ (x / 64) - 1)) in *. assert (0 < P) by (apply pow256_pos; lia).
    rewrite (Z.mul_comm 64 P), <- Z.div_div by lia. f_equal.
    rewrite Z.add_comm, Z.div_add by lia. rewrite Z.div_small by lia. lia. }
  pose proof (Z.div_mod (be_value (x :: l')) (2 ^ (8 * 2 ^ (x / 64) - 2)) ltac:(lia)) as dm. rewrite q in dm.
  rewrite (Z.mul_comm (x / 64)). exact dm.
Qed.

Lemma rd_varint_none b l rest v : b = l ++ rest -> qvarint l v -> rd_varint b <> None.
Proof. intros -> h. rewrite (rd_varint_app l v rest h). discriminate. Qed.

(** ** Writers *)
Lemma lor_top x k : 0 <= x < 64 -> 0 <= k <= 3 -> Z.lor x (64 * k) = x + 64 * k.
Proof.
  intros hx hk. symmetry. rewrite <- Z.lxor_lor; [apply Z.add_nocarry_lxor|];
    apply Z.bits_inj'; intros n hn; rewrite Z.land_spec, Z.bits_0;
    (destruct (Z_lt_ge_dec n 6) as [lt|ge];
     [rewrite (Z.mul_comm 64 k); change 64 with (2 ^ 6); rewrite Z.mul_pow2_bits_low by lia; apply andb_false_r
     |destruct (Z.eq_dec x 0) as [->|n0]; [rewrite Z.bits_0; reflexivity|];
      rewrite Z.bits_above_log2; [reflexivity|lia|]; apply Z.log2_lt_pow2; try lia; 
      apply Z.lt_le_trans with (2 ^ 6); [lia|apply Z.pow_le_mono_r; lia]]).
Qed.

Lemma or_first_varint n k v : 0 <= k <= 3 -> Z.of_nat (S n) = 2 ^ k -> 0 <= v < 2 ^ (8 * 2 ^ k - 2) ->
  qvarint (or_first (64 * k) (be_enc (S n) v)) v.
Proof.
  intros hk hn hv. destruct (pow_split k hk) as (p1 & p2). cbn [be_enc or_first].
  set (P := 256 ^ Z.of_nat n) in *. assert (hP : 0 < P) by (apply pow256_pos; lia).
  assert (ep : 2 ^ (8 * 2 ^ k - 2) = 64 * P).
  { unfold P. replace 256 with (2 ^ 8) by reflexivity. rewrite <- Z.pow_mul_r by lia.
    replace 64 with (2 ^ 6) by reflexivity. rewrite <- Z.pow_add_r by lia. f_equal. lia. }
  assert (hx : 0 <= v / P < 64) by (split; [apply Z.div_pos; lia|apply Z.div_lt_upper_bound; lia]).
  rewrite (Z.mod_small (v / P) 256) by lia. rewrite lor_top by lia.
  split. { constructor; [unfold is_byte; lia|apply be_enc_bytes]. }
  exists k. split; auto. rewrite zlen_cons, be_enc_len. split; [lia|]. split; auto.
  cbn [be_value]. rewrite be_enc_len, be_enc_value. fold P. rewrite ep.
  pose proof (Z.div_mod v P ltac:(lia)). nia.
Qed.

Lemma varint_len_spec v : 0 <= v <= max_varint -> varint_len_opt v = Some (varint_len v).
Proof. intros h. unfold varint_len, varint_len_opt, max_varint in *. repeat destr_if; auto. lia. Qed.

Lemma wr_varint_ok v : 0 <= v <= max_varint ->
  qvarint (wr_varint_bytes v) v /\ zlen (wr_varint_bytes v) = varint_len v.
Proof.
  intros h. unfold wr_varint_bytes, varint_len, varint_len_opt, max_varint in *.
  destruct (v <=? 63) eqn:E1.
  { split; [|apply be_enc_len]. split; [apply be_enc_bytes|]. exists 0. cbn [be_enc]. cbn. rewrite Z.div_1_r.
    rewrite Z.mod_small by lia. lia. }
  destruct (v <=? 16383) eqn:E2.
  { split; [apply (or_first_varint 1 1); cbn; lia|]. reflexivity. }
  destruct (v <=? 1073741823) eqn:E3.
  { split; [apply (or_first_varint 3 2); cbn; lia|]. reflexivity. }
  replace (v <=? 4611686018427387903) with true by lia.
  split; [apply (or_first_varint 7 3); cbn; lia|]. reflexivity.
Qed.

(** No encoding is shorter. *)
Lemma varint_shortest l v : qvarint l v -> varint_len v <= zlen l.
Proof.
  intros (_ & k & hk & hl & hv & _). rewrite hl. unfold varint_len, varint_len_opt, max_varint.
  assert (k = 0 \/ k = 1 \/ k = 2 \/ k = 3) as [-> |[-> |[-> | ->]]] by lia; cbn in hv |- *; repeat destr_if; lia.
Qed.

Lemma qvarint_bound l v : qvarint l v -> 0 <= v <= max_varint.
Proof.
  intros (_ & k & hk & hl & hv & _). unfold max_varint.
  assert (k = 0 \/ k = 1 \/ k = 2 \/ k = 3) as [-> |[-> |[-> | ->]]] by lia; cbn in hv; lia.
Qed.

Lemma qvarint_len l v : qvarint l v -> 1 <= zlen l <= 8 /\ bytes_ok l.
Proof. intros (hb & k & hk & hl & _). destruct (pow_split k hk). split; auto. lia. Qed.

(** ** The cursor functions *)
Definition oct_wf (c : oct) : Prop := 0 <= oc_off c <= zlen (oc_buf c) /\ bytes_ok (oc_buf c).
Definition rest_of (c : oct) : list Z := drop (oc_off c) (oc_buf c).

Lemma rest_len c : oct_wf c -> zlen (rest_of c) = zlen (oc_buf c) - oc_off c.
Proof. intros (h & _). unfold rest_of. rewrite zlen_drop by lia. lia. Qed.

Lemma rest_bytes c : oct_wf c -> bytes_ok (rest_of c).
Proof. intros (_ & h). apply bytes_ok_drop. auto. Qed.

Lemma advance_wf n c : oct_wf c -> 0 <= n <= zlen (rest_of c) -> oct_wf (advance n c).
Proof. intros h hn. rewrite rest_len in hn by auto. destruct h. split; auto. cbn. lia. Qed.

Lemma rest_advance n c : oct_wf c -> 0 <= n -> rest_of (advance n c) = drop n (rest_of c).
Proof. intros (h & _) hn. unfold rest_of. cbn [advance oc_buf oc_off]. rewrite drop_drop by lia. f_equal. lia. Qed.

Lemma peek_u_rd n c : oct_wf c ->
  peek_u n c = match rd_u n (rest_of c) with Some (v, _) => (Ok v, c) | None => (Err TooShort, c) end.
Proof.
  intros (h & _). unfold peek_u, rd_u. replace (zlen (oc_buf c) <? oc_off c) with false by lia.
  fold (rest_of c). destruct (zlen (rest_of c) <? Z.of_nat n); reflexivity.
Qed.

Lemma get_u_rd n c : oct_wf c ->
  get_u n c = match rd_u n (rest_of c) with
              | Some (v, _) => (Ok v, advance (Z.of_nat n) c) | None => (Err TooShort, c) end.
Proof.
  intros h. unfold get_u, obind. rewrite peek_u_rd by auto. destruct (rd_u n (rest_of c)) as [[v r]|]; reflexivity.
Qed.

Lemma get_varint_rd c : oct_wf c ->
  get_varint c = match rd_varint (rest_of c) with
                 | Some (v, r) => (Ok v, advance (zlen (rest_of c) - zlen r) c)
                 | None => (Err TooShort, c) end.
Proof.
  intros h. pose proof (rest_bytes c h) as hb. unfold get_varint. unfold obind at 1. rewrite peek_u_rd by auto.
  destruct (rest_of c) as [|x tl] eqn:Er; [reflexivity|]. inversion hb as [|? ? b1 b2]; subst.
  change (rd_u 1 (x :: tl)) with (rd_u 1 ([x] ++ tl)). rewrite rd_u_app by reflexivity.
  cbn [be_value]. change (zlen (@nil Z)) with 0. replace (x * 256 ^ 0 + 0) with x by (cbn; lia).
  destruct (parse_len_spec x b1) as (e & hk). unfold rd_varint. rewrite e.
  unfold obind at 1, o_cap. destruct h as (h1 & h2). replace (zlen (oc_buf c) <? oc_off c) with false by lia.
  pose proof (rest_len c (conj h1 h2)) as rl. rewrite Er in rl. rewrite <- rl.
  assert (g : forall n, get_u n c = match rd_u n (x :: tl) with
              | Some (v, _) => (Ok v, advance (Z.of_nat n) c) | None => (Err TooShort, c) end).
  { intros n. rewrite get_u_rd by (split; auto). rewrite Er. reflexivity. }
  assert (l : forall n v r, rd_u n (x :: tl) = Some (v, r) -> zlen (x :: tl) - zlen r = Z.of_nat n).
  { intros n v r hr. destruct (rd_u_inv _ _ _ _ hr) as (l & -> & q & _). rewrite zlen_app. lia. }
  assert (sh : forall n, (zlen (x :: tl) <? Z.of_nat n) = true -> rd_u n (x :: tl) = None).
  { intros n hn. unfold rd_u. rewrite hn. reflexivity. }
  assert (x / 64 = 0 \/ x / 64 = 1 \/ x / 64 = 2 \/ x / 64 = 3) as [k |[k |[k | k]]] by lia; rewrite k.
  - change (2 ^ 0 =? 1) with true. change (2 ^ 0) with (Z.of_nat 1). cbv iota.
    destruct (zlen (x :: tl) <? Z.of_nat 1) eqn:El; [rewrite sh by auto; reflexivity|]. rewrite g.
    destruct (rd_u 1 (x :: tl)) as [[v r]|] eqn:E; auto. rewrite (l _ _ _ E). reflexivity.
  - change (2 ^ 1 =? 1) with false. change (2 ^ 1 =? 2) with true. change (2 ^ 1) with (Z.of_nat 2). cbv iota.
    destruct (zlen (x :: tl) <? Z.of_nat 2) eqn:El; [rewrite sh by auto; reflexivity|]. unfold obind. rewrite g.
    destruct (rd_u 2 (x :: tl)) as [[v r]|] eqn:E; auto. rewrite (l _ _ _ E). reflexivity.
  - change (2 ^ 2 =? 1) with false. change (2 ^ 2 =? 2) with false. change (2 ^ 2 =? 4) with true.
    change (2 ^ 2) with (Z.of_nat 4). cbv iota.
    destruct (zlen (x :: tl) <? Z.of_nat 4) eqn:El; [rewrite sh by auto; reflexivity|]. unfold obind. rewrite g.
    destruct (rd_u 4 (x :: tl)) as [[v r]|] eqn:E; auto. rewrite (l _ _ _ E). reflexivity.
  - change (2 ^ 3 =? 1) with false. change (2 ^ 3 =? 2) with false. change (2 ^ 3 =? 4) with false.
    change (2 ^ 3) with (Z.of_nat 8). cbv iota.
    destruct (zlen (x :: tl) <? Z.of_nat 8) eqn:El; [rewrite sh by auto; reflexivity|]. unfold obind. rewrite g.
    destruct (rd_u 8 (x :: tl)) as [[v r]|] eqn:E; auto. rewrite (l _ _ _ E). reflexivity.
Qed.

Lemma get_bytes_rd len c : oct_wf c -> 0 <= len ->
  get_bytes len c = match rd_bytes len (rest_of c) with
                    | Some (v, _) => (Ok v, advance len c) | None => (Err TooShort, c) end.
Proof.
  intros h hl. pose proof (rest_len c h) as rl. destruct h as (h & _). unfold get_bytes, obind, o_cap, rd_bytes.
  replace (zlen (oc_buf c) <? oc_off c) with false by lia. rewrite <- rl.
  destruct (zlen (rest_of c) <? len) eqn:E; [reflexivity|]. f_equal. f_equal. unfold slice.
  replace (oc_off c + len - oc_off c) with len by lia. reflexivity.
Qed.

Lemma put_list_spec bs c : oct_wf c -> bytes_ok bs ->
  put_list bs c =
    if zlen (rest_of c) <? zlen bs then (Err TooShort, c)
    else (Ok tt, mkOct (take (oc_off c) (oc_buf c) ++ bs ++ drop (oc_off c + zlen bs) (oc_buf c))
                       (oc_off c + zlen bs)).
Proof.
  intros h hb. pose proof (rest_len c h) as rl. unfold put_list. cbv zeta.
  replace (zlen (oc_buf c) <? oc_off c + zlen bs) with (zlen (rest_of c) <? zlen bs) by lia. reflexivity.
Qed.

Lemma put_result bs c c' : oct_wf c -> bytes_ok bs -> zlen bs <= zlen (rest_of c) ->
  c' = mkOct (take (oc_off c) (oc_buf c) ++ bs ++ drop (oc_off c + zlen bs) (oc_buf c)) (oc_off c + zlen bs) ->
  oct_wf c' /\ zlen (oc_buf c') = zlen (oc_buf c) /\
  rest_of (mkOct (oc_buf c') (oc_off c)) = bs ++ rest_of c' /\
  rest_of c' = drop (zlen bs) (rest_of c) /\ take (oc_off c) (oc_buf c') = take (oc_off c) (oc_buf c).
Proof.
  intros h hb hl ->. pose proof (rest_len c h) as rl. destruct h as (h1 & h2). pose proof (zlen_nonneg bs).
  assert (tl : zlen (take (oc_off c) (oc_buf c)) = oc_off c) by (rewrite zlen_take by lia; lia).
  assert (e : zlen (take (oc_off c) (oc_buf c) ++ bs ++ drop (oc_off c + zlen bs) (oc_buf c)) = zlen (oc_buf c)).
  { rewrite !zlen_app, tl, zlen_drop by lia. lia. }
  assert (r1 : rest_of (mkOct (take (oc_off c) (oc_buf c) ++ bs ++ drop (oc_off c + zlen bs) (oc_buf c)) (oc_off c + zlen bs))
           = drop (oc_off c + zlen bs) (oc_buf c)).
  { unfold rest_of. cbn [oc_buf oc_off]. rewrite drop_app_ge by lia. rewrite tl.
    replace (oc_off c + zlen bs - oc_off c) with (zlen bs) by lia. apply drop_app_exact. }
  split. { split; cbn [oc_buf oc_off]; [lia|]. apply bytes_ok_app. split; [apply bytes_ok_take; auto|].
           apply bytes_ok_app. split; auto. apply bytes_ok_drop; auto. }
  split; [exact e|]. split; [|split].
  - rewrite r1. unfold rest_of. cbn [oc_buf oc_off]. rewrite <- tl at 1. apply drop_app_exact.
  - rewrite r1. unfold rest_of. rewrite drop_drop by lia. f_equal. lia.
  - cbn [oc_buf]. rewrite <- tl at 1. apply take_app_exact.
Qed.

(** put_varint writes [wr_varint_bytes]. *)
Lemma put_varint_spec v c : oct_wf c -> 0 <= v <= max_varint -> put_varint v c = put_list (wr_varint_bytes v) c.
Proof.
  intros h hv. unfold put_varint. rewrite varint_len_spec by auto.
  destruct (wr_varint_ok v hv) as (q & ql). destruct (qvarint_len _ _ q) as (_ & qb).
  pose proof (rest_len c h) as rl.
  unfold put_varint_with_len, obind, o_cap. destruct h as (h1 & h2).
  replace (zlen (oc_buf c) <? oc_off c) with false by lia. rewrite <- rl, <- ql.
  destruct (zlen (rest_of c) <? zlen (wr_varint_bytes v)) eqn:E.
  { rewrite put_list_spec, E by (auto; split; auto). reflexivity. }
  rewrite ql. unfold put_u, wr_varint_bytes, varint_len, varint_len_opt, max_varint in *.
  destruct (v <=? 63); [reflexivity|]. destruct (v <=? 16383); [reflexivity|].
  destruct (v <=? 1073741823); [reflexivity|]. replace (v <=? 4611686018427387903) with true by lia. reflexivity.
Qed.
