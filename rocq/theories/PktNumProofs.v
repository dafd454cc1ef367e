Require Import Verif.Base Verif.Errors Verif.RangesModel Verif.RangesSpec Verif.RangesProofs Verif.RangesProofs2.
Require Import Verif.OctetsModel Verif.OctetsSpec Verif.OctetsProofs Verif.PktNumModel Verif.PktNumSpec.

(** ** Truncation *)
Lemma lor_shift q n t : 0 <= n -> 0 <= t < 2 ^ n -> Z.lor (Z.shiftl q n) t = q * 2 ^ n + t.
Proof.
  intros hn ht. rewrite <- Z.shiftl_mul_pow2 by lia. symmetry.
  rewrite <- Z.lxor_lor; [apply Z.add_nocarry_lxor|];
    apply Z.bits_inj'; intros m hm; rewrite Z.land_spec, Z.bits_0;
    (destruct (Z_lt_ge_dec m n) as [lt|ge];
     [rewrite Z.shiftl_spec_low by lia; reflexivity
     |destruct (Z.eq_dec t 0) as [->|n0]; [rewrite Z.bits_0; apply andb_false_r|];
      rewrite (Z.bits_above_log2 t); [apply andb_false_r|lia|];
      apply Z.log2_lt_pow2; [lia|]; apply Z.lt_le_trans with (2 ^ n); [lia|apply Z.pow_le_mono_r; lia]]).
Qed.

Lemma candidate_eq e n t : 0 <= n -> 0 <= t < 2 ^ n ->
  Z.lor (Z.land e (Z.lnot (2 ^ n - 1))) t = e / 2 ^ n * 2 ^ n + t.
Proof.
  intros hn ht. change (Z.land e (Z.lnot (2 ^ n - 1))) with (Z.land e (Z.lnot (2 ^ n - 1))).
  rewrite <- Z.ldiff_land. replace (2 ^ n - 1) with (Z.ones n) by (rewrite Z.ones_equiv; lia).
  rewrite Z.ldiff_ones_r by lia. rewrite lor_shift by auto. rewrite Z.shiftr_div_pow2 by lia. reflexivity.
Qed.

Lemma decode_exact largest pn len : 1 <= len <= 4 -> 0 <= largest -> 0 <= pn < 2 ^ 62 ->
  largest + 1 - 2 ^ (8 * len - 1) < pn <= largest + 1 + 2 ^ (8 * len - 1) ->
  decode_pkt_num largest (pn mod 2 ^ (8 * len)) len = pn.
Proof.
  intros hl h0 hp hw. unfold decode_pkt_num. replace (len * 8) with (8 * len) by lia.
  assert (ew : 2 ^ (8 * len) = 2 * 2 ^ (8 * len - 1)).
  { replace (8 * len) with (1 + (8 * len - 1)) at 1 by lia. rewrite Z.pow_add_r by lia. reflexivity. }
  set (H := 2 ^ (8 * len - 1)) in *. assert (hH : 0 < H) by (apply Z.pow_pos_nonneg; lia).
  rewrite ew. replace (2 * H / 2) with H by (rewrite Z.mul_comm, Z.div_mul; lia).
  rewrite <- ew, candidate_eq by (try apply Z.mod_pos_bound; try lia). rewrite ew.
  set (e := largest + 1) in *. pose proof (Z.div_mod e (2 * H) ltac:(lia)) as d1. pose proof (Z.mod_pos_bound e (2 * H) ltac:(lia)) as m1.
  pose proof (Z.div_mod pn (2 * H) ltac:(lia)) as d2. pose proof (Z.mod_pos_bound pn (2 * H) ltac:(lia)) as m2.
  set (q := e / (2 * H)) in *. set (p := pn / (2 * H)) in *. set (u := e mod (2 * H)) in *. set (t := pn mod (2 * H)) in *.
  assert (c : p = q - 1 \/ p = q \/ p = q + 1) by nia.
  assert (hq : 0 <= q) by (unfold q; apply Z.div_pos; lia).
  assert (hpp : 0 <= p) by (unfold p; apply Z.div_pos; lia).
  destruct c as [c|[c|c]]; rewrite c in d2.
  - replace (q * (2 * H) + t) with (pn + 2 * H) by lia.
    replace (pn + 2 * H + H <=? e) with false by lia. cbn [andb].
    replace (e + H <? pn + 2 * H) with true by nia. replace (2 * H <=? pn + 2 * H) with true by lia. cbn [andb]. lia.
  - replace (q * (2 * H) + t) with pn by lia.
    replace (pn + H <=? e) with false by lia. cbn [andb]. replace (e + H <? pn) with false by lia. reflexivity.
  - replace (q * (2 * H) + t) with (pn - 2 * H) by lia.
    replace (pn - 2 * H + H <=? e) with true by lia. replace (pn - 2 * H <? 2 ^ 62 - 2 * H) with true by lia.
    cbn [andb]. lia.
Qed.

Lemma decode_bound largest t len : 1 <= len <= 4 -> 0 <= largest -> 0 <= t < 2 ^ (8 * len) ->
  0 <= decode_pkt_num largest t len < largest + 2 ^ 32.
Proof.
  intros hl h0 ht. unfold decode_pkt_num. replace (len * 8) with (8 * len) by lia.
  assert (ew : 2 ^ (8 * len) = 2 * 2 ^ (8 * len - 1)).
  { replace (8 * len) with (1 + (8 * len - 1)) at 1 by lia. rewrite Z.pow_add_r by lia. reflexivity. }
  assert (le : 2 ^ (8 * len) <= 2 ^ 32) by (apply Z.pow_le_mono_r; lia).
  set (H := 2 ^ (8 * len - 1)) in *. assert (hH : 0 < H) by (apply Z.pow_pos_nonneg; lia).
  assert (h128 : 128 <= H) by (change 128 with (2 ^ 7); apply Z.pow_le_mono_r; lia).
  rewrite candidate_eq by lia. rewrite ew in *. replace (2 * H / 2) with H by (rewrite Z.mul_comm, Z.div_mul; lia).
  set (e := largest + 1) in *. pose proof (Z.div_mod e (2 * H) ltac:(lia)) as d1. pose proof (Z.mod_pos_bound e (2 * H) ltac:(lia)) as m1.
  set (q := e / (2 * H)) in *. set (u := e mod (2 * H)) in *.
  assert (hq : 0 <= q) by (unfold q; apply Z.div_pos; lia).
  set (c := q * (2 * H) + t). assert (0 <= c) by (unfold c; nia).
  destruct ((c + H <=? e) && (c <? 2 ^ 62 - 2 * H)) eqn:E1; [lia|].
  destruct ((e + H <? c) && (2 * H <=? c)) eqn:E2; [unfold c in *; nia|]. 
  destruct (e + H <? c) eqn:E3; [|lia]. cbn [andb] in E2. lia.
Qed.

Lemma pkt_num_len_window pn la : 0 <= la ->
  1 <= pkt_num_len pn la /\ sat_sub pn la + 1 < 2 ^ (8 * pkt_num_len pn la - 1) /\
  (pkt_num_len pn la <= 4 <-> sat_sub pn la + 1 < 2 ^ 31).
Proof.
  intros h. unfold pkt_num_len. set (n := sat_sub pn la + 1). assert (hn : 1 <= n) by (unfold n, sat_sub; lia).
  pose proof (Z.log2_nonneg n) as l0. pose proof (Z.log2_spec n ltac:(lia)) as (l1 & l2).
  set (k := (Z.log2 n + 1 + 1 + 7) / 8).
  pose proof (Z.div_mod (Z.log2 n + 1 + 1 + 7) 8 ltac:(lia)) as d. pose proof (Z.mod_pos_bound (Z.log2 n + 1 + 1 + 7) 8 ltac:(lia)) as m.
  fold k in d. split; [lia|]. split.
  - eapply Z.lt_le_trans; [exact l2|]. apply Z.pow_le_mono_r; lia.
  - split; intros hk.
    + eapply Z.lt_le_trans; [exact l2|]. apply Z.pow_le_mono_r; lia.
    + assert (Z.log2 n < 31) by (apply Z.log2_lt_pow2; lia). lia.
Qed.

Lemma encode_spec pn len : 0 <= pn -> 1 <= len <= 4 -> exists bs, encode_pkt_num pn len = Ok bs /\ zlen bs = len /\
  be_value bs = pn mod 2 ^ (8 * len).
Proof.
  intros hp hl. assert (len = 1 \/ len = 2 \/ len = 3 \/ len = 4) as [-> |[-> |[-> | ->]]] by lia; cbn [encode_pkt_num];
    eexists; (split; [reflexivity|]); split; try reflexivity; rewrite be_enc_value; reflexivity.
Qed.

(** The sender's bytes decode to the packet number. *)
Theorem pn_round_trip pn la largest : 0 <= la -> 0 <= pn < 2 ^ 62 -> la <= largest ->
  let len := pkt_num_len pn la in
  pn - la < 2 ^ 31 - 1 -> largest - pn < 2 ^ (8 * len - 1) - 1 ->
  exists bs, encode_pkt_num pn len = Ok bs /\ zlen bs = len /\
    decode_pkt_num largest (be_value bs) len = pn.
Proof.
  intros h0 hp hl len hu hw. destruct (pkt_num_len_window pn la h0) as (l1 & l2 & l3). fold len in l1, l2, l3.
  assert (l4 : len <= 4) by (apply l3; unfold sat_sub; lia).
  destruct (encode_spec pn len ltac:(lia) ltac:(lia)) as (bs & e & z & v). exists bs. split; auto. split; auto.
  rewrite v. apply decode_exact; try lia. unfold sat_sub in l2. lia.
Qed.

Theorem pn_too_far_is_an_error pn la : 0 <= la -> 2 ^ 31 - 1 <= pn - la ->
  encode_pkt_num pn (pkt_num_len pn la) = Err InvalidPacket.
Proof.
  intros h0 hu. destruct (pkt_num_len_window pn la h0) as (l1 & l2 & l3).
  assert (l4 : ~ pkt_num_len pn la <= 4) by (rewrite l3; unfold sat_sub; lia).
  unfold encode_pkt_num. destruct (pkt_num_len pn la) as [|p|p]; try lia.
  destruct p as [[[|[]|]|[|[]|]|]|[[|[]|]|[|[]|]|]|]; try reflexivity; lia.
Qed.

(** ** The duplicate window *)
Lemma max_list_ge l x : In x l -> x <= max_list l.
Proof. induction l as [|y l IH]; cbn; [tauto|]. intros [->|h]; [lia|]. specialize (IH h). unfold max_list in *. lia. Qed.

Lemma max_list_nonneg l : 0 <= max_list l.
Proof. induction l; cbn; [lia|]. unfold max_list in *. lia. Qed.

Lemma max_list_snoc l x : max_list (l ++ [x]) = Z.max (max_list l) (Z.max x 0).
Proof. unfold max_list. induction l as [|y l IH]; cbn [app fold_right]; [lia|]. rewrite IH. lia. Qed.

Lemma max_list_in l : l <> [] -> Forall (fun x => 0 <= x) l -> In (max_list l) l.
Proof.
  induction l as [|x l IH]; [congruence|]. intros _ hf. inversion hf as [|? ? h1 h2]; subst. cbn [max_list fold_right].
  destruct l as [|y l]; [left; cbn; lia|]. specialize (IH ltac:(discriminate) h2). fold (max_list (y :: l)).
  destruct (Z.max_spec x (max_list (y :: l))) as [(_ & ->)|(_ & ->)]; [right; auto|left; auto].
Qed.

Definition bit_mask_test (b k : Z) : 0 <= k -> negb (Z.land b (Z.shiftl 1 k) =? 0) = Z.testbit b k.
Proof.
  intros hk. rewrite Z.shiftl_1_l. destruct (Z.testbit b k) eqn:E.
  - apply negb_true_iff, Z.eqb_neq. intros h. assert (q : Z.testbit (Z.land b (2 ^ k)) k = false) by (rewrite h; apply Z.bits_0).
    rewrite Z.land_spec, E, Z.pow2_bits_true in q by lia. discriminate.
  - apply negb_false_iff, Z.eqb_eq. apply Z.bits_inj'. intros n hn. rewrite Z.land_spec, Z.bits_0, Z.pow2_bits_eqb by lia.
    destruct (k =? n) eqn:Ek; [|apply andb_false_r]. apply Z.eqb_eq in Ek. subst n. rewrite E. reflexivity.
Qed.

Definition win_inv (h : list Z) (w : pnwin) : Prop :=
  pw_lower w = Z.max 0 (max_list h - 127) /\ 0 <= pw_bits w < 2 ^ 128 /\
  forall s, pw_lower w <= s <= pw_lower w + 127 -> (Z.testbit (pw_bits w) (pw_lower w + 127 - s) = true <-> In s h).

Lemma win_upper h w : win_inv h w -> Forall (fun x => 0 <= x < 2 ^ 62) h -> pw_upper w = pw_lower w + 127.
Proof.
  intros (h1 & _) hf. unfold pw_upper, u64_max.
  assert (max_list h < 2 ^ 62).
  { clear h1. induction hf as [|x l hx hl IH]; cbn; [lia|]. unfold max_list in IH. lia. }
  lia.
Qed.

Lemma win_new : win_inv [] pw_new.
Proof. split; [reflexivity|]. split; [cbn; lia|]. intros s hs. cbn [pw_new pw_bits]. rewrite Z.bits_0. split; [discriminate|contradiction]. Qed.

Lemma testbit_small b k : 0 <= b < 2 ^ 128 -> 128 <= k -> Z.testbit b k = false.
Proof.
  intros hb hk. destruct (Z.eq_dec b 0) as [->|n0]; [apply Z.bits_0|]. apply Z.bits_above_log2; [lia|].
  assert (Z.log2 b < 128) by (apply Z.log2_lt_pow2; lia). lia.
Qed.

Lemma lor_bound a b n : 0 <= n -> 0 <= a < 2 ^ n -> 0 <= b < 2 ^ n -> 0 <= Z.lor a b < 2 ^ n.
Proof.
  intros hn ha hb. split; [apply Z.lor_nonneg; lia|].
  destruct (Z.eq_dec (Z.lor a b) 0) as [->|n0]; [apply Z.pow_pos_nonneg; lia|].
  assert (0 <= Z.lor a b) by (apply Z.lor_nonneg; lia).
  apply Z.log2_lt_pow2; [lia|]. rewrite Z.log2_lor by lia.
  assert (hl : forall x, 0 <= x < 2 ^ n -> Z.log2 x < n \/ x = 0).
  { intros x hx. destruct (Z.eq_dec x 0); auto. left. apply Z.log2_lt_pow2; lia. }
  assert (0 < n) by (destruct (Z.eq_dec n 0) as [->|]; [assert (a = 0) by lia; assert (b = 0) by lia; subst; cbn in n0; lia|lia]).
  destruct (hl a ha) as [|e1]; destruct (hl b hb) as [|e2]; subst; cbn [Z.log2]; lia.
Qed.

Lemma pow_mono a b : 0 <= a <= b -> 2 ^ a <= 2 ^ b.
Proof. intros. apply Z.pow_le_mono_r; lia. Qed.

Lemma win_insert h w x : win_inv h w -> Forall (fun x => 0 <= x < 2 ^ 62) h -> 0 <= x < 2 ^ 62 ->
  x < max_list h + 2 ^ 32 -> win_inv (h ++ [x]) (pw_insert x w).
Proof.
  intros hw hf hx hj. pose proof (win_upper h w hw hf) as hu. destruct hw as (h1 & h2 & h3).
  pose proof (max_list_nonneg h) as m0.
  assert (hin : forall y, In y h -> y <= max_list h) by (intros; apply max_list_ge; auto).
  unfold pw_insert. destruct (x <? pw_lower w) eqn:E1.
  { split; [rewrite max_list_snoc; lia|]. split; auto. intros s hs. rewrite h3 by auto. rewrite in_app_iff. cbn [In].
    split; [auto|]. intros [|[->|[]]]; auto. lia. }
  set (w1 := if pw_upper w <? x then _ else w).
  assert (k : pw_lower w1 = Z.max 0 (max_list (h ++ [x]) - 127) /\ 0 <= pw_bits w1 < 2 ^ 128 /\ pw_upper w1 = pw_lower w1 + 127 /\
    pw_lower w1 <= x <= pw_lower w1 + 127 /\
    forall s, pw_lower w1 <= s <= pw_lower w1 + 127 -> (Z.testbit (pw_bits w1) (pw_lower w1 + 127 - s) = true <-> In s h)).
  { unfold w1. destruct (pw_upper w <? x) eqn:E2; rewrite hu in *.
    - set (d := x - (pw_lower w + 127)). cbn [pw_lower pw_bits]. rewrite max_list_snoc.
      assert (hd : 1 <= d < 2 ^ 32) by (unfold d; lia).
      assert (hb : 0 <= shl_or_zero (pw_bits w) d < 2 ^ 128).
      { unfold shl_or_zero. destruct (d mod 2 ^ 32 <? 128); [apply Z.mod_pos_bound; reflexivity|split; [lia|reflexivity]]. }
      split; [unfold d in *; lia|]. split; [exact hb|]. split; [unfold pw_upper, u64_max, d; cbn [pw_lower]; lia|]. split; [unfold d; lia|].
      intros s hs. unfold shl_or_zero. rewrite (Z.mod_small d) by lia. destruct (d <? 128) eqn:E3.
      + rewrite Z.mod_pow2_bits_low by lia. rewrite Z.shiftl_spec by lia.
        replace (pw_lower w + d + 127 - s - d) with (pw_lower w + 127 - s) by lia.
        destruct (Z_le_gt_dec s (pw_lower w + 127)) as [le|gt]; [apply h3; lia|].
        rewrite Z.testbit_neg_r by lia. split; [discriminate|]. intros hi. specialize (hin s hi). lia.
      + rewrite Z.bits_0. split; [discriminate|]. intros hi. specialize (hin s hi). lia.
    - rewrite max_list_snoc. split; [lia|]. split; auto. split; auto. split; [lia|]. auto. }
  clearbody w1. destruct k as (k1 & k2 & k3 & k4 & k5). split; [exact k1|]. cbn [pw_lower pw_bits]. rewrite k3. split.
  - apply lor_bound; try lia. rewrite Z.shiftl_1_l. split; [apply Z.pow_nonneg; lia|]. apply Z.pow_lt_mono_r; lia.
  - intros s hs. rewrite Z.lor_spec, Z.shiftl_1_l, Z.pow2_bits_eqb by lia. rewrite orb_true_iff, k5 by auto.
    rewrite in_app_iff. cbn [In]. rewrite Z.eqb_eq. intuition lia.
Qed.

Lemma win_contains h w s : win_inv h w -> Forall (fun x => 0 <= x < 2 ^ 62) h -> 0 <= s ->
  (pw_contains s w = true <-> In s h \/ s < max_list h - 127).
Proof.
  intros hw hf hs. pose proof (win_upper h w hw hf) as hu. destruct hw as (h1 & h2 & h3). pose proof (max_list_nonneg h).
  unfold pw_contains. rewrite hu. destruct (pw_lower w + 127 <? s) eqn:E1.
  { split; [discriminate|]. intros [hi|hi]; [apply max_list_ge in hi|]; lia. }
  destruct (s <? pw_lower w) eqn:E2; [split; auto; right; lia|].
  rewrite bit_mask_test by lia. rewrite h3 by lia. split; auto. intros [|]; auto. lia.
Qed.

Theorem window_exact pns s : Forall (fun x => 0 <= x < 2 ^ 62) pns -> small_jumps pns -> 0 <= s ->
  (pw_contains s (fold_left (fun w x => pw_insert x w) pns pw_new) = true <-> In s pns \/ s < max_list pns - 127).
Proof.
  intros hf hj hs. apply win_contains; auto. clear hs. induction pns as [|x pns IH] using rev_ind; [apply win_new|].
  apply Forall_app in hf as (hf1 & hf2). inversion hf2 as [|? ? hx _]; subst. rewrite fold_left_app. cbn [fold_left].
  apply win_insert; auto.
  - apply IH; auto. intros a y b e. apply (hj a y (b ++ [x])). rewrite e, <- app_assoc. reflexivity.
  - apply (hj pns x []). reflexivity.
Qed.
