(** The decoder of the Huffman code accepts exactly the encodings. *)
Require Import Verif.Base Verif.OctetsModel Verif.HuffmanTables Verif.HuffmanModel Verif.HuffmanSpec.

(** The bits read but not yet decoded in each state of the decoder: number and value *)
Definition path_table : list (nat * Z) :=
  [(0%nat, 0); (1%nat, 0); (2%nat, 0); (3%nat, 0); (4%nat, 0); (4%nat, 1); (3%nat, 1); (4%nat, 2); (4%nat, 3); (2%nat, 1);
   (3%nat, 2); (4%nat, 4); (4%nat, 5); (5%nat, 10); (5%nat, 11); (3%nat, 3); (4%nat, 6); (5%nat, 12); (5%nat, 13); (4%nat, 7);
   (5%nat, 14); (5%nat, 15); (1%nat, 1); (2%nat, 2); (3%nat, 4); (4%nat, 8); (5%nat, 16); (5%nat, 17); (4%nat, 9); (5%nat, 18);
   (5%nat, 19); (3%nat, 5); (4%nat, 10); (5%nat, 20); (5%nat, 21); (4%nat, 11); (5%nat, 22); (5%nat, 23); (6%nat, 46); (6%nat, 47);
   (2%nat, 3); (3%nat, 6); (4%nat, 12); (5%nat, 24); (6%nat, 48); (6%nat, 49); (5%nat, 25); (6%nat, 50); (6%nat, 51); (4%nat, 13);
   (5%nat, 26); (6%nat, 52); (6%nat, 53); (5%nat, 27); (6%nat, 54); (6%nat, 55); (3%nat, 7); (4%nat, 14); (5%nat, 28); (6%nat, 56);
   (6%nat, 57); (5%nat, 29); (6%nat, 58); (6%nat, 59); (4%nat, 15); (5%nat, 30); (6%nat, 60); (6%nat, 61); (5%nat, 31); (6%nat, 62);
   (7%nat, 124); (7%nat, 125); (6%nat, 63); (7%nat, 126); (7%nat, 127); (8%nat, 254); (9%nat, 508); (9%nat, 509); (8%nat, 255); (9%nat, 510);
   (10%nat, 1021); (9%nat, 511); (10%nat, 1022); (11%nat, 2045); (10%nat, 1023); (11%nat, 2046); (12%nat, 4092); (12%nat, 4093); (11%nat, 2047); (12%nat, 4094);
   (12%nat, 4095); (13%nat, 8190); (13%nat, 8191); (14%nat, 16382); (14%nat, 16383); (15%nat, 32767); (16%nat, 65534); (17%nat, 131068); (18%nat, 262136); (18%nat, 262137);
   (19%nat, 524275); (17%nat, 131069); (18%nat, 262138); (19%nat, 524276); (19%nat, 524277); (18%nat, 262139); (19%nat, 524278); (19%nat, 524279); (20%nat, 1048558); (20%nat, 1048559);
   (16%nat, 65535); (17%nat, 131070); (18%nat, 262140); (19%nat, 524280); (20%nat, 1048560); (20%nat, 1048561); (19%nat, 524281); (20%nat, 1048562); (20%nat, 1048563); (18%nat, 262141);
   (19%nat, 524282); (20%nat, 1048564); (21%nat, 2097129); (20%nat, 1048565); (21%nat, 2097130); (21%nat, 2097131); (19%nat, 524283); (20%nat, 1048566); (21%nat, 2097132); (21%nat, 2097133);
   (20%nat, 1048567); (21%nat, 2097134); (21%nat, 2097135); (17%nat, 131071); (18%nat, 262142); (19%nat, 524284); (20%nat, 1048568); (21%nat, 2097136); (21%nat, 2097137); (20%nat, 1048569);
   (21%nat, 2097138); (21%nat, 2097139); (19%nat, 524285); (20%nat, 1048570); (21%nat, 2097140); (21%nat, 2097141); (20%nat, 1048571); (21%nat, 2097142); (22%nat, 4194284); (22%nat, 4194285);
   (21%nat, 2097143); (22%nat, 4194286); (22%nat, 4194287); (18%nat, 262143); (19%nat, 524286); (20%nat, 1048572); (21%nat, 2097144); (22%nat, 4194288); (22%nat, 4194289); (21%nat, 2097145);
   (22%nat, 4194290); (22%nat, 4194291); (20%nat, 1048573); (21%nat, 2097146); (22%nat, 4194292); (22%nat, 4194293); (21%nat, 2097147); (22%nat, 4194294); (22%nat, 4194295); (19%nat, 524287);
   (20%nat, 1048574); (21%nat, 2097148); (22%nat, 4194296); (22%nat, 4194297); (21%nat, 2097149); (22%nat, 4194298); (23%nat, 8388597); (22%nat, 4194299); (23%nat, 8388598); (23%nat, 8388599);
   (20%nat, 1048575); (21%nat, 2097150); (22%nat, 4194300); (23%nat, 8388600); (23%nat, 8388601); (22%nat, 4194301); (23%nat, 8388602); (23%nat, 8388603); (24%nat, 16777206); (24%nat, 16777207);
   (21%nat, 2097151); (22%nat, 4194302); (23%nat, 8388604); (24%nat, 16777208); (25%nat, 33554416); (25%nat, 33554417); (24%nat, 16777209); (25%nat, 33554418); (25%nat, 33554419); (23%nat, 8388605);
   (24%nat, 16777210); (25%nat, 33554420); (25%nat, 33554421); (24%nat, 16777211); (25%nat, 33554422); (25%nat, 33554423); (26%nat, 67108847); (22%nat, 4194303); (23%nat, 8388606); (24%nat, 16777212);
   (25%nat, 33554424); (26%nat, 67108848); (26%nat, 67108849); (25%nat, 33554425); (26%nat, 67108850); (26%nat, 67108851); (24%nat, 16777213); (25%nat, 33554426); (26%nat, 67108852); (26%nat, 67108853);
   (25%nat, 33554427); (26%nat, 67108854); (26%nat, 67108855); (23%nat, 8388607); (24%nat, 16777214); (25%nat, 33554428); (26%nat, 67108856); (27%nat, 134217713); (26%nat, 67108857); (27%nat, 134217714);
   (27%nat, 134217715); (25%nat, 33554429); (26%nat, 67108858); (27%nat, 134217716); (27%nat, 134217717); (26%nat, 67108859); (27%nat, 134217718); (27%nat, 134217719); (24%nat, 16777215); (25%nat, 33554430);
   (26%nat, 67108860); (27%nat, 134217720); (27%nat, 134217721); (26%nat, 67108861); (27%nat, 134217722); (27%nat, 134217723); (25%nat, 33554431); (26%nat, 67108862); (27%nat, 134217724); (27%nat, 134217725);
   (26%nat, 67108863); (27%nat, 134217726); (27%nat, 134217727); (28%nat, 268435455); (29%nat, 536870910); (29%nat, 536870911)].

(** * Bit strings *)
Lemma bits_len n v : length (bits_of n v) = n.
Proof. induction n; cbn; auto. Qed.
Lemma bval_snoc l b : bval (l ++ [b]) = 2 * bval l + if b then 1 else 0.
Proof. unfold bval. rewrite fold_left_app. reflexivity. Qed.
Lemma bval_app a b : bval (a ++ b) = bval a * 2 ^ Z.of_nat (length b) + bval b.
Proof.
  induction b as [|x b IH] using rev_ind.
  - rewrite app_nil_r. cbn. lia.
  - rewrite app_assoc, !bval_snoc, IH, app_length. cbn [length]. rewrite Nat.add_1_r, Nat2Z.inj_succ, Z.pow_succ_r by lia. lia.
Qed.
Lemma bval_range l : 0 <= bval l < 2 ^ Z.of_nat (length l).
Proof.
  induction l as [|x b IH] using rev_ind; [cbn; lia|]. rewrite bval_snoc, app_length. cbn [length]. rewrite Nat.add_1_r, Nat2Z.inj_succ, Z.pow_succ_r by lia.
  destruct x; lia.
Qed.
Lemma bval_cons x l : bval (x :: l) = (if x then 2 ^ Z.of_nat (length l) else 0) + bval l.
Proof. change (x :: l) with ([x] ++ l). rewrite bval_app. destruct x; cbn [bval fold_left]; lia. Qed.

Lemma bits_app n m a b : 0 <= b < 2 ^ Z.of_nat m -> bits_of (n + m) (a * 2 ^ Z.of_nat m + b) = bits_of n a ++ bits_of m b.
Proof.
  intros hb. assert (hp : 0 < 2 ^ Z.of_nat m) by (apply Z.pow_pos_nonneg; lia).
  induction n as [|n IH]; cbn [Nat.add bits_of app].
  - clear hp. assert (hx : forall k, (k <= m)%nat -> bits_of k (a * 2 ^ Z.of_nat m + b) = bits_of k b).
    { induction k as [|k IH]; intros hk; [reflexivity|]. cbn [bits_of]. rewrite IH by lia. f_equal.
      replace (Z.of_nat m) with (Z.of_nat (m - k) + Z.of_nat k) by lia. rewrite Z.pow_add_r, Z.mul_assoc, Z.div_add_l by lia.
      rewrite Z.odd_add. replace (Z.of_nat (m - k)) with (Z.succ (Z.of_nat (m - k - 1))) by lia. rewrite Z.pow_succ_r by lia.
      replace (a * (2 * 2 ^ Z.of_nat (m - k - 1))) with (2 * (a * 2 ^ Z.of_nat (m - k - 1))) by lia. rewrite Z.odd_mul. cbn [Z.odd andb xorb]. destruct (Z.odd _); reflexivity. }
    apply hx. lia.
  - rewrite IH. f_equal. f_equal. rewrite (Nat2Z.inj_add n m), (Z.add_comm (Z.of_nat n)), Z.pow_add_r, <- Z.div_div by lia.
    rewrite Z.div_add_l, (Z.div_small b), Z.add_0_r by lia. reflexivity.
Qed.
Lemma bits_bval l : bits_of (length l) (bval l) = l.
Proof.
  induction l as [|x b IH] using rev_ind; [reflexivity|]. rewrite app_length, bval_snoc. cbn [length].
  rewrite (Z.mul_comm 2). change 2 with (2 ^ Z.of_nat 1) at 1. rewrite (bits_app (length b) 1 (bval b) (if x then 1 else 0)), IH by (destruct x; cbn; lia).
  destruct x; reflexivity.
Qed.
Lemma bval_bits n v : bval (bits_of n v) = v mod 2 ^ Z.of_nat n.
Proof.
  induction n as [|n IH]; [cbn; rewrite Z.mod_1_r; reflexivity|]. cbn [bits_of]. rewrite bval_cons, bits_len, IH.
  rewrite Nat2Z.inj_succ, Z.pow_succ_r, (Z.mul_comm 2) by lia. assert (hp : 0 < 2 ^ Z.of_nat n) by (apply Z.pow_pos_nonneg; lia).
  rewrite Z.rem_mul_r by lia. rewrite Zodd_mod. unfold Zeq_bool. destruct (_ mod 2) eqn:e.
  - cbn. lia.
  - assert (p = 1%positive) by (pose proof (Z.mod_pos_bound (v / 2 ^ Z.of_nat n) 2); lia). subst. cbn. lia.
  - pose proof (Z.mod_pos_bound (v / 2 ^ Z.of_nat n) 2). lia.
Qed.
Lemma bval_inj a b : length a = length b -> bval a = bval b -> a = b.
Proof. intros h1 h2. rewrite <- (bits_bval a), <- (bits_bval b), h1, h2. reflexivity. Qed.

(** * The tables, checked entry by entry *)
Fixpoint pre (a b : list bool) : option (list bool) :=
  match a, b with
  | [], _ => Some b
  | x :: a, y :: b => if Bool.eqb x y then pre a b else None
  | _, [] => None
  end.
Lemma pre_spec a : forall b c, pre a b = Some c <-> b = a ++ c.
Proof.
  induction a as [|x a IH]; intros b c; cbn [pre app].
  - split; congruence.
  - destruct b as [|y b]; [split; discriminate|]. destruct (Bool.eqb_spec x y) as [->|hne].
    + rewrite IH. split; congruence.
    + split; [discriminate|intros h; congruence].
Qed.
Lemma pre_none a b : pre a b = None <-> ~ is_prefix a b.
Proof.
  split.
  - intros h (c & ->). assert (q : pre a (a ++ c) = Some c) by (apply pre_spec; reflexivity). congruence.
  - intros h. destruct (pre a b) as [c|] eqn:e; [|reflexivity]. apply pre_spec in e. destruct h. exists c. exact e.
Qed.

Definition symbols : list Z := map Z.of_nat (seq 0 256).
Lemma symbols_in s : In s symbols <-> is_byte s.
Proof.
  unfold symbols, is_byte. rewrite in_map_iff. split.
  - intros (n & <- & h). apply in_seq in h. lia.
  - intros h. exists (Z.to_nat s). split; [lia|]. apply in_seq. lia.
Qed.
Definition all_codes : list (Z * list bool) := Eval vm_compute in map (fun s => (s, code s)) symbols.
Lemma all_codes_eq : all_codes = map (fun s => (s, code s)) symbols.
Proof. vm_compute. reflexivity. Qed.
Lemma all_codes_in s : is_byte s -> In (s, code s) all_codes.
Proof. intros h. rewrite all_codes_eq. apply in_map_iff. exists s. split; [reflexivity|]. apply symbols_in. exact h. Qed.

(** No code is a prefix of another *)
Definition prefix_free_b : bool :=
  forallb (fun a => forallb (fun b => (fst a =? fst b) || match pre (snd a) (snd b) with None => true | Some _ => false end) all_codes) all_codes.
Lemma prefix_free_ok : prefix_free_b = true. Proof. vm_compute. reflexivity. Qed.
Lemma prefix_free a b : is_byte a -> is_byte b -> is_prefix (code a) (code b) -> a = b.
Proof.
  intros ha hb hp. pose proof prefix_free_ok as h. unfold prefix_free_b in h. rewrite forallb_forall in h. specialize (h _ (all_codes_in a ha)).
  rewrite forallb_forall in h. specialize (h _ (all_codes_in b hb)). cbn [fst snd] in h.
  destruct (Z.eqb_spec a b); [assumption|]. cbn [orb] in h. destruct (pre (code a) (code b)) eqn:e; [discriminate h|]. apply pre_none in e. contradiction.
Qed.
Fixpoint all_ones (l : list bool) : bool := match l with [] => true | x :: l => x && all_ones l end.
Lemma all_ones_spec l : all_ones l = true <-> l = ones (length l).
Proof.
  unfold ones. induction l as [|x l IH]; cbn [all_ones length repeat]; [tauto|]. rewrite Bool.andb_true_iff, IH. split.
  - intros [-> h]. rewrite <- h. reflexivity.
  - intros h. injection h as -> h. auto.
Qed.
Lemma code_len_b : forallb (fun a => (5 <=? zlen (snd a)) && (zlen (snd a) <=? 30) && negb (all_ones (snd a) && (zlen (snd a) <=? 7))) all_codes = true.
Proof. vm_compute. reflexivity. Qed.
Lemma code_facts s : is_byte s -> 5 <= zlen (code s) <= 30 /\ forall k r, ones k = code s ++ r -> (7 < k)%nat.
Proof.
  intros hs. pose proof code_len_b as h. rewrite forallb_forall in h. specialize (h _ (all_codes_in s hs)). cbn [snd] in h.
  apply Bool.andb_true_iff in h. destruct h as [h h3]. apply Bool.andb_true_iff in h. destruct h as [h1 h2]. split; [lia|].
  intros k r hk. destruct (Nat.lt_ge_cases 7 k) as [|hge]; [assumption|]. exfalso.
  assert (ho : all_ones (code s) = true).
  { clear h1 h2 h3. revert r k hk hge. generalize (code s). induction l as [|x l IH]; intros r k hk hge; [reflexivity|].
    destruct k; [discriminate hk|]. unfold ones in hk. cbn [repeat app] in hk. injection hk as <- hk. cbn [all_ones andb]. apply (IH r k); [exact hk|lia]. }
  assert (hl : zlen (code s) <= 7).
  { apply (f_equal (@length bool)) in hk. unfold ones in hk. rewrite repeat_length, app_length in hk. unfold zlen. lia. }
  rewrite ho in h3. apply Z.leb_le in hl. rewrite hl in h3. discriminate h3.
Qed.

(** * The automaton *)
Definition path (s : Z) : list bool :=
  match zget path_table s with Some (n, v) => bits_of n v | None => [] end.

Definition find_code (w : list bool) : option (Z * list bool) :=
  fold_left (fun acc a => match acc with Some _ => acc | None => match pre (snd a) w with Some r => Some (fst a, r) | None => None end end) all_codes None.

Fixpoint lbeq (a b : list bool) : bool :=
  match a, b with [], [] => true | x :: a, y :: b => Bool.eqb x y && lbeq a b | _, _ => false end.
Lemma lbeq_eq a : forall b, lbeq a b = true -> a = b.
Proof.
  induction a as [|x a IH]; intros [|y b] h; try discriminate h; [reflexivity|]. cbn in h. apply Bool.andb_true_iff in h. destruct h as [h1 h2].
  apply Bool.eqb_prop in h1. f_equal; auto.
Qed.

(** A transition that is not an error consumes at most one symbol and its flags are
    right; an error means that no encoding continues like this *)
Definition short_ones (l : list bool) : bool := all_ones l && (zlen l <=? 7).
Definition check_entry (s d : Z) (x : Z * Z * Z) : bool :=
  let '(next, sym, flags) := x in
  let w := path s ++ bits_of 4 d in
  if Z.land flags 4 =? 4 then
    forallb (fun a => match pre (snd a) w, pre w (snd a) with None, None => true | _, _ => false end) all_codes && negb (short_ones w)
  else
    (0 <=? next) && (next <? 256) &&
    Bool.eqb ((next =? 0) || (Z.land flags 1 =? 1)) (short_ones (path next)) &&
    if Z.land flags 2 =? 2
    then (0 <=? sym) && (sym <? 256) && lbeq (code sym ++ path next) w
    else lbeq (path next) w.
Definition nibbles : list Z := map Z.of_nat (seq 0 16).
Lemma nibbles_in d : 0 <= d < 16 -> In d nibbles.
Proof. intros h. apply in_map_iff. exists (Z.to_nat d). split; [lia|apply in_seq; lia]. Qed.
Definition table_check {X} (T : list (list X)) (chk : Z -> Z -> X -> bool) (S N : list Z) : bool :=
  forallb (fun s => match zget T s with
                    | Some row => forallb (fun d => match zget row d with Some x => chk s d x | None => false end) N
                    | None => false end) S.
Lemma table_check_spec {X} (T : list (list X)) chk S N : table_check T chk S N = true -> forall s d, In s S -> In d N ->
  exists row x, zget T s = Some row /\ zget row d = Some x /\ chk s d x = true.
Proof.
  unfold table_check. rewrite forallb_forall. intros h s d hs hd. specialize (h s hs). destruct (zget T s) as [row|]; [|discriminate h].
  rewrite forallb_forall in h. specialize (h d hd). destruct (zget row d) as [x|] eqn:e; [|discriminate h]. exists row, x. auto.
Qed.
Definition path_check (p : Z -> list bool) (C : list (Z * list bool)) (S : list Z) : bool :=
  forallb (fun s => forallb (fun a => match pre (snd a) (p s) with None => true | Some _ => false end) C) S.
Lemma path_check_spec p C S : path_check p C S = true -> forall s c l, In s S -> In (c, l) C -> pre l (p s) = None.
Proof.
  unfold path_check. rewrite forallb_forall. intros h s c l hs hc. specialize (h s hs). rewrite forallb_forall in h. specialize (h _ hc). cbn [snd] in h.
  destruct (pre l (p s)); [discriminate h|reflexivity].
Qed.
Lemma check_ok : table_check decode_table check_entry symbols nibbles = true. Proof. vm_compute. reflexivity. Qed.
Lemma paths_ok : path_check path all_codes symbols = true. Proof. vm_compute. reflexivity. Qed.

Lemma entry_ok s d : is_byte s -> 0 <= d < 16 -> exists row x, zget decode_table s = Some row /\ zget row d = Some x /\ check_entry s d x = true.
Proof. intros hs hd. apply (table_check_spec _ _ _ _ check_ok); [apply symbols_in; exact hs|apply nibbles_in; exact hd]. Qed.
Lemma path_ok s c r : is_byte s -> is_byte c -> path s <> code c ++ r.
Proof.
  intros hs hc hp. apply pre_spec in hp. pose proof (path_check_spec _ _ _ paths_ok s c (code c) (proj2 (symbols_in s) hs) (all_codes_in c hc)) as h.
  rewrite h in hp. discriminate hp.
Qed.

Lemma short_ones_spec l : short_ones l = true <-> exists k, (k <= 7)%nat /\ l = ones k.
Proof.
  unfold short_ones. rewrite Bool.andb_true_iff, all_ones_spec, Z.leb_le. split.
  - intros [h1 h2]. exists (length l). split; [unfold zlen in h2; lia|exact h1].
  - intros (k & hk & ->). unfold ones, zlen. rewrite repeat_length. split; [reflexivity|lia].
Qed.

(** Two prefixes of the same string are comparable *)
Lemma comparable {A} (a b c d : list A) : a ++ b = c ++ d -> (exists r, c = a ++ r) \/ (exists r, a = c ++ r).
Proof.
  revert c. induction a as [|x a IH]; intros c h; [left; exists c; reflexivity|]. destruct c as [|y c]; [right; exists (x :: a); reflexivity|].
  cbn [app] in h. injection h as -> h. destruct (IH c h) as [(r & ->)|(r & ->)]; [left|right]; exists r; reflexivity.
Qed.

(** What may follow in a state *)
Definition good (bits : list bool) (l : list Z) : Prop := bytes_ok l /\ exists k, (k <= 7)%nat /\ bits = codes l ++ ones k.

Lemma nibble_step max d e : is_byte (hd_state d) -> 0 <= e < 16 ->
  match huff_nibble max e d with
  | Panic => False
  | Ok d' => is_byte (hd_state d') /\ ((hd_state d' =? 0) || hd_eos d' = short_ones (path (hd_state d'))) /\
      exists l, hd_out d' = hd_out d ++ l /\ bytes_ok l /\ (hd_out d' = hd_out d \/ zlen (hd_out d') <= max) /\
      path (hd_state d) ++ bits_of 4 e = codes l ++ path (hd_state d')
  | Err _ => (forall tl l, ~ good (path (hd_state d) ++ bits_of 4 e ++ tl) l) \/
      exists s r, is_byte s /\ path (hd_state d) ++ bits_of 4 e = code s ++ r /\ max < zlen (hd_out d) + 1
  end.
Proof.
  intros hs he. unfold huff_nibble. destruct (entry_ok (hd_state d) e hs he) as (row & [[next sym] flags] & -> & -> & hc).
  unfold check_entry in hc. destruct (Z.land flags 4 =? 4).
  - left. intros tl l [hb (k & hk & hg)]. apply Bool.andb_true_iff in hc. destruct hc as [hc ho]. rewrite app_assoc in hg.
    set (w := path (hd_state d) ++ bits_of 4 e) in *. rewrite forallb_forall in hc. destruct l as [|s l].
    + cbn [codes flat_map app] in hg. assert (short_ones w = true); [|rewrite H in ho; discriminate ho].
      apply short_ones_spec. exists (length w). apply (f_equal (@length bool)) in hg as hl. unfold ones in hl. rewrite repeat_length, app_length in hl. split; [lia|].
      assert (hx : forall k w tl, w ++ tl = ones k -> w = ones (length w)).
      { clear. unfold ones. induction k as [|k IH]; intros w tl h; destruct w as [|x w]; try reflexivity; [discriminate h|]. cbn [repeat app length] in *. injection h as -> h. f_equal. apply (IH w tl h). }
      apply (hx k w tl hg).
    + apply bytes_ok_cons in hb. destruct hb as [hb _]. specialize (hc _ (all_codes_in s hb)). cbn [snd] in hc. cbn [codes flat_map] in hg.
      rewrite <- !app_assoc in hg. apply comparable in hg. destruct hg as [(r & hr)|(r & hr)]; apply pre_spec in hr; rewrite hr in hc; [destruct (pre (code s) w); discriminate hc|discriminate hc].
  - apply Bool.andb_true_iff in hc. destruct hc as [hc hp]. apply Bool.andb_true_iff in hc. destruct hc as [hn hf]. apply Bool.eqb_prop in hf.
    destruct (Z.land flags 2 =? 2).
    + apply Bool.andb_true_iff in hp. destruct hp as [hsym hp]. apply lbeq_eq in hp. assert (is_byte sym) by (unfold is_byte; lia).
      destruct (Z.ltb_spec max (zlen (hd_out d) + 1)); cbn [bind].
      * right. exists sym, (path next). auto.
      * cbn [hd_state hd_eos hd_out]. split; [unfold is_byte; lia|]. split; [exact hf|]. exists [sym]. split; [reflexivity|]. split; [repeat constructor; lia|].
        split; [right; rewrite zlen_app, zlen_cons, zlen_nil; lia|]. cbn [codes flat_map]. rewrite app_nil_r. symmetry. exact hp.
    + apply lbeq_eq in hp. cbn [bind hd_state hd_eos hd_out]. split; [unfold is_byte; lia|]. split; [exact hf|]. exists []. split; [rewrite app_nil_r; reflexivity|].
      split; [constructor|]. split; [left; reflexivity|]. cbn [codes flat_map app]. symmetry. exact hp.
Qed.
