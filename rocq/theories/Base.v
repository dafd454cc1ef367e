(** Shared vocabulary of the model: outcomes, byte strings, slices.

    Conventions used by every model file.
    - Machine integers are [Z].  Where a Rust operation can underflow, index
      out of bounds, [unwrap] a [None] or hit [unreachable!], the model
      returns [Panic].
    - [Result<T, E>] becomes [Ok]/[Err]. *)
Require Export ZArith List Bool Lia.
Require Export ZifyBool ZifyNat.
Export ListNotations.
Open Scope Z_scope.

Inductive res (E A : Type) : Type :=
| Ok (a : A)
| Err (e : E)
| Panic.
Arguments Ok {E A} a.
Arguments Err {E A} e.
Arguments Panic {E A}.

Definition bind {E A B} (r : res E A) (k : A -> res E B) : res E B :=
  match r with
  | Ok a => k a
  | Err e => Err e
  | Panic => Panic
  end.

Notation "'let*' x := r 'in' k" := (bind r (fun x => k))
  (at level 200, x name, r at level 100, k at level 200, right associativity).
Notation "'let*' ' p := r 'in' k" :=
  (bind r (fun x => match x with p => k end))
  (at level 200, p strict pattern, r at level 100, k at level 200, right associativity).

Definition is_ok {E A} (r : res E A) : bool :=
  match r with Ok _ => true | _ => false end.

(** Length of a list as [Z]. *)
Definition zlen {A} (l : list A) : Z := Z.of_nat (length l).

(** First [n] elements / the rest; total, as [&l[..n]] and [&l[n..]] are only
    used below where [0 <= n <= len]. *)
Definition take {A} (n : Z) (l : list A) : list A := firstn (Z.to_nat n) l.
Definition drop {A} (n : Z) (l : list A) : list A := skipn (Z.to_nat n) l.

(** [l[a..b]]. *)
Definition slice {A} (a b : Z) (l : list A) : list A := take (b - a) (drop a l).

(** Element at index [i], if any. *)
Definition zget {A} (l : list A) (i : Z) : option A :=
  if i <? 0 then None else nth_error l (Z.to_nat i).

(** A byte, a byte string. *)
Definition is_byte (b : Z) : Prop := 0 <= b < 256.
Definition bytes_ok (l : list Z) : Prop := Forall is_byte l.

Definition u64_max : Z := 18446744073709551615.
Definition max_varint : Z := 4611686018427387903.

(** [a.saturating_sub(b)] *)
Definition sat_sub (a b : Z) : Z := Z.max 0 (a - b).

Lemma zlen_nonneg {A} (l : list A) : 0 <= zlen l.
Proof. unfold zlen; lia. Qed.

Lemma zlen_nil {A} : zlen (@nil A) = 0.
Proof. reflexivity. Qed.

Lemma zlen_cons {A} (x : A) l : zlen (x :: l) = 1 + zlen l.
Proof. unfold zlen; cbn [length]; lia. Qed.

Lemma zlen_app {A} (a b : list A) : zlen (a ++ b) = zlen a + zlen b.
Proof. unfold zlen; rewrite app_length; lia. Qed.

Lemma zlen_take {A} n (l : list A) :
  0 <= n -> zlen (take n l) = Z.min n (zlen l).
Proof. unfold zlen, take; rewrite firstn_length; lia. Qed.

Lemma zlen_drop {A} n (l : list A) :
  0 <= n -> zlen (drop n l) = Z.max 0 (zlen l - n).
Proof. unfold zlen, drop; rewrite skipn_length; lia. Qed.

Lemma take_drop {A} n (l : list A) : take n l ++ drop n l = l.
Proof. apply firstn_skipn. Qed.

Lemma drop_0 {A} (l : list A) : drop 0 l = l.
Proof. reflexivity. Qed.

Lemma take_0 {A} (l : list A) : take 0 l = [].
Proof. reflexivity. Qed.

Lemma take_all {A} n (l : list A) : zlen l <= n -> take n l = l.
Proof. unfold zlen, take; intros; apply firstn_all2; lia. Qed.

Lemma drop_all {A} n (l : list A) : zlen l <= n -> drop n l = [].
Proof. unfold zlen, drop; intros; apply skipn_all2; lia. Qed.

Lemma skipn_skipn' {A} (a b : nat) (l : list A) :
  skipn a (skipn b l) = skipn (a + b)%nat l.
Proof.
  revert l; induction b as [|b IH]; intros l.
  - rewrite Nat.add_0_r; reflexivity.
  - rewrite Nat.add_succ_r; destruct l; cbn.
    + now rewrite skipn_nil.
    + apply IH.
Qed.

Lemma drop_drop {A} a b (l : list A) :
  0 <= a -> 0 <= b -> drop a (drop b l) = drop (a + b) l.
Proof.
  intros; unfold drop; rewrite skipn_skipn'; f_equal; lia.
Qed.

Lemma take_app_le {A} n (a b : list A) :
  n <= zlen a -> take n (a ++ b) = take n a.
Proof.
  unfold zlen, take; intros; rewrite firstn_app.
  replace (Z.to_nat n - length a)%nat with 0%nat by lia.
  cbn; apply app_nil_r.
Qed.

Lemma take_app_exact {A} (a b : list A) : take (zlen a) (a ++ b) = a.
Proof. rewrite take_app_le by lia; apply take_all; lia. Qed.

Lemma take_app_ge {A} n (a b : list A) :
  zlen a <= n -> take n (a ++ b) = a ++ take (n - zlen a) b.
Proof.
  unfold zlen, take; intros; rewrite firstn_app.
  rewrite firstn_all2 by lia. f_equal. f_equal. lia.
Qed.

Lemma drop_app_exact {A} (a b : list A) : drop (zlen a) (a ++ b) = b.
Proof.
  unfold zlen, drop; rewrite skipn_app, skipn_all2 by lia.
  replace (Z.to_nat (Z.of_nat (length a)) - length a)%nat with 0%nat by lia.
  reflexivity.
Qed.

Lemma drop_app_le {A} n (a b : list A) :
  n <= zlen a -> drop n (a ++ b) = drop n a ++ b.
Proof.
  unfold zlen, drop; intros; rewrite skipn_app.
  replace (Z.to_nat n - length a)%nat with 0%nat by lia. reflexivity.
Qed.

Lemma drop_app_ge {A} n (a b : list A) :
  zlen a <= n -> drop n (a ++ b) = drop (n - zlen a) b.
Proof.
  unfold zlen, drop; intros; rewrite skipn_app, skipn_all2 by lia.
  cbn; f_equal; lia.
Qed.

Lemma take_take {A} a b (l : list A) :
  0 <= a -> 0 <= b -> take a (take b l) = take (Z.min a b) l.
Proof.
  intros; unfold take; rewrite firstn_firstn; f_equal; lia.
Qed.

Lemma drop_take {A} a b (l : list A) :
  0 <= a -> drop a (take b l) = take (b - a) (drop a l).
Proof.
  intros; unfold take, drop.
  replace (Z.to_nat (b - a)) with (Z.to_nat b - Z.to_nat a)%nat by lia.
  apply skipn_firstn_comm.
Qed.

Lemma slice_len {A} a b (l : list A) :
  0 <= a -> a <= b -> b <= zlen l -> zlen (slice a b l) = b - a.
Proof.
  intros; unfold slice; rewrite zlen_take, zlen_drop by lia; lia.
Qed.

Lemma slice_split {A} a b c (l : list A) :
  0 <= a -> a <= b -> b <= c -> slice a b l ++ slice b c l = slice a c l.
Proof.
  intros; unfold slice, take, drop.
  replace (Z.to_nat (c - a)) with (Z.to_nat (b - a) + Z.to_nat (c - b))%nat by lia.
  replace (Z.to_nat b) with (Z.to_nat (b - a) + Z.to_nat a)%nat by lia.
  rewrite <- skipn_skipn'.
  generalize (skipn (Z.to_nat a) l); intros m.
  generalize (Z.to_nat (b - a)) (Z.to_nat (c - b)); clear.
  induction m as [|x m IH]; intros i j.
  - rewrite skipn_nil, !firstn_nil; reflexivity.
  - destruct i; cbn; [reflexivity|]. f_equal. apply IH.
Qed.

Lemma slice_nil {A} a (l : list A) : slice a a l = [].
Proof. unfold slice; rewrite Z.sub_diag; reflexivity. Qed.

Lemma slice_full {A} (l : list A) : slice 0 (zlen l) l = l.
Proof. unfold slice; rewrite Z.sub_0_r, drop_0; apply take_all; lia. Qed.

Lemma take_slice {A} n a b (l : list A) :
  0 <= n -> n <= b - a -> take n (slice a b l) = slice a (a + n) l.
Proof.
  intros; unfold slice; rewrite take_take by lia. f_equal; lia.
Qed.

Lemma drop_slice {A} n a b (l : list A) :
  0 <= n -> 0 <= a -> drop n (slice a b l) = slice (a + n) b l.
Proof.
  intros; unfold slice; rewrite drop_take, drop_drop by lia.
  replace (b - a - n) with (b - (a + n)) by lia.
  replace (n + a) with (a + n) by lia. reflexivity.
Qed.

Lemma slice_app_l {A} a b (l m : list A) :
  0 <= a -> b <= zlen l -> slice a b (l ++ m) = slice a b l.
Proof.
  intros; unfold slice.
  destruct (Z_le_gt_dec a (zlen l)) as [h|h].
  - rewrite drop_app_le by lia. apply take_app_le.
    rewrite zlen_drop by lia; lia.
  - unfold take. replace (Z.to_nat (b - a)) with 0%nat by lia. reflexivity.
Qed.

Lemma bytes_ok_app a b : bytes_ok (a ++ b) <-> bytes_ok a /\ bytes_ok b.
Proof. apply Forall_app. Qed.

Lemma bytes_ok_cons x l : bytes_ok (x :: l) <-> is_byte x /\ bytes_ok l.
Proof. apply Forall_cons_iff. Qed.

Lemma Forall_firstn' {A} (P : A -> Prop) n l : Forall P l -> Forall P (firstn n l).
Proof.
  intros H; revert n; induction H; intros [|n]; cbn; auto.
Qed.

Lemma Forall_skipn' {A} (P : A -> Prop) n l : Forall P l -> Forall P (skipn n l).
Proof.
  intros H; revert n; induction H; intros [|n]; cbn; auto.
Qed.

Lemma bytes_ok_take n l : bytes_ok l -> bytes_ok (take n l).
Proof. apply Forall_firstn'. Qed.
Lemma bytes_ok_drop n l : bytes_ok l -> bytes_ok (drop n l).
Proof. apply Forall_skipn'. Qed.

Lemma zget_app_l {A} (a b : list A) i :
  i < zlen a -> zget (a ++ b) i = zget a i.
Proof.
  unfold zget, zlen; intros. destruct (i <? 0) eqn:E; [reflexivity|].
  apply nth_error_app1; lia.
Qed.

Lemma zget_app_r {A} (a b : list A) i :
  zlen a <= i -> zget (a ++ b) i = zget b (i - zlen a).
Proof.
  unfold zget, zlen; intros.
  replace (i <? 0) with false by lia.
  replace (i - Z.of_nat (length a) <? 0) with false by lia.
  rewrite nth_error_app2 by lia. f_equal; lia.
Qed.

Lemma zget_some_range {A} (l : list A) i x : zget l i = Some x -> 0 <= i < zlen l.
Proof.
  unfold zget, zlen; destruct (i <? 0) eqn:E; [discriminate|].
  intros H. assert (nth_error l (Z.to_nat i) <> None) by congruence.
  apply nth_error_Some in H0; lia.
Qed.

Lemma zget_none_range {A} (l : list A) i : zget l i = None -> i < 0 \/ zlen l <= i.
Proof.
  unfold zget, zlen; destruct (i <? 0) eqn:E; [lia|].
  intros H; apply nth_error_None in H; lia.
Qed.

Lemma nth_error_skipn' {A} (l : list A) n i :
  nth_error (skipn n l) i = nth_error l (n + i)%nat.
Proof.
  revert l; induction n; intros [|x l]; cbn; auto. now destruct i.
Qed.

Lemma nth_error_firstn' {A} (l : list A) n i :
  (i < n)%nat -> nth_error (firstn n l) i = nth_error l i.
Proof.
  revert l i; induction n; intros [|x l] [|i]; cbn; intros; auto; try lia.
  apply IHn; lia.
Qed.

Lemma zget_drop {A} (l : list A) n i :
  0 <= n -> 0 <= i -> zget (drop n l) i = zget l (n + i).
Proof.
  unfold zget, drop; intros.
  replace (i <? 0) with false by lia. replace (n + i <? 0) with false by lia.
  rewrite nth_error_skipn'. f_equal. lia.
Qed.

Lemma zget_take {A} (l : list A) n i :
  i < n -> zget (take n l) i = zget l i.
Proof.
  unfold zget, take; intros.
  destruct (i <? 0) eqn:E; [reflexivity|].
  apply nth_error_firstn'; lia.
Qed.

Lemma zget_slice {A} (l : list A) a b i :
  0 <= a -> 0 <= i -> i < b - a -> zget (slice a b l) i = zget l (a + i).
Proof.
  intros; unfold slice. rewrite zget_take by lia. apply zget_drop; lia.
Qed.

Lemma zget_ext {A} (l m : list A) :
  zlen l = zlen m -> (forall i, 0 <= i < zlen l -> zget l i = zget m i) -> l = m.
Proof.
  revert m; induction l as [|x l IH]; intros [|y m]; intros Hl H;
    rewrite ?zlen_cons, ?zlen_nil in *; auto;
    try (pose proof (zlen_nonneg l); lia); try (pose proof (zlen_nonneg m); lia).
  pose proof (zlen_nonneg l).
  f_equal.
  - assert (K := H 0 ltac:(lia)). cbn in K. congruence.
  - apply IH; [lia|]. intros i Hi. specialize (H (1 + i) ltac:(lia)).
    unfold zget in *.
    replace (1 + i <? 0) with false in H by lia. replace (i <? 0) with false by lia.
    replace (Z.to_nat (1 + i)) with (S (Z.to_nat i)) in H by lia. cbn in H.
    exact H.
Qed.

Ltac inv H := inversion H; subst; clear H.

Ltac destr_if :=
  match goal with
  | |- context [if ?b then _ else _] => let E := fresh "E" in destruct b eqn:E
  | H : context [if ?b then _ else _] |- _ => let E := fresh "E" in destruct b eqn:E
  end.

Lemma Ok_inj {E A} (a b : A) : @Ok E A a = Ok b -> a = b.
Proof. congruence. Qed.

(** Injection for [Ok] without reducing the payload. *)
Ltac oki H := apply Ok_inj in H; try subst.
