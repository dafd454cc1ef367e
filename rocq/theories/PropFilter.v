(** C85: the windowed maximum, over every sequence of samples. *)
Require Import Verif.Base Verif.FilterModel Verif.FilterSpec Verif.FilterProofs.

(** C85: after a sample at time [t], the best is a sample not older than the
    window; no sample taken after it is better, nor is the newest. *)
Theorem C85_best w t0 ops v t : 0 <= w -> in_order t0 (ops ++ [FUpdate v t]) ->
  exists f best s, f_run (ops ++ [FUpdate v t]) (f_new w) = Ok f /\ f_best f = Some best /\
    In (best, s) (samples (ops ++ [FUpdate v t])) /\ t - s <= w /\ v <= best /\
    (forall v' s', In (v', s') (samples (ops ++ [FUpdate v t])) -> s < s' -> v' <= best).
Proof.
  intros hw ho. destruct (run_inv w _ hw t0 [] (f_new w) (new_inv w t0) ho) as (f & e & k). exists f.
  rewrite last_time_app in k. cbn [last_time] in k. fold (samples (ops ++ [FUpdate v t])) in k.
  assert (hd : exists h, samples (ops ++ [FUpdate v t]) = (v, t) :: h) by (unfold samples; rewrite samples_app; cbn; eauto).
  destruct k as (_ & [(_ & k)|(a & b & c & -> & (hold & _ & _ & _ & z1 & z2 & z3))]); [destruct hd as (h & hd); congruence|].
  destruct hold as (n & o & k & k1 & k2). exists (e_val a), (e_time a). split; [exact e|]. split; [reflexivity|]. rewrite k. split; [apply in_or_app; right; left; reflexivity|].
  split; [exact z3|]. split.
  - destruct hd as (h & hd). rewrite k in hd. destruct n as [|p n]; cbn in hd; [injection hd as hd; lia|]. injection hd as hd _. subst p. inversion k1; subst. assumption.
  - intros v' s' hin hs. apply in_app_or in hin. destruct hin as [hin|[hin|hin]].
    + rewrite Forall_forall in k1. apply (k1 _ hin).
    + injection hin as <- <-. lia.
    + rewrite Forall_forall in k2. apply k2 in hin. cbn in hin. lia.
Qed.
Print Assumptions C85_best.

(** C85: as long as time does not run backwards, nothing panics. *)
Theorem C85_no_panic w t0 ops : 0 <= w -> in_order t0 ops -> exists f, f_run ops (f_new w) = Ok f.
Proof. intros hw ho. destruct (run_inv w _ hw t0 [] (f_new w) (new_inv w t0) ho) as (f & e & _). eauto. Qed.
Print Assumptions C85_no_panic.

(** C85: the three estimates get no better and no older, and each is a sample that
    nothing newer exceeds. *)
Theorem C85_estimates w t0 ops f a : 0 <= w -> in_order t0 ops -> f_run ops (f_new w) = Ok f -> f_e0 f = Some a ->
  exists b c, f_e1 f = Some b /\ f_e2 f = Some c /\ e_val c <= e_val b <= e_val a /\ e_time a <= e_time b <= e_time c /\
    forall e, e = a \/ e = b \/ e = c -> In (e_val e, e_time e) (samples ops) /\
      (forall v' s', In (v', s') (samples ops) -> e_time e < s' -> v' <= e_val e).
Proof.
  intros hw ho e ha. destruct (run_inv w _ hw t0 [] (f_new w) (new_inv w t0) ho) as (f' & e' & _ & [(-> & _)|(a' & b & c & -> & ok)]); rewrite e in e'; injection e' as ->; [discriminate|].
  injection ha as <-. exists b, c. destruct ok as (h1 & h2 & h3 & h4 & h5 & _). split; [reflexivity|]. split; [reflexivity|]. split; [exact h4|]. split; [exact h5|].
  assert (key : forall x, holds x (samples ops) -> In (e_val x, e_time x) (samples ops) /\ (forall v' s', In (v', s') (samples ops) -> e_time x < s' -> v' <= e_val x)).
  { intros x (n & o & k & k1 & k2). rewrite k. split; [apply in_or_app; right; left; reflexivity|].
    intros v' s' hin hs. apply in_app_or in hin. destruct hin as [hin|[hin|hin]].
    - rewrite Forall_forall in k1. apply (k1 _ hin).
    - injection hin as <- <-. lia.
    - rewrite Forall_forall in k2. apply k2 in hin. cbn in hin. lia. }
  intros x [->|[->| ->]]; apply key; assumption.
Qed.
Print Assumptions C85_estimates.

(** C85: a best sample is not forgotten before it is older than the window. *)
Theorem C85_held w t0 ops f a more f' : 0 <= w -> in_order t0 (ops ++ more) -> f_run ops (f_new w) = Ok f -> f_e0 f = Some a ->
  Forall (fun op => exists v t, op = FUpdate v t /\ t - e_time a <= w) more -> f_run more f = Ok f' ->
  exists best, f_best f' = Some best /\ e_val a <= best.
Proof.
  intros hw ho e ha hm e2. rewrite in_order_app in ho. destruct ho as (o1 & o2).
  destruct (run_inv w _ hw t0 [] (f_new w) (new_inv w t0) o1) as (f1 & e1 & hh & [(-> & _)|(a' & b & c & -> & ok)]); rewrite e in e1; injection e1 as ->; [discriminate|].
  injection ha as <-.
  assert (hl : last_time (last_time t0 ops) more - e_time a' <= w).
  { destruct ok as (_ & _ & _ & _ & _ & _ & z). revert z o2 hm. generalize (last_time t0 ops). clear. induction more as [|op more IH]; intros n z o2 hm; cbn; [exact z|].
    inversion hm as [|? ? (v & t & -> & q) q2]; subst. cbn in *. apply IH; tauto. }
  assert (hu : Forall is_update more) by (eapply Forall_impl; [|exact hm]; intros op (v & t & -> & _); exact I).
  destruct (held w more hw _ _ a' b c (e_val a') (e_time a') hh ok o2 hu hl ltac:(lia) ltac:(lia)) as (x & y & z & k1 & k2 & _).
  rewrite k1 in e2. injection e2 as <-. exists (e_val x). split; [reflexivity|exact k2].
Qed.
Print Assumptions C85_held.

(** C85: while the best stays, the second best is either worse or not older than a
    quarter of the window, and the third is worse than the second or not older
    than half of it. *)
Theorem C85_refreshed w t0 ops f a v t f' b' c' : 0 <= w -> in_order t0 (ops ++ [FUpdate v t]) -> f_run ops (f_new w) = Ok f -> f_e0 f = Some a ->
  f_update v t f = Ok f' -> t - e_time a <= w -> f_e0 f' = Some a -> f_e1 f' = Some b' -> f_e2 f' = Some c' ->
  (e_val b' < e_val a \/ t - e_time b' <= w / 4) /\ (e_val c' < e_val b' \/ t - e_time c' <= w / 2).
Proof.
  intros hw ho e ha hu hwin r0 r1 r2. rewrite in_order_app in ho. destruct ho as (o1 & (o2 & _)).
  destruct (run_inv w _ hw t0 [] (f_new w) (new_inv w t0) o1) as (f1 & e1 & hh & [(-> & _)|(a1 & b & c & -> & ok)]); rewrite e in e1; injection e1 as ->; [discriminate|].
  injection ha as ->. destruct (update_ok w _ _ a b c v t hw hh ok o2) as (a' & b1 & c1 & q & _ & _ & k). rewrite hu in q. injection q as ->.
  injection r0 as ->. injection r1 as ->. injection r2 as ->. apply k; auto.
Qed.
Print Assumptions C85_refreshed.

(** The theorems are not vacuous: a window of ten, with samples that expire the
    best and promote the others. *)
Definition C85_ops : list f_op := [FUpdate 10 0; FUpdate 7 3; FUpdate 8 4; FUpdate 2 9; FUpdate 3 11].
Example C85_witness : in_order 0 C85_ops /\
  f_run C85_ops (f_new 10) = Ok (mkF 10 (Some (mkEst 8 4)) (Some (mkEst 8 4)) (Some (mkEst 3 11))) /\ samples C85_ops = [(3, 11); (2, 9); (8, 4); (7, 3); (10, 0)].
Proof. split; [cbn; lia|]. split; vm_compute; reflexivity. Qed.

(** A finding: the best is not the maximum of the window: a better sample, still in
    the window, was forgotten. *)
Theorem C85_exact_maximum_refuted :
  exists w ops f best v s, 0 <= w /\ in_order 0 ops /\ f_run ops (f_new w) = Ok f /\ f_best f = Some best /\
    In (v, s) (samples ops) /\ last_time 0 ops - s <= w /\ best < v.
Proof.
  exists 100, [FUpdate 10 0; FUpdate 9 10; FUpdate 5 30; FUpdate 3 101]. eexists. eexists. exists 9, 10.
  split; [lia|]. split; [cbn; lia|]. split; [vm_compute; reflexivity|]. split; [vm_compute; reflexivity|]. split; [vm_compute; tauto|]. split; [vm_compute; discriminate|lia].
Qed.
Print Assumptions C85_exact_maximum_refuted.

(** A finding: one sample with an earlier time panics the filter. *)
Theorem C85_time_backwards_refuted : exists w ops, 0 <= w /\ f_run ops (f_new w) = Panic.
Proof. exists 10, [FUpdate 5 7; FUpdate 4 6]. split; [lia|]. vm_compute. reflexivity. Qed.
Print Assumptions C85_time_backwards_refuted.
