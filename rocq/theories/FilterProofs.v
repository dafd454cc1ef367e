(** The windowed filter: what its three estimates are. *)
Require Import Verif.Base Verif.FilterModel Verif.FilterSpec.

(** An estimate is a sample, and nothing newer exceeds it. *)
Definition holds (e : est) (h : list (Z * Z)) : Prop :=
  exists n o, h = n ++ (e_val e, e_time e) :: o /\ Forall (fun p => fst p <= e_val e) n /\ Forall (fun p => snd p <= e_time e) o.

Definition three (w : Z) (a b c : est) : filt := mkF w (Some a) (Some b) (Some c).
Definition ok3 (w now : Z) (h : list (Z * Z)) (a b c : est) : Prop :=
  holds a h /\ holds b h /\ holds c h /\ e_val c <= e_val b <= e_val a /\ e_time a <= e_time b <= e_time c /\ e_time c <= now /\
  now - e_time a <= w.
Definition inv (w now : Z) (h : list (Z * Z)) (f : filt) : Prop :=
  Forall (fun p => snd p <= now) h /\
  ((f = f_new w /\ h = []) \/ exists a b c, f = three w a b c /\ ok3 w now h a b c).

Lemma holds_new v t h : Forall (fun p => snd p <= t) h -> holds (mkEst v t) ((v, t) :: h).
Proof. intros hh. exists [], h. auto. Qed.
Lemma holds_more e v t h : holds e h -> v <= e_val e -> holds e ((v, t) :: h).
Proof. intros (n & o & -> & h1 & h2) hv. exists ((v, t) :: n), o. split; [reflexivity|]. split; auto. Qed.
Lemma times_more t v h now : Forall (fun p => snd p <= now) h -> now <= t -> Forall (fun p : Z * Z => snd p <= t) h /\ Forall (fun p : Z * Z => snd p <= t) ((v, t) :: h).
Proof.
  intros h1 h2. assert (k : Forall (fun p : Z * Z => snd p <= t) h) by (eapply Forall_impl; [|exact h1]; cbn; intros; lia).
  split; [exact k|]. constructor; [cbn; lia|exact k].
Qed.

Lemma reset_inv w v t h : Forall (fun p => snd p <= t) h -> 0 <= w -> let e := mkEst v t in ok3 w t ((v, t) :: h) e e e.
Proof. intros hh hw e. pose proof (holds_new v t h hh) as k. unfold ok3. fold e in k. cbn. repeat split; auto; lia. Qed.

(** What an update does, when the filter has samples. *)
Lemma update_ok w now h a b c v t : 0 <= w -> Forall (fun p => snd p <= now) h -> ok3 w now h a b c -> now <= t ->
  exists a' b' c', f_update v t (three w a b c) = Ok (three w a' b' c') /\ ok3 w t ((v, t) :: h) a' b' c' /\
    (t - e_time a <= w -> e_val a <= e_val a' /\ (a' = a \/ e_val a < v)) /\
    (a' = a -> t - e_time a <= w -> (e_val b' < e_val a' \/ t - e_time b' <= w / 4) /\ (e_val c' < e_val b' \/ t - e_time c' <= w / 2)).
Proof.
  intros hw hh (ha & hb & hc & hv & ht & htc & hwin) hle. destruct (times_more t v h now hh hle) as (hh' & _).
  assert (hq : 0 <= w / 4 /\ 0 <= w / 2) by (split; apply Z.div_pos; lia).
  unfold f_update, three. cbn [f_win f_e0 f_e1 f_e2 unwrap bind].
  destruct (e_val a <? v) eqn:E0.
  { cbn [bind]. unfold f_reset. cbn [f_win]. eexists _, _, _. split; [reflexivity|]. split; [apply reset_inv; auto|]. cbn. split; [intros; split; [lia|right; lia]|].
    intros; split; right; lia. }
  unfold since. replace (t <? e_time c) with false by lia. cbn [bind].
  destruct (w <? t - e_time c) eqn:E2.
  { unfold f_reset. cbn [f_win]. eexists _, _, _. split; [reflexivity|]. split; [apply reset_inv; auto|]. cbn. split; [intros; exfalso; lia|].
    intros; split; right; lia. }
  pose proof (holds_new v t h hh') as hn. set (new := mkEst v t) in *. assert (hnv : e_val new = v) by reflexivity. assert (hnt : e_time new = t) by reflexivity.
  pose proof (holds_more a v t h ha ltac:(lia)) as ha'.
  assert (hbc : exists b1 c1, (if e_val b <? v then (new, new) else if e_val c <? v then (b, new) else (b, c)) = (b1, c1) /\
    holds b1 ((v, t) :: h) /\ holds c1 ((v, t) :: h) /\ v <= e_val c1 <= e_val b1 /\ e_val b1 <= e_val a /\ e_time a <= e_time b1 <= e_time c1 /\ e_time c1 <= t /\ t - e_time c1 <= w).
  { destruct (e_val b <? v) eqn:E3; [exists new, new; repeat split; auto; lia|].
    destruct (e_val c <? v) eqn:E4; [exists b, new|exists b, c]; repeat split; auto; try lia; apply holds_more; auto; lia. }
  destruct hbc as (b1 & c1 & -> & k1 & k2 & k3 & k4 & k5 & k6 & k7). clearbody new.
  replace (t <? e_time a) with false by lia. cbn [bind].
  destruct (w <? t - e_time a) eqn:E5.
  { replace (t <? e_time b1) with false by lia. cbn [bind]. destruct (w <? t - e_time b1) eqn:E6.
    - exists c1, new, new. split; [reflexivity|]. split; [unfold ok3; repeat split; auto; lia|]. split; intros; exfalso; lia.
    - exists b1, c1, new. split; [reflexivity|]. split; [unfold ok3; repeat split; auto; lia|]. split; intros; exfalso; lia. }
  replace (t <? e_time b1) with false by lia. replace (t <? e_time c1) with false by lia. cbn [bind].
  destruct (e_val b1 =? e_val a) eqn:E6; cbn [bind].
  - destruct (w / 4 <? t - e_time b1) eqn:E7.
    + exists a, new, new. split; [reflexivity|]. split; [unfold ok3; repeat split; auto; lia|]. split; [intros; split; [lia|auto]|intros; split; right; lia].
    + destruct (e_val c1 =? e_val b1) eqn:E8; cbn [bind]; [destruct (w / 2 <? t - e_time c1) eqn:E9|].
      * exists a, b1, new. split; [reflexivity|]. split; [unfold ok3; repeat split; auto; lia|]. split; [intros; split; [lia|auto]|intros; split; right; lia].
      * exists a, b1, c1. split; [reflexivity|]. split; [unfold ok3; repeat split; auto; lia|]. split; [intros; split; [lia|auto]|intros; split; right; lia].
      * exists a, b1, c1. split; [reflexivity|]. split; [unfold ok3; repeat split; auto; lia|]. split; [intros; split; [lia|auto]|intros; split; [right|left]; lia].
  - destruct (e_val c1 =? e_val b1) eqn:E8; cbn [bind]; [destruct (w / 2 <? t - e_time c1) eqn:E9|].
    * exists a, b1, new. split; [reflexivity|]. split; [unfold ok3; repeat split; auto; lia|]. split; [intros; split; [lia|auto]|intros; split; [left|right]; lia].
    * exists a, b1, c1. split; [reflexivity|]. split; [unfold ok3; repeat split; auto; lia|]. split; [intros; split; [lia|auto]|intros; split; [left|right]; lia].
    * exists a, b1, c1. split; [reflexivity|]. split; [unfold ok3; repeat split; auto; lia|]. split; [intros; split; [lia|auto]|intros; split; left; lia].
Qed.

Lemma step_inv w now h f op : 0 <= w -> inv w now h f -> in_order now [op] ->
  exists f', f_step op f = Ok f' /\
    inv w (match op with FUpdate _ t | FReset _ t => t | FClear => now end) (samples_from h [op]) f'.
Proof.
  intros hw (hh & hi) ho. destruct op as [v t|v t|]; cbn [in_order f_step samples_from] in *.
  - destruct ho as (ho & _). destruct (times_more t v h now hh ho) as (hh1 & hh2). destruct hi as [(-> & ->)|(a & b & c & -> & ho3)].
    + unfold f_new, f_update. cbn [f_e0 bind f_win]. eexists. split; [reflexivity|]. split; [exact hh2|]. right. eexists _, _, _. split; [reflexivity|]. apply reset_inv; auto.
    + destruct (update_ok w now h a b c v t hw hh ho3 ho) as (a' & b' & c' & e & k & _). rewrite e. eexists. split; [reflexivity|].
      split; [exact hh2|]. right. eexists _, _, _. split; [reflexivity|exact k].
  - destruct ho as (ho & _). eexists. split; [reflexivity|]. split; [constructor; [cbn; lia|constructor]|]. right.
    assert (hfw : f_win f = w) by (destruct hi as [(-> & _)|(a & b & c & -> & _)]; reflexivity). unfold f_reset. rewrite hfw.
    eexists _, _, _. split; [reflexivity|]. apply reset_inv; auto.
  - eexists. split; [reflexivity|]. split; [constructor|]. left. split; [|reflexivity].
    assert (hfw : f_win f = w) by (destruct hi as [(-> & _)|(a & b & c & -> & _)]; reflexivity). unfold f_clear. rewrite hfw. reflexivity.
Qed.

(** The time of the last event. *)
Fixpoint last_time (t0 : Z) (ops : list f_op) : Z :=
  match ops with [] => t0 | FUpdate _ t :: ops | FReset _ t :: ops => last_time t ops | FClear :: ops => last_time t0 ops end.
Lemma run_inv w ops : 0 <= w -> forall now h f, inv w now h f -> in_order now ops ->
  exists f', f_run ops f = Ok f' /\ inv w (last_time now ops) (samples_from h ops) f'.
Proof.
  intros hw. induction ops as [|op ops IH]; intros now h f hi ho; cbn [f_run]; [eauto|].
  assert (h1 : in_order now [op]) by (destruct op; cbn in *; tauto).
  destruct (step_inv w now h f op hw hi h1) as (f' & -> & k). cbn [bind].
  destruct op as [v t|v t|]; cbn [in_order last_time samples_from] in *; apply IH; tauto || auto.
Qed.
Lemma new_inv w t0 : inv w t0 [] (f_new w).
Proof. split; [constructor|]. left. auto. Qed.

Lemma f_run_app a b f : f_run (a ++ b) f = let* f := f_run a f in f_run b f.
Proof. revert f. induction a as [|op a IH]; intros f; cbn [app f_run bind]; auto. destruct (f_step op f); cbn [bind]; auto. Qed.
Lemma samples_app a b h : samples_from h (a ++ b) = samples_from (samples_from h a) b.
Proof. revert h. induction a as [|op a IH]; intros h; cbn [app samples_from]; auto. destruct op; apply IH. Qed.
Lemma in_order_app a b t : in_order t (a ++ b) <-> in_order t a /\ in_order (last_time t a) b.
Proof. revert t. induction a as [|op a IH]; intros t; cbn [app in_order last_time]; [tauto|]. destruct op; rewrite IH; tauto. Qed.
Lemma last_time_app a b t : last_time t (a ++ b) = last_time (last_time t a) b.
Proof. revert t. induction a as [|op a IH]; intros t; cbn [app last_time]; auto. destruct op; apply IH. Qed.
Lemma order_last a t : in_order t a -> t <= last_time t a.
Proof. revert t. induction a as [|op a IH]; intros t; cbn [in_order last_time]; [lia|]. destruct op as [v x|v x|]; intros hh; [destruct hh as (h1 & h2); specialize (IH _ h2); lia|destruct hh as (h1 & h2); specialize (IH _ h2); lia|auto]. Qed.

(** The best stays while it is in the window, unless beaten. *)
Definition is_update (op : f_op) : Prop := match op with FUpdate _ _ => True | _ => False end.
Lemma held w ops : 0 <= w -> forall now h a b c v0 s0, Forall (fun p => snd p <= now) h -> ok3 w now h a b c -> in_order now ops -> Forall is_update ops ->
  last_time now ops - s0 <= w -> s0 <= e_time a -> v0 <= e_val a ->
  exists a' b' c', f_run ops (three w a b c) = Ok (three w a' b' c') /\ v0 <= e_val a' /\ s0 <= e_time a'.
Proof.
  intros hw. induction ops as [|op ops IH]; intros now h a b c v0 s0 hh ho3 ho hu hl hs hv; cbn [f_run]; [eauto 8|].
  inversion hu as [|? ? u1 u2]; subst. destruct op as [v t|v t|]; cbn in u1; try tauto. cbn [in_order last_time f_step] in *. destruct ho as (o1 & o2).
  destruct (times_more t v h now hh o1) as (_ & hh2).
  destruct (update_ok w now h a b c v t hw hh ho3 o1) as (a' & b' & c' & e & k & q & _). rewrite e. cbn [bind].
  pose proof (order_last _ _ o2) as hlt. destruct (q ltac:(lia)) as (q1 & q2).
  assert (hta : e_time a <= e_time a' \/ True) by auto. clear hta.
  apply (IH t ((v, t) :: h)); auto; try lia.
  destruct q2 as [->|q2]; [lia|]. destruct k as (k1 & _). destruct k1 as (n & o & k1 & k2 & k3).
  destruct n as [|p n]; cbn [app] in k1.
  - assert (e_time a' = t) by congruence. destruct ho3 as (_ & _ & _ & _ & z1 & z2 & _). lia.
  - assert (p = (v, t)) by congruence. subst p. inversion k2 as [|? ? k4 k5]; subst. cbn in k4.
    unfold f_update, three in e. cbn [f_win f_e0 f_e1 f_e2] in e. replace (e_val a <? v) with true in e by lia. cbn [bind] in e. unfold f_reset in e. cbn [f_win] in e.
    injection e as e _ _. subst a'. cbn. destruct ho3 as (_ & _ & _ & _ & z1 & z2 & _). lia.
Qed.
