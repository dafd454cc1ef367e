(** Invariants of the modes of BBR2. *)
Require Import Verif.Base Verif.BbrModeModel.

(** What always holds of a cycle once probing has begun *)
Definition PB1 (p : mpar) (c : cycle) : Prop :=
  cy_phase c <> PNone /\ cy_wait c = Some (mp_wait p) /\ 0 <= cy_uprounds c <= 30 /\ (forall b, cy_upbytes c = Some b -> default_mss <= b) /\ 0 <= cy_rounds c /\
  (cy_probing c = true -> cy_phase c = PUp \/ cy_phase c = PDown /\ cy_rounds c = 0).
(** What holds of it at time [t] if times do not go back *)
Definition PB2 (t : Z) (c : cycle) (n : netw) : Prop :=
  cy_pstart c <= t /\ (1 <= cy_rounds c -> cy_pstart c < t) /\
  (cy_phase c = PDown -> cy_adv c = false /\ nw_adv n = nw_cycles n - 1 \/ cy_adv c = true /\ nw_adv n = nw_cycles n /\ 1 <= cy_rounds c) /\
  (cy_phase c <> PDown -> cy_adv c = true /\ nw_adv n = nw_cycles n).

Definition same (a b : cycle) : Prop :=
  cy_start a = cy_start b /\ cy_phase a = cy_phase b /\ cy_rounds a = cy_rounds b /\ cy_pstart a = cy_pstart b /\ cy_since a = cy_since b /\ cy_wait a = cy_wait b /\
  cy_adv a = cy_adv b /\ cy_high a = cy_high b /\ cy_risky a = cy_risky b.
Definition samen (a b : netw) : Prop := nw_full a = nw_full b /\ nw_adv a = nw_adv b /\ nw_cycles a = nw_cycles b.
Lemma adapt_shape p e c n h c' n' : adapt p e c n = (h, c', n') ->
  same c' c /\ samen n' n /\ cy_uprounds c' = cy_uprounds c /\ cy_upbytes c' = cy_upbytes c /\ (cy_probing c' = true -> cy_probing c = true) /\
  (h = true -> cy_probing c = true /\ cy_probing c' = false /\ me_high e = true /\ me_valid e = true) /\ (nw_hi n' < nw_hi n -> h = true) /\
  (h = false -> cy_probing c' = cy_probing c /\ (cy_probing c && me_valid e && me_high e = false)).
Proof.
  unfold adapt, same, samen, nw_set_hi. intros h0. destruct (me_valid e); cbn [negb] in h0.
  - destruct (cy_probing c) eqn:Ep; [destruct (me_high e) eqn:Eh|destruct (nw_hi n =? hi_default)].
    + injection h0 as <- <- <-. destruct (negb (me_app e) || mp_upqueue p); cbn; repeat split; auto; intros; try discriminate; auto.
    + injection h0 as <- <- <-. repeat split; auto; intros; try discriminate; lia.
    + injection h0 as <- <- <-. rewrite Ep. repeat split; auto; intros; try discriminate; lia.
    + injection h0 as <- <- <-. rewrite Ep. destruct (nw_hi n <? me_at_send e) eqn:E; cbn; repeat split; auto; intros; try discriminate; lia.
  - injection h0 as <- <- <-. repeat split; auto; intros; try discriminate; try lia; rewrite ?Bool.andb_false_r; reflexivity.
Qed.
Lemma raise_ok cwnd c : 0 <= cy_uprounds c <= 30 -> exists c', raise_slope cwnd c = Ok c' /\ same c' c /\ 0 <= cy_uprounds c' <= 30 /\ (forall b, cy_upbytes c' = Some b -> default_mss <= b) /\ cy_probing c' = cy_probing c.
Proof. intros h. unfold raise_slope. replace (64 <=? cy_uprounds c) with false by lia. eexists. split; [reflexivity|]. unfold same. cbn. repeat split; auto; try lia. intros b q. injection q as <-. lia. Qed.
Lemma upward_ok p e c n : 0 <= cy_uprounds c <= 30 -> (forall b, cy_upbytes c = Some b -> default_mss <= b) -> exists c' n', upward p e c n = Ok (c', n') /\
  same c' c /\ samen n' n /\ 0 <= cy_uprounds c' <= 30 /\ (forall b, cy_upbytes c' = Some b -> default_mss <= b) /\ cy_probing c' = cy_probing c /\ nw_hi n <= nw_hi n'.
Proof.
  intros h1 h2. unfold upward. destruct (mp_ignore p); [exists c, n; unfold same, samen; repeat split; auto; lia|]. destruct (me_prior e <? me_cwnd e); [exists c, n; unfold same, samen; repeat split; auto; lia|].
  destruct (me_cwnd e <? nw_hi n); [exists c, n; unfold same, samen; repeat split; auto; lia|]. cbv zeta.
  match goal with |- context [bind ?x _] => assert (q : exists a n', x = Ok (a, n') /\ samen n' n /\ nw_hi n <= nw_hi n') end.
  { destruct (cy_upbytes c) as [b|] eqn:E; [|do 2 eexists; split; [reflexivity|]; unfold samen; repeat split; auto; lia]. specialize (h2 b eq_refl). unfold default_mss in h2.
    destruct (b <=? _); [|do 2 eexists; split; [reflexivity|]; unfold samen; repeat split; auto; lia]. replace (b =? 0) with false by lia. do 2 eexists. split; [reflexivity|].
    destruct (nw_hi n <? nw_hi n + _) eqn:E2; unfold samen; cbn; repeat split; auto; lia. }
  destruct q as (a & n' & -> & q1 & q2). cbn [bind fst snd]. set (c1 := mkCy _ _ _ _ _ _ _ _ _ _ _ _ _). assert (s1 : same c1 c) by (unfold same, c1; cbn; repeat split). destruct (me_end e).
  - destruct (raise_ok (me_cwnd e) c1) as (c' & -> & s2 & r1 & r2 & r3); [exact h1|]. cbn [bind]. exists c', n'. split; [reflexivity|]. unfold same in *. split; [intuition congruence|]. auto.
  - exists c1, n'. split; [reflexivity|]. auto 10.
Qed.

(** The phases a cycle may be in after one event *)
Definition phase_step (a b : phase) : Prop := a = b \/ a = PDown /\ (b = PCruise \/ b = PRefill) \/ a = PCruise /\ b = PRefill \/ a = PRefill /\ b = PUp \/ a = PUp /\ b = PDown.

Definition tick (e : mev) (c : cycle) : cycle := if me_end e then
      mkCy (cy_start c) (cy_phase c) (if cy_pstart c =? me_time e then cy_rounds c else cy_rounds c + 1) (cy_pstart c) (if cy_start c =? me_time e then cy_since c else cy_since c + 1)
        (cy_wait c) (cy_uprounds c) (cy_upbytes c) (cy_upacked c) (cy_adv c) (cy_probing c) (cy_high c) (cy_risky c)
    else c.
Lemma phase_eqb_spec a b : phase_eqb a b = true <-> a = b. Proof. destruct a, b; cbn; split; congruence. Qed.

(** Entering cruise or refill from anywhere *)
Definition entered (t now : Z) (c : cycle) (n : netw) (ph : phase) (c' : cycle) (n' : netw) : Prop :=
  cy_phase c' = ph /\ cy_rounds c' = 0 /\ cy_pstart c' = now /\ cy_wait c' = cy_wait c /\ cy_upbytes c' = cy_upbytes c /\ cy_probing c' = false /\ cy_start c' = cy_start c /\ nw_full n' = nw_full n /\ nw_hi n' = nw_hi n /\ nw_cycles n' = nw_cycles n /\
  (PB2 t c n -> t <= now -> PB2 now c' n').
Lemma cruise_entered t now c n : forall c' n', enter_cruise now c n = (c', n') -> entered t now c n PCruise c' n' /\ cy_uprounds c' = cy_uprounds c.
Proof.
  intros c' n' h. unfold enter_cruise, exit_down in h. unfold entered, PB2. destruct (phase_eqb (cy_phase c) PDown) eqn:E; [apply phase_eqb_spec in E; destruct (cy_adv c) eqn:Ea|assert (E' : cy_phase c <> PDown) by (intros q; apply phase_eqb_spec in q; congruence)];
    injection h as <- <-; cbn; repeat split; auto; intros; try discriminate; try lia; destruct H as (k1 & k2 & k3 & k4); try (destruct (k3 E) as [k|k]; intuition (try congruence; try lia)); try (destruct (k4 E'); auto).
Qed.
Lemma refill_entered u t now c n : forall c' n', enter_refill u now c n = (c', n') -> entered t now c n PRefill c' n' /\ cy_uprounds c' = u.
Proof.
  intros c' n' h. unfold enter_refill, exit_down in h. unfold entered, PB2. destruct (phase_eqb (cy_phase c) PDown) eqn:E; [apply phase_eqb_spec in E; destruct (cy_adv c) eqn:Ea|assert (E' : cy_phase c <> PDown) by (intros q; apply phase_eqb_spec in q; congruence)];
    injection h as <- <-; cbn; repeat split; auto; intros; try discriminate; try lia; destruct H as (k1 & k2 & k3 & k4); try (destruct (k3 E) as [k|k]; intuition (try congruence; try lia)); try (destruct (k4 E'); auto).
Qed.
Lemma entered_PB1 p t now c n ph c' n' : entered t now c n ph c' n' -> cy_wait c = Some (mp_wait p) -> (forall b, cy_upbytes c = Some b -> default_mss <= b) -> 0 <= cy_uprounds c' <= 30 -> ph <> PNone -> PB1 p c'.
Proof. unfold entered, PB1. intros (a1 & a2 & a3 & a4 & a5 & a6 & _) w b u np. rewrite a1, a2, a4, a5, a6. repeat split; auto; try lia; intros; discriminate. Qed.

(** Results of one event in the four phases *)
Definition good (p : mpar) (e : mev) (c : cycle) (n : netw) (c' : cycle) (n' : netw) : Prop :=
  PB1 p c' /\ (forall t, PB2 t c n -> t <= me_time e -> PB2 (me_time e) c' n') /\ nw_full n' = nw_full n /\ phase_step (cy_phase c) (cy_phase c') /\
  (nw_hi n' < nw_hi n -> me_high e = true /\ me_valid e = true /\ cy_probing c = true) /\
  (cy_phase c' = PDown \/ cy_phase c' = PCruise -> cy_phase c = PDown \/ cy_phase c = PCruise -> me_time e - cy_start c <= mp_wait p /\ cy_start c' = cy_start c) /\
  (cy_phase c' <> cy_phase c -> cy_phase c = PRefill -> me_end e = true /\ 0 < cy_rounds (tick e c)) /\
  (cy_phase c' = PUp -> cy_phase c = PUp -> me_high e && me_valid e && cy_probing c = false) /\
  nw_cycles n' = nw_cycles n + (if phase_eqb (cy_phase c) PUp && phase_eqb (cy_phase c') PDown then 1 else 0).
Lemma tick_facts e c : cy_phase (tick e c) = cy_phase c /\ cy_start (tick e c) = cy_start c /\ cy_pstart (tick e c) = cy_pstart c /\ cy_wait (tick e c) = cy_wait c /\ cy_uprounds (tick e c) = cy_uprounds c /\ cy_upbytes (tick e c) = cy_upbytes c /\
  cy_adv (tick e c) = cy_adv c /\ cy_probing (tick e c) = cy_probing c /\ cy_high (tick e c) = cy_high c /\ cy_risky (tick e c) = cy_risky c /\
  (cy_rounds (tick e c) = cy_rounds c \/ cy_rounds (tick e c) = cy_rounds c + 1 /\ cy_pstart c <> me_time e /\ me_end e = true) /\ (me_end e = true -> cy_rounds (tick e c) = cy_rounds c -> cy_pstart c = me_time e).
Proof. unfold tick. destruct (me_end e); [destruct (cy_pstart c =? me_time e) eqn:E|]; cbn; repeat split; auto; try (intros; try discriminate; lia); try (right; repeat split; auto; lia). Qed.

Lemma ps_refl a : phase_step a a. Proof. unfold phase_step; auto. Qed.
Lemma ps_cr : phase_step PCruise PRefill. Proof. unfold phase_step; auto 10. Qed.
Lemma ps_ru : phase_step PRefill PUp. Proof. unfold phase_step; auto 10. Qed.
Lemma ps_ud : phase_step PUp PDown. Proof. unfold phase_step; auto 10. Qed.
Lemma ps_dc : phase_step PDown PCruise. Proof. unfold phase_step; auto 10. Qed.
Lemma ps_dr : phase_step PDown PRefill. Proof. unfold phase_step; auto 10. Qed.
Ltac ps := first [apply ps_refl|apply ps_cr|apply ps_ru|apply ps_ud|apply ps_dc|apply ps_dr].
Ltac ql := match goal with |- @eq bool _ _ => exfalso | _ => idtac end; solve [repeat match goal with H : _ -> _ |- _ => clear H | H : forall _, _ |- _ => clear H | H : _ \/ _ |- _ => clear H | H : @eq bool _ _ |- _ => clear H | H : _ /\ _ |- _ => destruct H end; lia].
Ltac qd := repeat match goal with H : _ \/ _ |- _ => destruct H | H : _ /\ _ |- _ => destruct H end; repeat match goal with H : @eq bool _ _ |- _ => clear H | H : forall b, _ = Some b -> _ |- _ => clear H end; lia.
Ltac dd := solve [intros; match goal with H : _ \/ _ |- _ => destruct H as [H|H]; discriminate H end].
Ltac tl := intros; match goal with H : _ /\ (_ -> _) /\ (_ -> _ \/ _) /\ (_ -> _ /\ _) |- _ => let k1 := fresh in let k2 := fresh in let k3 := fresh in let k4 := fresh in destruct H as (k1 & k2 & k3 & k4); first [solve [apply k4; congruence] | clear k3 k4; qd] | _ => solve [qd] end.
Lemma cruise_good p e c n : PB1 p c -> cy_phase c = PCruise -> exists c' n', update_cruise p e (tick e c) n = Ok (c', n') /\ good p e c n c' n'.
Proof.
  intros (a1 & a2 & a3 & a4 & a5 & a6) hp. destruct (tick_facts e c) as (t1 & t2 & t3 & t4 & t5 & t6 & t7 & t8 & t9 & t10 & t11 & t12). remember (tick e c) as d eqn:Hd in *.
  unfold update_cruise. destruct (adapt p e d n) as [[h d'] m] eqn:E. apply adapt_shape in E. destruct E as ((s1 & s2 & s3 & s4 & s5 & s6 & s7 & s8 & s9) & (u1 & u2 & u3) & v1 & v2 & v3 & v4 & v5 & v6).
  assert (np : cy_probing c = false) by (destruct (cy_probing c); auto; destruct (a6 eq_refl) as [k|[k _]]; congruence). rewrite t8, np in *.
  assert (nh : nw_hi n <= nw_hi m) by (apply Z.nlt_ge; intros k; destruct (v4 (v5 k)); discriminate).
  assert (np' : cy_probing d' = false) by (destruct (cy_probing d') eqn:Q; [discriminate (v3 eq_refl) || discriminate (v3 Q)|reflexivity]). clear a6 v3 v4 v5 v6 t12.
  unfold time_to_probe. rewrite s6, t4, a2. cbn [bind]. destruct ((mp_wait p <? Z.max 0 (me_time e - cy_start d')) || me_reno e (cy_since d')) eqn:Et.
  - destruct (enter_refill 0 (me_time e) d' m) as [c' n'] eqn:Er. exists c', n'. split; [reflexivity|]. destruct (refill_entered 0 (me_time e) _ _ _ _ _ Er) as (q & q0). pose proof q as (b1 & b2 & b3 & b4 & b5 & b6 & b7 & b8 & b9 & b10 & b11).
    unfold good; rewrite <- ?Hd. split; [eapply entered_PB1; eauto; try congruence; [intros; apply a4; congruence|rewrite q0; split; discriminate]|]. split; [|rewrite b1, hp; cbn; repeat split; try ps; try (intros; discriminate); try dd; try (intros; ql); try (intros [?|?]; discriminate); try (intros; discriminate); try dd; try congruence; try ps].
    intros t (k1 & k2 & k3 & k4) ht. apply b11; [|apply Z.le_refl]. unfold PB2. rewrite s2, s3, s4, s7, u2, u3, t1, t3, t7, hp. destruct (k4 ltac:(congruence)). repeat split; auto 3; try discriminate; try ql; clear k3 k4; try (intros; qd).
  - exists d', m. split; [reflexivity|]. assert (hw : me_time e - cy_start c <= mp_wait p) by (apply Bool.orb_false_iff in Et; rewrite s1, t2 in Et; destruct Et as (Et & _); clear - Et; lia). unfold good, PB1, PB2; rewrite <- ?Hd. rewrite np', s1, s2, s3, s4, s6, s7, u1, u2, u3, v1, v2, t1, t2, t3, t4, t5, t6, t7, hp. rewrite hp in *. cbn.
    repeat split; auto 3; try ps; try (intros; ql); try discriminate; try (intros; discriminate); try dd; try (intros; congruence); try ql.
    all: tl.
Qed.

Lemma refill_good p e c n : PB1 p c -> cy_phase c = PRefill -> exists c' n', update_refill p e (tick e c) n = Ok (c', n') /\ good p e c n c' n'.
Proof.
  intros (a1 & a2 & a3 & a4 & a5 & a6) hp. destruct (tick_facts e c) as (t1 & t2 & t3 & t4 & t5 & t6 & t7 & t8 & t9 & t10 & t11 & t12). remember (tick e c) as d eqn:Hd in *.
  unfold update_refill. destruct (adapt p e d n) as [[h d'] m] eqn:E. apply adapt_shape in E. destruct E as ((s1 & s2 & s3 & s4 & s5 & s6 & s7 & s8 & s9) & (u1 & u2 & u3) & v1 & v2 & v3 & v4 & v5 & v6).
  assert (np : cy_probing c = false) by (destruct (cy_probing c); auto; destruct (a6 eq_refl) as [k|[k _]]; congruence). rewrite t8, np in *.
  assert (nh : nw_hi n <= nw_hi m) by (apply Z.nlt_ge; intros k; destruct (v4 (v5 k)); discriminate).
  assert (np' : cy_probing d' = false) by (destruct (cy_probing d') eqn:Q; [discriminate (v3 eq_refl) || discriminate (v3 Q)|reflexivity]). clear a6 v3 v4 v5 v6 t12.
  destruct ((0 <? cy_rounds d') && me_end e) eqn:Et.
  - apply Bool.andb_true_iff in Et. destruct Et as (Et1 & Et2). apply Z.ltb_lt in Et1. unfold enter_up. set (d1 := mkCy _ _ _ _ _ _ _ _ _ _ _ _ _). destruct (raise_ok (me_cwnd e) d1) as (c' & -> & (r1 & r2 & r3 & r4 & r5 & r6 & r7 & r8 & r9) & w1 & w2 & w3); [cbn; ql|]. cbn [bind]. cbn in r1, r2, r3, r4, r5, r6, r7, r8, r9, w3.
    exists c', m. split; [reflexivity|]. unfold good, PB1, PB2; rewrite <- ?Hd. rewrite r1, r2, r3, r4, r6, r7, w3, s6, s7, t4, t7, u1, u2, u3, hp. rewrite <- ?Hd.
    cbn. repeat split; auto 3; try ps; try (intros; ql); try discriminate; try (intros; discriminate); try dd; try (intros; congruence); try ql; try (intros [?|?]; discriminate); try (destruct H as [?|?]; discriminate).
    all: tl.
  - exists d', m. split; [reflexivity|]. unfold good, PB1, PB2; rewrite <- ?Hd. rewrite np', s1, s2, s3, s4, s6, s7, u1, u2, u3, v1, v2, t1, t2, t3, t4, t5, t6, t7, hp. cbn.
    repeat split; auto 3; try ps; try (intros; ql); try discriminate; try (intros; discriminate); try dd; try (intros; congruence); try ql; try (destruct H as [?|?]; discriminate).
    all: tl.
Qed.
Lemma down_good_enter p e c n high risky d m : PB1 p c -> cy_phase c = PUp -> 0 <= cy_uprounds d <= 30 -> samen m n -> (nw_hi m < nw_hi n -> me_high e = true /\ me_valid e = true /\ cy_probing c = true) ->
  good p e c n (fst (enter_down p high risky (me_time e) d m)) (snd (enter_down p high risky (me_time e) d m)).
Proof.
  intros (a1 & a2 & a3 & a4 & a5 & a6) hp hu (u1 & u2 & u3) hh. unfold good, PB1, PB2, enter_down. cbn. rewrite hp. cbn.
  repeat split; auto 3; try ps; try (intros; ql); try discriminate; try (intros; discriminate); try dd; try (intros; congruence); try ql; try (destruct H0 as [?|?]; discriminate); try (apply hh; assumption); try (intros; apply hh; assumption).
  intros _. left. split; auto. destruct H as (k1 & k2 & k3 & k4). destruct (k4 ltac:(congruence)). ql.
Qed.
Lemma up_good p e c n : PB1 p c -> cy_phase c = PUp -> exists c' n', update_up p e (tick e c) n = Ok (c', n') /\ good p e c n c' n'.
Proof.
  intros H hp. pose proof H as (a1 & a2 & a3 & a4 & a5 & a6). destruct (tick_facts e c) as (t1 & t2 & t3 & t4 & t5 & t6 & t7 & t8 & t9 & t10 & t11 & t12). remember (tick e c) as d eqn:Hd in *.
  unfold update_up. destruct (adapt p e d n) as [[h d'] m] eqn:E. apply adapt_shape in E. destruct E as ((s1 & s2 & s3 & s4 & s5 & s6 & s7 & s8 & s9) & (u1 & u2 & u3) & v1 & v2 & v3 & v4 & v5 & v6). rewrite t8 in *.
  destruct h.
  - destruct (v4 eq_refl) as (k1 & k2 & k3 & k4). do 2 eexists. split; [unfold enter_down; reflexivity|]. apply (down_good_enter p e c n true false d' m); auto; [ql|unfold samen; auto].
  - assert (nh : nw_hi n <= nw_hi m) by (apply Z.nlt_ge; intros k; specialize (v5 k); discriminate). destruct (v6 eq_refl) as (v7 & v8).
    assert (v9 : me_high e && me_valid e && cy_probing c = false) by (destruct (me_high e), (me_valid e), (cy_probing c); auto). clear v3 v4 v5 v6 v8 t12. pose proof (fun _ : cy_probing c = true => or_introl (cy_phase c = PDown /\ cy_rounds c = 0) hp) as a7. clear a6.
    destruct (upward_ok p e d' m ltac:(ql) ltac:(intros b hb; apply a4; congruence)) as (c' & n' & -> & (r1 & r2 & r3 & r4 & r5 & r6 & r7 & r8 & r9) & (x1 & x2 & x3) & w1 & w2 & w3 & w4). cbn [bind]. cbv zeta.
    destruct (_ || _).
    + do 2 eexists. split; [unfold enter_down; reflexivity|]. eapply (down_good_enter p e c n false _ c' n'); auto; [unfold samen; repeat split; congruence|intros; ql].
    + exists c', n'. split; [reflexivity|]. unfold good, PB1, PB2; rewrite <- ?Hd. rewrite r1, r2, r3, r4, r6, r7, w3, v7, s1, s2, s3, s4, s6, s7, x1, x2, x3, u1, u2, u3, t1, t2, t3, t4, t7, hp. cbn.
      repeat split; auto 3; try ps; try (intros; ql); try discriminate; try (intros; discriminate); try dd; try (intros; congruence); try ql; try (destruct H0 as [?|?]; discriminate).
      all: tl.
Qed.

(** Within the first phase: a cycle like [c], with the filter moved on at most once *)
Definition near (p : mpar) (e : mev) (c : cycle) (n : netw) (d : cycle) (m : netw) : Prop :=
  cy_phase d = PDown /\ cy_start d = cy_start c /\ cy_wait d = Some (mp_wait p) /\ 0 <= cy_uprounds d <= 30 /\ (forall b, cy_upbytes d = Some b -> default_mss <= b) /\ 0 <= cy_rounds d /\
  (cy_probing d = true -> cy_probing c = true /\ cy_rounds d = 0) /\ (forall t, PB2 t c n -> t <= me_time e -> PB2 (me_time e) d m) /\
  nw_full m = nw_full n /\ nw_cycles m = nw_cycles n /\ (nw_hi m < nw_hi n -> me_high e = true /\ me_valid e = true /\ cy_probing c = true).
Lemma near_leave p e c n d m ph c' n' : cy_phase c = PDown -> near p e c n d m -> entered (me_time e) (me_time e) d m ph c' n' -> 0 <= cy_uprounds c' <= 30 -> ph = PRefill \/ ph = PCruise /\ me_time e - cy_start c <= mp_wait p -> good p e c n c' n'.
Proof.
  intros hp (a1 & a2 & a3 & a4 & a5 & a6 & a7 & a8 & a9 & a10 & a11) q hu hph. pose proof q as (b1 & b2 & b3 & b4 & b5 & b6 & b7 & b8 & b9 & b10 & b11).
  unfold good. split; [eapply entered_PB1; eauto; destruct hph as [->|[-> _]]; discriminate|]. split; [intros t k ht; apply b11; [apply (a8 t k ht)|apply Z.le_refl]|]. split; [congruence|]. rewrite b1, hp. split; [destruct hph as [->|[-> _]]; [apply ps_dr|apply ps_dc]|].
  split; [rewrite b9; exact a11|]. split; [intros k _; destruct hph as [->|[-> k2]]; [destruct k; discriminate|split; [exact k2|congruence]]|]. split; [intros; discriminate|]. split; [intros; discriminate|]. cbn. rewrite b10, a10. lia.
Qed.
Lemma near_stay p e c n d m : cy_phase c = PDown -> near p e c n d m -> me_time e - cy_start c <= mp_wait p -> good p e c n d m.
Proof.
  intros hp (a1 & a2 & a3 & a4 & a5 & a6 & a7 & a8 & a9 & a10 & a11) hw. unfold good, PB1. rewrite a1, hp. split; [|split; [exact a8|]; split; [exact a9|]; split; [apply ps_refl|]; split; [exact a11|]; split; [intros; split; auto|]; split; [intros; congruence|]; split; [intros; discriminate|]; cbn; lia].
  repeat split; auto; try discriminate; try apply a4. intros k. right. split; auto. apply a7; auto.
Qed.
Lemma down_good p e c n : PB1 p c -> cy_phase c = PDown -> exists c' n', update_down p e (tick e c) n = Ok (c', n') /\ good p e c n c' n'.
Proof.
  intros (a1 & a2 & a3 & a4 & a5 & a6) hp. destruct (tick_facts e c) as (t1 & t2 & t3 & t4 & t5 & t6 & t7 & t8 & t9 & t10 & t11 & t12). remember (tick e c) as d eqn:Hd in *.
  unfold update_down. cbv zeta. match goal with |- context [if ?b then if me_app e then ?x else ?y else ?z] => remember (if b then if me_app e then x else y else z) as r eqn:Hr end. destruct r as [c1 n1].
  assert (N : near p e c n c1 n1 /\ nw_hi n1 = nw_hi n /\ cy_risky c1 = cy_risky d /\ cy_high c1 = cy_high d).
  { assert (ar : 0 <= cy_rounds d) by (destruct t11 as [k|(k & _)]; rewrite k; clear - a5; lia).
    assert (pr : (cy_rounds d =? 1) && me_end e = false -> cy_probing c = true -> cy_rounds d = 0).
    { intros k1 k2. destruct (a6 k2) as [k|[_ k]]; [congruence|]. destruct t11 as [q|(q & _ & q2)]; [rewrite q; exact k|]. rewrite q2, q, k in k1. discriminate k1. }
    assert (pb : forall t, PB2 t c n -> t <= me_time e -> cy_pstart d <= me_time e /\ (1 <= cy_rounds d -> cy_pstart d < me_time e)).
    { intros t (k1 & k2 & _) ht. rewrite t3. clear - k1 k2 ht t11. destruct t11 as [k|(k & k0 & _)]; rewrite k; split; lia. }
    unfold near. destruct ((cy_rounds d =? 1) && me_end e) eqn:Ef.
    - apply Bool.andb_true_iff in Ef. destruct Ef as (f1 & f2). apply Z.eqb_eq in f1.
      assert (z : forall t, PB2 t c n -> t <= me_time e -> cy_adv c = false /\ nw_adv n = nw_cycles n - 1).
      { intros t (k1 & k2 & k3 & _) ht. destruct t11 as [k|(k & _)].
        - specialize (t12 f2 k). rewrite f1 in k. clear - k k2 ht t12. lia.
        - destruct (k3 hp) as [q|(_ & _ & q)]; auto. rewrite f1 in k. clear - k q. lia. }
      assert (P2 : forall t, PB2 t c n -> t <= me_time e -> PB2 (me_time e) c1 n1).
      { intros t k ht. destruct (pb t k ht) as (q1 & q2). destruct (z t k ht) as (z1 & z2). unfold PB2. destruct (me_app e); injection Hr as -> ->; cbn; (split; [exact q1|]; split; [exact q2|]; split; [intros _|rewrite t1; intros; contradiction]).
        - left. rewrite t7. auto.
        - right. rewrite f1. split; [auto|]. split; [clear - z2; lia|clear; lia]. }
      clear pb z pr. destruct (me_app e); injection Hr as -> ->; (split; [|auto]; split; [cbn; congruence|]; split; [exact t2|]; split; [cbn; congruence|]; split; [cbn; rewrite t5; exact a3|]; split; [cbn; rewrite t6; exact a4|]; split; [exact ar|]; split; [intros; discriminate|]; split; [exact P2|]; split; [auto|]; split; [auto|]; intros k; exfalso; cbn in k; clear - k; lia).
    - assert (P2 : forall t, PB2 t c n -> t <= me_time e -> PB2 (me_time e) d n).
      { intros t k ht. destruct (pb t k ht) as (q1 & q2). destruct k as (k1 & k2 & k3 & k4). unfold PB2. split; [exact q1|]. split; [exact q2|]. split; [intros _|rewrite t1; intros; contradiction]. rewrite t7.
        destruct (k3 hp) as [q|(g1 & g2 & g3)]; [left; exact q|right; repeat split; auto]. destruct t11 as [k|(k & _)]; rewrite k; clear - g3; lia. }
      clear pb. injection Hr as -> ->. split; [|auto]. rewrite t8. split; [congruence|]; split; [exact t2|]; split; [congruence|]; split; [rewrite t5; exact a3|]; split; [rewrite t6; exact a4|]; split; [exact ar|]; split; [intros k; split; [exact k|exact (pr eq_refl k)]|]; split; [exact P2|]; split; [auto|]; split; [auto|]; intros k; exfalso; clear - k; lia. }
  destruct N as (N & N1 & N2 & N3).
  destruct ((cy_rounds d =? 1) && me_end e && cy_risky c1 && negb (cy_high c1)).
  { destruct (enter_refill 0 (me_time e) c1 n1) as [c' n'] eqn:Er. exists c', n'. split; [reflexivity|]. destruct (refill_entered 0 (me_time e) _ _ _ _ _ Er) as (q & q0). eapply near_leave; eauto. rewrite q0; split; discriminate. }
  destruct (adapt p e c1 n1) as [[h c2] n2] eqn:E. apply adapt_shape in E. destruct E as ((s1 & s2 & s3 & s4 & s5 & s6 & s7 & s8 & s9) & (u1 & u2 & u3) & v1 & v2 & v3 & v4 & v5 & v6).
  assert (M : near p e c n c2 n2).
  { destruct N as (g1 & g2 & g3 & g4 & g5 & g6 & g7 & g8 & g9 & g10 & g11). unfold near. rewrite s1, s2, s3, s6, v1, v2, u1, u3. repeat split; auto; try apply g4; try (intros k; apply g7; auto).
    - apply g7. auto.
    - apply g7. auto.
    - rewrite s4. apply (g8 t H H0).
    - rewrite s3, s4. apply (g8 t H H0).
    - rewrite s2, s3, s7, u2, u3. apply (g8 t H H0).
    - rewrite s7. apply (g8 t H H0). congruence.
    - rewrite u2, u3. apply (g8 t H H0). congruence.
    - rewrite <- N1 in H. apply (v4 (v5 H)).
    - rewrite <- N1 in H. apply (v4 (v5 H)).
    - rewrite <- N1 in H. destruct (v4 (v5 H)) as (k & _). apply (g7 k). }
  unfold time_to_probe. pose proof M as (g1 & g2 & g3 & g4 & _). rewrite g3. cbn [bind]. destruct ((mp_wait p <? Z.max 0 (me_time e - cy_start c2)) || me_reno e (cy_since c2)) eqn:Et.
  { destruct (enter_refill 0 (me_time e) c2 n2) as [c' n'] eqn:Er. exists c', n'. split; [reflexivity|]. destruct (refill_entered 0 (me_time e) _ _ _ _ _ Er) as (q & q0). eapply near_leave; eauto. rewrite q0; split; discriminate. }
  assert (hw : me_time e - cy_start c <= mp_wait p) by (apply Bool.orb_false_iff in Et; rewrite g2 in Et; destruct Et as (Et & _); clear - Et; lia).
  assert (cr : exists c' n', Ok (enter_cruise (me_time e) c2 n2) = Ok (c', n') :> res unit _ /\ good p e c n c' n').
  { destruct (enter_cruise (me_time e) c2 n2) as [c' n'] eqn:Er. exists c', n'. split; [reflexivity|]. destruct (cruise_entered (me_time e) _ _ _ _ _ Er) as (q & q0). eapply near_leave; eauto. rewrite q0; exact g4. }
  destruct (negb (mp_noexit p) && _); [exact cr|]. destruct (_ <? me_flight e); [exists c2, n2; split; [reflexivity|]; apply near_stay; auto|]. destruct (me_flight e <? me_bdp e); [exact cr|]. exists c2, n2; split; [reflexivity|]; apply near_stay; auto.
Qed.
Lemma pb_good p e c n : PB1 p c -> exists c' n' sw, pb_event p e c n = Ok (c', n', sw) /\ good p e c n c' n' /\ (sw = true -> cy_phase c = PDown /\ cy_phase c' <> PDown /\ me_expired e = true).
Proof.
  intros H. pose proof H as (a1 & _). unfold pb_event. fold (tick e c). destruct (tick_facts e c) as (-> & _). destruct (cy_phase c) eqn:hp; [congruence| | | |].
  - destruct (up_good p e c n H hp) as (c' & n' & -> & g). cbn [bind]. exists c', n', false. split; [reflexivity|]. split; [exact g|discriminate].
  - destruct (down_good p e c n H hp) as (c' & n' & -> & g). cbn [bind fst]. exists c', n', (negb (phase_eqb (cy_phase c') PDown) && me_expired e). split; [reflexivity|]. split; [exact g|]. intros k. apply Bool.andb_true_iff in k. destruct k as (k1 & k2). repeat split; auto. intros q. rewrite q in k1. discriminate.
  - destruct (cruise_good p e c n H hp) as (c' & n' & -> & g). cbn [bind]. exists c', n', false. split; [reflexivity|]. split; [exact g|discriminate].
  - destruct (refill_good p e c n H hp) as (c' & n' & -> & g). cbn [bind]. exists c', n', false. split; [reflexivity|]. split; [exact g|discriminate].
Qed.
