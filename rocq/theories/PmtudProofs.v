(** Proofs for C47. *)
Require Import Verif.Base Verif.Errors Verif.PmtudModel Verif.PmtudSpec.

Record pmI (p : pmtud) (out : option Z) : Prop := {
  pi_max : 1200 <= pm_max p;
  pi_mp : 1 <= pm_max_probes p <= 255;
  pi_fc : 0 <= pm_failures p < pm_max_probes p;
  pi_probe : 1200 <= pm_probe p <= pm_max p;
  pi_out : out = if pm_in_flight p then Some (pm_probe p) else None;
  pi_s : match pm_success p with Some s => 1200 <= s <= pm_max p | None => True end;
  pi_f : match pm_failed p with Some f => 1200 <= f <= pm_max p | None => True end;
  pi_pmtu : match pm_pmtu p with
            | Some m => pm_success p = Some m /\ out = None /\ pm_failures p = 0 /\
                match pm_failed p with Some f => f = m + 1 | None => True end
            | None => match pm_failed p, pm_success p with
                      | None, None => pm_probe p = pm_max p
                      | None, Some _ => False
                      | Some f, None => pm_probe p < f \/ (f = 1200 /\ out = None)
                      | Some f, Some s => s + 1 < f /\ pm_probe p = (s + f) / 2
                      end
            end;
  pi_sf : match pm_failed p, pm_success p with
          | Some f, Some s => s < f
          | None, Some s => s = pm_max p
          | _, _ => True
          end }.

Lemma pmI_new max mp : valid_config max mp -> pmI (pm_new max mp) None /\ pm_max_probes (pm_new max mp) = attempts mp.
Proof.
  intros (h1 & h2). split; [|reflexivity].
  unfold pm_new, MAX_PROBES_DEFAULT. constructor; cbn; auto; destruct (mp =? 0) eqn:?; lia.
Qed.

Ltac pcn := cbn [pm_pmtu pm_probe pm_max pm_failed pm_success pm_in_flight pm_failures pm_max_probes].
Ltac pm_cases := repeat match goal with
  | |- context [match ?x with Some _ => _ | None => _ end] => destruct x eqn:?
  | |- context [if ?b then _ else _] => destruct b eqn:?
  end.

Lemma pm_fail_ok n p : 0 <= pm_failures p < pm_max_probes p -> pm_max_probes p <= 255 ->
  exists p', pm_fail n p = Ok p'.
Proof. intros. unfold pm_fail. destruct (255 <? pm_failures p + 1) eqn:E; [lia|]. pm_cases; eauto. Qed.

Lemma pmI_step op p out : pmI p out -> exists o p' out', pm_step op (p, out) = Ok (o, (p', out')) /\ pmI p' out' /\
  pm_max p' = pm_max p /\ pm_max_probes p' = pm_max_probes p.
Proof.
  intros I. destruct op; cbn [pm_step].
  - destruct (pm_should_probe p) eqn:E; [|do 3 eexists; split; [reflexivity|]; auto].
    do 3 eexists. split; [reflexivity|]. split; [|auto]. unfold pm_should_probe in E. apply andb_true_iff in E as (E & E3).
    apply andb_true_iff in E as (E1 & E2). destruct I. unfold MIN_PLPMTU in *.
    constructor; cbn; auto. destruct (pm_pmtu p); [discriminate|]. destruct (pm_failed p), (pm_success p); auto. left. lia.
  - destruct out as [n|]; [|do 3 eexists; split; [reflexivity|]; auto].
    do 3 eexists. split; [reflexivity|]. destruct I.
    destruct p as [pm pr mx f s fl fc mp]; cbn in *. destruct fl; [|discriminate]. injection pi_out0 as ->.
    destruct pm as [m|]; [destruct pi_pmtu0 as (_ & ? & _); discriminate|].
    unfold pm_successful, pm_update, pm_set_pmtu, pm_restart, pm_set_probe, pm_set_in_flight, MIN_PLPMTU. pcn.
    destruct f as [f|], s as [s|]; pcn; try tauto; pm_cases; (split; [constructor|]); pcn; auto; try lia; try (repeat split; auto; lia); try (destruct pi_pmtu0 as [h|(_ & h)]; [|discriminate]); try lia; try (apply ho; lia); auto.
  - destruct out as [n|]; [|do 3 eexists; split; [reflexivity|]; auto].
    destruct (pm_fail_ok n p) as (p' & e); [destruct I; auto|destruct I; lia|]. rewrite e. cbn [bind].
    do 3 eexists. split; [reflexivity|]. destruct I.
    destruct p as [pm pr mx f s fl fc mp]; cbn [pm_pmtu pm_probe pm_max pm_failed pm_success pm_in_flight pm_failures pm_max_probes] in *. unfold pm_fail, pm_update, pm_set_pmtu, pm_restart, pm_set_probe, pm_set_in_flight, MIN_PLPMTU in e.
    cbn [pm_pmtu pm_probe pm_max pm_failed pm_success pm_in_flight pm_failures pm_max_probes] in e. destruct fl; [|discriminate]. injection pi_out0 as ->.
    destruct pm as [m|]; [destruct pi_pmtu0 as (_ & ? & _); discriminate|].
    destruct (255 <? fc + 1); [discriminate|].
    destruct (fc + 1 <? mp) eqn:E.
    { injection e as <-. split; [constructor|]; cbn; auto; try lia. destruct f as [f|], s as [s|]; cbn; auto.
      destruct pi_pmtu0 as [h|(_ & h)]; [auto|discriminate]. }
    apply (f_equal (fun r => match r with Ok a => a | _ => p' end)) in e. cbv beta iota in e. subst p'.
    assert (ho : forall q (x : Z), (q <> 1200 -> x < q) -> x < q \/ q = 1200 /\ @None Z = None)
      by (intros q x hq; destruct (Z.eq_dec q 1200); [right; auto|left; auto]).
    destruct f as [f|], s as [s|]; pcn; try tauto; pm_cases; (split; [constructor|]); pcn; auto; try lia; try (repeat split; auto; lia); try (destruct pi_pmtu0 as [h|(_ & h)]; [|discriminate]); try lia; try (apply ho; lia); auto.
  - do 3 eexists. split; [reflexivity|]. unfold pm_revalidate. destruct (pm_pmtu p) as [m|] eqn:E; [|auto].
    destruct I. rewrite E in *. destruct pi_pmtu0 as (hs & ho & _). rewrite hs in *.
    split; [constructor|]; cbn; auto; try lia; destruct (pm_failed p); auto; try lia.
    rewrite ho in pi_out0. rewrite pi_out0 in ho. destruct (pm_in_flight p); [discriminate|]. auto.
    destruct (pm_in_flight p); congruence.
Qed.

Lemma pm_run_app a b st : pm_run (a ++ b) st =
  let* '(o1, st1) := pm_run a st in let* '(o2, st2) := pm_run b st1 in Ok (o1 ++ o2, st2).
Proof.
  revert st. induction a as [|op a IH]; intros st; cbn [pm_run app bind].
  - destruct (pm_run b st) as [[? ?]| |]; reflexivity.
  - destruct (pm_step op st) as [[o st1]| |]; cbn [bind]; auto. rewrite IH.
    destruct (pm_run a st1) as [[o1 st2]| |]; cbn [bind]; auto.
    destruct (pm_run b st2) as [[? ?]| |]; reflexivity.
Qed.

Lemma pm_run_snoc a op p out : pmI p out -> exists os p1 out1 o p2 out2,
  pm_run a (p, out) = Ok (os, (p1, out1)) /\ pmI p1 out1 /\
  pm_step op (p1, out1) = Ok (o, (p2, out2)) /\ pmI p2 out2 /\
  pm_run (a ++ [op]) (p, out) = Ok (os ++ [o], (p2, out2)) /\ pm_max p1 = pm_max p /\ pm_max p2 = pm_max p
  /\ pm_max_probes p1 = pm_max_probes p.
Proof.
  assert (R : forall a p out, pmI p out -> exists os p1 out1, pm_run a (p, out) = Ok (os, (p1, out1)) /\ pmI p1 out1
    /\ pm_max p1 = pm_max p /\ pm_max_probes p1 = pm_max_probes p).
  { clear. induction a as [|op a IH]; intros p out I; cbn [pm_run]; [eauto 10|].
    destruct (pmI_step op p out I) as (o & p1 & out1 & e & I1 & hm & hp). rewrite e. cbn [bind].
    destruct (IH _ _ I1) as (os & p2 & out2 & e2 & I2 & hm2 & hp2). rewrite e2. cbn [bind].
    do 3 eexists. split; [reflexivity|]. split; auto. split; congruence. }
  intros I. destruct (R a p out I) as (os & p1 & out1 & e & I1 & hm & hp).
  destruct (pmI_step op p1 out1 I1) as (o & p2 & out2 & e2 & I2 & hm2 & _).
  exists os, p1, out1, o, p2, out2. rewrite pm_run_app, e. cbn [bind pm_run]. rewrite e2. cbn [bind].
  repeat match goal with |- _ /\ _ => split end; auto; congruence.
Qed.

Lemma sent_app a b : sizes_sent (a ++ b) = sizes_sent a ++ sizes_sent b.
Proof. induction a as [|[] a IH]; cbn; auto. rewrite IH. auto. Qed.
Lemma acked_app a b : sizes_acked (a ++ b) = sizes_acked a ++ sizes_acked b.
Proof. induction a as [|[] a IH]; cbn; auto. rewrite IH. auto. Qed.

Lemma pm_success_step op p out o p' out' : pmI p out -> pm_step op (p, out) = Ok (o, (p', out')) ->
  pm_success p' = None \/ pm_success p' = pm_success p \/ exists n, o = PoAcked n /\ pm_success p' = Some n.
Proof.
  intros I h. destruct op; cbn [pm_step] in h.
  - destruct (pm_should_probe p); injection h as <- <- <-; auto.
  - destruct out as [n|]; injection h as <- <- <-; auto.
    unfold pm_successful, pm_update. cbn [pm_failed pm_success].
    assert (hn : 1200 <= n <= pm_max p).
    { destruct I. destruct (pm_in_flight p); [injection pi_out0 as ->; auto|discriminate]. }
    rewrite Z.min_l by lia.
    assert (hs : forall s, pm_success p = Some s -> Z.max n s = n \/ Z.max n s = s) by lia.
    destruct (pm_failed p) as [f|]; destruct (pm_success p) as [s|] eqn:Es; pm_cases; cbn; auto;
      try (right; right; exists n; split; auto; fail);
      destruct (hs s eq_refl) as [e|e]; rewrite e; eauto.
  - destruct out as [n|]; [|injection h as <- <- <-; auto].
    destruct (pm_fail n p) as [p1| |] eqn:E; try discriminate. cbn [bind] in h. injection h as <- <- <-.
    unfold pm_fail in E. cbv zeta in E. destruct (255 <? pm_failures p + 1); [discriminate|].
    destruct (pm_failures p + 1 <? pm_max_probes p); injection E as <-; auto.
    unfold pm_update. cbn [pm_failed pm_success]. destruct (pm_success p); pm_cases; cbn; auto.
  - injection h as <- <- <-. unfold pm_revalidate. destruct (pm_pmtu p); cbn; auto.
Qed.

Lemma c47_safe max mp ops : valid_config max mp ->
  exists os p out, pm_run ops (pm_new max mp, None) = Ok (os, (p, out)) /\ pmI p out /\ pm_max p = max /\
    Forall (fun n => 1200 <= n <= max) (sizes_sent os) /\
    (forall s, pm_success p = Some s -> In s (sizes_acked os)).
Proof.
  intros hv. destruct (pmI_new max mp hv) as (I & _). induction ops as [|op ops IH] using rev_ind.
  - exists [], (pm_new max mp), None. split; [reflexivity|]. split; auto. cbn. repeat split; auto; discriminate.
  - destruct (pm_run_snoc ops op _ _ I) as (os & p1 & out1 & o & p2 & out2 & e & I1 & es & I2 & e2 & hm1 & hm & _).
    destruct IH as (os' & p' & out' & e' & _ & _ & hf & hs). rewrite e in e'. injection e' as <- <- <-.
    exists (os ++ [o]), p2, out2. split; auto. split; auto. split; [exact hm|].
    rewrite sent_app, acked_app. split.
    + apply Forall_app. split; auto. destruct o; cbn; auto. constructor; auto.
      destruct op; cbn [pm_step] in es.
      * destruct (pm_should_probe p1); [|discriminate]. injection es as <- <- <-. destruct I1.
        rewrite hm1 in pi_probe0. exact pi_probe0.
      * destruct out1; discriminate.
      * destruct out1; [|discriminate]. destruct (pm_fail z p1); discriminate.
      * discriminate.
    + intros s hs'. apply in_app_iff. destruct (pm_success_step _ _ _ _ _ _ I1 es) as [h|[h|(n & -> & h)]].
      * congruence.
      * rewrite h in hs'. auto.
      * right. cbn. left. congruence.
Qed.

Ltac db := repeat match goal with |- context [if ?b then _ else _] =>
  match type of b with bool => destruct b eqn:? end end.

(** Potential: levels of the search left *)
Definition level (L : Z) (p : pmtud) : Prop :=
  match pm_pmtu p with
  | Some _ => 0 <= L
  | None => match pm_failed p, pm_success p with
            | None, None => 2 <= L /\ pm_max p - 1200 <= 2 ^ (L - 2)
            | None, Some _ => False
            | Some f, None => (1 <= L /\ f - 1200 <= 2 ^ (L - 1) /\ pm_probe p = (1200 + f) / 2) \/
                              (2 <= L /\ f - 1200 <= 2 ^ (L - 2))
            | Some f, Some s => 0 <= L /\ f - s <= 2 ^ L
            end
  end.

Definition knows (mtu : Z) (p : pmtud) : Prop :=
  match pm_success p with Some s => s <= mtu | None => True end /\
  match pm_failed p with Some f => mtu < f | None => True end.

Lemma pow_step L : 1 <= L -> 2 ^ L = 2 * 2 ^ (L - 1).
Proof. intros. replace L with (Z.succ (L - 1)) at 1 by lia. rewrite Z.pow_succ_r by lia. auto. Qed.

Lemma level_drop mtu L p out n p' o op : 1200 <= mtu -> pmI p out -> level L p -> knows mtu p -> out = Some n ->
  op <> PmRevalidate -> op <> PmProbe ->
  pm_step op (p, out) = Ok (o, (p', None)) -> true_of_path mtu o ->
  knows mtu p' /\ ((1 <= L /\ level (L - 1) p' /\ pm_failures p' = 0) \/
                   (level L p' /\ pm_failures p' = pm_failures p + 1)) /\ 1 <= L.
Proof.
  intros hm I hL hk -> h1 h2 hs ht. destruct op; try congruence; cbn [pm_step] in hs.
  - injection hs as <- <-. cbn in ht. destruct I.
    destruct p as [pm pr mx f s fl fc mp]; cbn [pm_pmtu pm_probe pm_max pm_failed pm_success pm_in_flight pm_failures pm_max_probes] in *.
    destruct fl; [|discriminate]. injection pi_out0 as ->. destruct pm as [m|]; [destruct pi_pmtu0 as (_ & ? & _); discriminate|].
    unfold level, knows, pm_successful, pm_update, pm_set_pmtu, pm_restart, pm_set_probe, pm_set_in_flight, MIN_PLPMTU in *.
    cbn [pm_pmtu pm_probe pm_max pm_failed pm_success pm_in_flight pm_failures pm_max_probes] in *.
    destruct f as [f|], s as [s|].
    + pose proof (pow_step L). assert (1 <= L).
      { destruct (Z.eq_dec L 0); [subst; change (2 ^ 0) with 1 in *; lia|lia]. }
      db; cbn [pm_pmtu pm_probe pm_max pm_failed pm_success pm_in_flight pm_failures pm_max_probes] in *; try lia.
    + pose proof (pow_step (L - 1)). pose proof (pow_step L). assert (1 <= L) by lia.
      assert (0 < 2 ^ (L - 1)) by (apply Z.pow_pos_nonneg; lia).
      assert (hx : 1 < f - pr -> 1 <= L - 1 /\ 2 ^ (L - 1) = 2 * 2 ^ (L - 1 - 1)).
      { intros. assert (2 <= L); [|split; [lia|apply pow_step; lia]]. destruct (Z.eq_dec L 1); [|lia]. subst L. change (2 ^ (1 - 1)) with 1 in *. lia. }
      db; cbn [pm_pmtu pm_probe pm_max pm_failed pm_success pm_in_flight pm_failures pm_max_probes] in *; try lia.
      destruct (Z_le_gt_dec 2 L).
      * assert (0 < 2 ^ (L - 2)) by (apply Z.pow_pos_nonneg; lia).
        replace (L - 1 - 1) with (L - 2) in * by lia. lia.
      * assert (L = 1) by lia. subst L. change (2 ^ (1 - 1)) with 1 in *. lia.
    + tauto.
    + db; cbn [pm_pmtu pm_probe pm_max pm_failed pm_success pm_in_flight pm_failures pm_max_probes] in *; lia.
  - destruct (pm_fail n p) as [p1| |] eqn:E; try discriminate. cbn [bind] in hs. injection hs as <- <-. cbn in ht.
    unfold pm_fail in E. cbv zeta in E. destruct (255 <? pm_failures p + 1); [discriminate|].
    destruct I.
    destruct p as [pm pr mx f s fl fc mp]; cbn [pm_pmtu pm_probe pm_max pm_failed pm_success pm_in_flight pm_failures pm_max_probes] in *.
    destruct fl; [|discriminate]. injection pi_out0 as ->. destruct pm as [m|]; [destruct pi_pmtu0 as (_ & ? & _); discriminate|].
    assert (hL1 : 1 <= L).
    { unfold level in hL. cbn [pm_pmtu pm_probe pm_max pm_failed pm_success] in hL. destruct f as [f|], s as [s|]; try lia; try tauto.
      destruct (Z.eq_dec L 0); [subst; change (2 ^ 0) with 1 in *; lia|lia]. }
    destruct (fc + 1 <? mp) eqn:Ec.
    { apply (f_equal (fun r => match r with Ok a => a | _ => p1 end)) in E. cbv beta iota in E. subst p1.
      split; [exact hk|]. split; auto. }
    apply (f_equal (fun r => match r with Ok a => a | _ => p1 end)) in E. cbv beta iota in E. subst p1.
    unfold level, knows, pm_update, pm_set_pmtu, pm_restart, pm_set_probe, pm_set_in_flight, MIN_PLPMTU in *.
    cbn [pm_pmtu pm_probe pm_max pm_failed pm_success pm_in_flight pm_failures pm_max_probes] in *.
    rewrite Z.max_l by lia.
    destruct f as [f|], s as [s|].
    + pose proof (pow_step L).
      db; cbn [pm_pmtu pm_probe pm_max pm_failed pm_success pm_in_flight pm_failures pm_max_probes] in *; try lia.
    + cbn [pm_pmtu pm_probe pm_max pm_failed pm_success pm_in_flight pm_failures pm_max_probes] in *.
      destruct pi_pmtu0 as [hp|(_ & hp)]; [|discriminate]. rewrite Z.min_r by lia.
      split; [lia|]. split; auto. left. split; auto. split; auto. left.
      pose proof (pow_step (L - 1)).
      destruct hL as [(a1 & a2 & a3)|(a1 & a2)].
      * destruct (Z.eq_dec L 1); [subst L; change (2 ^ (1 - 1)) with 1 in *; lia|].
        assert (2 ^ (L - 1) = 2 * 2 ^ (L - 1 - 1)) by lia. lia.
      * replace (L - 1 - 1) with (L - 2) by lia. lia.
    + tauto.
    + cbn [pm_pmtu pm_probe pm_max pm_failed pm_success pm_in_flight pm_failures pm_max_probes] in *.
      split; [lia|]. split; auto. left. split; auto. split; auto. left. replace (L - 1 - 1) with (L - 2) by lia. lia.
Qed.

Lemma c47_run mtu : 1200 <= mtu -> forall ops p out L0, pmI p out -> level L0 p -> knows mtu p ->
  ~ In PmRevalidate ops ->
  exists os p' out', pm_run ops (p, out) = Ok (os, (p', out')) /\
  (Forall (true_of_path mtu) os ->
   exists L, pmI p' out' /\ level L p' /\ knows mtu p' /\ pm_max p' = pm_max p /\ pm_max_probes p' = pm_max_probes p /\
    zlen (sizes_sent os) + pm_max_probes p * L - pm_failures p' - (if out' then 1 else 0)
      <= pm_max_probes p * L0 - pm_failures p - (if out then 1 else 0)).
Proof.
  intros hm. induction ops as [|op ops IH]; intros p out L0 I hL hk hr.
  - cbn [pm_run]. do 3 eexists. split; [reflexivity|]. intros _. exists L0. change (zlen (sizes_sent [])) with 0.
    repeat match goal with |- _ /\ _ => split end; auto; lia.
  - destruct (pmI_step op p out I) as (o & p1 & out1 & e & I1 & hx & hp). cbn [pm_run]. rewrite e. cbn [bind].
    assert (hr1 : op <> PmRevalidate) by (intros ->; apply hr; left; auto).
    assert (hr2 : ~ In PmRevalidate ops) by (intros h; apply hr; right; auto).
    assert (S : true_of_path mtu o -> exists L1, level L1 p1 /\ knows mtu p1 /\
              zlen (sizes_sent [o]) + pm_max_probes p * L1 - pm_failures p1 - (if out1 then 1 else 0)
              <= pm_max_probes p * L0 - pm_failures p - (if out then 1 else 0)).
    { intros ht. pose proof e as e0. destruct op.
      - cbn [pm_step] in e. destruct (pm_should_probe p) eqn:Es; injection e as <- <- <-.
        + exists L0. split; [exact hL|]. split; [exact hk|]. cbn [sizes_sent pm_failures pm_set_in_flight]. unfold pm_should_probe in Es.
          destruct I. destruct (pm_in_flight p); [discriminate|]. subst out. change (zlen [pm_probe p]) with 1. lia.
        + exists L0. split; [exact hL|]. split; [exact hk|]. cbn [sizes_sent pm_failures pm_set_in_flight]. change (zlen (@nil Z)) with 0. lia.
      - cbn [pm_step] in e. destruct out as [n|].
        + injection e as <- <- <-.
          destruct (level_drop mtu L0 p (Some n) n (pm_successful n p) (PoAcked n) PmAcked hm I hL hk eq_refl) as (k1 & [(a1 & a2 & a3)|(a1 & a2)] & k3);
            try discriminate; auto; cbn [sizes_sent]; change (zlen (@nil Z)) with 0.
          * exists (L0 - 1). split; auto. split; auto. rewrite a3. destruct I. nia.
          * exists L0. split; auto. split; auto. rewrite a2. lia.
        + injection e as <- <- <-. exists L0. split; [exact hL|]. split; [exact hk|]. cbn [sizes_sent pm_failures pm_set_in_flight]. change (zlen (@nil Z)) with 0. lia.
      - cbn [pm_step] in e. destruct out as [n|].
        + destruct (pm_fail n p) as [p2| |] eqn:Ef; try discriminate. cbn [bind] in e. injection e as <- <- <-.
          destruct (level_drop mtu L0 p (Some n) n p2 (PoLost n) PmLost hm I hL hk eq_refl) as (k1 & [(a1 & a2 & a3)|(a1 & a2)] & k3);
            try discriminate; auto; cbn [sizes_sent]; change (zlen (@nil Z)) with 0.
          * exists (L0 - 1). split; auto. split; auto. rewrite a3. destruct I. nia.
          * exists L0. split; auto. split; auto. rewrite a2. lia.
        + injection e as <- <- <-. exists L0. split; [exact hL|]. split; [exact hk|]. cbn [sizes_sent pm_failures pm_set_in_flight]. change (zlen (@nil Z)) with 0. lia.
      - congruence. }
    destruct (pmI_step op p out I) as (o' & p1' & out1' & e' & _). clear o' p1' out1' e'.
    assert (R : exists os p' out', pm_run ops (p1, out1) = Ok (os, (p', out'))).
    { destruct (pm_run_snoc ops PmProbe p1 out1 I1) as (os & p' & out' & _ & _ & _ & h & _). eauto. }
    destruct R as (os & p' & out' & er). rewrite er. cbn [bind].
    do 3 eexists. split; [reflexivity|]. intros hf. inversion hf as [|? ? ht hf']; subst.
    destruct (S ht) as (L1 & l1 & l2 & l3).
    destruct (IH p1 out1 L1 I1 l1 l2 hr2) as (os2 & p2 & out2 & er2 & hx2). rewrite er in er2. injection er2 as <- <- <-.
    destruct (hx2 hf') as (L & b1 & b2 & b3 & b4 & b5 & b6). exists L.
    repeat match goal with |- _ /\ _ => split end; auto; try congruence.
    change (o :: os) with ([o] ++ os). rewrite sent_app, zlen_app. rewrite hp in b6. lia.
Qed.

Lemma level_nonneg L p out : pmI p out -> level L p -> 0 <= pm_max_probes p * L - pm_failures p - (if out then 1 else 0).
Proof.
  intros [] h. unfold level in h. destruct (pm_pmtu p) as [m|] eqn:E.
  - destruct pi_pmtu0 as (_ & -> & -> & _). nia.
  - assert (1 <= L). { destruct (pm_failed p) as [f|], (pm_success p) as [s|]; try lia; try tauto.
      destruct (Z.eq_dec L 0); [subst; change (2 ^ 0) with 1 in *; lia|lia]. }
    destruct out; nia.
Qed.

Lemma c47_finished mtu p out : 1200 <= mtu -> pmI p out -> knows mtu p ->
  (finished (p, out) -> pm_pmtu p = Some (Z.min mtu (pm_max p)) /\ pm_current p = Z.min mtu (pm_max p)) /\
  (pm_pmtu p = Some (Z.min mtu (pm_max p)) -> finished (p, out)).
Proof.
  intros hm [] (hk1 & hk2). unfold finished, pm_should_probe, pm_current, MIN_PLPMTU. cbn [fst snd]. split.
  - intros (-> & h). destruct (pm_in_flight p); [discriminate|]. destruct (pm_pmtu p) as [m|] eqn:E.
    + destruct pi_pmtu0 as (h1 & _ & _ & h2). rewrite h1 in *. destruct (pm_failed p) as [f|].
      * replace (Z.min mtu (pm_max p)) with m by lia. auto.
      * replace (Z.min mtu (pm_max p)) with m by lia. auto.
    + destruct (pm_failed p) as [f|]; [|discriminate]. assert (f = 1200) by (cbn in h; lia). lia.
  - intros h. rewrite h in *. destruct pi_pmtu0 as (h1 & -> & _ & _). split; auto.
    destruct (pm_in_flight p); auto.
Qed.

Lemma c47_search max mp mtu k ops : valid_config max mp -> 1200 <= mtu -> 0 <= k -> max - 1200 <= 2 ^ k ->
  ~ In PmRevalidate ops ->
  exists os st, pm_run ops (pm_new max mp, None) = Ok (os, st) /\
  (Forall (true_of_path mtu) os ->
    zlen (sizes_sent os) <= attempts mp * (k + 2) /\
    (finished st -> pm_pmtu (fst st) = Some (Z.min mtu max) /\ pm_current (fst st) = Z.min mtu max) /\
    (pm_pmtu (fst st) = Some (Z.min mtu max) -> finished st)).
Proof.
  intros hv hm h0 hk hr. destruct (pmI_new max mp hv) as (I & hmp).
  assert (hL : level (k + 2) (pm_new max mp)).
  { unfold level. cbn [pm_new pm_pmtu pm_failed pm_success pm_max]. replace (k + 2 - 2) with k by lia. lia. }
  destruct (c47_run mtu hm ops _ _ _ I hL (conj Logic.I Logic.I) hr) as (os & p & out & e & h).
  exists os, (p, out). split; auto. intros hf. destruct (h hf) as (L & b1 & b2 & b3 & b4 & b5 & b6).
  pose proof (level_nonneg _ _ _ b1 b2). rewrite b5, hmp in *. cbn [pm_failures pm_new] in b6.
  split; [lia|]. change (pm_max (pm_new max mp)) with max in b4. cbn [fst]. rewrite <- b4. apply (c47_finished mtu p out); auto.
Qed.

Lemma c47_revalidate max mp mtu k ops1 ops2 os1 p1 out1 m : valid_config max mp ->
  pm_run ops1 (pm_new max mp, None) = Ok (os1, (p1, out1)) -> pm_pmtu p1 = Some m ->
  1200 <= mtu <= m -> 0 <= k -> max - 1200 <= 2 ^ k -> ~ In PmRevalidate ops2 ->
  exists os st, pm_run (PmRevalidate :: ops2) (p1, out1) = Ok (os, st) /\
  (Forall (true_of_path mtu) os ->
    zlen (sizes_sent os) <= attempts mp * (k + 2) /\
    (finished st -> pm_pmtu (fst st) = Some mtu /\ pm_current (fst st) = mtu)).
Proof.
  intros hv e1 hp hm h0 hk hr. destruct (pmI_new max mp hv) as (I0 & hmp).
  destruct (pm_run_snoc ops1 PmRevalidate _ _ I0) as (os & p & out & o & p2 & out2 & e & I1 & es & I2 & _ & hx & hx2 & hmp1).
  rewrite e1 in e. injection e as <- <- <-. change (pm_max (pm_new max mp)) with max in *.
  cbn [pm_step] in es. injection es as <- <- <-.
  pose proof I1 as I1'. destruct I1'. rewrite hp in *. destruct pi_pmtu0 as (hs & -> & hf & hfl).
  assert (E : pm_revalidate p1 = mkPm None (Z.min m (pm_max p1)) (pm_max p1) (pm_failed p1) None (pm_in_flight p1) 0 (pm_max_probes p1))
    by (unfold pm_revalidate; rewrite hp; reflexivity).
  rewrite hs in *.
  assert (hL : level (k + 2) (pm_revalidate p1)).
  { rewrite E. unfold level. cbn [pm_pmtu pm_failed pm_success pm_max]. rewrite hx.
    replace (k + 2 - 2) with k by lia. destruct (pm_failed p1); [right|]; lia. }
  assert (hkn : knows mtu (pm_revalidate p1)).
  { rewrite E. unfold knows. cbn [pm_failed pm_success]. destruct (pm_failed p1); lia. }
  destruct (c47_run mtu ltac:(lia) ops2 _ _ _ I2 hL hkn hr) as (os & p & out & e & h).
  exists (PoNone :: os), (p, out). cbn [pm_run pm_step bind]. rewrite e. cbn [bind]. split; auto. intros hf'.
  inversion hf' as [|? ? _ hf2]; subst.
  destruct (h hf2) as (L & b1 & b2 & b3 & b4 & b5 & b6).
  pose proof (level_nonneg _ _ _ b1 b2). rewrite E in b5, b6. cbn [pm_max_probes pm_failures] in *.
  rewrite b5, hmp1, hmp in *. cbn [sizes_sent fst].
  split; [lia|]. intros hd. destruct (c47_finished mtu p out ltac:(lia) b1 b3) as (c1 & _). apply c1 in hd.
  rewrite b4, E in hd. cbn [pm_max] in hd. replace (Z.min mtu (pm_max p1)) with mtu in hd by lia. exact hd.
Qed.
