(** Each call preserves the ledger invariant. *)
Require Import Verif.Base Verif.Errors Verif.RttModel Verif.RecoveryModel Verif.RecoverySpec Verif.RecoveryProofs Verif.RecoveryInv Verif.RecoveryMain.
Require Import Permutation Sorted.

Definition keys (led : ledger) : list (epoch * Z) := map (fun x => (en_e x, en_num x)) led.
Definition new_keys (o : rop) : list (epoch * Z) := match o with RSent e p _ _ => [(e, p_num p)] | _ => [] end.

Lemma keys_settle T F led : keys (settle T F led) = keys led.
Proof. unfold keys, settle. rewrite map_map. apply map_ext. intros x. destruct (T x); reflexivity. Qed.

Definition step_ok (fl : floats) (o : rop) (v : rec) (led : ledger) : Prop :=
  rec_step fl o v <> Panic /\
  forall v' x, rec_step fl o v = Ok (v', x) -> exists led',
    ledger_step fl v' o x led led' /\ inv v' led' /\ keys led' = keys led ++ new_keys o /\
    forall g, finv v led g -> finv v' led' (fun e => gstep o x e (g e)).

(** Calls that leave spaces, bytes in flight and the ledger alone *)
Lemma quiet fl o v v' x led : inv v led -> rec_step fl o v = Ok (v', x) ->
  (forall e, s_sent (get_s e v') = s_sent (get_s e v) /\ s_inf (get_s e v') = s_inf (get_s e v) /\
     s_largest (get_s e v') = s_largest (get_s e v) /\ s_loss_time (get_s e v') = s_loss_time (get_s e v)) ->
  v_bif v' = v_bif v -> v_thresh v' = v_thresh v -> ledger_step fl v' o x led led -> new_keys o = [] ->
  (forall g e f, finv v led g -> fsp (get_s e v') (of_e e led) (gstep o x e (g e)) f) ->
  step_ok fl o v led.
Proof.
  intros [h1 h2 h3 h4 h5] hs he hb ht hl hk hf. split; [congruence|]. intros v2 x2 h. rewrite hs in h. injection h as <- <-.
  exists led. split; [exact hl|]. split; [|split; [rewrite hk, app_nil_r; reflexivity|intros g hg e f; apply hf; exact hg]].
  split; [intros e; destruct (he e) as (a & b & c & d).. | congruence | congruence].
  - destruct (h1 e) as [q1 q2 q3 q4]. split; rewrite ?a, ?b; assumption.
  - specialize (h2 e). unfold largest_ok in *. rewrite c. exact h2.
  - specialize (h3 e). unfold ltime_ok in *. rewrite d. exact h3.
Qed.

Lemma step_sent fl e p hs now v led : inv v led -> fresh e p (keys led) -> step_ok fl (RSent e p hs now) v led.
Proof.
  intros [h1 h2 h3 h4 h5] (a1 & a2 & a3 & a4 & a5 & a6). split; [discriminate|].
  intros v' x h. cbn [rec_step] in h. apply (f_equal (fun r => match r with Ok a => a | _ => (v, x) end)) in h. cbv beta iota in h.
  apply pair_equal_spec in h. destruct h as [<- <-].
  exists (led ++ [mkEn e p now Out]). split; [reflexivity|].
  assert (hlt : forall y, In y (of_e e led) -> en_num y < p_num p).
  { intros y hy. apply in_of_e in hy. destruct hy as [hy <-]. apply a6. unfold keys. apply (in_map (fun x => (en_e x, en_num x)) _ _ hy). }
  assert (hoe : forall e', of_e e' (led ++ [mkEn e p now Out]) = if epoch_dec e' e then of_e e led ++ [mkEn e p now Out] else of_e e' led).
  { intros e'. rewrite of_e_app. unfold of_e at 2. cbn [filter en_e].
    destruct (epoch_dec e' e) as [->|hne]; [rewrite epoch_eqb_refl; reflexivity|]. rewrite epoch_eqb_neq by exact hne. apply app_nil_r. }
  destruct (rec_sent_other e p hs now v) as (b1 & b2 & b3 & b4).
  split; [split|split].
  - intros e'. rewrite rec_sent_space, hoe. destruct (epoch_dec e' e) as [->|hne]; [|apply h1].
    eapply (core_sent (get_s e v)); auto. cbn [s_sent]. rewrite a1, a2. reflexivity.
  - intros e'. rewrite rec_sent_space, hoe. destruct (epoch_dec e' e) as [->|hne]; [|apply h2].
    specialize (h2 e). unfold largest_ok in *. cbn [s_largest]. destruct (s_largest (get_s e v)).
    + destruct h2 as (y & q1 & q2 & q3). exists y. split; [apply in_or_app; left; exact q1|]. auto.
    + intros z hz. apply in_app_or in hz. destruct hz as [hz|[<-|[]]]; [auto|discriminate].
  - intros e'. rewrite rec_sent_space, hoe. destruct (epoch_dec e' e) as [->|hne]; [|apply h3].
    specialize (h3 e). unfold ltime_ok in *. cbn [s_loss_time]. intros q. destruct (h3 q) as (y & q1 & q2).
    exists y. split; [apply in_or_app; left; exact q1|exact q2].
  - rewrite b1, h4. change (esum p_size in_flight led + (if p_inf p then p_size p else 0) = esum p_size in_flight (led ++ [mkEn e p now Out])).
    rewrite esum_app, esum_cons. unfold in_flight at 3, is_out. cbn [en_fate en_p andb]. change (esum _ _ []) with 0. destruct (p_inf p); lia.
  - rewrite b2. exact h5.
  - unfold keys. rewrite map_app. reflexivity.
  - intros g hg e' f. specialize (hg e' f). rewrite rec_sent_space, hoe. unfold gstep.
    change (reported_acked e' [RSent e p hs now] [ONone]) with (@nil Z).
    change (reported_lost e' [RSent e p hs now] [ONone]) with (@nil Z).
    change (timeouts [RSent e p hs now]) with 0. change (discarded e' [RSent e p hs now]) with false.
    change (frames_sent e' [RSent e p hs now]) with ((if epoch_eqb e' e then p_frames p else []) ++ []).
    rewrite !app_nil_r, Z.add_0_r, Bool.orb_false_r.
    destruct (epoch_dec e' e) as [->|hne].
    + rewrite epoch_eqb_refl. destruct hg as [g1 g2 g3 g4 g5 g6].
      assert (hz : forall k, k (mkEn e p now Out) = false -> esum (gfr f) k (of_e e led ++ [mkEn e p now Out]) = esum (gfr f) k (of_e e led)).
      { intros k hk. rewrite esum_app, esum_cons, hk. change (esum _ _ []) with 0. lia. }
      assert (ha : esum (gfr f) (fun _ => true) (of_e e led ++ [mkEn e p now Out]) = esum (gfr f) (fun _ => true) (of_e e led) + gfr f p).
      { rewrite esum_app, esum_cons. change (esum _ _ []) with 0. cbn [en_p]. lia. }
      assert (0 <= gfr f p) by apply cntf_nonneg.
      split; cbn [gh_ack gh_lost gh_to gh_disc gh_sent s_facked s_flost s_fpto]; rewrite ?ha, ?(hz acked_fate eq_refl), ?(hz lost_fate eq_refl); auto.
      * nia.
      * rewrite cntf_app. unfold gfr in *. lia.
    + rewrite epoch_eqb_neq by exact hne. rewrite app_nil_r. destruct (g e'). exact hg.
Qed.

Lemma sum_outstanding s L : core s L -> fold_left (fun acc p => acc + p_size p) (filter outstanding (s_sent s)) 0 =
  esum p_size in_flight L.
Proof.
  intros hc.
  assert (h : forall l acc, fold_left (fun acc p => acc + p_size p) l acc = acc + psum p_size l).
  { induction l as [|p l IH]; intros acc; cbn [fold_left psum]; [lia|]. rewrite IH. lia. }
  rewrite h, Z.add_0_l. destruct hc as [(pre & suf & -> & h1 & h2) _ _ _]. rewrite esum_app, (esum_none _ _ pre).
  2:{ eapply Forall_impl; [|exact h1]. intros x hx. unfold in_flight. rewrite hx. reflexivity. }
  rewrite Z.add_0_l. clear h1 h. induction h2 as [|x p suf l hm _ IH]; [reflexivity|]. rewrite esum_cons, <- IH. cbn [filter].
  destruct hm as (_ & hs & hi & _ & _ & _ & _ & hu & _). unfold outstanding at 1, in_flight. rewrite <- hu, hi, <- hs. unfold un.
  destruct (p_inf (en_p x)); [|rewrite Bool.andb_false_r; reflexivity]. rewrite Bool.andb_true_r. cbn [andb].
  destruct (negb (is_some (p_acked p)) && negb (is_some (p_lost p))); [cbn [psum]; lia|reflexivity].
Qed.

Lemma step_discard fl e hs now v led : inv v led -> step_ok fl (RDiscard e hs now) v led.
Proof.
  intros hinv. pose proof hinv as [h1 h2 h3 h4 h5]. split; [discriminate|]. intros v' x h. cbn [rec_step] in h. 
  apply (f_equal (fun r => match r with Ok a => a | _ => (v, x) end)) in h. cbv beta iota in h.
  apply pair_equal_spec in h. destruct h as [<- <-].
  exists (settle (onlye e is_out) Gone led). split; [reflexivity|].
  assert (hg : forall e', get_s e' (rec_discard e hs now v) = if epoch_dec e' e then mkSpace None (s_largest (get_s e v)) None [] 0 0 [] [] [] else get_s e' v).
  { intros e'. unfold rec_discard. cbv zeta. rewrite slt_get. destruct (epoch_dec e' e) as [->|hne].
    - rewrite get_set. destruct e; reflexivity.
    - rewrite get_set_other by exact hne. destruct e'; reflexivity. }
  assert (ho : forall x, onlye e is_out x = true -> is_out x = true) by (intros x hx; apply Bool.andb_true_iff in hx; apply hx).
  assert (hall : Forall (fun x => is_out x = false) (settle is_out Gone (of_e e led))).
  { unfold settle. rewrite Forall_map. apply Forall_forall. intros x _. destruct (is_out x) eqn:ex; [reflexivity|exact ex]. }
  split; [split|split].
  - intros e'. rewrite hg. destruct (epoch_dec e' e) as [->|hne]; [|rewrite settle_diff by exact hne; apply h1].
    rewrite settle_same. destruct (h1 e) as [q1 q2 q3 q4]. split.
    + exists (settle is_out Gone (of_e e led)), []. split; [symmetry; apply app_nil_r|]. split; [exact hall|constructor].
    + cbn [s_inf]. symmetry. apply (esum_none (fun _ => 1)). eapply Forall_impl; [|exact hall]. intros x hx. unfold in_flight. rewrite hx. reflexivity.
    + apply sorted_settle. exact q3.
    + apply ok_settle. exact q4.
  - intros e'. rewrite hg. destruct (epoch_dec e' e) as [->|hne]; [|rewrite settle_diff by exact hne; apply h2].
    rewrite settle_same. specialize (h2 e). unfold largest_ok in *. cbn [s_largest]. destruct (s_largest (get_s e v)).
    + destruct h2 as (y & q1 & q2 & q3). exists y. split; [|split; assumption]. unfold settle. apply in_map_iff. exists y.
      split; [|exact q1]. unfold is_out. rewrite q2. reflexivity.
    + intros z hz. unfold settle in hz. apply in_map_iff in hz. destruct hz as (y & <- & hy). destruct (is_out y); [discriminate|auto].
  - intros e'. rewrite hg. destruct (epoch_dec e' e) as [->|hne]; [|rewrite settle_diff by exact hne; apply h3].
    intros q. destruct (q eq_refl).
  - unfold rec_discard. cbv zeta. rewrite slt_bif.
    transitivity (sat_sub (bf_n (v_bif v)) (fold_left (fun acc p => acc + p_size p) (filter outstanding (s_sent (get_s e v))) 0)).
    { destruct e; cbn [v_bif set_s set_bif]; apply bif_sub_n. }
    rewrite (sum_outstanding _ _ (h1 e)), h4. change (total in_flight ?x) with (esum p_size in_flight x).
    rewrite settle_sum by (discriminate || exact ho).
    assert (hok : forall x, In x led -> 0 <= p_size (en_p x)).
    { intros y hy. pose proof (all_ok v led h1) as q. rewrite Forall_forall in q. apply (q y hy). }
    pose proof (esum_le_inflight p_size (onlye e is_out) led ho hok).
    replace (esum p_size in_flight (of_e e led)) with (esum p_size (fun x => onlye e is_out x && p_inf (en_p x)) led); [unfold sat_sub; lia|].
    rewrite <- esum_onlye. apply esum_ext. intros y _. unfold onlye, in_flight. symmetry. apply Bool.andb_assoc.
  - unfold rec_discard. cbv zeta. rewrite slt_thresh. destruct e; exact h5.
  - rewrite keys_settle. cbn [new_keys]. rewrite app_nil_r. reflexivity.
  - intros g hgh e' f. specialize (hgh e' f). rewrite hg. unfold gstep.
    change (reported_acked e' [RDiscard e hs now] [ONone]) with (@nil Z).
    change (reported_lost e' [RDiscard e hs now] [ONone]) with (@nil Z).
    change (timeouts [RDiscard e hs now]) with 0. change (discarded e' [RDiscard e hs now]) with (epoch_eqb e' e || false).
    change (frames_sent e' [RDiscard e hs now]) with (@nil Z).
    rewrite !app_nil_r, Z.add_0_r, Bool.orb_false_r.
    destruct (epoch_dec e' e) as [->|hne].
    + rewrite epoch_eqb_refl, Bool.orb_true_r, settle_same. destruct hgh as [g1 g2 g3 g4 g5 g6].
      pose proof (settle_unfate (gfr f) lost_fate is_out Gone (of_e e led) (fun x hx => out_not_lost x hx) (fun _ => eq_refl)) as a1.
      pose proof (settle_unfate (gfr f) acked_fate is_out Gone (of_e e led) (fun x hx => out_not_acked x hx) (fun _ => eq_refl)) as a2.
      pose proof (settle_all (gfr f) is_out Gone (of_e e led)) as a3.
      pose proof (cntf_nonneg f (s_facked (get_s e v))). pose proof (cntf_nonneg f (s_flost (get_s e v))). pose proof (cntf_nonneg f (s_fpto (get_s e v))).
      change (cntf f []) with 0 in *.
      split; cbn [gh_ack gh_lost gh_to gh_disc gh_sent s_facked s_flost s_fpto]; rewrite ?a1, ?a2, ?a3; auto; change (cntf f []) with 0; try lia; discriminate.
    + rewrite epoch_eqb_neq by exact hne. rewrite Bool.orb_false_r, settle_diff by exact hne. destruct (g e'). exact hgh.
Qed.

Lemma gstep_lost o n b e g : match o with RPathChange _ _ | RAck _ _ _ _ _ _ => True | _ => False end -> gstep o (OLost n b) e g = g.
Proof. intros h. apply gstep_same; destruct o; (contradiction || reflexivity). Qed.

Lemma frames_lose v v' e led S g :
  (forall e', s_facked (get_s e' v') = s_facked (get_s e' v) /\ s_fpto (get_s e' v') = s_fpto (get_s e' v)) ->
  (forall e', e' <> e -> s_flost (get_s e' v') = s_flost (get_s e' v)) ->
  (exists new, s_flost (get_s e v') = s_flost (get_s e v) ++ flat_map p_frames new /\
     forall g, good g -> psum g new = esum g (tlost S) (of_e e led)) ->
  finv v led g -> finv v' (settle (onlye e (tlost S)) Lost led) g.
Proof.
  intros h1 h2 (new & h3 & h4) hg e' f. specialize (hg e' f). destruct (h1 e') as [q1 q2]. destruct (epoch_dec e' e) as [->|hne].
  - rewrite settle_same. eapply fsp_lose; eauto.
  - rewrite settle_diff by exact hne. eapply fsp_ext; eauto.
Qed.

Lemma step_path fl e now v led : inv v led -> step_ok fl (RPathChange e now) v led.
Proof.
  intros [h1 h2 h3 h4 h5].
  destruct (rec_lose_ok fl e now v led 0 h1 h2 (fun e' _ => h3 e') ltac:(lia) ltac:(lia) h5)
    as (S & v' & n & b & er & c1 & c2 & c3 & c4 & c5 & c6 & c7 & c8 & c9 & c10 & c11 & c12 & c13).
  split; [cbn [rec_step]; rewrite er; discriminate|]. intros v2 x h. cbn [rec_step] in h. rewrite er in h. cbn [bind] in h. injection h as <- <-.
  cbn [fst snd].
  eexists. split; [exists n, b; split; [reflexivity|split; [exact c12|exact c13]]|]. split; [|split].
  - split; auto; [lia|congruence].
  - rewrite keys_settle. symmetry. apply app_nil_r.
  - intros g hg. 
    assert (q : finv v' (settle (onlye e (tlost S)) Lost led) g).
    { eapply (frames_lose v); [intros e'; destruct (c9 e') as (_ & _ & q1 & q2); auto|exact c10|exact c11|exact hg]. }
    intros e' f. specialize (q e' f). rewrite gstep_lost by exact I. exact q.
Qed.

Lemma pto_frames_le f n s L : core s L -> cntf f (pto_frames n (s_sent s)) <= esum (gfr f) is_out L.
Proof.
  intros [(pre & suf & -> & h1 & h2) _ _ _]. rewrite esum_app.
  assert (0 <= esum (gfr f) is_out pre) by (apply esum_nonneg, gfr_nonneg).
  enough (cntf f (pto_frames n (s_sent s)) <= esum (gfr f) is_out suf) by lia. clear h1 H.
  revert n. induction h2 as [|x p suf l hm h2 IH]; intros n; [destruct n; reflexivity|]. rewrite esum_cons.
  destruct hm as (_ & _ & _ & _ & _ & _ & _ & hu & hf).
  assert (0 <= esum (gfr f) is_out suf) by (apply esum_nonneg, gfr_nonneg).
  assert (0 <= gfr f (en_p x)) by apply cntf_nonneg.
  destruct n as [|n]; cbn [pto_frames]; [change (cntf f []) with 0; destruct (is_out x); lia|].
  destruct (p_data p && negb (is_some (p_acked p)) && negb (is_some (p_lost p))) eqn:e.
  - assert (un p = true). { unfold un. rewrite <- Bool.andb_assoc in e. apply Bool.andb_true_iff in e. apply e. }
    rewrite <- hu, H1. rewrite cntf_app. change (gfr f (en_p x)) with (cntf f (p_frames (en_p x))). rewrite <- (hf H1). specialize (IH n). lia.
  - specialize (IH (S n)). destruct (is_out x); lia.
Qed.

Lemma gstep_timeout hs now n b e g : gstep (RTimeout hs now) (OLost n b) e g =
  mkFgh (gh_ack g) (gh_lost g) (gh_to g + 1) (gh_disc g) (gh_sent g).
Proof. unfold gstep. cbn [reported_acked reported_lost timeouts discarded existsb frames_sent]. rewrite !app_nil_r, Bool.orb_false_r. reflexivity. Qed.

Lemma fsp_tick s L g f : fsp s L g f -> fsp s L (mkFgh (gh_ack g) (gh_lost g) (gh_to g + 1) (gh_disc g) (gh_sent g)) f.
Proof.
  intros [h1 h2 h3 h4 h5 h6].
  assert (0 <= esum (gfr f) (fun _ => true) L) by (apply esum_nonneg, gfr_nonneg).
  split; cbn [gh_ack gh_lost gh_to gh_disc gh_sent]; auto; nia.
Qed.

Lemma give_up_none d t now e led : give_up_some d t now e led led.
Proof. unfold give_up_some. generalize led at 2 3. intros l. induction l; constructor; auto. Qed.

Lemma step_timeout fl hs now v led : inv v led -> step_ok fl (RTimeout hs now) v led.
Proof.
  intros [h1 h2 h3 h4 h5]. unfold step_ok. cbn [rec_step]. unfold rec_timeout.
  destruct (loss_time_and_space v) as [[t|] e0].
  - destruct (rec_lose_ok fl e0 now v led 0 h1 h2 (fun e' _ => h3 e') ltac:(lia) ltac:(lia) h5)
      as (S & v' & n & b & er & c1 & c2 & c3 & c4 & c5 & c6 & c7 & c8 & c9 & c10 & c11 & c12 & c13).
    rewrite er. cbn [bind fst snd]. split; [discriminate|]. intros v2 x h.
    apply (f_equal (fun r => match r with Ok a => a | _ => (v, x) end)) in h. cbv beta iota in h.
    apply pair_equal_spec in h. destruct h as [<- <-].
    eexists. split; [exists e0, n, b; split; [reflexivity|]|split; [|split]].
    + unfold delay_of in *. rewrite slt_rtt, slt_reordered, slt_thresh. split; [exact c12|exact c13].
    + split; intros; rewrite ?slt_get, ?slt_bif, ?slt_thresh; auto; [lia|congruence].
    + rewrite keys_settle. symmetry. apply app_nil_r.
    + intros g hg.
      assert (q : finv v' (settle (onlye e0 (tlost S)) Lost led) g).
      { eapply (frames_lose v); [intros e'; destruct (c9 e') as (_ & _ & q1 & q2); auto|exact c10|exact c11|exact hg]. }
      intros e' f. specialize (q e' f). rewrite slt_get, gstep_timeout. apply fsp_tick. exact q.
  - cbn [bind fst snd]. cbv zeta.
    set (e := if 0 <? bf_n (v_bif v) then snd (pto_time_and_space hs now v) else if hs_keys hs then EHandshake else EInitial).
    set (w := set_pto_count (v_pto_count v + 1) v).
    set (s1 := set_s_probes (Z.min (v_pto_count w) MAX_PROBES) (get_s e w)).
    set (s2 := match s_fpto s1 with [] => set_s_fpto (pto_frames (Z.to_nat (s_probes s1)) (s_sent s1)) s1 | _ => s1 end).
    assert (gw : forall e', get_s e' w = get_s e' v) by (intros []; reflexivity).
    assert (hs2 : s_sent s2 = s_sent (get_s e v) /\ s_inf s2 = s_inf (get_s e v) /\ s_largest s2 = s_largest (get_s e v) /\
      s_loss_time s2 = s_loss_time (get_s e v) /\ s_facked s2 = s_facked (get_s e v) /\ s_flost s2 = s_flost (get_s e v)).
    { unfold s2, s1. rewrite !gw. cbn [s_fpto set_s_probes]. destruct (s_fpto (get_s e v)); repeat split; reflexivity. }
    destruct hs2 as (a1 & a2 & a3 & a4 & a5 & a6).
    assert (hgv : forall e', get_s e' (set_loss_timer hs now (set_s e s2 w)) = if epoch_dec e' e then s2 else get_s e' v).
    { intros e'. rewrite slt_get. destruct (epoch_dec e' e) as [->|hne]; [apply get_set|]. rewrite get_set_other by exact hne. apply gw. }
    split; [discriminate|]. intros v2 x h.
    apply (f_equal (fun r => match r with Ok a => a | _ => (v, x) end)) in h. cbv beta iota in h.
    apply pair_equal_spec in h. destruct h as [<- <-].
    exists led. split; [|split; [|split]].
    + exists e, 0, 0. split; [reflexivity|]. split; [apply give_up_none|]. split; lia.
    + split; [intros e'; rewrite hgv; destruct (epoch_dec e' e) as [->|hne].. | rewrite slt_bif | rewrite slt_thresh].
      * destruct (h1 e) as [q1 q2 q3 q4]. split; rewrite ?a1, ?a2; assumption.
      * apply h1.
      * specialize (h2 e). unfold largest_ok in *. rewrite a3. exact h2.
      * apply h2.
      * specialize (h3 e). unfold ltime_ok in *. rewrite a4. exact h3.
      * apply h3.
      * destruct e; exact h4.
      * destruct e; exact h5.
    + symmetry. apply app_nil_r.
    + intros g hg e' f. specialize (hg e' f). rewrite hgv, gstep_timeout. destruct (epoch_dec e' e) as [->|hne]; [|apply fsp_tick; exact hg].
      destruct hg as [g1 g2 g3 g4 g5 g6].
      assert (hall : esum (gfr f) is_out (of_e e led) <= esum (gfr f) (fun _ => true) (of_e e led)).
      { clear. induction (of_e e led) as [|x L IH]; [reflexivity|]. rewrite !esum_cons. assert (0 <= gfr f (en_p x)) by apply cntf_nonneg. destruct (is_out x); lia. }
      assert (0 <= esum (gfr f) (fun _ => true) (of_e e led)) by (apply esum_nonneg, gfr_nonneg).
      split; cbn [gh_ack gh_lost gh_to gh_disc gh_sent]; rewrite ?a5, ?a6; auto; try lia.
      assert (hp : cntf f (s_fpto s2) <= cntf f (s_fpto (get_s e v)) + esum (gfr f) is_out (of_e e led)).
      { unfold s2, s1. rewrite gw. cbn [s_fpto set_s_probes]. destruct (s_fpto (get_s e v)) eqn:ef.
        - cbn [s_fpto set_s_fpto s_sent set_s_probes]. change (cntf f []) with 0. apply pto_frames_le. apply h1.
        - assert (0 <= esum (gfr f) is_out (of_e e led)) by (apply esum_nonneg, gfr_nonneg). cbn [s_fpto set_s_probes]. rewrite ef. lia. }
      lia.
Qed.

Lemma in_psum_one (l : list pkt) : psum (fun _ => 1) l = 0 -> l = [].
Proof.
  destruct l as [|p l]; [reflexivity|]. cbn [psum]. assert (0 <= psum (fun _ => 1) l) by (induction l; cbn [psum]; lia). lia.
Qed.
Lemma esum_one_zero f L : esum (fun _ => 1) f L = 0 -> forall x, In x L -> f x = false.
Proof.
  intros h x hx. destruct (f x) eqn:e; [|reflexivity].
  assert (0 <= esum (fun _ => 1) f L) by (apply esum_nonneg; intros; lia).
  pose proof (esum_zero_in f L x H hx e). lia.
Qed.
Lemma last_in {A} (l : list A) d : In (last l d) (d :: l).
Proof.
  destruct l as [|x l]; [left; reflexivity|]. right. revert x. induction l as [|y l IH]; intros x; [left; reflexivity|].
  right. exact (IH y).
Qed.

Lemma settle_ack e rs led : settle (onlye e (tack rs)) Acked led = map (ack_entry e rs) led.
Proof.
  unfold settle. apply map_ext. intros x. unfold ack_entry, acks, onlye, tack. rewrite Bool.andb_assoc. reflexivity.
Qed.

Lemma step_ack fl e rs delay hs now skip v led : inv v led -> valid_ranges rs -> step_ok fl (RAck e rs delay hs now skip) v led.
Proof.
  intros [h1 h2 h3 h4 h5] hv. unfold step_ok. cbn [rec_step]. unfold rec_ack.
  destruct (space_ack_ok now (r_srtt (v_rtt v)) rs skip (get_s e v) (of_e e led) (h1 e) hv) as [hnp hok].
  destruct (space_ack now (r_srtt (v_rtt v)) rs skip (get_s e v)) as [[s a]| |] eqn:es; [|split; [discriminate|intros ? ? hh; discriminate hh]|destruct (hnp eq_refl)].
  specialize (hok s a eq_refl). destruct hok as (k1 & k2 & k3 & k4 & k5 & k6 & k7 & k8 & k9 & k10 & k11).
  cbn [bind].
  set (w1 := match a_thresh a with
           | Some t => set_reorder (v_spurious (set_s e s v) + a_spur a) (Z.max (v_thresh (set_s e s v)) (Z.min t MAX_PKT_THRESH)) true (set_s e s v)
           | None => set_reorder (v_spurious (set_s e s v) + a_spur a) (v_thresh (set_s e s v)) (v_reordered (set_s e s v)) (set_s e s v)
           end).
  set (w2 := if a_infspur a then set_cc (alg_rollback (v_cc w1)) w1 else w1).
  assert (gw2 : forall e', get_s e' w2 = get_s e' (set_s e s v)).
  { intros e'. unfold w2. transitivity (get_s e' w1); [destruct (a_infspur a), e'; reflexivity|]. unfold w1. destruct (a_thresh a), e'; reflexivity. }
  assert (bw2 : v_bif w2 = v_bif v).
  { unfold w2. transitivity (v_bif w1); [destruct (a_infspur a); reflexivity|]. unfold w1. destruct (a_thresh a), e; reflexivity. }
  assert (tw2 : 3 <= v_thresh w2).
  { unfold w2. replace (v_thresh (if a_infspur a then set_cc (alg_rollback (v_cc w1)) w1 else w1)) with (v_thresh w1) by (destruct (a_infspur a); reflexivity).
    unfold w1. destruct (a_thresh a); cbn [v_thresh set_reorder]; destruct e; cbn [v_thresh set_s]; lia. }
  assert (hoT : forall x, onlye e (tack rs) x = true -> is_out x = true).
  { intros x hx. apply Bool.andb_true_iff in hx. destruct hx as [_ hx]. apply Bool.andb_true_iff in hx. apply hx. }
  set (mid := map (ack_entry e rs) led).
  assert (emid : mid = settle (onlye e (tack rs)) Acked led) by (unfold mid; rewrite settle_ack; reflexivity).
  assert (hnew : a_new a = [] -> settle (onlye e (tack rs)) Acked led = led).
  { intros en. specialize (k10 (fun _ => 1) (fun _ _ _ _ => eq_refl)). rewrite en in k10. cbn [psum] in k10.
    apply settle_none. intros x hx. unfold onlye. destruct (epoch_eqb e (en_e x)) eqn:ee; [|reflexivity]. cbn [andb].
    apply (esum_one_zero _ _ (eq_sym k10)). apply in_of_e. apply epoch_eqb_eq in ee. auto. }
  assert (hacked : total (fun y => acks e rs y && p_inf (en_p y)) led = esum infsz (tack rs) (of_e e led)).
  { rewrite <- (esum_onlye infsz), infsz_size. change (esum p_size (fun y => acks e rs y && p_inf (en_p y)) led = esum p_size (fun x => onlye e (tack rs) x && p_inf (en_p x)) led).
    apply esum_ext. intros x _. unfold acks, onlye, tack. rewrite Bool.andb_assoc. reflexivity. }
  (* spaces against the ledger after the acknowledgement *)
  assert (cmid : forall e', core (get_s e' w2) (of_e e' mid)).
  { intros e'. rewrite gw2, emid. destruct (epoch_dec e' e) as [->|hne].
    - rewrite get_set, settle_same. exact k1.
    - rewrite get_set_other, settle_diff by exact hne. apply h1. }
  assert (fmid : forall g, finv v led g -> finv w2 mid g).
  { intros g hg e' f. specialize (hg e' f). rewrite gw2, emid. destruct (epoch_dec e' e) as [->|hne].
    - rewrite get_set, settle_same. eapply fsp_ack; eauto.
    - rewrite get_set_other, settle_diff by exact hne. exact hg. }
  destruct (a_new a) as [|p new] eqn:en.
  - cbn [bind]. split; [discriminate|]. intros v' x h. injection h as <- <-.
    rewrite (hnew eq_refl) in emid. exists mid.
    assert (hb0 : esum infsz (tack rs) (of_e e led) = 0) by (rewrite <- (k10 infsz good_infsz); reflexivity).
    split; [|split; [|split]].
    + unfold ledger_step. cbv zeta. fold mid. exists 0, 0, 0. rewrite hacked, hb0. split; [reflexivity|]. split; [apply give_up_none|]. split; lia.
    + rewrite emid in *. split; auto.
      * intros e'. rewrite gw2. destruct (epoch_dec e' e) as [->|hne]; [|rewrite get_set_other by exact hne; apply h2].
        rewrite get_set. specialize (h2 e). unfold largest_ok in *. rewrite k2. exact h2.
      * intros e'. rewrite gw2. destruct (epoch_dec e' e) as [->|hne]; [|rewrite get_set_other by exact hne; apply h3].
        rewrite get_set. specialize (h3 e). unfold ltime_ok in *. rewrite k3. exact h3.
      * rewrite bw2. exact h4.
    + rewrite emid. symmetry. apply app_nil_r.
    + intros g hg. specialize (fmid g hg). intros e' f. rewrite gstep_same by reflexivity. apply fmid.
  - cbv zeta. rewrite <- en in *.
    assert (htop : exists x, In x (of_e e led) /\ tack rs x = true /\ match_en x (last new p)).
    { apply k11. rewrite en. apply last_in. }
    destruct htop as (top & htop1 & htop2 & htop3).
    set (largest := Z.max (match s_largest (get_s e w2) with Some x => x | None => 0 end) (p_num (last new p))).
    set (w3 := set_s e (set_s_largest (Some largest) (get_s e w2)) w2).
    set (w4 := if (p_num (last new p) =? largest) && a_el a
               then set_rtt (rtt_update (mkIn (since now (p_sent (last new p))) (delay * 1000) now (hs_done hs)) (v_rtt w3)) w3
               else w3).
    assert (gw4 : forall e', get_s e' w4 = if epoch_dec e' e then set_s_largest (Some largest) (get_s e w2) else get_s e' w2).
    { intros e'. transitivity (get_s e' w3); [unfold w4; destruct ((p_num (last new p) =? largest) && a_el a), e'; reflexivity|].
      unfold w3. destruct (epoch_dec e' e) as [->|hne]; [apply get_set|apply get_set_other; exact hne]. }
    assert (bw4 : v_bif w4 = v_bif v /\ v_thresh w4 = v_thresh w2).
    { unfold w4, w3. destruct ((p_num (last new p) =? largest) && a_el a), e; split; try reflexivity; exact bw2. }
    assert (g2 : get_s e w2 = s) by (rewrite gw2; apply get_set).
    assert (c4 : forall e', core (get_s e' w4) (of_e e' mid)).
    { intros e'. rewrite gw4. specialize (cmid e'). destruct (epoch_dec e' e) as [->|hne]; [|exact cmid].
      destruct cmid as [q1 q2 q3 q4]. split; assumption. }
    assert (l4 : forall e', largest_ok (get_s e' w4) (of_e e' mid)).
    { intros e'. rewrite gw4. destruct (epoch_dec e' e) as [->|hne].
      - unfold largest_ok. cbn [s_largest set_s_largest]. unfold largest. rewrite g2, k2.
        assert (hn : p_num (last new p) = en_num top) by apply htop3.
        assert (htop' : In (set_fate Acked top) (of_e e mid)).
        { rewrite emid, settle_same. unfold settle. apply in_map_iff. exists top. rewrite htop2. auto. }
        assert (0 <= en_num top). { pose proof (co_ok _ _ (h1 e)) as q. rewrite Forall_forall in q. apply (q top htop1). }
        specialize (h2 e). unfold largest_ok in h2. destruct (s_largest (get_s e v)) as [m|].
        + destruct (Z.max_spec m (p_num (last new p))) as [[_ ->]|[_ ->]].
          * exists (set_fate Acked top). split; [exact htop'|]. split; [reflexivity|]. rewrite hn. reflexivity.
          * destruct h2 as (y & q1 & q2 & q3). exists y. split; [|auto]. rewrite emid, settle_same. unfold settle. apply in_map_iff.
            exists y. split; [|exact q1]. unfold tack, is_out. rewrite q2. reflexivity.
        + rewrite Z.max_r by lia. exists (set_fate Acked top). split; [exact htop'|]. split; [reflexivity|]. rewrite hn. reflexivity.
      - rewrite gw2, get_set_other by exact hne. rewrite emid, settle_diff by exact hne. apply h2. }
    assert (t4 : forall e', e' <> e -> ltime_ok (get_s e' w4) (of_e e' mid)).
    { intros e' hne. rewrite gw4. destruct (epoch_dec e' e) as [q|_]; [contradiction|].
      rewrite gw2, get_set_other by exact hne. rewrite emid, settle_diff by exact hne. apply h3. }
    assert (hsz : forall x, In x led -> 0 <= p_size (en_p x)).
    { intros y hy. pose proof (all_ok v led h1) as q. rewrite Forall_forall in q. apply (q y hy). }
    assert (hbm : bf_n (v_bif w4) = total in_flight mid + a_bytes a).
    { destruct bw4 as [-> _]. rewrite h4, k9, emid. change (total in_flight ?x) with (esum p_size in_flight x).
      rewrite settle_sum by (discriminate || exact hoT). rewrite <- (esum_onlye infsz), infsz_size. lia. }
    assert (hab : 0 <= a_bytes a).
    { rewrite k9, <- (esum_onlye infsz), infsz_size. apply esum_nonneg. exact hsz. }
    destruct bw4 as [bw4 tw4].
    destruct (rec_lose_ok fl e now w4 mid (a_bytes a) c4 l4 t4 hbm hab ltac:(rewrite tw4; exact tw2))
      as (S & v' & n & b & er & c1 & c2 & c3 & c5 & c6 & c7 & c8 & c9 & c10 & c11 & c12 & c13 & c14).
    rewrite er. cbn [bind fst snd]. split; [discriminate|]. intros v2 x h.
    apply (f_equal (fun r => match r with Ok a => a | _ => (v, x) end)) in h. cbv beta iota in h.
    apply pair_equal_spec in h. destruct h as [hv2 <-].
    set (w5 := set_pto_count 0 (set_bif (bif_sub (a_bytes a) now (v_bif (set_cc (cc_acked fl (bf_n (v_bif v')) (a_new a) (r_latest (v_rtt v')) now (v_cc v')) v')))
                 (set_cc (cc_acked fl (bf_n (v_bif v')) (a_new a) (r_latest (v_rtt v')) now (v_cc v')) v'))) in hv2.
    set (led' := settle (onlye e (tlost S)) Lost mid) in *.
    assert (g5 : forall e', get_s e' (set_loss_timer hs now w5) = get_s e' v') by (intros e'; rewrite slt_get; destruct e'; reflexivity).
    assert (gv2 : forall e', get_s e' v2 = if epoch_dec e' e then set_s_sent (drain (now - r_srtt (v_rtt (set_loss_timer hs now w5))) (s_sent (get_s e v'))) (get_s e v') else get_s e' v').
    { intros e'. rewrite <- hv2. destruct (epoch_dec e' e) as [->|hne]; [rewrite get_set, !g5; reflexivity|]. rewrite get_set_other by exact hne. apply g5. }
    assert (ov2 : v_bif v2 = v_bif w5 /\ v_thresh v2 = v_thresh w5 /\ v_rtt v2 = v_rtt w5 /\ v_reordered v2 = v_reordered w5).
    { rewrite <- hv2. destruct e; cbn [v_bif v_thresh v_rtt v_reordered set_s]; rewrite slt_bif, slt_thresh, slt_rtt, slt_reordered; auto. }
    destruct ov2 as (o1 & o2 & o3 & o4).
    exists led'. split; [|split; [|split]].
    + unfold ledger_step. cbv zeta. fold mid. exists n, b, (a_spur a). rewrite hacked, <- k9. split; [reflexivity|].
      unfold delay_of in *. rewrite o2, o3, o4. split; [exact c13|exact c14].
    + split.
      * intros e'. rewrite gv2. specialize (c1 e'). destruct (epoch_dec e' e) as [->|hne]; [apply core_drain; exact c1|exact c1].
      * intros e'. rewrite gv2. specialize (c2 e'). destruct (epoch_dec e' e) as [->|hne]; exact c2.
      * intros e'. rewrite gv2. specialize (c3 e'). destruct (epoch_dec e' e) as [->|hne]; exact c3.
      * rewrite o1. transitivity (sat_sub (bf_n (v_bif v')) (a_bytes a)); [apply (bif_sub_n (a_bytes a) now)|]. rewrite c5.
        assert (0 <= total in_flight led').
        { apply (esum_nonneg p_size). intros y hy. pose proof (all_ok v' led' c1) as q. rewrite Forall_forall in q. apply (q y hy). }
        unfold sat_sub. lia.
      * rewrite o2. unfold w5. cbn [v_thresh set_pto_count set_bif set_cc]. rewrite c6, tw4. exact tw2.
    + unfold led'. rewrite keys_settle, emid, keys_settle. symmetry. apply app_nil_r.
    + intros g hg. specialize (fmid g hg).
      assert (q4 : finv w4 mid g).
      { intros e' f. specialize (fmid e' f). rewrite gw4. destruct (epoch_dec e' e) as [->|hne]; [|exact fmid].
        eapply fsp_ext; [..|exact fmid]; reflexivity. }
      assert (q5 : finv v' led' g).
      { eapply (frames_lose w4); [intros e'; destruct (c10 e') as (_ & _ & q1 & q2); auto|exact c11|exact c12|exact q4]. }
      intros e' f. rewrite gstep_same by reflexivity. specialize (q5 e' f). rewrite gv2.
      destruct (epoch_dec e' e) as [->|hne]; [|exact q5]. eapply fsp_ext; [..|exact q5]; reflexivity.
Qed.
