(** Consequences of the invariants of loss detection, stated over whole
    histories. *)
Require Import Verif.Base Verif.Errors Verif.RttModel Verif.RecoveryModel Verif.RecoverySpec Verif.RecoveryProofs Verif.RecoveryInv Verif.RecoveryMain Verif.RecoverySteps Verif.RecoveryRun Verif.RecoveryCC Verif.RecoveryWin Verif.RecoveryTimer.

Lemma of_e_in e led x : In x (of_e e led) <-> In x led /\ en_e x = e.
Proof.
  unfold of_e. rewrite filter_In. split; intros [h1 h2]; split; auto; [symmetry; apply epoch_eqb_eq; exact h2|subst; apply epoch_eqb_refl].
Qed.

Definition frame_facts (v : rec) (led : ledger) (ops : list rop) (xs : list rout) : Prop :=
  finv v led (fun e => mkFgh (reported_acked e ops xs) (reported_lost e ops xs) (timeouts ops) (discarded e ops) (frames_sent e ops)).

Lemma acked_nodup v led ops xs e : frame_facts v led ops xs -> NoDup (frames_sent e ops) -> NoDup (reported_acked e ops xs).
Proof.
  intros h hn. apply nodup_times. intros f. rewrite nodup_times in hn. specialize (hn f). destruct (h e f) as [h1 _ _ _ h5 _]. cbn [gh_ack gh_sent] in *.
  pose proof (fates_le f (of_e e led)). assert (0 <= esum (gfr f) lost_fate (of_e e led)) by (apply esum_nonneg, gfr_nonneg).
  rewrite !cntf_times in *. lia.
Qed.
Lemma acked_only v led ops xs e f : frame_facts v led ops xs -> In f (reported_acked e ops xs) ->
  exists x, In x led /\ en_e x = e /\ en_fate x = Acked /\ In f (p_frames (en_p x)).
Proof.
  intros h hin. destruct (h e f) as [h1 _ _ _ _ _]. cbn [gh_ack] in *. apply (count_occ_In Z.eq_dec) in hin.
  rewrite !cntf_times in h1. unfold times in h1.
  destruct (esum_pos_in f acked_fate (of_e e led)) as (x & a & b & c); [lia|].
  apply of_e_in in a. exists x. destruct a as [a ->]. repeat split; auto. unfold acked_fate in b. destruct (en_fate x); try discriminate b; reflexivity.
Qed.
Lemma acked_all fl v v' led ops xs e x f : frame_facts v led ops xs -> discarded e ops = false ->
  rec_step fl (RNextAcked e) v = Ok (v', OFrame None) ->
  In x led -> en_e x = e -> en_fate x = Acked -> In f (p_frames (en_p x)) -> In f (reported_acked e ops xs).
Proof.
  intros h hd hs h1 h2 h3 h4. cbn [rec_step] in hs. unfold rec_next_acked in hs.
  destruct (s_facked (get_s e v)) as [|y l] eqn:ef; [|discriminate hs].
  destruct (h e f) as [_ q _ _ _ _]. cbn [gh_ack gh_disc] in q. specialize (q hd). rewrite ef in q.
  assert (0 < esum (gfr f) acked_fate (of_e e led)).
  { apply (in_esum_pos f acked_fate (of_e e led) x); auto; [apply of_e_in; auto|unfold acked_fate; rewrite h3; reflexivity]. }
  change (cntf f []) with 0 in q. apply (count_occ_In Z.eq_dec). rewrite cntf_times in q. unfold times in q. lia.
Qed.
Lemma lost_all fl v v' led ops xs e x f : frame_facts v led ops xs -> discarded e ops = false ->
  rec_step fl (RNextLost e) v = Ok (v', OFrame None) ->
  In x led -> en_e x = e -> en_fate x = Lost -> In f (p_frames (en_p x)) -> In f (reported_lost e ops xs).
Proof.
  intros h hd hs h1 h2 h3 h4. cbn [rec_step] in hs. unfold rec_next_lost in hs.
  destruct (s_flost (get_s e v)) as [|y l] eqn:ef; [|discriminate hs].
  destruct (h e f) as [_ _ _ q _ _]. cbn [gh_lost gh_disc] in q. specialize (q hd). rewrite ef in q.
  assert (0 < esum (gfr f) lost_fate (of_e e led)).
  { apply (in_esum_pos f lost_fate (of_e e led) x); auto; [apply of_e_in; auto|unfold lost_fate; rewrite h3; reflexivity]. }
  change (cntf f []) with 0 in q. apply (count_occ_In Z.eq_dec). rewrite cntf_times in q. unfold times in q. lia.
Qed.
Lemma lost_times v led ops xs e f : frame_facts v led ops xs -> NoDup (frames_sent e ops) ->
  Z.of_nat (times f (reported_lost e ops xs)) <= 1 + timeouts ops.
Proof.
  intros h hn. rewrite nodup_times in hn. specialize (hn f). destruct (h e f) as [_ _ h3 _ h5 h6]. cbn [gh_lost gh_sent gh_to] in *.
  pose proof (fates_le f (of_e e led)). assert (0 <= esum (gfr f) acked_fate (of_e e led)) by (apply esum_nonneg, gfr_nonneg).
  pose proof (cntf_nonneg f (s_flost (get_s e v))). pose proof (cntf_nonneg f (s_fpto (get_s e v))).
  rewrite !cntf_times in *. nia.
Qed.
Lemma lost_only v led ops xs e f : frame_facts v led ops xs -> In f (reported_lost e ops xs) ->
  (exists x, In x led /\ en_e x = e /\ en_fate x = Lost /\ In f (p_frames (en_p x))) \/ (0 < timeouts ops /\ In f (frames_sent e ops)).
Proof.
  intros h hin. destruct (h e f) as [_ _ h3 _ h5 h6]. cbn [gh_lost gh_to gh_sent] in *. apply (count_occ_In Z.eq_dec) in hin.
  pose proof (cntf_nonneg f (s_flost (get_s e v))). pose proof (cntf_nonneg f (s_fpto (get_s e v))).
  rewrite (cntf_times f (reported_lost _ _ _)) in h3. unfold times in h3.
  destruct (Z.eq_dec (esum (gfr f) lost_fate (of_e e led)) 0) as [e0|hne].
  - right. assert (0 <= esum (gfr f) (fun _ => true) (of_e e led)) by (apply esum_nonneg, gfr_nonneg).
    assert (hm : 0 < timeouts ops * esum (gfr f) (fun _ => true) (of_e e led)) by lia.
    assert (0 < timeouts ops) by nia. split; [assumption|].
    assert (H2' : 0 < cntf f (frames_sent e ops)) by nia. apply (count_occ_In Z.eq_dec). rewrite cntf_times in H2'. unfold times in H2'. lia.
  - left. assert (0 <= esum (gfr f) lost_fate (of_e e led)) by (apply esum_nonneg, gfr_nonneg).
    destruct (esum_pos_in f lost_fate (of_e e led)) as (x & a & b & c); [lia|].
    apply of_e_in in a. exists x. destruct a as [a ->]. repeat split; auto. unfold lost_fate in b. destruct (en_fate x); try discriminate b; reflexivity.
Qed.
Lemma not_both v led ops xs e f : frame_facts v led ops xs -> NoDup (frames_sent e ops) -> timeouts ops = 0 ->
  In f (reported_acked e ops xs) -> In f (reported_lost e ops xs) -> False.
Proof.
  intros h hn ht ha hl. rewrite nodup_times in hn. specialize (hn f). destruct (h e f) as [h1 _ h3 _ h5 h6]. cbn [gh_lost gh_to gh_sent gh_ack] in *.
  apply (count_occ_In Z.eq_dec) in ha, hl. pose proof (fates_le f (of_e e led)).
  pose proof (cntf_nonneg f (s_flost (get_s e v))). pose proof (cntf_nonneg f (s_fpto (get_s e v))). pose proof (cntf_nonneg f (s_facked (get_s e v))).
  rewrite (cntf_times f (reported_lost _ _ _)) in h3. rewrite (cntf_times f (reported_acked _ _ _)) in h1.
  rewrite (cntf_times f (frames_sent _ _)) in h5. unfold times in *. rewrite ht in h3. lia.
Qed.

Lemma hits_in ops : existsb hits ops = true <-> exists e rs d hs now n, In (RAck e rs d hs now (Some n)) ops /\ covered rs n = true.
Proof.
  rewrite existsb_exists. split.
  - intros (o & hin & ho). destruct o; try discriminate ho. destruct skip as [n|]; [|discriminate ho]. exists e, rs, delay, hs, now, n. auto.
  - intros (e & rs & d & hs & now & n & hin & hc). eexists. split; [exact hin|exact hc].
Qed.

Lemma in_sizes ops o n : In o ops -> In n (sizes [o]) -> In n (sizes ops).
Proof.
  induction ops as [|x ops IH]; [intros []|]; intros [->|h] hn.
  - destruct o; cbn [sizes In] in *; tauto.
  - specialize (IH h hn). destruct x; cbn [sizes]; auto; right; auto.
Qed.

Lemma window fl t irtt mds icwp a hy fix_ ops lo M v xs : valid_ops [] ops -> 0 <= lo -> 2 <= icwp ->
  Forall (fun n => lo <= n <= M) (mds :: sizes ops) ->
  rec_run fl ops (rec_new t irtt mds icwp a hy fix_) = Ok (v, xs) -> exists led,
    explains fl ops (rec_new t irtt mds icwp a hy fix_) [] v led /\ wrec lo M mds icwp v led.
Proof.
  intros hv hlo hic hsz hr. inversion hsz as [|? ? hm hs]; subst. rewrite Forall_forall in hs.
  destruct (run_pres fl (wrec lo M mds icwp) ops [] _ [] (inv_new t irtt mds icwp a hy fix_) (fun k h => h) hv) with (v' := v) (xs := xs) as (led & e1 & _ & e3 & _); auto.
  - intros o w l w' x l' hin hi hov hst hl hi' hw. refine (win_step fl o w l w' x l' lo M mds icwp hi hov hst hl hlo hm hic _ hw). intros n hn. apply hs. eapply in_sizes; eauto.
  - split; [split|]; cbn [rec_new v_cc cc_new c_cwnd c_mds c_icwp c_cu cu_prior pi_cwnd v_mds number fold_right]; try reflexivity; try nia.
  - exists led. auto.
Qed.

Lemma counts fl t irtt mds icwp a hy fix_ ops v xs : valid_ops [] ops ->
  rec_run fl ops (rec_new t irtt mds icwp a hy fix_) = Ok (v, xs) -> exists led,
    explains fl ops (rec_new t irtt mds icwp a hy fix_) [] v led /\ crec v led.
Proof.
  intros hv hr.
  destruct (run_pres fl crec ops [] _ [] (inv_new t irtt mds icwp a hy fix_) (fun k h => h) hv) with (v' := v) (xs := xs) as (led & e1 & _ & e3 & _); auto.
  - intros. eapply cnt_step; eauto.
  - split; reflexivity.
  - exists led. auto.
Qed.

Lemma el_run fl t irtt mds icwp a hy fix_ ops v xs : valid_ops [] ops -> eliciting ops ->
  rec_run fl ops (rec_new t irtt mds icwp a hy fix_) = Ok (v, xs) -> exists led,
    explains fl ops (rec_new t irtt mds icwp a hy fix_) [] v led /\ inv v led /\ el_ok v led.
Proof.
  intros hv he hr. unfold eliciting in he. rewrite Forall_forall in he.
  destruct (run_pres fl el_ok ops [] _ [] (inv_new t irtt mds icwp a hy fix_) (fun k h => h) hv) with (v' := v) (xs := xs) as (led & e1 & e2 & e3 & _); auto.
  - intros o w l w' x l' hin hi hov hst hl hi' hw. eapply (el_step fl o w l w' x l'); eauto. exact (he o hin).
  - intros [] _; reflexivity.
  - exists led. auto.
Qed.

Lemma run_app fl l1 l2 v v2 xs : rec_run fl (l1 ++ l2) v = Ok (v2, xs) ->
  exists v1 x1 x2, rec_run fl l1 v = Ok (v1, x1) /\ rec_run fl l2 v1 = Ok (v2, x2) /\ xs = x1 ++ x2.
Proof.
  revert v xs. induction l1 as [|o l1 IH]; intros v xs h; [exists v, [], xs; auto|]. cbn [app rec_run] in h |- *.
  destruct (rec_step fl o v) as [[w x]| |]; cbn [bind] in h; try discriminate h.
  destruct (rec_run fl (l1 ++ l2) w) as [[w2 ys]| |] eqn:er; cbn [bind] in h; try discriminate h. injection h as <- <-.
  destruct (IH _ _ er) as (v1 & x1 & x2 & a & b & c). exists v1, (x :: x1), x2. cbn [bind]. rewrite a. cbn [bind]. subst ys. auto.
Qed.

Lemma run_last fl ops o v v' xs x : rec_run fl (ops ++ [o]) v = Ok (v', xs ++ [x]) -> exists w, rec_step fl o w = Ok (v', x).
Proof.
  intros h. apply run_app in h. destruct h as (v1 & x1 & x2 & a & b & c). cbn [rec_run] in b.
  destruct (rec_step fl o v1) as [[w y]| |] eqn:es; cbn [bind] in b; try discriminate b. injection b as <- <-.
  apply app_inj_tail in c. destruct c as [_ ->]. exists v1. exact es.
Qed.

Lemma busy_inf e v led : inv v led -> busy_space e led = negb (s_inf (get_s e v) =? 0).
Proof.
  intros hi. rewrite (co_inf _ _ (i_core _ _ hi e)), inf_number. unfold busy_space. clear hi. induction led as [|x l IH]; [reflexivity|]. cbn [existsb].
  rewrite IH. clear IH. cbn [number fold_right].
  match goal with |- context [fold_right ?f 0 l] => change (fold_right f 0 l) with (number (fun x => epoch_eqb e (en_e x) && in_flight x) l) end.
  pose proof (number_nonneg (fun x => epoch_eqb e (en_e x) && in_flight x) l).
  destruct (epoch_eqb e (en_e x) && in_flight x); cbn [orb]; [|reflexivity].
  symmetry. apply Bool.negb_true_iff. lia.
Qed.

Lemma total_pos_in f led : 0 < total f led -> exists x, In x led /\ f x = true.
Proof.
  induction led as [|x l IH]; intros h; [cbn in h; lia|]. cbn [total fold_right] in h. destruct (f x) eqn:e; [exists x; split; [left; reflexivity|exact e]|].
  destruct (IH h) as (y & a & b). exists y. split; [right; exact a|exact b].
Qed.

Lemma pto_exact fl t irtt mds icwp a hy fix_ ops o v xs x hs now : valid_ops [] (ops ++ [o]) -> eliciting (ops ++ [o]) ->
  rec_run fl (ops ++ [o]) (rec_new t irtt mds icwp a hy fix_) = Ok (v, xs ++ [x]) ->
  arms o x = Some (hs, now) -> hs_done hs = true ->
  s_loss_time (v_app v) = None -> bf_n (v_bif v) <> 0 ->
  exists led, explains fl (ops ++ [o]) (rec_new t irtt mds icwp a hy fix_) [] v led /\
    let p e := pto_of e v (ops ++ [o]) led in
    v_timer v = earlier (p EInitial) (earlier (p EHandshake) (p EApp)) /\ v_timer v <> None.
Proof.
  intros hv he hr ha hd hl hb. destruct (el_run _ _ _ _ _ _ _ _ _ _ _ hv he hr) as (led & e1 & e2 & e3). exists led. split; [exact e1|]. cbv zeta.
  destruct (run_last _ _ _ _ _ _ _ hr) as (w & hw).
  pose proof (last_run _ _ _ _ _ hr) as hlast.
  assert (hle : forall e, s_last_el (get_s e v) = last_el e (ops ++ [o])).
  { intros e. rewrite hlast. replace (s_last_el (get_s e (rec_new t irtt mds icwp a hy fix_))) with (@None Z) by (destruct e; reflexivity). reflexivity. }
  assert (hel : forall e, s_inf (get_s e v) <> 0 -> s_last_el (get_s e v) <> None).
  { intros e hn hnone. apply hn. rewrite (co_inf _ _ (i_core _ _ e2 e)). apply e3. exact hnone. }
  rewrite (arm_eq _ _ _ _ _ _ _ hw ha), (timer_pto hs now v hl hb hd hel).
  assert (hp : forall e, pto_m e v = pto_of e v (ops ++ [o]) led).
  { intros e. unfold pto_m, pto_of. rewrite (busy_inf e v led e2), hle. destruct (s_inf (get_s e v) =? 0); reflexivity. }
  rewrite !hp. split; [reflexivity|].
  assert (hpos : 0 < total in_flight led).
  { pose proof (i_bif _ _ e2). assert (0 <= total in_flight led); [|lia]. 
    change (total in_flight led) with (esum p_size in_flight led). apply esum_nonneg. intros y hy0.
    pose proof (co_ok _ _ (i_core _ _ e2 (en_e y))) as ho. rewrite Forall_forall in ho. specialize (ho y). apply ho. apply of_e_in. auto. }
  apply total_pos_in in hpos. destruct hpos as (y & y1 & y2).
  assert (hby : busy_space (en_e y) led = true). { apply existsb_exists. exists y. rewrite epoch_eqb_refl. auto. }
  assert (hq : pto_of (en_e y) v (ops ++ [o]) led <> None).
  { unfold pto_of. rewrite hby, <- hle. rewrite (busy_inf _ _ _ e2) in hby.
    pose proof (hel (en_e y)) as q. destruct (s_last_el (get_s (en_e y) v)); [discriminate|]. intros _. apply q; [|reflexivity].
    destruct (Z.eqb_spec (s_inf (get_s (en_e y) v)) 0); [discriminate hby|assumption]. }
  destruct (en_e y); destruct (pto_of EInitial v (ops ++ [o]) led), (pto_of EHandshake v (ops ++ [o]) led), (pto_of EApp v (ops ++ [o]) led); cbn [earlier]; congruence.
Qed.

Lemma armed fl t irtt mds icwp a hy fix_ ops o v xs x hs now : valid_ops [] (ops ++ [o]) -> eliciting (ops ++ [o]) ->
  rec_run fl (ops ++ [o]) (rec_new t irtt mds icwp a hy fix_) = Ok (v, xs ++ [x]) ->
  arms o x = Some (hs, now) -> hs_done hs = true -> bf_n (v_bif v) <> 0 -> v_timer v <> None.
Proof.
  intros hv he hr ha hd hb. destruct (s_loss_time (v_app v)) eqn:el.
  - destruct (run_last _ _ _ _ _ _ _ hr) as (w & hw). rewrite (arm_eq _ _ _ _ _ _ _ hw ha). unfold timer_of, set_loss_timer.
    destruct (fst (loss_time_and_space v)) eqn:ef; [discriminate|]. exfalso. unfold loss_time_and_space in ef. rewrite el in ef.
    unfold pick in ef at 1. cbn [fst] in ef. destruct (negb (is_some _) || olt _ _) eqn:eb; [discriminate ef|]. rewrite ef in eb. discriminate eb.
  - destruct (pto_exact _ _ _ _ _ _ _ _ _ _ _ _ _ _ _ hv he hr ha hd el hb) as (led & _ & _ & h). exact h.
Qed.

Lemma loss_exact fl ops o v0 v xs x hs now :
  rec_run fl (ops ++ [o]) v0 = Ok (v, xs ++ [x]) -> arms o x = Some (hs, now) ->
  s_loss_time (v_app v) <> None -> s_loss_time (v_hs v) <> None \/ s_loss_time (v_ini v) = None ->
  v_timer v = earlier (s_loss_time (v_ini v)) (earlier (s_loss_time (v_hs v)) (s_loss_time (v_app v))).
Proof.
  intros hr ha h1 h2. destruct (run_last _ _ _ _ _ _ _ hr) as (w & hw). rewrite (arm_eq _ _ _ _ _ _ _ hw ha). apply timer_loss; assumption.
Qed.

(** Probes *)
Lemma probe_timeout fl hs now v v' x : s_loss_time (v_app v) = None -> 0 <= v_pto_count v -> rec_step fl (RTimeout hs now) v = Ok (v', x) ->
  x = OLost 0 0 /\ v_pto_count v' = v_pto_count v + 1 /\ bf_n (v_bif v') = bf_n (v_bif v) /\ cwnd_available v' = usize_max /\
  exists e, should_elicit_ack e v' = true /\ 1 <= s_probes (get_s e v') <= 2.
Proof.
  intros hl hp h. cbn [rec_step] in h. unfold rec_timeout in h. pose proof (lts_none v hl) as hn.
  destruct (loss_time_and_space v) as [q e1]. cbn [fst] in hn. subst q. cbn [bind] in h.
  apply (f_equal (fun r => match r with Ok a => a | _ => (v, x) end)) in h. cbv beta iota zeta in h. apply pair_equal_spec in h. destruct h as [<- <-].
  set (e := if 0 <? bf_n (v_bif v) then snd (pto_time_and_space hs now v) else if hs_keys hs then EHandshake else EInitial).
  match goal with |- context [set_s e ?s ?w] => set (s1 := s); set (w1 := w) end.
  assert (hpr : s_probes s1 = Z.min (v_pto_count v + 1) 2). { unfold s1. match goal with |- context [match ?o with [] => _ | _ => _ end] => destruct o end; destruct e; reflexivity. }
  assert (hg : s_probes (get_s e (set_loss_timer hs now (set_s e s1 w1))) = Z.min (v_pto_count v + 1) 2). { rewrite slt_get, get_set. exact hpr. }
  assert (hpos : 0 <? s_probes (get_s e (set_loss_timer hs now (set_s e s1 w1))) = true) by (rewrite hg; lia).
  split; [reflexivity|]. split.
  { transitivity (v_pto_count (set_s e s1 w1)); [apply (slt_timing hs now (set_s e s1 w1))|destruct e; reflexivity]. }
  split; [rewrite slt_bif; destruct e; reflexivity|]. split.
  - unfold cwnd_available. destruct e; cbn [get_s] in hpos; rewrite hpos, ?Bool.orb_true_r; cbn [orb]; reflexivity.
  - exists e. split; [unfold should_elicit_ack; rewrite hpos; reflexivity|rewrite hg; lia].
Qed.

Lemma rec_lose_pto fl e now v v' nb : rec_lose fl e now v = Ok (v', nb) -> v_pto_count v' = v_pto_count v.
Proof.
  unfold rec_lose. intros h. destruct (space_lose _ _ _ _) as [[s a]| |]; cbn [bind] in h; try discriminate h.
  injection h as <- _. destruct (l_last a), e; reflexivity.
Qed.
Lemma slt_pto hs now v : v_pto_count (set_loss_timer hs now v) = v_pto_count v.
Proof. apply (slt_timing hs now v). Qed.

Lemma pto_count_step fl o v v' x : rec_step fl o v = Ok (v', x) -> pto_step o x (v_pto_count v) (v_pto_count v').
Proof.
  intros h. destruct o; cbn [rec_step pto_step] in *.
  - injection h as <- <-. unfold rec_sent. cbv zeta.
    match goal with |- context [set_s e ?s (set_sent_counts ?a ?b ?w)] => set (s1 := s); transitivity (v_pto_count w); [destruct e; reflexivity|] end.
    cbn [p_inf]. destruct (p_inf p); [rewrite slt_pto|]; destruct (p_el p), e; reflexivity.
  - destruct (rec_ack fl e rs delay hs now skip v) as [[v1 [[[n b] k] sp]]| |] eqn:er; cbn [bind] in h; try discriminate h. injection h as -> <-.
    unfold rec_ack in er. destruct (space_ack _ _ _ _ _) as [[s a]| |] eqn:es; cbn [bind] in er; try discriminate er. cbv zeta in er.
    destruct (a_new a).
    { injection er as <- _ _ <- _. split; [lia|]. right. destruct (a_infspur a), (a_thresh a), e; reflexivity. }
    match type of er with context [rec_lose fl e now ?w] => set (w4 := w) in er; destruct (rec_lose fl e now w4) as [[v5 [n5 m5]]| |] eqn:el; cbn [bind fst snd] in er; try discriminate er end.
    apply (f_equal (fun r => match r with Ok a => a | _ => (v, (n, b, k, sp)) end)) in er. cbv beta iota in er.
    apply pair_equal_spec in er. destruct er as [<- _].
    match goal with |- context [set_s e ?s (set_loss_timer hs now ?w)] => set (s1 := s); set (w5 := w) end.
    assert (q : v_pto_count (set_s e s1 (set_loss_timer hs now w5)) = 0). { transitivity (v_pto_count (set_loss_timer hs now w5)); [destruct e; reflexivity|]. rewrite slt_pto. reflexivity. }
    rewrite q. auto.
  - destruct (rec_timeout fl hs now v) as [[v1 [n b]]| |] eqn:er; cbn [bind] in h; try discriminate h. injection h as <- _.
    unfold rec_timeout in er. destruct (loss_time_and_space v) as [[t|] e1].
    + destruct (rec_lose fl e1 now v) as [[v5 [n5 m5]]| |] eqn:el; cbn [bind] in er; try discriminate er.
      apply (f_equal (fun r => match r with Ok a => a | _ => (v, (n, b)) end)) in er. cbv beta iota in er. apply pair_equal_spec in er. destruct er as [<- _].
      rewrite slt_pto, (rec_lose_pto _ _ _ _ _ _ el). auto.
    + apply (f_equal (fun r => match r with Ok a => a | _ => (v, (n, b)) end)) in er. cbv beta iota zeta in er. apply pair_equal_spec in er. destruct er as [<- _].
      left. rewrite slt_pto. match goal with |- context [set_s ?e ?s ?w] => destruct e; reflexivity end.
  - injection h as <- <-. unfold rec_discard. cbv zeta. rewrite slt_pto. destruct e; reflexivity.
  - destruct (rec_lose fl e now v) as [[v5 [n5 m5]]| |] eqn:el; cbn [bind] in h; try discriminate h. injection h as <- _. apply (rec_lose_pto _ _ _ _ _ _ el).
  - unfold rec_next_acked in h. destruct (vpop _) as [[f l]|]; injection h as <- <-; [destruct e|]; reflexivity.
  - unfold rec_next_lost in h. destruct (vpop (s_flost _)) as [[f l]|]; [|destruct (vpop (s_fpto _)) as [[f l]|]]; injection h as <- <-; try (destruct e); reflexivity.
  - injection h as <- <-. destruct e; reflexivity.
  - injection h as <- <-. unfold rec_pmtud_mds. destruct (_ =? _); reflexivity.
  - injection h as <- <-. unfold rec_update_mds, rec_pmtud_mds. destruct (_ =? _); reflexivity.
  - injection h as <- <-. reflexivity.
  - injection h as <- <-. reflexivity.
Qed.

Lemma pto_nonneg fl ops : forall v v' xs, 0 <= v_pto_count v -> rec_run fl ops v = Ok (v', xs) -> 0 <= v_pto_count v'.
Proof.
  induction ops as [|o ops IH]; intros v v' xs h0 h; cbn [rec_run] in h; [injection h as <- _; exact h0|].
  destruct (rec_step fl o v) as [[v1 x]| |] eqn:es; cbn [bind] in h; try discriminate h.
  destruct (rec_run fl ops v1) as [[v2 xs']| |] eqn:er; cbn [bind] in h; try discriminate h. injection h as <- _.
  apply (IH _ _ _) in er; [exact er|]. apply pto_count_step in es. destruct o; cbn [pto_step] in es; try lia.
  destruct x as [| |[[[? ?] ?] ?]|]; lia.
Qed.

(** A congestion event reduces the window *)
Lemma lose_window fl o v v' x : (exists hs now, o = RTimeout hs now) \/ (exists e now, o = RPathChange e now) ->
  rec_step fl o v = Ok (v', x) ->
  c_cwnd (v_cc v') = c_cwnd (v_cc v) \/
  c_cwnd (v_cc v') = Z.max (match c_alg (v_cc v) with Reno => c_cwnd (v_cc v) / 2 | Cubic => mul_beta (c_cwnd (v_cc v)) end) (2 * c_mds (v_cc v)).
Proof.
  intros ho h.
  assert (hl : forall e now v' nb, rec_lose fl e now v = Ok (v', nb) -> c_cwnd (v_cc v') = c_cwnd (v_cc v) \/
    c_cwnd (v_cc v') = Z.max (match c_alg (v_cc v) with Reno => c_cwnd (v_cc v) / 2 | Cubic => mul_beta (c_cwnd (v_cc v)) end) (2 * c_mds (v_cc v))).
  { intros e now w [n b] hl. apply rec_lose_cc in hl. destruct hl as [(op & ->) _]. cbn [set_c_lost c_cwnd]. unfold maybe_event.
    destruct op as [p|]; [|left; reflexivity]. rewrite cc_event_cwnd. destruct (cc_in_recovery _ _); auto. }
  destruct ho as [(hs & now & ->)|(e & now & ->)]; cbn [rec_step] in h.
  - destruct (rec_timeout fl hs now v) as [[v1 [n b]]| |] eqn:er; cbn [bind] in h; try discriminate h. injection h as <- _.
    unfold rec_timeout in er. destruct (loss_time_and_space v) as [[t|] e1].
    + destruct (rec_lose fl e1 now v) as [[v5 [n5 m5]]| |] eqn:el; cbn [bind] in er; try discriminate er.
      apply (f_equal (fun r => match r with Ok a => a | _ => (v, (n, b)) end)) in er. cbv beta iota in er. apply pair_equal_spec in er. destruct er as [<- _].
      rewrite (proj1 (slt_cc _ _ _)). apply (hl _ _ _ _ el).
    + apply (f_equal (fun r => match r with Ok a => a | _ => (v, (n, b)) end)) in er. cbv beta iota zeta in er. apply pair_equal_spec in er. destruct er as [<- _].
      rewrite (proj1 (slt_cc _ _ _)). left. match goal with |- context [set_s ?e ?s ?w] => destruct e; reflexivity end.
  - destruct (rec_lose fl e now v) as [[v5 [n5 m5]]| |] eqn:el; cbn [bind] in h; try discriminate h. injection h as <- _. apply (hl _ _ _ _ el).
Qed.
