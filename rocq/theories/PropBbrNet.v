(** C91: what BBR2 knows of the network, over every history of calls. *)
Require Import Verif.Base Verif.BwModel Verif.SampModel Verif.SampSpec Verif.SampProofs Verif.SampBytes Verif.BbrNetModel Verif.BbrNetSpec Verif.BbrNetProofs Verif.BbrNetRun Verif.BbrNetRest.

(** C91: a bandwidth sample not limited by the application counts at least until
    the second time the filter moves on after it: until then the maximum is no
    less.  The maximum is never made up: it is zero or a sample some event reported. *)
Theorem C91_bandwidth_kept p t0 r0 ops n newer older o c b : nt_all p t0 r0 ops = Ok (n, newer ++ (o, OEv c) :: older) ->
  ce_bw c = Some b -> ce_app c = false -> advances newer <= 1 -> b <= nt_max n.
Proof.
  intros h hb ha hn. apply all_runs in h. apply runs_app in h. destruct h as (m & h1 & h2). apply runs_inv in h1. destruct h1 as (m0 & h0 & h1).
  assert (Eo : is_adv o = false) by (destruct o; try reflexivity; discriminate h1). apply step_bw in h1. rewrite Eo in h1.
  destruct h1 as (_ & h1). apply (keep_bw p m newer n b h2); auto. rewrite h1. unfold took. rewrite hb, ha. cbn [negb orb]. lia.
Qed.
Print Assumptions C91_bandwidth_kept.

(** C91: one limited by the application counts as well when it exceeds the maximum. *)
Theorem C91_bandwidth_app p t0 r0 ops n l o c b n' : nt_all p t0 r0 ops = Ok (n, l) -> nt_step p o n = Ok (n', OEv c) -> ce_bw c = Some b ->
  nt_max n <= nt_max n' /\ (nt_max n < b -> nt_max n' = b) /\ (ce_app c = true -> b <= nt_max n -> nt_max n' = nt_max n).
Proof.
  intros h h1 hb. assert (Eo : is_adv o = false) by (destruct o; try reflexivity; discriminate h1). apply step_bw in h1. rewrite Eo in h1.
  destruct h1 as (q0 & q1). unfold nt_max at 1 2 3 4 5 6. rewrite q0, q1. unfold took. rewrite hb. unfold nt_max. destruct (ce_app c), (Z.max (nt_bw0 n) (nt_bw1 n) <? b) eqn:E; cbn [negb orb]; repeat split; intros; try discriminate; lia.
Qed.
Print Assumptions C91_bandwidth_app.

Theorem C91_bandwidth_seen p t0 r0 ops n l : nt_all p t0 r0 ops = Ok (n, l) -> nt_max n = 0 \/ In (nt_max n) (bw_samples l).
Proof.
  intros h. apply all_runs in h. pose proof (bw0_from _ _ _ _ h) as k0. pose proof (bw1_from _ _ _ _ h) as k1. cbn in k0, k1. unfold nt_max.
  destruct (Z.max_spec (nt_bw0 n) (nt_bw1 n)) as [(_ & ->)|(_ & ->)]; tauto.
Qed.
Print Assumptions C91_bandwidth_seen.

(** C91: and old samples are forgotten: when the filter has moved on twice with a
    positive sample that counted in between, the maximum is zero or a sample from
    after the first of the two. *)
Theorem C91_bandwidth_forgotten p t0 r0 ops n l x y between c o b older m : nt_all p t0 r0 ops = Ok (n, l ++ (NAdvance, x) :: between ++ (NAdvance, y) :: older) ->
  advances between = 0 -> In (o, OEv c) between -> ce_bw c = Some b -> ce_app c = false -> 0 < b -> m = nt_max n ->
  m = 0 \/ In m (bw_samples (l ++ between)).
Proof.
  intros h ha hi hb hp hpos ->. apply all_runs in h. apply runs_app in h. destruct h as (m3 & h & h3). apply runs_inv in h. destruct h as (m2 & h & s2).
  apply runs_app in h. destruct h as (m1 & h & h2). apply runs_inv in h. destruct h as (m0 & h0 & s1). apply step_bw in s1, s2. cbn [is_adv] in s1, s2.
  destruct s1 as (q1 & _). destruct s2 as (q2 & q3). pose proof (bw1_from _ _ _ _ h2) as k2. rewrite q1 in k2.
  assert (hpos2 : b <= nt_bw1 m2).
  { destruct (in_split _ _ hi) as (a1 & a2 & ->). apply runs_app in h2. destruct h2 as (m5 & h2 & h5). apply runs_inv in h2. destruct h2 as (m4 & h4 & s4).
    assert (Eo : is_adv o = false) by (destruct o; try reflexivity; discriminate s4). apply step_bw in s4. rewrite Eo in s4. destruct s4 as (_ & s4).
    apply (proj1 (keep_bw p m5 a1 m2 b h5 ltac:(rewrite s4; unfold took; rewrite hb, hp; cbn [negb orb]; lia))).
    revert ha. unfold advances. rewrite filter_app, app_length. lia. }
  destruct (nt_bw1 m2 =? 0) eqn:E; [lia|]. pose proof (bw0_from _ _ _ _ h3) as k0. pose proof (bw1_from _ _ _ _ h3) as k1. rewrite q2 in k0, k1. rewrite q3 in k0.
  assert (hm : In (nt_bw1 m2) (bw_samples between)) by (destruct k2 as [k|[k|k]]; auto; lia).
  unfold nt_max. unfold bw_samples in *. rewrite flat_map_app. setoid_rewrite in_app_iff.
  destruct (Z.max_spec (nt_bw0 n) (nt_bw1 n)) as [(_ & ->)|(_ & ->)]; [tauto|]. destruct k0 as [k|[k|k]]; [right; right; rewrite k; exact hm|auto|auto].
Qed.
Print Assumptions C91_bandwidth_forgotten.

(** C91: but not without such a sample: however often the filter moves on, the
    maximum stays if no new sample counts. *)
Theorem C91_bandwidth_stays_without_samples p t0 r0 ops n l k : nt_all p t0 r0 ops = Ok (n, l) -> exists n' l', nt_all p t0 r0 (repeat NAdvance (S k) ++ ops) = Ok (n', l' ++ l) /\
  nt_max n' = (if nt_bw1 n =? 0 then nt_max n else Z.max 0 (nt_bw1 n)) /\ nt_bw1 n' = 0.
Proof.
  intros h. induction k as [|k (n1 & l1 & h1 & h2 & h3)].
  - exists (nt_advance n), [(NAdvance, ONone)]. cbn [repeat app nt_all]. rewrite h. cbn [bind nt_step app]. split; [reflexivity|]. unfold nt_advance. destruct (nt_bw1 n =? 0) eqn:E; [split; [reflexivity|lia]|]. unfold nt_max. cbn. split; [|reflexivity]. lia.
  - exists n1, ((NAdvance, ONone) :: l1). change (repeat NAdvance (S (S k)) ++ ops) with (NAdvance :: (repeat NAdvance (S k) ++ ops)). cbn [nt_all]. rewrite h1. cbn [bind nt_step app]. split; [|auto]. unfold nt_advance. rewrite h3. reflexivity.
Qed.
Print Assumptions C91_bandwidth_stays_without_samples.

(** C91: a round ends with an event that acknowledges a packet sent after the round
    began, or with the first acknowledgment; and rounds are counted. *)
Theorem C91_rounds p t0 r0 ops n l t w pr pb acked lost n' c : nt_all p t0 r0 ops = Ok (n, l) -> nt_step p (NEvent t w pr pb acked lost) n = Ok (n', OEv c) ->
  rt_count (nt_rt n) = rounds_of l /\ (ce_end c = true <-> exists a k, acked = a ++ [k] /\ forall m, round_mark l = Some m -> m < k).
Proof.
  intros h h1. apply all_runs in h. pose proof (runs_N1 _ _ _ _ _ h) as k. destruct k. split; auto. cbn [nt_step] in h1.
  destruct (nt_start _ _ _ _ _ _ _ _) as [(m, c')| |] eqn:E; cbn [bind] in h1; try discriminate. injection h1 as <- <-. apply start_rest in E. destruct E as (_ & -> & _).
  destruct acked as [|a acked]; cbn [last_num_of]; [split; [discriminate|]; intros (aa & z & q & _); destruct aa; discriminate q|].
  unfold rt_acked. rewrite n_end. pose proof (app_removelast_last a (l := a :: acked) ltac:(discriminate)) as hl.
  assert (hk : last acked a = last (a :: acked) a) by (destruct acked; reflexivity). rewrite hk.
  destruct (round_mark l) as [e|]; [destruct (_ <=? e) eqn:Ee|]; cbn [fst]; (split; [intros hx; try discriminate hx|intros (a' & z & q & hz)]); auto.
  - specialize (hz e eq_refl). rewrite q, last_last in Ee. lia.
  - exists (removelast (a :: acked)), (last (a :: acked) a). split; [exact hl|]. intros ? [= <-]. lia.
  - exists (removelast (a :: acked)), (last (a :: acked) a). split; [exact hl|]. intros ? [=].
Qed.
Print Assumptions C91_rounds.

(** C91: the losses a round is judged by are those reported since it began, and the
    bytes in flight after an event are those before it less what was acknowledged
    and lost. *)
Theorem C91_losses p t0 r0 ops n l c most : nt_all p t0 r0 ops = Ok (n, l) ->
  (nt_too_high p c most n = true <-> exists s, ce_last c = Some s /\ most <= round_losses l /\ 0 < round_lost l /\ 0 < bp_flight s /\ np_loss p (bp_flight s) < round_lost l).
Proof.
  intros h. apply all_runs in h. pose proof (runs_N1 _ _ _ _ _ h) as k. destruct k. unfold nt_too_high. rewrite n_lost, n_events. destruct (ce_last c) as [s|]; [|split; [discriminate|intros (s & q & _); discriminate]].
  destruct (round_losses l <? most) eqn:E; [split; [discriminate|]; intros (s' & [= <-] & q); lia|]. rewrite !Bool.andb_true_iff, !Z.ltb_lt. split; [intros ((q1 & q2) & q3); exists s; repeat split; auto; lia|intros (s' & [= <-] & q); lia].
Qed.
Print Assumptions C91_losses.

(** C91: the round trip estimate is the least seen since the last one that was let
    expire; and one expires only when its period is over, with a sample at hand to
    replace it. *)
Theorem C91_min_rtt p t0 r0 ops n l : nt_all p t0 r0 ops = Ok (n, l) ->
  In (nt_rtt n) (rtt_window r0 l) /\ (forall r, In r (rtt_window r0 l) -> nt_rtt n <= r) /\
  forall c, (nt_step p (NExpire c) n = Ok (n, OBool false) /\ (ce_rtt c = None \/ ce_time c < rtt_since t0 r0 l + np_period p)) \/
    exists r n', ce_rtt c = Some r /\ rtt_since t0 r0 l + np_period p <= ce_time c /\ nt_step p (NExpire c) n = Ok (n', OBool true) /\ nt_rtt n' = r.
Proof.
  intros h. apply all_runs in h. pose proof (runs_N1 _ _ _ _ _ h) as k. pose proof (k_at _ _ _ _ _ (runs_N3 _ _ _ _ _ h)) as ka. destruct (n_rtt _ _ _ k) as (q1 & q2). split; auto. split; auto.
  intros c. cbn [nt_step]. unfold nt_expire. rewrite ka. destruct (ce_rtt c) as [r|]; [|left; auto]. destruct (_ <? _) eqn:E; [left; split; auto; right; lia|right; exists r; eexists; split; [reflexivity|split; [lia|split; reflexivity]]].
Qed.
Print Assumptions C91_min_rtt.

(** C91: the short-term bounds are lowered only when a round with losses ends while
    not probing for bandwidth, and then not below the best the round delivered; an
    estimate is never above the maximum nor the bound. *)
Theorem C91_lower_bounds p t0 r0 ops n l t w pr pb acked lost n' c : nt_all p t0 r0 ops = Ok (n, l) -> nt_step p (NEvent t w pr pb acked lost) n = Ok (n', OEv c) ->
  let best := Z.max (round_best l) (match ce_raw c with Some b => b | None => round_best l end) in
  (if ce_end c && negb pb && (0 <? round_lost l + ce_lost c)
   then nt_lo n' = Some (Z.max best (np_beta_bw p (match nt_lo n with Some b => b | None => nt_max n' end))) /\
        nt_in_lo n' = Z.max (Z.max (round_inflight l) (ce_inf c)) (np_beta_in p (if nt_in_lo n =? u64_max then w else nt_in_lo n))
   else nt_lo n' = nt_lo n /\ nt_in_lo n' = nt_in_lo n) /\
  (forall b, ce_bw c = Some b -> ce_raw c = Some b) /\
  ce_flight c = Z.max 0 (pr - ce_acked c - ce_lost c) /\ 0 <= ce_acked c /\ 0 <= ce_lost c.
Proof.
  intros h h1. apply all_runs in h. pose proof (runs_N1 _ _ _ _ _ h) as k1. pose proof (runs_N3 _ _ _ _ _ h) as k3. cbn [nt_step] in h1.
  destruct (nt_start _ _ _ _ _ _ _ _) as [(m, c')| |] eqn:E; cbn [bind] in h1; try discriminate. injection h1 as <- <-. pose proof E as E'. apply start_rest in E. destruct E as (_ & _ & _ & _ & _ & _ & _ & _ & _ & _ & _ & hb).
  assert (hraw : forall b, ce_bw c' = Some b -> ce_raw c' = Some b).
  { clear - E'. unfold nt_start in E'. destruct (match last_num_of acked with Some k => rt_acked k (nt_rt n) | None => (false, nt_rt n) end). cbv zeta in E'. destruct (sp_event _ _ _ _ _ _ _) as [(sp, e)| |]; cbn [bind] in E'; try discriminate.
    destruct (match es_rtt e with Some r => if r <? nt_rtt n then (r, t) else (nt_rtt n, nt_rtt_at n) | None => (nt_rtt n, nt_rtt_at n) end). destruct (_ || _); [discriminate|]. injection E' as _ <-. cbn. intros bb. destruct (negb _); [auto|discriminate]. }
  apply start_shape in E'. destruct E' as (sp & e & _ & z1 & z2 & _ & z3 & z4 & _ & _ & _ & z5 & _ & _ & _ & _ & _ & _ & _ & _ & z6 & _).
  cbv zeta. split; [|split; [exact hraw|split; [|split]; lia]]. rewrite z6, (n_lost _ _ _ k1), (k_latest _ _ _ _ _ k3), (k_inf _ _ _ _ _ k3) in hb.
  replace (Z.max (round_best l) (match ce_raw c' with Some b => b | None => round_best l end)) with (match ce_raw c' with Some b => Z.max (round_best l) b | None => round_best l end) by (destruct (ce_raw c'); lia). exact hb.
Qed.
Print Assumptions C91_lower_bounds.

(** C91: no other call lowers or raises the bandwidth bound, except the one that
    lifts it; nor does the estimate exceed the maximum. *)
Theorem C91_bound_steady p t0 r0 ops n l o x n' : nt_all p t0 r0 ops = Ok (n, l) -> nt_step p o n = Ok (n', x) ->
  (match o with NEvent _ _ _ _ _ _ => True | NClearLo => nt_lo n' = None | _ => nt_lo n' = nt_lo n end) /\
  nt_estimate n <= nt_max n /\ (forall b, nt_lo n = Some b -> nt_estimate n = Z.min b (nt_max n)) /\ (nt_lo n = None -> nt_estimate n = nt_max n).
Proof.
  intros _ h. split; [|unfold nt_estimate; destruct (nt_lo n); repeat split; intros; try discriminate; try lia; congruence].
  destruct o; cbn [nt_step] in h; auto; try (injection h as <- <-; reflexivity).
  - unfold nt_sent in h. destruct (sp_on_sent _ _ _ _ _ _ _); cbn [bind] in h; try discriminate. injection h as <- <-. reflexivity.
  - injection h as <- <-. unfold nt_finish. destruct (ce_end c); reflexivity.
  - unfold nt_expire in h. destruct (ce_rtt c); [destruct (_ <? _)|]; injection h as <- <-; reflexivity.
  - unfold nt_growth in h. destruct (_ <=? _); [|destruct (ce_last c)]; injection h as <- <-; reflexivity.
  - injection h as <- <-. unfold nt_queue. destruct (_ <? _); reflexivity.
  - injection h as <- <-. unfold nt_advance. destruct (_ =? _); reflexivity.
Qed.
Print Assumptions C91_bound_steady.

(** C91: the network is taken to be full only when told so, or after enough checks
    in a row found no growth, the last of them not limited by the application, or
    after enough rounds in a row never fell below the queue target; and for good. *)
Theorem C91_full p t0 r0 ops n l o x n' : nt_all p t0 r0 ops = Ok (n, l) -> nt_step p o n = Ok (n', x) ->
  (nt_full n = true -> nt_full n' = true) /\
  (nt_full n = false -> (nt_full n' = true <->
    o = NFull \/
    (exists c s, o = NGrowth c /\ x = OBool false /\ ce_last c = Some s /\ bp_app s = false /\ np_rounds p <= stale_rounds p ((o, x) :: l)) \/
    (exists target, o = NQueue target /\ target <= round_min l /\ np_queue p <= queued_rounds ((o, x) :: l)))).
Proof.
  intros h0 h. apply all_runs in h0. pose proof (runs_N3 _ _ _ _ _ h0) as k. assert (hr : runs p n [(o, x)] n') by (econstructor; [constructor|exact h]).
  split; [apply (full_stays _ _ _ _ hr)|]. intros hf. assert (hr' : runs p (nt_new t0 r0) ((o, x) :: l) n') by (econstructor; eauto). pose proof (runs_N3 _ _ _ _ _ hr') as k'.
  rewrite <- (k_stale _ _ _ _ _ k'), <- (k_queued _ _ _ _ _ k'), <- (k_min _ _ _ _ _ k). clear k k' hr hr' h0.
  assert (oth : (match o with NFull | NGrowth _ | NQueue _ => False | _ => True end) -> nt_full n' = false -> (nt_full n' = true <->
    o = NFull \/ (exists c s, o = NGrowth c /\ x = OBool false /\ ce_last c = Some s /\ bp_app s = false /\ np_rounds p <= nt_stale n') \/
    (exists target, o = NQueue target /\ target <= rs_min (nt_rs n) /\ np_queue p <= nt_queued n'))).
  { intros ho hf'. rewrite hf'. split; [discriminate|]. intros [->|[(c & s & -> & _)|(z & -> & _)]]; contradiction. }
  destruct o; cbn [nt_step] in h; try (apply oth; [exact I|]; injection h as <- <-; exact hf).
  - apply oth; [exact I|]. unfold nt_sent in h. destruct (sp_on_sent _ _ _ _ _ _ _); cbn [bind] in h; try discriminate. injection h as <- <-. exact hf.
  - apply oth; [exact I|]. destruct (nt_start _ _ _ _ _ _ _ _) as [(m', c)| |] eqn:E; cbn [bind] in h; try discriminate. injection h as <- <-. apply start_rest in E. destruct E as (_ & _ & _ & _ & _ & _ & _ & _ & h9 & _). congruence.
  - apply oth; [exact I|]. injection h as <- <-. unfold nt_finish. destruct (ce_end c); exact hf.
  - apply oth; [exact I|]. unfold nt_expire in h. destruct (ce_rtt c); [destruct (_ <? _)|]; injection h as <- <-; exact hf.
  - clear oth. unfold nt_growth in h. destruct (_ <=? _); [|destruct (ce_last c) as [s|] eqn:El]; injection h as <- <-; cbn [nt_full nt_with_full nt_stale nt_queued]; rewrite hf.
    + split; [discriminate|]. intros [|[(c' & s & _ & ? & _)|(z & ? & _)]]; discriminate.
    + cbn [orb]. rewrite Bool.andb_true_iff, Z.leb_le, Bool.negb_true_iff. split; [intros (q1 & q2); right; left; exists c, s; auto|]. intros [?|[(c' & s' & [= <-] & _ & e & q1 & q2)|(z & ? & _)]]; try discriminate. rewrite El in e. injection e as <-. auto.
    + split; [discriminate|]. intros [?|[(c' & s & [= <-] & _ & ? & _)|(z & ? & _)]]; congruence.
  - clear oth. injection h as <- <-. unfold nt_queue. destruct (rs_min (nt_rs n) <? target) eqn:E; cbn [nt_full nt_with_full nt_stale nt_queued]; rewrite hf.
    + split; [discriminate|]. intros [?|[(c' & s & ? & _)|(z & [= <-] & q & _)]]; try discriminate. lia.
    + cbn [orb]. rewrite Z.leb_le. split; [intros q; right; right; exists target; repeat split; auto; lia|]. intros [?|[(c' & s & ? & _)|(z & [= <-] & q & q2)]]; try discriminate. exact q2.
  - apply oth; [exact I|]. injection h as <- <-. unfold nt_advance. destruct (_ =? _); exact hf.
  - injection h as <- <-. split; auto.
Qed.
Print Assumptions C91_full.

(** C91: what a round delivered, and whether it reached the upper bound, are of this
    round only; the upper bound is the one last set. *)
Theorem C91_reach p t0 r0 ops n l : nt_all p t0 r0 ops = Ok (n, l) ->
  rs_deliv (nt_rs n) = round_delivered l /\ rs_lim (nt_rs n) = round_limited l /\ rs_min (nt_rs n) = round_min l /\ nt_in_hi n = hi_of l.
Proof. intros h. apply all_runs in h. pose proof (runs_N4 _ _ _ _ _ h) as k. pose proof (k_min _ _ _ _ _ (runs_N3 _ _ _ _ _ h)) as km. destruct k. destruct d_deliv. auto. Qed.
Print Assumptions C91_reach.

(** C91: growth means exactly that the maximum reached the threshold over the
    baseline, which then moves to the maximum. *)
Theorem C91_growth p c n : exists n', nt_growth p c n = (n', np_grow p (nt_base n) <=? nt_max n) /\
  nt_base n' = (if np_grow p (nt_base n) <=? nt_max n then nt_max n else nt_base n).
Proof. unfold nt_growth. destruct (_ <=? _); [|destruct (ce_last c)]; eexists; split; reflexivity. Qed.
Print Assumptions C91_growth.

(** C91: nothing panics, unless a rate does not fit in 64 bits, which takes more
    than 2.3 gigabytes; and the bytes events report acknowledged never exceed those
    sent. *)
Theorem C91_no_panic p t0 r0 ops : (forall x, x <= sc_scale (np_sc p) x) -> instant t0 -> nsensible ops ->
  nt_all p t0 r0 ops <> Panic /\ (8 * ops_bytes ops * 1000000000 <= u64_max -> exists n l, nt_all p t0 r0 ops = Ok (n, l)) /\
  forall n l, nt_all p t0 r0 ops = Ok (n, l) -> sent_bytes l = ops_bytes ops /\ acked_bytes l <= sent_bytes l /\ sp_acked (nt_sp n) = acked_bytes l /\ sp_lost (nt_sp n) = lost_bytes l.
Proof.
  intros hsc ht hs. pose proof (N2_all p t0 r0 hsc ht ops hs) as k. destruct (nt_all p t0 r0 ops) as [(n, l)| |].
  - split; [discriminate|]. split; [eauto|]. intros ? ? [= <- <-]. destruct k as ((h & k) & e). split; auto. destruct k. pose proof (acked_le_sent h m_sens) as q. rewrite (jacked _ _ _ _ m_J), (jlost _ _ _ _ m_J). split; [lia|]. auto.
  - split; [discriminate|]. split; [unfold huge in k; lia|]. intros; discriminate.
  - destruct k.
Qed.
Print Assumptions C91_no_panic.

(** Beside them: two packets sent, one acknowledged, one lost, then a second round *)
Definition C91_par : npar := mkNp (mkSc false false (fun x => Z.max x (2 * x))) (fun x => 7 * x / 10) (fun x => 7 * x / 10) 10000000000 (fun x => 5 * x / 4) (fun x => x / 50) 3 false 2.
Definition C91_ops : list nop :=
  [NQueue 100; NEvent 900000000 20000 2000 false [3] []; NEvent 400000000 20000 3000 false [2] [(1, 1000)];
   NSent 300000000 2000 3 1000 true; NEvent 200000000 20000 2000 false [0] []; NSent 150000000 1000 2 1000 true; NSent 120000000 1000 1 1000 true; NSent 100000000 0 0 1000 true].
Definition C91_moved : list nop := NAdvance :: NEvent 900000000 20000 2000 false [3] [] :: NAdvance :: skipn 2 C91_ops.
Lemma C91_sensible : nsensible C91_ops.
Proof.
  cbn. unfold instant, u64_max. repeat split; try lia; try (repeat constructor; cbn; lia);
    intros; repeat match goal with h : _ \/ _ |- _ => destruct h as [h|h] end; try discriminate; try contradiction; match goal with h : NSent _ _ _ _ _ = _ |- _ => injection h; intros; lia end.
Qed.
Example C91_witness : nsensible C91_ops /\ (forall x, x <= sc_scale (np_sc C91_par) x) /\ 8 * ops_bytes C91_ops * 1000000000 <= u64_max /\
  (exists n l, nt_all C91_par 0 333000000 C91_ops = Ok (n, l) /\ nt_max n = 80000 /\ bw_samples l = [22857; 53333; 80000] /\
     nt_rtt n = 100000000 /\ rtt_window 333000000 l = [600000000; 250000000; 100000000; 333000000] /\ rounds_of l = 2 /\ round_mark l = Some 3 /\
     nt_lo n = Some 80000 /\ nt_in_lo n = 14000 /\ round_lost l = 1000 /\ round_losses l = 1 /\ acked_bytes l = 3000 /\ nt_full n = false /\
     (exists c o, nth_error l 1 = Some (o, OEv c) /\ ce_end c = true /\ ce_bw c = Some 22857 /\ ce_app c = false /\ nt_too_high C91_par c 1 n = true)) /\
  (exists n l, nt_all C91_par 0 333000000 C91_moved = Ok (n, l) /\ nt_max n = 22857 /\ advances l = 2) /\
  (exists n l n' x, nt_all C91_par 0 333000000 (NQueue 0 :: C91_ops) = Ok (n, l) /\ nt_full n = false /\ nt_step C91_par (NQueue 0) n = Ok (n', x) /\ nt_full n' = true).
Proof.
  split; [exact C91_sensible|]. split; [cbn; intros; lia|]. split; [vm_compute; discriminate|].
  split; [eexists _, _; split; [vm_compute; reflexivity|]; vm_compute; repeat split; eexists _, _; repeat split|].
  split; [eexists _, _; split; [vm_compute; reflexivity|]; vm_compute; auto|].
  eexists _, _, _, _. split; [vm_compute; reflexivity|]. split; [vm_compute; reflexivity|]. split; vm_compute; reflexivity.
Qed.
