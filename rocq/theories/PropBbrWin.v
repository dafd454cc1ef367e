(** C92: the congestion window and the pacing rate of BBR2, over every history of
    congestion events, changes of the packet size, and limits; whatever the modes
    and the network model decide in each event. *)
Require Import Verif.Base Verif.BwModel Verif.BbrWinModel.

(** Sizes are not negative, and packet sizes are positive *)
Definition wsane (o : wop) : Prop :=
  match o with WEvent e => 0 <= we_acked e /\ 0 <= we_bdp e /\ 0 <= we_height e /\ 0 <= we_cap e /\ 0 <= we_rtt e <= u64_max | WMss new _ => 0 < new | WLimit hi => 0 <= hi end.
Definition is_limit (o : wop) : bool := match o with WLimit _ => true | _ => false end.
Definition is_event (o : wop) : bool := match o with WEvent _ => true | _ => false end.
(** The packet size now *)
Fixpoint mss_now (mss : Z) (ops : list wop) : Z := match ops with [] => mss | WMss new _ :: _ => new | _ :: ops => mss_now mss ops end.
Fixpoint acked_sum (ops : list wop) : Z := match ops with [] => 0 | WEvent e :: ops => we_acked e + acked_sum ops | _ :: ops => acked_sum ops end.

Lemma mul64_ok a b x : mul64 a b = Ok x -> x = a * b.
Proof. unfold mul64. destruct (_ <? _); intros e; [discriminate|]. congruence. Qed.
Lemma add64_ok a b x : add64 a b = Ok x -> x = a + b.
Proof. unfold add64. destruct (_ <? _); intros e; [discriminate|]. congruence. Qed.
Lemma scale_ok v new old x : scale64 v new old = Ok x -> x = v * new / old.
Proof. unfold scale64. destruct (mul64 v new) as [y| |] eqn:E; cbn [bind]; try discriminate. apply mul64_ok in E. destruct (old =? 0); intros e; [discriminate|]. congruence. Qed.
Lemma clamp_le lo hi v : clamp lo hi v <= hi. Proof. unfold clamp. lia. Qed.
Lemma event_shape first e w w' : bw_event first e w = Ok w' ->
  bw_lo w' = bw_lo w /\ bw_hi w' = bw_hi w /\ bw_init w' = bw_init w /\ bw_mss w' = bw_mss w /\ bw_acked w' = bw_acked w + we_acked e /\
  (exists c, bw_cwnd w' = clamp (bw_lo w) (bw_hi w) (clamp 0 (we_cap e) c) /\
    c = if we_full e then Z.min (Z.max (we_bdp e) (bw_lo w) + we_height e) (bw_cwnd w + we_acked e)
        else if (bw_cwnd w <? Z.max (we_bdp e) (bw_lo w)) || (bw_cwnd w <? 2 * bw_init w) then bw_cwnd w + we_acked e else bw_cwnd w) /\
  (exists r, bw_pace w' = (if we_est e =? 0 then bw_pace w else if bw_acked w =? 0 then r else if we_full e || we_lower e then we_target e else Z.max (bw_pace w) (we_target e)) /\
     (we_est e <> 0 -> bw_acked w = 0 -> exists r0, bw_from_bytes (bw_cwnd w) (we_rtt e) = Ok r0 /\ r = match first with Some f => Z.min r0 f | None => r0 end)).
Proof.
  unfold bw_event. set (w1 := mkBw _ _ _ _ _ _ _). intros h. destruct (bw_pacing first e w1) as [p| |] eqn:Ep; cbn [bind] in h; try discriminate.
  destruct (bw_window e w1) as [c| |] eqn:Ec; cbn [bind] in h; try discriminate. injection h as <-. cbn [bw_lo bw_hi bw_init bw_mss bw_acked bw_cwnd bw_pace w1]. do 5 (split; [reflexivity|]). split.
  - unfold bw_window in Ec. cbv zeta in Ec. cbn [bw_lo bw_hi bw_init bw_cwnd w1] in Ec. destruct (we_full e).
    + destruct (add64 _ (we_height e)) as [x| |] eqn:E1; cbn [bind] in Ec; try discriminate. destruct (add64 (bw_cwnd w) _) as [y| |] eqn:E2; cbn [bind] in Ec; try discriminate. apply add64_ok in E1, E2. injection Ec as <-. subst. eauto.
    + destruct (mul64 2 _) as [x| |] eqn:E1; cbn [bind] in Ec; try discriminate. apply mul64_ok in E1. subst x. destruct (_ || _); [|cbn [bind] in Ec; injection Ec as <-; eauto].
      destruct (add64 _ _) as [y| |] eqn:E2; cbn [bind] in Ec; try discriminate. apply add64_ok in E2. injection Ec as <-. subst. eauto.
  - unfold bw_pacing in Ep. cbn [bw_pace bw_acked bw_cwnd w1] in Ep. destruct (we_est e =? 0) eqn:E0; [injection Ep as <-; exists 0; split; [reflexivity|intros; lia]|].
    destruct (bw_acked w =? 0) eqn:E1.
    + replace (bw_acked w + we_acked e =? we_acked e) with true in Ep by lia. destruct (bw_from_bytes _ _) as [r0| |] eqn:E2; cbn [bind] in Ep; try discriminate. injection Ep as <-. eexists. split; [reflexivity|]. intros. exists r0. auto.
    + replace (bw_acked w + we_acked e =? we_acked e) with false in Ep by lia. exists 0. split; [|intros; lia]. destruct (we_full e); cbn [orb]; [congruence|]. destruct (we_lower e); congruence.
Qed.

(** C92: after each congestion event the window is within its limits, not above the
    mode's cap unless that is below the lower limit, and it has grown by no more
    than the bytes acknowledged unless it was below the lower limit. *)
Theorem C92_event first initial most mss pace ops w e w' : bw_all first initial most mss pace ops = Ok w -> bw_step first (WEvent e) w = Ok w' -> 0 <= we_acked e ->
  bw_cwnd w' <= bw_hi w' /\ (bw_lo w' <= bw_hi w' -> bw_lo w' <= bw_cwnd w') /\ bw_lo w' = bw_lo w /\ bw_hi w' = bw_hi w /\
  bw_cwnd w' <= Z.max (bw_lo w) (we_cap e) /\ bw_cwnd w' <= Z.max (bw_lo w) (Z.max 0 (bw_cwnd w + we_acked e)) /\
  (we_full e = true -> bw_cwnd w' <= Z.max 0 (Z.max (we_bdp e) (bw_lo w) + Z.max 0 (we_height e))) /\
  (we_full e = false -> bw_cwnd w <= we_cap e -> bw_cwnd w <= bw_hi w -> bw_cwnd w <= bw_cwnd w') /\
  (we_full e = false -> bw_cwnd w < Z.max (we_bdp e) (bw_lo w) \/ bw_cwnd w < 2 * bw_init w -> bw_lo w <= bw_cwnd w + we_acked e <= bw_hi w -> 0 <= bw_cwnd w + we_acked e <= we_cap e -> bw_cwnd w' = bw_cwnd w + we_acked e) /\
  (we_full e = false -> we_bdp e <= bw_cwnd w -> 2 * bw_init w <= bw_cwnd w -> bw_lo w <= bw_cwnd w <= bw_hi w -> 0 <= bw_cwnd w <= we_cap e -> bw_cwnd w' = bw_cwnd w) /\
  (we_full e = true -> let v := Z.min (Z.max (we_bdp e) (bw_lo w) + we_height e) (bw_cwnd w + we_acked e) in bw_lo w <= v <= bw_hi w -> 0 <= v <= we_cap e -> bw_cwnd w' = v).
Proof.
  intros _ h ha. cbn [bw_step] in h. apply event_shape in h. destruct h as (-> & -> & _ & _ & _ & (c & -> & hc) & _). unfold clamp.
  split; [lia|]. split; [lia|]. split; [lia|]. split; [lia|]. split; [lia|].
  destruct (we_full e); [repeat split; intros; try discriminate; lia|].
  destruct ((bw_cwnd w <? Z.max (we_bdp e) (bw_lo w)) || (bw_cwnd w <? 2 * bw_init w)) eqn:E; [repeat split; intros; try discriminate; lia|].
  apply Bool.orb_false_iff in E. repeat split; intros; try discriminate; lia.
Qed.
Print Assumptions C92_event.

(** C92: unless the pacer limits it, the window is at any time between the initial
    and the greatest number of packets, of the size packets have now. *)
Theorem C92_within first initial most mss pace ops w : 0 <= initial <= most -> 0 < mss -> Forall wsane ops -> Forall (fun o => is_limit o = false) ops ->
  bw_all first initial most mss pace ops = Ok w ->
  let m := mss_now mss ops in bw_mss w = m /\ bw_lo w = initial * m /\ bw_hi w = most * m /\ bw_init w = initial * m /\ initial * m <= bw_cwnd w <= most * m.
Proof.
  intros hi hm. revert w. induction ops as [|o ops IH]; intros w hs hl h; cbv zeta; cbn [mss_now bw_all] in *.
  - unfold bw_new in h. destruct (mul64 initial mss) as [c| |] eqn:E1; cbn [bind] in h; try discriminate. destruct (mul64 most mss) as [d| |] eqn:E2; cbn [bind] in h; try discriminate.
    apply mul64_ok in E1, E2. injection h as <-. cbn. subst. repeat split; nia.
  - inversion hs; subst. inversion hl; subst. destruct (bw_all first initial most mss pace ops) as [w0| |]; cbn [bind] in h; try discriminate. specialize (IH w0 H2 H4 eq_refl). cbv zeta in IH.
    assert (hm0 : 0 < mss_now mss ops) by (clear - hm H2; induction H2; cbn; auto; destruct x; auto).
    set (m := mss_now mss ops) in *. destruct IH as (q1 & q2 & q3 & q4 & q5). destruct o as [e|new sc|z]; [| |discriminate].
    + cbn [bw_step] in h. apply event_shape in h. destruct h as (r1 & r2 & r3 & r4 & _ & (c & r5 & _) & _). rewrite r1, r2, r3, r4, r5. repeat split; auto; rewrite q2, q3; unfold clamp; nia.
    + cbn [bw_step] in h. unfold bw_update_mss in h. destruct (scale64 (bw_hi w0) _ _) as [x1| |] eqn:E1; cbn [bind] in h; try discriminate. destruct (scale64 (bw_lo w0) _ _) as [x2| |] eqn:E2; cbn [bind] in h; try discriminate.
      destruct (scale64 (bw_cwnd w0) _ _) as [x3| |] eqn:E3; cbn [bind] in h; try discriminate. destruct (scale64 (bw_init w0) _ _) as [x4| |] eqn:E4; cbn [bind] in h; try discriminate. injection h as <-.
      apply scale_ok in E1, E2, E3, E4. rewrite q1 in *. rewrite q3 in E1. rewrite q2 in E2. rewrite q4 in E4. cbn [bw_mss bw_lo bw_hi bw_init bw_cwnd]. cbn [wsane] in H1.
      assert (d : forall a, a * m * new / m = a * new) by (intros a; replace (a * m * new) with (a * new * m) by ring; apply Z.div_mul; lia). rewrite d in E1, E2, E4.
      repeat split; auto; rewrite E3; [rewrite <- (d initial)|rewrite <- (d most)]; apply Z.div_le_mono; nia.
Qed.
Print Assumptions C92_within.

(** C92: a limit holds from the next congestion event until it is changed. *)
Theorem C92_limit first initial most mss pace later hi ops e w : Forall (fun o => is_event o = true) later -> bw_all first initial most mss pace (WEvent e :: later ++ WLimit hi :: ops) = Ok w ->
  bw_hi w = hi /\ bw_cwnd w <= hi.
Proof.
  intros hl h. assert (k : forall l w, Forall (fun o => is_event o = true) l -> bw_all first initial most mss pace (l ++ WLimit hi :: ops) = Ok w -> bw_hi w = hi).
  { induction l as [|o l IH]; intros v hf hv; cbn [app bw_all] in hv.
    - destruct (bw_all _ _ _ _ _ ops); cbn [bind] in hv; try discriminate. injection hv as <-. reflexivity.
    - inversion hf; subst. destruct (bw_all _ _ _ _ _ (l ++ _)) as [v0| |]; cbn [bind] in hv; try discriminate. specialize (IH v0 H2 eq_refl). destruct o; try discriminate. cbn [bw_step] in hv. apply event_shape in hv. destruct hv as (_ & -> & _). exact IH. }
  assert (h' : bw_hi w = hi) by (apply (k (WEvent e :: later)); [constructor; auto|exact h]). split; auto. cbn [bw_all] in h. destruct (bw_all _ _ _ _ _ (later ++ _)) as [w0| |]; cbn [bind] in h; try discriminate.
  cbn [bw_step] in h. apply event_shape in h. destruct h as (_ & q & _ & _ & _ & (c & -> & _) & _). rewrite <- q, h'. apply clamp_le.
Qed.
Print Assumptions C92_limit.

(** C92: over any run of events the window grows by no more than the bytes they
    acknowledge, from its value before or the lower limit. *)
Theorem C92_growth first initial most mss pace later ops w0 w : Forall (fun o => is_event o = true) later -> Forall wsane later -> bw_all first initial most mss pace ops = Ok w0 ->
  bw_all first initial most mss pace (later ++ ops) = Ok w -> bw_lo w = bw_lo w0 /\ bw_cwnd w <= Z.max (bw_lo w0) (Z.max 0 (bw_cwnd w0)) + acked_sum later.
Proof.
  intros hf hs h0. revert w. induction later as [|o l IH]; intros w h; cbn [app acked_sum] in *; [rewrite h0 in h; injection h as <-; lia|]. inversion hf; subst. inversion hs; subst. specialize (IH H2 H4).
  cbn [bw_all] in h. destruct (bw_all _ _ _ _ _ (l ++ ops)) as [v| |]; cbn [bind] in h; try discriminate. specialize (IH v eq_refl). destruct IH as (i1 & i2). destruct o as [e| |]; try discriminate. cbn [bw_step] in h. cbn [wsane] in H3.
  assert (hn : 0 <= acked_sum l) by (clear - H4; induction H4; cbn; [lia|]; destruct x; cbn in H; lia).
  apply event_shape in h. destruct h as (q1 & _ & _ & _ & _ & (c & -> & hc) & _). rewrite q1, i1. split; auto. unfold clamp. rewrite i1 in *. destruct (we_full e); [lia|]. destruct (_ || _); lia.
Qed.
Print Assumptions C92_growth.

(** C92: a change of packet size keeps the rate unless it is to be scaled, and a
    limit changes nothing else. *)
Theorem C92_others first w new scaled hi w' : bw_step first (WMss new scaled) w = Ok w' ->
  bw_pace w' = match scaled with Some r => r | None => bw_pace w end /\ bw_mss w' = new /\
  bw_step first (WLimit hi) w = Ok (mkBw (bw_cwnd w) (bw_lo w) hi (bw_init w) (bw_mss w) (bw_pace w) (bw_acked w)).
Proof. cbn [bw_step]. unfold bw_update_mss. intros h. repeat (destruct (scale64 _ _ _); cbn [bind] in h; try discriminate). injection h as <-. auto. Qed.
Print Assumptions C92_others.

(** C92: nothing is sent with the window full, and something may be otherwise. *)
Theorem C92_can_send w flight : (bw_can_send flight w = true <-> flight < bw_cwnd w) /\ bw_limited flight w = negb (bw_can_send flight w).
Proof. unfold bw_can_send, bw_limited. split; [lia|]. destruct (flight <? bw_cwnd w) eqn:E; cbn; lia. Qed.
Print Assumptions C92_can_send.

(** C92: the pacing rate stays until there is an estimate; with the first bytes
    acknowledged it is the window over the round trip, at most the configured rate;
    until the bandwidth is known to be full it never falls, by default; and then it
    is the estimate times the gain. *)
Theorem C92_pacing first initial most mss pace ops w e w' : bw_all first initial most mss pace ops = Ok w -> bw_step first (WEvent e) w = Ok w' ->
  bw_acked w = acked_sum ops /\ (we_est e = 0 -> bw_pace w' = bw_pace w) /\
  (we_est e <> 0 -> acked_sum ops = 0 -> exists r, bw_from_bytes (bw_cwnd w) (we_rtt e) = Ok r /\ bw_pace w' = match first with Some f => Z.min r f | None => r end) /\
  (we_est e <> 0 -> acked_sum ops <> 0 -> we_full e || we_lower e = true -> bw_pace w' = we_target e) /\
  (we_est e <> 0 -> acked_sum ops <> 0 -> we_full e || we_lower e = false -> bw_pace w' = Z.max (bw_pace w) (we_target e)).
Proof.
  intros h0 h. assert (ha : bw_acked w = acked_sum ops).
  { clear h. revert w h0. induction ops as [|o ops IH]; intros w h; cbn [bw_all acked_sum] in *.
    - unfold bw_new in h. destruct (mul64 initial mss); cbn [bind] in h; try discriminate. destruct (mul64 most mss); cbn [bind] in h; try discriminate. injection h as <-. reflexivity.
    - destruct (bw_all _ _ _ _ _ ops) as [v| |]; cbn [bind] in h; try discriminate. specialize (IH v eq_refl). destruct o as [e0|new sc|hi]; cbn [bw_step] in h.
      + apply event_shape in h. destruct h as (_ & _ & _ & _ & q & _). lia.
      + unfold bw_update_mss in h. repeat (destruct (scale64 _ _ _); cbn [bind] in h; try discriminate). injection h as <-. exact IH.
      + injection h as <-. exact IH. }
  split; auto. cbn [bw_step] in h. apply event_shape in h. destruct h as (_ & _ & _ & _ & _ & _ & (r & -> & hr)). rewrite ha in *.
  destruct (we_est e =? 0) eqn:E0; [repeat split; intros; try lia|]. destruct (acked_sum ops =? 0) eqn:E1; [split; [lia|]; split; [|split; intros; lia]|].
  - intros n1 n2. destruct (hr n1 n2) as (r0 & q1 & q2). exists r0. auto.
  - split; [lia|]. split; [intros; lia|]. split; intros _ _ ->; reflexivity.
Qed.
Print Assumptions C92_pacing.
Theorem C92_startup_pacing first initial most mss pace later ops w0 w : (forall o, In o later -> exists e, o = WEvent e /\ we_full e = false /\ we_lower e = false /\ 0 <= we_acked e) -> 0 < acked_sum ops ->
  bw_all first initial most mss pace ops = Ok w0 -> bw_all first initial most mss pace (later ++ ops) = Ok w -> bw_pace w0 <= bw_pace w.
Proof.
  intros hl ha h0. revert w. induction later as [|o l IH]; intros w h; cbn [app] in h; [rewrite h0 in h; injection h as <-; lia|].
  cbn [bw_all] in h. destruct (bw_all _ _ _ _ _ (l ++ ops)) as [v| |] eqn:Ev; cbn [bind] in h; try discriminate. specialize (IH (fun x hx => hl x (or_intror hx)) v eq_refl).
  destruct (hl o (or_introl eq_refl)) as (e & -> & q1 & q2 & _). destruct (C92_pacing _ _ _ _ _ _ _ _ _ Ev h) as (_ & p1 & _ & _ & p2).
  assert (hs : 0 < acked_sum (l ++ ops)). { clear - hl ha. induction l as [|x l IHl]; cbn [app acked_sum]; auto. specialize (IHl (fun y hy => hl y (match hy with or_introl q => or_introl q | or_intror q => or_intror (or_intror q) end))). destruct (hl x (or_intror (or_introl eq_refl))) as (e0 & -> & _ & _ & q). cbn. lia. }
  destruct (Z.eq_dec (we_est e) 0) as [z|z]; [rewrite p1 by auto; exact IH|]. rewrite p2; [lia|auto|lia|rewrite q1, q2; reflexivity].
Qed.
Print Assumptions C92_startup_pacing.

(** C92: no sum or product overflows while windows stay below 2.3 gigabytes. *)
Definition wfits (most : Z) (o : wop) : Prop :=
  match o with
  | WEvent e => we_acked e <= u64_max / 4 /\ we_bdp e + we_height e <= u64_max / 2
  | WMss new _ => new <= 65535 /\ 8000000000 * (most * new) <= u64_max
  | WLimit _ => False
  end.
Theorem C92_no_panic first initial most mss pace ops : 0 <= initial <= most -> 0 < mss <= 65535 -> 8000000000 * (most * mss) <= u64_max -> Forall wsane ops -> Forall (wfits most) ops ->
  exists w, bw_all first initial most mss pace ops = Ok w.
Proof.
  intros hi hm hf hs hw. assert (hl : forall l, Forall (wfits most) l -> Forall (fun o => is_limit o = false) l) by (intros l k; induction k; constructor; auto; destruct x; auto; contradiction).
  unfold u64_max in *. induction ops as [|o ops IH]; cbn [bw_all].
  - unfold bw_new, mul64, u64_max. replace (_ <? initial * mss) with false by nia. cbn [bind]. replace (_ <? most * mss) with false by nia. cbn [bind]. eauto.
  - inversion hs; subst. inversion hw; subst. destruct (IH H2 H4) as (w & hw0). rewrite hw0. cbn [bind]. destruct (C92_within first initial most mss pace ops w hi ltac:(lia) H2 (hl _ H4) hw0) as (q1 & q2 & q3 & q4 & q5).
    assert (hmm : 0 < mss_now mss ops <= 65535 /\ 8000000000 * (most * mss_now mss ops) <= u64_max).
    { clear - hm hf H2 H4. unfold u64_max in *. induction ops as [|x l IHl]; cbn [mss_now]; auto. apply Forall_cons_iff in H2, H4. destruct H2 as (s1 & s2), H4 as (t1 & t2). destruct x; auto. unfold wsane in s1. unfold wfits in t1. unfold u64_max in *. lia. }
    unfold u64_max in hmm. set (m := mss_now mss ops) in *. assert (q6 : 0 <= initial * m <= most * m) by nia. destruct o as [e|new sc|z]; [| |destruct H3].
    + cbn [bw_step]. unfold bw_event. set (w1 := mkBw _ _ _ _ _ _ _). cbn in H1, H3. change (u64_max / 4) with 4611686018427387903 in H3. change (u64_max / 2) with 9223372036854775807 in H3.
      assert (p : exists r, bw_pacing first e w1 = Ok r).
      { unfold bw_pacing. cbn [bw_cwnd bw_acked bw_pace w1]. destruct (we_est e =? 0); [eauto|]. destruct (_ =? we_acked e); [|destruct (we_full e); [eauto|destruct (we_lower e); eauto]].
        unfold bw_from_bytes. destruct (bw_cwnd w =? 0); [cbn [bind]; eauto|]. cbv zeta. unfold mul64, nanos_per_second, u64_max. replace (_ <? 8 * bw_cwnd w) with false by lia. cbn [bind]. replace (_ <? 8 * bw_cwnd w * 1000000000) with false by lia. cbn [bind]. destruct (_ <? _); cbn [bind]; eauto. }
      destruct p as (r & ->). cbn [bind].
      assert (c : exists c, bw_window e w1 = Ok c).
      { unfold bw_window. cbn [bw_cwnd bw_lo bw_hi bw_init w1]. unfold add64, mul64, u64_max. destruct (we_full e).
        - replace (_ <? Z.max (we_bdp e) (bw_lo w) + we_height e) with false by lia. cbn [bind]. replace (_ <? bw_cwnd w + we_acked e) with false by lia. cbn [bind]. eauto.
        - replace (_ <? 2 * bw_init w) with false by lia. cbn [bind]. replace (_ <? bw_cwnd w + we_acked e) with false by lia. destruct (_ || _); cbn [bind]; eauto. }
      destruct c as (c & ->). cbn [bind]. eauto.
    + cbn [bw_step]. cbn in H1, H3. unfold u64_max in H3. assert (sc_ok : forall v, 0 <= v <= most * m -> exists x, scale64 v new (bw_mss w) = Ok x).
      { intros v hv. unfold scale64, mul64, u64_max. replace (_ <? v * new) with false by nia. cbn [bind]. rewrite q1. replace (m =? 0) with false by lia. eauto. }
      unfold bw_update_mss. destruct (sc_ok (bw_hi w) ltac:(lia)) as (? & ->). destruct (sc_ok (bw_lo w) ltac:(lia)) as (? & ->). destruct (sc_ok (bw_cwnd w) ltac:(lia)) as (? & ->). destruct (sc_ok (bw_init w) ltac:(lia)) as (? & ->). cbn [bind]. eauto.
Qed.
Print Assumptions C92_no_panic.

(** Beside them: two events in startup, a change of packet size, and one after *)
Definition C92_ops : list wop :=
  [WEvent (mkWe 3000 9000000 11250000 100000000 true 40000 500 50000 false); WMss 1300 None;
   WEvent (mkWe 2400 8000000 23080000 100000000 false 20000 0 u64_max false); WEvent (mkWe 1200 8000000 23080000 100000000 false 20000 0 u64_max false)].
Example C92_witness : Forall wsane C92_ops /\ Forall (wfits 10000) C92_ops /\ 8000000000 * (10000 * 1200) <= u64_max /\
  (exists w, bw_all None 10 10000 1200 2000000 C92_ops = Ok w /\ bw_cwnd w = 19900 /\ bw_mss w = 1300 /\ bw_lo w = 13000 /\ bw_hi w = 13000000 /\ bw_pace w = 11250000 /\ mss_now 1200 C92_ops = 1300) /\
  (exists w, bw_all (Some 500000) 10 10000 1200 2000000 (skipn 3 C92_ops) = Ok w /\ bw_cwnd w = 13200 /\ bw_pace w = 500000 /\ bw_can_send 13199 w = true /\ bw_can_send 13200 w = false) /\
  (exists w, bw_all None 10 10000 1200 2000000 (WEvent (mkWe 1200 8000000 1 100000000 false 20000 0 u64_max false) :: WLimit 5000 :: skipn 3 C92_ops) = Ok w /\ bw_cwnd w = 5000 /\ bw_pace w = 960000).
Proof.
  split; [repeat constructor; cbn; unfold u64_max; lia|]. split; [repeat constructor; cbn; vm_compute; discriminate|]. split; [vm_compute; discriminate|].
  split; [eexists; split; [vm_compute; reflexivity|]; vm_compute; repeat split|]. split; [eexists; split; [vm_compute; reflexivity|]; vm_compute; repeat split|]. eexists; split; [vm_compute; reflexivity|]; vm_compute; repeat split.
Qed.

(** C92: a limit can stop the sender: the pacer computes it from the greatest rate
    and the round trip alone, so it can be 0, below the lower limit; from the next
    event on nothing can be sent, even with nothing in flight, whatever is
    acknowledged, until the limit changes. *)
Theorem C92_always_can_send_refuted : ~ (forall first initial most mss pace ops e w, 0 < initial <= most -> 0 < mss -> Forall wsane ops -> wsane (WEvent e) -> 0 < we_cap e ->
  bw_all first initial most mss pace (WEvent e :: ops) = Ok w -> bw_can_send 0 w = true).
Proof.
  intros k. set (e := mkWe 1200 8000000 23080000 100000 false 20000 0 1000000 false).
  specialize (k None 10 10000 1200 2000000 [WLimit 0] e). cbn in k. specialize (k _ ltac:(lia) ltac:(lia) ltac:(repeat constructor; cbn; lia) ltac:(unfold u64_max; lia) ltac:(lia) eq_refl). discriminate k.
Qed.
Print Assumptions C92_always_can_send_refuted.
(** C92: the greatest window does not bound the initial one. *)
Theorem C92_initial_within_greatest_refuted : ~ (forall initial most mss pace w, 0 < initial -> 0 < most -> 0 < mss -> bw_all None initial most mss pace [] = Ok w -> bw_cwnd w <= bw_hi w).
Proof. intros k. specialize (k 20 10 1200 1 _ ltac:(lia) ltac:(lia) ltac:(lia) eq_refl). cbn in k. lia. Qed.
Print Assumptions C92_initial_within_greatest_refuted.
(** C92: a limit lower than the window does not bind before the next congestion
    event, which may be a round trip away. *)
Theorem C92_limit_at_once_refuted : ~ (forall first initial most mss pace ops hi w, 0 < initial <= most -> 0 < mss -> Forall wsane ops -> bw_all first initial most mss pace (WLimit hi :: ops) = Ok w -> bw_cwnd w <= hi).
Proof. intros k. specialize (k None 10 10000 1200 1 [] 5000 _ ltac:(lia) ltac:(lia) ltac:(constructor) eq_refl). cbn in k. lia. Qed.
Print Assumptions C92_limit_at_once_refuted.
