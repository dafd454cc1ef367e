(** C88: packets are released no faster than the pacing rate, over all histories. *)
Require Import Verif.Base Verif.BwModel Verif.PacerModel Verif.PacerSpec Verif.PacerProofs.

(** C88: no history makes the pacer fail. *)
Theorem C88_never_fails to_now enabled cap es : exists p l, pc_run to_now (pacer_new enabled cap) es = Ok (p, l).
Proof. destruct (pc_run_ok to_now es _ (pc_new_inv enabled cap)) as (p & l & h & _). eauto. Qed.
Print Assumptions C88_never_fails.

Lemma send_time_now p now : now <= pc_send_time p now /\ (pc_enabled p = false -> pc_send_time p now = now).
Proof.
  unfold pc_send_time, pc_release, rd_time. destruct (pc_enabled p); cbn [negb fst].
  - destruct (pc_next p); [split; [lia|discriminate]|]. destruct (_ <? _) eqn:E; split; try discriminate; lia.
  - split; auto. lia.
Qed.

Lemma run_times to_now es : forall p p' l, pc_run to_now p es = Ok (p', l) ->
  map fst l = flat_map (fun e => match e with PSend k => [k] | _ => [] end) es /\
  forall k t, In (k, t) l -> k_now k <= t /\ (pc_enabled p = false -> t = k_now k).
Proof.
  induction es as [|e es IH]; intros p p' l h; cbn [pc_run] in h; [injection h as <- <-; split; [reflexivity|intros k t []]|].
  destruct (pc_step to_now p e) as [[p1 o]| |] eqn:Es; cbn [bind] in h; try discriminate.
  destruct (pc_run to_now p1 es) as [[p2 l']| |] eqn:Er; cbn [bind] in h; try discriminate. injection h as <- <-.
  destruct (IH _ _ _ Er) as (i1 & i2). destruct (pc_step_keeps _ _ _ _ _ Es) as (k1 & _). rewrite k1 in i2.
  destruct e as [k|lost|]; cbn [pc_step] in Es.
  - destruct (pc_packet to_now p k) as [q| |] eqn:Ep; cbn [bind] in Es; try discriminate. injection Es as <- <-. cbn [map fst flat_map app]. split; [f_equal; exact i1|].
    intros k' t [e|e]; [|exact (i2 _ _ e)]. injection e as <- <-. destruct (send_time_now q (k_now k)) as (s1 & s2). split; auto. intros he. apply s2. rewrite k1. exact he.
  - injection Es as <- <-. cbv iota. split; auto.
  - injection Es as <- <-. cbv iota. split; auto.
Qed.

(** C88: every packet gets a release time, never before the time it was made;
    and without pacing, exactly then. *)
Theorem C88_never_in_the_past to_now enabled cap es p l : pc_run to_now (pacer_new enabled cap) es = Ok (p, l) ->
  map fst l = flat_map (fun e => match e with PSend k => [k] | _ => [] end) es /\
  forall k t, In (k, t) l -> k_now k <= t /\ (enabled = false -> t = k_now k).
Proof. apply run_times. Qed.
Print Assumptions C88_never_in_the_past.

(** C88: over any stretch of any history in which the connection does not leave
    quiescence, all but the first ten packets at most are released no faster than
    any rate that bounds the pacing rate, whatever losses and pauses come between. *)
Theorem C88_no_faster to_now cap rate before stretch p1 l1 p2 l :
  pc_run to_now (pacer_new true cap) before = Ok (p1, l1) ->
  pc_run to_now (pacer_new true cap) (before ++ stretch) = Ok (p2, l) ->
  existsb leaves_idle stretch = false -> Forall (rated cap rate) stretch ->
  exists burst paced, charges l = charges l1 ++ burst ++ paced /\ zlen burst <= 10 /\ no_faster rate paced.
Proof.
  intros h1 h2 hi hr. rewrite (pc_run_app _ _ _ _ _ _ h1) in h2.
  destruct (pc_run to_now p1 stretch) as [[q l2]| |] eqn:E; cbn [bind] in h2; try discriminate. injection h2 as <- <-.
  destruct (pc_run_keeps _ _ _ _ _ h1) as (k1 & k2). cbn [pacer_new pc_enabled pc_max] in k1, k2.
  destruct (pc_run_ok to_now before _ (pc_new_inv true cap)) as (p1' & l1' & e & (_ & i)). rewrite h1 in e. injection e as <- <-.
  assert (hi' : forallb (fun e => negb (leaves_idle e)) stretch = true).
  { apply forallb_forall. intros x hx. apply Bool.negb_true_iff. destruct (leaves_idle x) eqn:El; auto.
    assert (existsb leaves_idle stretch = true) by (apply existsb_exists; eauto). congruence. }
  rewrite <- k2 in hr. destruct (pc_split _ _ _ _ _ _ E k1 hi' hr) as (a & b & e1 & e2 & e3).
  exists a, b. unfold charges in *. rewrite filter_app, e1. split; auto. split; auto. unfold initial_unpaced_burst in i. lia.
Qed.
Print Assumptions C88_no_faster.

(** C88: in particular a configured maximum rate is kept to, whatever the
    controller asks for. *)
Theorem C88_maximum_rate_kept to_now cap before stretch p1 l1 p2 l : 0 < cap ->
  pc_run to_now (pacer_new true (Some cap)) before = Ok (p1, l1) ->
  pc_run to_now (pacer_new true (Some cap)) (before ++ stretch) = Ok (p2, l) ->
  existsb leaves_idle stretch = false ->
  (forall k, In (PSend k) stretch -> 0 <= k_bytes k <= 65535 /\ 0 < k_rate k) ->
  exists burst paced, charges l = charges l1 ++ burst ++ paced /\ zlen burst <= 10 /\ no_faster cap paced.
Proof.
  intros hc h1 h2 hi hk. apply (C88_no_faster to_now (Some cap) cap before stretch p1 l1 p2 l h1 h2 hi). apply Forall_forall. intros e he.
  destruct e as [k| |]; cbn [rated]; auto. destruct (hk k he) as (a & b). unfold capped, u64_max. lia.
Qed.
Print Assumptions C88_maximum_rate_kept.

(** C88: after a loss nothing is released unpaced until the connection next leaves
    quiescence. *)
Theorem C88_no_burst_after_loss to_now cap rate before stretch p1 l1 p2 l :
  pc_run to_now (pacer_new true cap) before = Ok (p1, l1) ->
  pc_run to_now (pacer_new true cap) (before ++ PCongestion true :: stretch) = Ok (p2, l) ->
  existsb leaves_idle stretch = false -> Forall (rated cap rate) stretch ->
  exists paced, charges l = charges l1 ++ paced /\ no_faster rate paced.
Proof.
  intros h1 h2 hi hr. rewrite (pc_run_app _ _ _ _ _ _ h1) in h2. cbn [pc_run pc_step bind] in h2.
  destruct (pc_run_keeps _ _ _ _ _ h1) as (k1 & k2). cbn [pacer_new pc_enabled pc_max] in k1, k2.
  destruct (pc_run to_now (pc_congestion p1 true) stretch) as [[q l2]| |] eqn:E; cbn [bind] in h2; try discriminate. injection h2 as <- <-.
  assert (hi' : forallb (fun e => negb (leaves_idle e)) stretch = true).
  { apply forallb_forall. intros x hx. apply Bool.negb_true_iff. destruct (leaves_idle x) eqn:El; auto.
    assert (existsb leaves_idle stretch = true) by (apply existsb_exists; eauto). congruence. }
  exists (charges l2). split; [unfold charges; rewrite filter_app; reflexivity|].
  unfold pc_congestion in E. rewrite k1 in E. cbn [negb] in E. rewrite <- k2 in hr.
  exact (pc_paced _ _ _ _ _ _ E eq_refl ltac:(cbn; lia) hi' hr).
Qed.
Print Assumptions C88_no_burst_after_loss.

(** C88: leaving quiescence, the unpaced packets are at most ten, and at most a
    window's worth. *)
Theorem C88_burst_within_window to_now cap rate before k stretch p1 l1 p2 l :
  pc_run to_now (pacer_new true cap) before = Ok (p1, l1) ->
  pc_run to_now (pacer_new true cap) (before ++ PSend k :: stretch) = Ok (p2, l) ->
  leaves_idle (PSend k) = true -> 1 <= k_cwnd_pkts k -> existsb leaves_idle stretch = false -> Forall (rated cap rate) stretch ->
  exists burst paced, charges l = charges l1 ++ burst ++ paced /\ zlen burst <= Z.min 10 (k_cwnd_pkts k) /\ no_faster rate paced.
Proof.
  intros h1 h2 hl hc hi hr. rewrite (pc_run_app _ _ _ _ _ _ h1) in h2. cbn [pc_run pc_step] in h2.
  destruct (pc_run_keeps _ _ _ _ _ h1) as (k1 & k2). cbn [pacer_new pc_enabled pc_max] in k1, k2.
  cbn [leaves_idle] in hl. apply andb_prop in hl as (hl & l3). apply andb_prop in hl as (l1' & l2').
  assert (e : pc_packet to_now p1 k = Ok (MkPacer (pc_enabled p1) (pc_max p1) (Z.min 10 (k_cwnd_pkts k) - 1) Immediate (pc_lumpy p1) false)).
  { unfold pc_packet, pc_sent. unfold charged in l1'. apply andb_prop in l1' as (a & b). rewrite a, b, k1, l2', l3. cbn [negb orb andb]. cbv zeta.
    unfold initial_unpaced_burst. replace (0 <? Z.min 10 (k_cwnd_pkts k)) with true by lia. reflexivity. }
  rewrite e in h2. cbn [bind] in h2. set (q := MkPacer _ _ _ _ _ _) in *.
  destruct (pc_run to_now q stretch) as [[q2 l2]| |] eqn:E; cbn [bind] in h2; try discriminate. injection h2 as <- <-.
  assert (hi' : forallb (fun e => negb (leaves_idle e)) stretch = true).
  { apply forallb_forall. intros x hx. apply Bool.negb_true_iff. destruct (leaves_idle x) eqn:El; auto.
    assert (existsb leaves_idle stretch = true) by (apply existsb_exists; eauto). congruence. }
  rewrite <- k2 in hr. destruct (pc_split _ _ _ q _ _ E k1 hi' hr) as (a & b & e1 & e2 & e3). cbn [pc_burst q] in e2.
  eexists (_ :: a), b. unfold charges in *. rewrite filter_app. cbn [filter fst]. rewrite l1'. rewrite e1. split; [reflexivity|]. split; auto. rewrite zlen_cons. lia.
Qed.
Print Assumptions C88_burst_within_window.

(** C88: below 1.2 Mbit/s, with the window filled, or with a window under eight
    packets, a paced packet may not have another appended to its burst. *)
Theorem C88_slow_sends_single to_now cap before k p1 l1 p2 t :
  pc_run to_now (pacer_new true cap) before = Ok (p1, l1) -> pc_step to_now p1 (PSend k) = Ok (p2, Some t) ->
  charged k = true -> pc_next p2 <> Immediate ->
  k_estimate k < 1200000 \/ k_cwnd k <= k_before k + k_bytes k \/ k_cwnd_pkts k < 8 ->
  snd (pc_release p2) = false.
Proof.
  intros h1 h2 hc hn hs. destruct (pc_run_ok to_now before _ (pc_new_inv true cap)) as (p1' & l1' & e & (i1 & i2)). rewrite h1 in e. injection e as <- <-.
  destruct (pc_run_keeps _ _ _ _ _ h1) as (k1 & _). cbn [pacer_new pc_enabled] in k1.
  cbn [pc_step] in h2. destruct (pc_packet to_now p1 k) as [q| |] eqn:E; cbn [bind] in h2; try discriminate. injection h2 as <- _.
  unfold pc_packet, pc_sent in E. unfold charged in hc. apply andb_prop in hc as (a & b). rewrite a, b, k1 in E. cbn [negb orb] in E. cbv zeta in E.
  set (bu := if _ && _ then _ else pc_burst p1) in E. destruct (0 <? bu) eqn:Eb; [injection E as <-; cbn [pc_next] in hn; congruence|].
  set (lu := if negb (pc_limited p1) || _ then _ else pc_lumpy p1) in E.
  destruct (lu <? 1) eqn:El; [discriminate|]. injection E as <-. unfold pc_release. cbn [pc_enabled negb pc_burst pc_lumpy snd]. rewrite Eb. cbn [orb].
  assert (lu <= 1); [|lia]. unfold lu, lumpy_size, lumpy_min_bandwidth. destruct (negb (pc_limited p1) || (pc_lumpy p1 =? 0)); [|lia].
  destruct (k_cwnd k <=? k_before k + k_bytes k) eqn:E1; [lia|]. destruct (k_estimate k <? 1200000) eqn:E2; [lia|].
  assert (k_cwnd_pkts k < 8) by lia. lia.
Qed.
Print Assumptions C88_slow_sends_single.

(** C88: while the controller would allow more, and the application keeps up, no
    two paced packets in a row may both have another appended: bursts are of two. *)
Theorem C88_bursts_of_two to_now cap before k k' p1 l1 p2 t p3 t' :
  pc_run to_now (pacer_new true cap) before = Ok (p1, l1) ->
  pc_step to_now p1 (PSend k) = Ok (p2, Some t) -> pc_step to_now p2 (PSend k') = Ok (p3, Some t') ->
  charged k = true -> charged k' = true -> pc_next p2 <> Immediate -> pc_next p3 <> Immediate -> k_can_send k = true ->
  snd (pc_release p2) = true -> snd (pc_release p3) = false.
Proof.
  intros h1 h2 h3 hc hc' hn hn' hs. destruct (pc_run_ok to_now before _ (pc_new_inv true cap)) as (p1' & l1' & e & hi). rewrite h1 in e. injection e as <- <-.
  destruct (pc_run_keeps _ _ _ _ _ h1) as (k1 & _). cbn [pacer_new pc_enabled] in k1.
  destruct (pc_step_ok to_now _ (PSend k) hi) as (? & ? & e & (hi2 & _)). rewrite h2 in e. injection e as <- <-.
  destruct (pc_step_keeps _ _ _ _ _ h2) as (k2 & _). rewrite k1 in k2.
  assert (paced : forall p q kk tt, pc_enabled p = true -> charged kk = true -> pc_step to_now p (PSend kk) = Ok (q, Some tt) -> pc_next q <> Immediate ->
    pc_burst q <= 0 /\ pc_limited q = k_can_send kk /\ (pc_limited p = true -> 0 < pc_lumpy p -> pc_lumpy q = pc_lumpy p - 1)).
  { clear. intros p q kk tt he hc h hn. cbn [pc_step] in h. destruct (pc_packet to_now p kk) as [q'| |] eqn:E; cbn [bind] in h; try discriminate. injection h as <- _.
    unfold pc_packet, pc_sent in E. unfold charged in hc. apply andb_prop in hc as (a & b). rewrite a, b, he in E. cbn [negb orb] in E. cbv zeta in E.
    set (bu := if _ && _ then _ else pc_burst p) in E. destruct (0 <? bu) eqn:Eb; [injection E as <-; cbn [pc_next] in hn; congruence|].
    match type of E with (if ?c then _ else _) = _ => destruct c end; [discriminate|]. injection E as <-. cbn [pc_burst pc_limited pc_lumpy].
    split; [lia|]. split; auto. intros l1 l2. rewrite l1. cbn [negb orb]. replace (pc_lumpy p =? 0) with false by lia. reflexivity. }
  destruct (paced _ _ _ _ k1 hc h2 hn) as (b1 & b2 & _). destruct (paced _ _ _ _ k2 hc' h3 hn') as (c1 & c2 & c3).
  destruct (pc_step_keeps _ _ _ _ _ h3) as (k3 & _). rewrite k2 in k3. unfold pc_release. rewrite k2, k3. cbn [negb snd]. intros hb.
  apply Bool.orb_true_iff in hb as [hb|hb]; [lia|]. rewrite c3; [|congruence|lia]. apply Bool.orb_false_iff. lia.
Qed.
Print Assumptions C88_bursts_of_two.

(** C88: two decisions count as for the same time exactly when the release times
    they lead to are within 50 microseconds. *)
Theorem C88_same_time a b now : rd_time_eq a b now = true <->
  let at_ r := match r with Immediate => now | At t => Z.max now t end in Z.abs (at_ a - at_ b) <= 50000.
Proof.
  unfold rd_time_eq, rd_time, equal_threshold. destruct a as [|t], b as [|u]; cbv zeta.
  - lia.
  - destruct (now <? u) eqn:E; lia.
  - destruct (now <? t) eqn:E; lia.
  - destruct (now <? t) eqn:E1, (now <? u) eqn:E2; try lia. destruct (t <? u) eqn:E; lia.
Qed.
Print Assumptions C88_same_time.

(** A packet of 1200 bytes at time [now] with [before] bytes in flight, in a
    window of ten packets at 8 Mbit/s *)
Definition ex_pkt (now before : Z) : pevent := PSend (MkPkt now true true 1200 before false 10 12000 8000000 8000000 true).
(** Twelve packets at once *)
Definition ex_twelve : list pevent := map (fun i => ex_pkt 0 (1200 * Z.of_nat i)) (seq 0 12).

Lemma ex_rated cap now n : Forall (rated cap 8000000) (map (fun i => ex_pkt now (1200 * Z.of_nat i)) n) <-> n = [] \/ 0 < capped cap 8000000 <= 8000000.
Proof.
  rewrite Forall_forall. split.
  - intros h. destruct n as [|i n]; [auto|]. right. specialize (h _ (or_introl eq_refl)). cbn in h. lia.
  - intros h x hx. apply in_map_iff in hx as (i & <- & hi). destruct h as [->|h]; [contradiction|]. cbn [ex_pkt rated k_bytes k_rate]. unfold u64_max. lia.
Qed.

Definition ex_zero_events : list pevent := map (fun i => ex_pkt 0 (1200 * Z.of_nat i)) (seq 1 13).
Definition ex_zero_state : pacer := Eval vm_compute in match pc_run true (pacer_new true (Some 0)) ex_zero_events with Ok (p, _) => p | _ => pacer_new true None end.
Definition ex_zero_trace : list (pkt * Z) := Eval vm_compute in match pc_run true (pacer_new true (Some 0)) ex_zero_events with Ok (_, l) => l | _ => [] end.
Lemma ex_zero_run : pc_run true (pacer_new true (Some 0)) ex_zero_events = Ok (ex_zero_state, ex_zero_trace).
Proof. vm_compute. reflexivity. Qed.
Definition ex_back_events : list pevent := ex_twelve ++ [ex_pkt 1000 0].
Definition ex_back_state : pacer := Eval vm_compute in match pc_run true (pacer_new true None) ex_back_events with Ok (p, _) => p | _ => pacer_new true None end.
Definition ex_back_trace : list (pkt * Z) := Eval vm_compute in match pc_run true (pacer_new true None) ex_back_events with Ok (_, l) => l | _ => [] end.
Lemma ex_back_run : pc_run true (pacer_new true None) ex_back_events = Ok (ex_back_state, ex_back_trace).
Proof. vm_compute. reflexivity. Qed.
Definition ex_none : pkt * Z := (MkPkt 0 true true 0 0 true 0 0 0 0 true, 0).

(** The maximum rate is kept to if it is not zero. *)
Definition C88_any_maximum_kept : Prop :=
  forall cap es p l, 0 <= cap -> pc_run true (pacer_new true (Some cap)) es = Ok (p, l) ->
  existsb leaves_idle es = false -> Forall (rated None 8000000) es ->
  exists burst paced, charges l = burst ++ paced /\ zlen burst <= 10 /\ no_faster cap paced.
(** A maximum pacing rate of zero does not stop the sender, nor leave it at its own
    rate: it removes all pacing, for the time to transfer at rate zero is zero. *)
Theorem C88_any_maximum_kept_refuted : ~ C88_any_maximum_kept.
Proof.
  intros h. assert (hr : Forall (rated None 8000000) ex_zero_events) by (apply ex_rated; right; cbn; lia).
  destruct (h 0 ex_zero_events _ _ ltac:(lia) ex_zero_run eq_refl hr) as (a & b & e1 & e2 & e3).
  assert (hl : length (charges ex_zero_trace) = 13%nat) by (vm_compute; reflexivity).
  assert (hf : Forall (fun x => k_bytes (fst x) = 1200) (charges ex_zero_trace)) by (vm_compute; repeat constructor).
  rewrite e1 in hl, hf. rewrite app_length in hl. unfold zlen in e2. apply Forall_app in hf as (_ & hf).
  destruct b as [|x [|y b]]; cbn [length] in hl; try lia.
  specialize (e3 [] x [] y b eq_refl). inversion hf as [|? ? _ hf']; subst. inversion hf' as [|? ? hy _]; subst.
  cbn [app bytes_of fold_right] in e3. rewrite hy in e3. lia.
Qed.
Print Assumptions C88_any_maximum_kept_refuted.

(** Release times do not go back while the clock does not. *)
Definition C88_released_in_order : Prop :=
  forall cap es p l x y l1 l2 l3, pc_run true (pacer_new true cap) es = Ok (p, l) -> Forall (rated cap 8000000) es ->
  l = l1 ++ x :: l2 ++ y :: l3 -> k_now (fst x) <= k_now (fst y) -> snd x <= snd y.
(** A packet that finds nothing in flight is released at once, and what the pacer
    held back before is forgotten: it may be told to go before a packet that was
    made earlier and then stopped counting as in flight. *)
Theorem C88_released_in_order_refuted : ~ C88_released_in_order.
Proof.
  intros h. assert (hr : Forall (rated None 8000000) ex_back_events) by (apply Forall_app; split; [apply ex_rated; right; cbn; lia|]; constructor; [cbn; unfold u64_max; lia|constructor]).
  specialize (h None ex_back_events _ _ (nth 11 ex_back_trace ex_none) (nth 12 ex_back_trace ex_none) (firstn 11 ex_back_trace) [] [] ex_back_run hr eq_refl).
  vm_compute in h. apply h; [discriminate|reflexivity].
Qed.
Print Assumptions C88_released_in_order_refuted.

(** Ten packets go at once, and the next are 1.2 ms apart. *)
Example C88_witness :
  match pc_run true (pacer_new true (Some 8000000)) ex_twelve with
  | Ok (p, l) => map snd l = [0; 0; 0; 0; 0; 0; 0; 0; 0; 0; 1200000; 2400000] /\ snd (pc_release p) = false
  | _ => False
  end /\ existsb leaves_idle (tl ex_twelve) = false /\ Forall (rated (Some 8000000) 8000000) ex_twelve.
Proof. split; [vm_compute; split; reflexivity|]. split; [vm_compute; reflexivity|]. apply ex_rated. right. cbn. lia. Qed.
Example C88_witness_burst :
  match pc_run true (pacer_new true None) [PCongestion true; ex_pkt 0 1200] with
  | Ok (p, l) => map snd l = [1200000] /\ snd (pc_release p) = true
  | _ => False
  end /\ rd_time_eq (At 5) Immediate 3 = true.
Proof. vm_compute. repeat split. Qed.
