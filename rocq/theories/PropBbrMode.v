(** C93: the modes of BBR2 and the phases of its probing cycle, over every history of
    congestion events and sends, whatever the network model answers. *)
Require Import Verif.Base Verif.BbrModeModel Verif.BbrModeProofs.

Definition I1 (p : mpar) (m : mode) (n : netw) : Prop :=
  match m with
  | MStartup => nw_full n = false /\ nw_adv n = 0 /\ nw_cycles n = 0
  | MDrain c => nw_full n = true /\ (exists t, c = cy_default t) /\ nw_adv n = 0 /\ nw_cycles n = 0
  | MProbe c => nw_full n = true /\ PB1 p c
  | MRtt c _ => nw_full n = true /\ PB1 p c /\ (cy_phase c = PCruise \/ cy_phase c = PRefill)
  end.
Definition I2 (t : Z) (m : mode) (n : netw) : Prop := match m with MProbe c | MRtt c _ => PB2 t c n | _ => True end.
Definition I3 (P : Z -> Prop) (m : mode) : Prop := match m with MRtt _ (Some x) => P x | _ => True end.
Definition rank (m : mode) : Z := match m with MStartup => 0 | MDrain _ => 1 | _ => 2 end.

Lemma PB2_mono t u c n : PB2 t c n -> t <= u -> PB2 u c n.
Proof. intros (a & b & c0 & d) h. unfold PB2. repeat split; auto; try lia; apply d; auto. Qed.
Lemma I2_mono t u m n : I2 t m n -> t <= u -> I2 u m n.
Proof. destruct m; cbn; auto; apply PB2_mono. Qed.
Lemma enter_again p now c n c' n' : PB1 p c -> cy_phase c = PCruise \/ cy_phase c = PRefill -> pb_enter p now c n = (c', n') -> PB1 p c' /\ nw_full n' = nw_full n /\ (forall t, PB2 t c n -> t <= now -> PB2 now c' n').
Proof.
  intros (a1 & a2 & a3 & a4 & a5 & a6) hp h. unfold pb_enter in h. set (d := mkCy _ _ _ _ _ _ _ _ _ _ _ _ _) in h. cbv zeta in h. change (cy_phase d) with (cy_phase c) in h.
  assert (k : exists ph, ph <> PNone /\ forall t, entered t now d n ph c' n' /\ cy_uprounds c' = cy_uprounds c).
  { destruct hp as [E|E]; rewrite E in h; [exists PCruise|exists PRefill]; (split; [discriminate|]); intros t; [exact (cruise_entered t now d n c' n' h)|exact (refill_entered _ t now d n c' n' h)]. }
  destruct k as (ph & np & k). destruct (k now) as (k1 & k2). split; [eapply entered_PB1; eauto; rewrite k2; exact a3|]. split; [apply k1|]. intros t h1 h2. destruct (k t) as (k3 & _). apply k3; auto.
Qed.
Lemma enter_first p now t0 n c' n' : nw_adv n = 0 -> nw_cycles n = 0 -> pb_enter p now (cy_default t0) n = (c', n') -> PB1 p c' /\ nw_full n' = nw_full n /\ PB2 now c' n' /\ nw_hi n' = nw_hi n.
Proof.
  intros h1 h2 h. cbn in h. unfold enter_down in h. injection h as <- <-. unfold PB1, PB2. cbn. rewrite h1, h2. repeat split; auto; try discriminate; try lia. intros. congruence.
Qed.
Lemma event_inv p e m n : I1 p m n -> exists m' n' ch, mode_event p e m n = Ok (m', n', ch) /\ I1 p m' n' /\ (forall t, I2 t m n -> t <= me_time e -> I2 (me_time e) m' n') /\ rank m <= rank m' /\
  (forall P : Z -> Prop, I3 P m -> (me_flight e <= me_target e -> P (me_time e + mp_rtt p)) -> I3 P m') /\ (nw_hi n' < nw_hi n -> me_high e = true \/ me_loss e = true /\ m = MStartup).
Proof.
  intros h. destruct m as [|c|c|c x]; cbn [I1] in h; cbn [mode_event].
  - destruct h as (h1 & h2 & h3). assert (k : exists m' n', startup_event p e n = (m', n') /\ (m' = MStartup /\ n' = n \/ (exists t, m' = MDrain (cy_default t)) /\ nw_full n' = true /\ nw_adv n' = 0 /\ nw_cycles n' = 0 /\ (nw_hi n' = nw_hi n \/ me_loss e = true))).
    { destruct n as [nf nh na nc]; cbn in h1, h2, h3; subst nf na nc. unfold startup_event. cbn [nw_full]. destruct (me_end e); [|do 2 eexists; split; [reflexivity|]; auto]. cbn [negb]. cbv zeta. destruct (me_growth e); cbn [negb andb].
      - rewrite !Bool.andb_false_r. cbn. do 2 eexists; split; [reflexivity|]; auto.
      - destruct (me_plateau e), (mp_squeue p), (me_queue e), (me_app e), (me_loss e); cbn; do 2 eexists; (split; [reflexivity|]); auto; right; cbn; eauto 10. }
    destruct k as (m' & n' & -> & [(-> & ->)|((t & ->) & k1 & k2 & k3 & k4)]); do 3 eexists; (split; [reflexivity|]); cbn; repeat split; auto; try lia; eauto. intros. destruct k4; auto. lia.
  - destruct h as (h1 & (t0 & ->) & h2 & h3). unfold drain_event. destruct (_ <=? _).
    + unfold probe_mode. destruct (pb_enter p (me_time e) (cy_default t0) n) as [c' n'] eqn:E. pose proof (enter_first _ _ _ _ _ _ h2 h3 E) as (k1 & k2 & k3 & k4). do 3 eexists. split; [reflexivity|]. cbn [I1 I2 fst snd]. split; [split; [congruence|exact k1]|]. split; [intros; exact k3|]. split; [cbn; lia|]. split; [cbn; auto|cbn [snd]; lia].
    + do 3 eexists. split; [reflexivity|]. cbn. repeat split; auto; try lia. eauto.
  - destruct h as (h1 & h2). destruct (pb_good p e c n h2) as (c' & n' & sw & -> & g & hs). pose proof g as (g1 & g2 & g3 & g4 & g5 & _). cbn [bind].
    assert (hh : nw_hi n' < nw_hi n -> me_high e = true \/ me_loss e = true /\ MProbe c = MStartup) by (intros k; left; apply (g5 k)).
    destruct sw; do 3 eexists; (split; [reflexivity|]); cbn; (split; [|split; [exact g2|]; split; [lia|]; split; [auto|exact hh]]).
    + split; [congruence|]. split; [exact g1|]. destruct (hs eq_refl) as (k1 & k2 & _). unfold phase_step in g4. rewrite k1 in g4. destruct g4 as [k|[(_ & k)|[(k & _)|[(k & _)|(k & _)]]]]; try congruence.
    + split; [congruence|exact g1].
  - destruct h as (h1 & h2 & h3). unfold rtt_event. destruct x as [x|].
    + destruct (x <? me_time e).
      * unfold probe_mode. destruct (pb_enter p (me_time e) c n) as [c' n'] eqn:E. pose proof (enter_again _ _ _ _ _ _ h2 h3 E) as (k1 & k2 & k3). do 3 eexists. split; [reflexivity|]. cbn. split; [split; [congruence|exact k1]|]. split; [exact k3|]. split; [lia|]. split; [auto|].
        intros k. exfalso. revert k. unfold pb_enter, enter_cruise, enter_refill in E. cbn in E. destruct h3 as [q|q]; rewrite q in E; cbn in E; injection E as <- <-; lia.
      * do 3 eexists. split; [reflexivity|]. cbn. split; [auto|]. split; [intros t k k2; exact (PB2_mono _ _ _ _ k k2)|]. split; [lia|]. split; [auto|lia].
    + do 3 eexists. split; [reflexivity|]. cbn. split; [auto|]. split; [intros t k k2; exact (PB2_mono _ _ _ _ k k2)|]. split; [lia|]. split; [|lia]. intros P _ hP. destruct (me_flight e <=? me_target e) eqn:E; auto. apply hP. lia.
Qed.
Lemma loop_inv p e f : forall m n, I1 p m n -> exists m' n', mode_loop p e f m n = Ok (m', n') /\ I1 p m' n' /\ (forall t, I2 t m n -> t <= me_time e -> I2 (me_time e) m' n') /\ rank m <= rank m' /\
  (forall P : Z -> Prop, I3 P m -> (me_flight e <= me_target e -> P (me_time e + mp_rtt p)) -> I3 P m') /\ (nw_hi n' < nw_hi n -> me_high e = true \/ me_loss e = true /\ m = MStartup).
Proof.
  induction f as [|f IH]; intros m n h; cbn [mode_loop].
  - exists m, n. split; [reflexivity|]. repeat split; auto; try lia. intros t k1 k2. exact (I2_mono _ _ _ _ k1 k2).
  - destruct (event_inv p e m n h) as (m1 & n1 & ch & -> & k1 & k2 & k3 & k4 & k5). cbn [bind]. destruct ch; [|exists m1, n1; auto 10]. destruct (IH m1 n1 k1) as (m' & n' & -> & j1 & j2 & j3 & j4 & j5). exists m', n'. split; [reflexivity|].
    split; [exact j1|]. split; [intros t q1 q2; apply (j2 (me_time e)); [apply (k2 t q1 q2)|lia]|]. split; [lia|]. split; [intros P q1 q2; apply j4; auto|].
    intros q. destruct (Z_lt_ge_dec (nw_hi n1) (nw_hi n)) as [z|z]; [apply (k5 z)|]. destruct (j5 ltac:(lia)) as [j|(j & jm)]; [auto|]. right. split; [exact j|]. subst m1. destruct m; cbn in k3; auto; lia.
Qed.
Definition op_time (o : mop) : Z := match o with MEvent e => me_time e | MSend now => now end.
Lemma send_inv p now s : I1 p (mc_mode s) (mc_net s) -> I1 p (mc_mode (mc_send p now s)) (mc_net (mc_send p now s)) /\ (forall t, I2 t (mc_mode s) (mc_net s) -> t <= now -> I2 now (mc_mode (mc_send p now s)) (mc_net (mc_send p now s))) /\
  rank (mc_mode s) <= rank (mc_mode (mc_send p now s)) /\ (forall P, I3 P (mc_mode s) -> I3 P (mc_mode (mc_send p now s))) /\ nw_hi (mc_net (mc_send p now s)) = nw_hi (mc_net s).
Proof.
  intros h. unfold mc_send. destruct (mp_quiet p); [|repeat split; auto; try lia; intros t k1 k2; exact (I2_mono _ _ _ _ k1 k2)]. destruct (mc_quiet s); [|repeat split; auto; try lia; intros t k1 k2; exact (I2_mono _ _ _ _ k1 k2)].
  assert (stay : forall q, I1 p (mc_mode (mkMc (mc_mode s) (mc_net s) q)) (mc_net (mkMc (mc_mode s) (mc_net s) q)) /\ (forall t, I2 t (mc_mode s) (mc_net s) -> t <= now -> I2 now (mc_mode (mkMc (mc_mode s) (mc_net s) q)) (mc_net (mkMc (mc_mode s) (mc_net s) q))) /\
    rank (mc_mode s) <= rank (mc_mode (mkMc (mc_mode s) (mc_net s) q)) /\ (forall P, I3 P (mc_mode s) -> I3 P (mc_mode (mkMc (mc_mode s) (mc_net s) q))) /\ nw_hi (mc_net (mkMc (mc_mode s) (mc_net s) q)) = nw_hi (mc_net s))
    by (intros q; cbn; repeat split; auto; try lia; intros t k1 k2; exact (I2_mono _ _ _ _ k1 k2)).
  assert (go : forall c x q, mc_mode s = MRtt c x -> let '(m, n) := probe_mode (pb_enter p now c (mc_net s)) in I1 p (mc_mode (mkMc m n q)) (mc_net (mkMc m n q)) /\ (forall t, I2 t (mc_mode s) (mc_net s) -> t <= now -> I2 now (mc_mode (mkMc m n q)) (mc_net (mkMc m n q))) /\
    rank (mc_mode s) <= rank (mc_mode (mkMc m n q)) /\ (forall P, I3 P (mc_mode s) -> I3 P (mc_mode (mkMc m n q))) /\ nw_hi (mc_net (mkMc m n q)) = nw_hi (mc_net s)).
  { intros c x q E. rewrite E in *. cbn in h. destruct h as (h1 & h2 & h3). unfold probe_mode. destruct (pb_enter p now c (mc_net s)) as [c' n'] eqn:Ee. pose proof (enter_again _ _ _ _ _ _ h2 h3 Ee) as (k1 & k2 & k3). cbn. split; [split; [congruence|exact k1]|]. split; [exact k3|]. split; [lia|]. split; [auto|].
    unfold pb_enter, enter_cruise, enter_refill in Ee. cbn in Ee. destruct h3 as [zz|zz]; rewrite zz in Ee; cbn in Ee; injection Ee as <- <-; reflexivity. }
  destruct (mc_mode s) as [|c|c|c [x|]] eqn:E; try exact (stay None).
  - destruct (x <? now); [|exact (stay None)]. specialize (go c (Some x) None eq_refl). destruct (probe_mode _). exact go.
  - specialize (go c None None eq_refl). destruct (probe_mode _). exact go.
Qed.
(** Times do not go back *)
Fixpoint times_ok (ops : list mop) : Prop := match ops with [] => True | o :: l => times_ok l /\ match l with [] => True | o' :: _ => op_time o' <= op_time o end end.
Definition from (t : Z) (ops : list mop) : Prop := match ops with [] => True | o :: _ => op_time o <= t end.
Lemma all_inv p ops : exists s, mc_all p ops = Ok s /\ I1 p (mc_mode s) (mc_net s) /\ (times_ok ops -> forall t, from t ops -> I2 t (mc_mode s) (mc_net s)) /\
  I3 (fun x => exists e, In (MEvent e) ops /\ me_flight e <= me_target e /\ x = me_time e + mp_rtt p) (mc_mode s).
Proof.
  induction ops as [|o ops IH]; cbn [mc_all]; [eexists; split; [reflexivity|]; cbn; auto|]. destruct IH as (s & -> & i1 & i2 & i3). cbn [bind].
  assert (j2 : times_ok (o :: ops) -> I2 (op_time o) (mc_mode s) (mc_net s)) by (intros (h1 & h2); apply i2; [exact h1|destruct ops; exact h2]).
  assert (j3 : I3 (fun x => exists e, In (MEvent e) (o :: ops) /\ me_flight e <= me_target e /\ x = me_time e + mp_rtt p) (mc_mode s)).
  { destruct (mc_mode s) as [| | |c [x|]]; cbn in *; auto. destruct i3 as (e & k1 & k2). exists e. auto. }
  destruct o as [e|now]; cbn [mc_step op_time] in *.
  - unfold mc_event. destruct (loop_inv p e 4 _ _ i1) as (m & n & -> & k1 & k2 & k3 & k4 & _). cbn [bind fst snd]. eexists. split; [reflexivity|]. cbn [mc_mode mc_net]. split; [exact k1|]. split.
    + intros ht t hf. apply (I2_mono (me_time e)); [|exact hf]. apply (k2 (me_time e)); [exact (j2 ht)|lia].
    + apply k4; [exact j3|]. intros hf. exists e. cbn. auto.
  - destruct (send_inv p now s i1) as (k1 & k2 & _ & k4 & _). eexists. split; [reflexivity|]. split; [exact k1|]. split; [|apply k4; exact j3]. intros ht t hf. apply (I2_mono now); [|exact hf]. apply (k2 now); [exact (j2 ht)|lia].
Qed.

(** C93: no history of events and sends makes a mode panic. *)
Theorem C93_no_panic p ops : exists s, mc_all p ops = Ok s.
Proof. destruct (all_inv p ops) as (s & h & _). eauto. Qed.
Print Assumptions C93_no_panic.
(** C93: BBR2 is in startup exactly until the bandwidth is known to be full. *)
Theorem C93_startup p ops s : mc_all p ops = Ok s -> (mc_mode s = MStartup <-> nw_full (mc_net s) = false).
Proof. intros h. destruct (all_inv p ops) as (s' & h' & i & _). rewrite h in h'. injection h' as <-. destruct (mc_mode s); cbn in i; split; intros; try discriminate; auto; destruct i as (i & _); congruence. Qed.
Print Assumptions C93_startup.
(** C93: startup and drain come once, in this order, before all else. *)
Theorem C93_order p later ops s0 s : mc_all p ops = Ok s0 -> mc_all p (later ++ ops) = Ok s ->
  (mc_mode s0 <> MStartup -> mc_mode s <> MStartup) /\ (mc_mode s0 <> MStartup -> (forall c, mc_mode s0 <> MDrain c) -> forall c, mc_mode s <> MDrain c).
Proof.
  intros h0 h. assert (k : rank (mc_mode s0) <= rank (mc_mode s)).
  { revert s h. induction later as [|o l IH]; intros s h; cbn [app] in h; [rewrite h0 in h; injection h as <-; lia|]. cbn [mc_all] in h. destruct (all_inv p (l ++ ops)) as (v & E & i & _). rewrite E in h. cbn [bind] in h. specialize (IH v E). destruct o as [e|now]; cbn [mc_step] in h.
    - unfold mc_event in h. destruct (loop_inv p e 4 _ _ i) as (m & n & Em & _ & _ & k & _). rewrite Em in h. cbn [bind] in h. injection h as <-. cbn. lia.
    - injection h as <-. destruct (send_inv p now v i) as (_ & _ & k & _). lia. }
  split; [|intros n1 n2 c]; destruct (mc_mode s0), (mc_mode s); cbn in k; try congruence; try lia; intros; try discriminate; try congruence; exfalso; eapply n2; eauto.
Qed.
Print Assumptions C93_order.

(** The cycle of a mode that has one under way *)
Definition cycle_of (m : mode) : option cycle := match m with MProbe c | MRtt c _ => Some c | _ => None end.
(** C93: while probing, one event moves the cycle at most one phase on: from down to
    cruise or refill, from cruise to refill, from refill to up, and from up to down.
    PROBE_RTT is entered only on leaving down.  A cycle is not in down or cruise once
    its wait is over.  Refill takes a whole round at least.  Up ends when too much
    was in flight.  *)
Theorem C93_event p ops s c e s' : mc_all p ops = Ok s -> mc_mode s = MProbe c -> mc_step p (MEvent e) s = Ok s' ->
  exists c', cycle_of (mc_mode s') = Some c' /\ phase_step (cy_phase c) (cy_phase c') /\
    (mc_mode s' <> MProbe c' -> cy_phase c = PDown /\ (cy_phase c' = PCruise \/ cy_phase c' = PRefill) /\ me_expired e = true) /\
    (cy_phase c' = PDown \/ cy_phase c' = PCruise -> cy_phase c = PDown \/ cy_phase c = PCruise -> me_time e - cy_start c <= mp_wait p) /\
    (cy_phase c = PRefill -> cy_phase c' <> PRefill -> me_end e = true /\ (0 < cy_rounds c \/ cy_pstart c <> me_time e)) /\
    (cy_phase c = PUp -> me_valid e = true -> me_high e = true -> cy_probing c = true -> cy_phase c' = PDown) /\
    nw_cycles (mc_net s') = nw_cycles (mc_net s) + (if phase_eqb (cy_phase c) PUp && phase_eqb (cy_phase c') PDown then 1 else 0) /\
    (nw_hi (mc_net s') < nw_hi (mc_net s) -> me_high e = true /\ me_valid e = true /\ cy_probing c = true).
Proof.
  intros h0 hm h. destruct (all_inv p ops) as (v & E & i & _). rewrite h0 in E. injection E as <-. rewrite hm in i. cbn in i. destruct i as (_ & i). cbn [mc_step] in h. unfold mc_event in h. rewrite hm in h.
  destruct (pb_good p e c (mc_net s) i) as (c' & n' & sw & Ep & g & hs). cbn [mode_loop mode_event] in h. rewrite Ep in h. cbn [bind] in h. pose proof g as (g1 & _ & _ & g4 & g5 & g6 & g7 & g8 & g9).
  assert (core : phase_step (cy_phase c) (cy_phase c') /\
    (cy_phase c' = PDown \/ cy_phase c' = PCruise -> cy_phase c = PDown \/ cy_phase c = PCruise -> me_time e - cy_start c <= mp_wait p) /\
    (cy_phase c = PRefill -> cy_phase c' <> PRefill -> me_end e = true /\ (0 < cy_rounds c \/ cy_pstart c <> me_time e)) /\
    (cy_phase c = PUp -> me_valid e = true -> me_high e = true -> cy_probing c = true -> cy_phase c' = PDown) /\
    nw_cycles n' = nw_cycles (mc_net s) + (if phase_eqb (cy_phase c) PUp && phase_eqb (cy_phase c') PDown then 1 else 0) /\
    (nw_hi n' < nw_hi (mc_net s) -> me_high e = true /\ me_valid e = true /\ cy_probing c = true)).
  { split; [exact g4|]. split; [intros k1 k2; apply (g6 k1 k2)|]. split; [|split; [|split; [exact g9|exact g5]]].
    - intros k1 k2. destruct (g7 ltac:(congruence) k1) as (k3 & k4). split; [exact k3|]. unfold tick in k4. rewrite k3 in k4. cbn in k4. destruct (cy_pstart c =? me_time e) eqn:Z0; [left; exact k4|right; apply Z.eqb_neq; exact Z0].
    - intros k1 k2 k3 k4. unfold phase_step in g4. rewrite k1 in g4. destruct g4 as [k|[(k & _)|[(k & _)|[(k & _)|(_ & k)]]]]; try discriminate; auto. specialize (g8 (eq_sym k) k1). rewrite k2, k3, k4 in g8. discriminate. }
  destruct core as (q1 & q2 & q3 & q4 & q5 & q6). destruct sw; cbn in h.
  - injection h as <-. exists c'. cbn. split; [reflexivity|]. split; [exact q1|]. split; [|auto 10]. intros _. destruct (hs eq_refl) as (k1 & k2 & k3). split; [exact k1|]. split; [|exact k3]. unfold phase_step in q1. rewrite k1 in q1. destruct q1 as [k|[(_ & k)|[(k & _)|[(k & _)|(k & _)]]]]; try congruence; auto.
  - injection h as <-. exists c'. cbn. split; [reflexivity|]. split; [exact q1|]. split; [congruence|auto 10].
Qed.
Print Assumptions C93_event.
(** C93: if times do not go back, the bandwidth filter has moved on exactly once in each
    cycle that is past its down phase, and at most once in a cycle that is not. *)
Theorem C93_filter p ops s c : times_ok ops -> mc_all p ops = Ok s -> cycle_of (mc_mode s) = Some c ->
  (cy_phase c <> PDown -> nw_adv (mc_net s) = nw_cycles (mc_net s)) /\ (cy_phase c = PDown -> nw_adv (mc_net s) = nw_cycles (mc_net s) - 1 \/ nw_adv (mc_net s) = nw_cycles (mc_net s)).
Proof.
  intros ht h hc. destruct (all_inv p ops) as (v & E & _ & i & _). rewrite h in E. injection E as <-. specialize (i ht (match ops with [] => 0 | o :: _ => op_time o end)).
  assert (k : PB2 (match ops with [] => 0 | o :: _ => op_time o end) c (mc_net s)). { assert (f : from (match ops with [] => 0 | o :: _ => op_time o end) ops) by (destruct ops; cbn; auto; lia). specialize (i f). destruct (mc_mode s); cbn in *; try discriminate; injection hc as <-; exact i. }
  destruct k as (_ & _ & k3 & k4). split; [intros q; apply (k4 q)|]. intros q. destruct (k3 q) as [z|z]; tauto.
Qed.
Print Assumptions C93_filter.
(** C93: samples count as from probing only in up, and in down until its first round
    ends; the slope of growth is bounded, and never less than a packet's bytes. *)
Theorem C93_cycle p ops s c : mc_all p ops = Ok s -> cycle_of (mc_mode s) = Some c ->
  cy_phase c <> PNone /\ cy_wait c = Some (mp_wait p) /\ (cy_probing c = true -> cy_phase c = PUp \/ cy_phase c = PDown /\ cy_rounds c = 0) /\ 0 <= cy_uprounds c <= 30 /\ (forall b, cy_upbytes c = Some b -> default_mss <= b) /\
  (mc_mode s <> MProbe c -> cy_probing c = false /\ (cy_phase c = PCruise \/ cy_phase c = PRefill)).
Proof.
  intros h hc. destruct (all_inv p ops) as (v & E & i & _). rewrite h in E. injection E as <-. destruct (mc_mode s); cbn in *; try discriminate; injection hc as <-.
  - destruct i as (_ & (a1 & a2 & a3 & a4 & a5 & a6)). repeat split; auto; try apply a3; congruence.
  - destruct i as (_ & (a1 & a2 & a3 & a4 & a5 & a6) & i). repeat split; auto; try apply a3. destruct (cy_probing c0); auto. destruct (a6 eq_refl) as [k|(k & _)]; destruct i; congruence.
Qed.
Print Assumptions C93_cycle.
(** C93: PROBE_RTT lasts for its time after the bytes in flight came down to its target:
    an event ends it only later than that. *)
Theorem C93_probe_rtt p ops s c x e s' : mc_all p ops = Ok s -> mc_mode s = MRtt c x -> mc_step p (MEvent e) s = Ok s' ->
  ((forall c' x', mc_mode s' <> MRtt c' x') -> exists e0, In (MEvent e0) ops /\ me_flight e0 <= me_target e0 /\ me_time e0 + mp_rtt p < me_time e) /\
  (forall t, x = Some t -> t < me_time e -> forall x', mc_mode s' <> MRtt c x').
Proof.
  intros h hm h1. destruct (all_inv p ops) as (v & E & i & _ & i3). rewrite h in E. injection E as <-. rewrite hm in i, i3. cbn in i. destruct i as (i0 & i1 & i2). cbn [mc_step] in h1. unfold mc_event in h1. rewrite hm in h1. cbn [mode_loop mode_event] in h1. unfold rtt_event in h1.
  destruct x as [x|]; [|cbn in h1; injection h1 as <-; cbn; split; [intros k; exfalso; eapply k; reflexivity|discriminate]]. cbn in i3. destruct i3 as (e0 & k1 & k2 & k3). destruct (x <? me_time e) eqn:Ex.
  - split; [intros _; exists e0; repeat split; auto; lia|]. intros t _ _ x' q.
    destruct (pb_enter p (me_time e) c (mc_net s)) as [c1 n1] eqn:Ee. unfold probe_mode in h1. cbn [bind fst snd mode_loop mode_event] in h1. destruct (enter_again _ _ _ _ _ _ i1 i2 Ee) as (j1 & j2 & j3). destruct (pb_good p e c1 n1 j1) as (c2 & n2 & sw & Ep & g & hs). rewrite Ep in h1. cbn [bind] in h1.
    assert (c1p : cy_phase c1 <> PDown). { unfold pb_enter, enter_cruise, enter_refill in Ee. cbn in Ee. destruct i2 as [z|z]; rewrite z in Ee; cbn in Ee; injection Ee as <- <-; discriminate. }
    destruct sw; [destruct (hs eq_refl); congruence|]. cbn in h1. injection h1 as <-. cbn in q. discriminate.
  - cbn in h1. injection h1 as <-. cbn. split; [intros k; exfalso; eapply k; reflexivity|]. intros t q. injection q as <-. lia.
Qed.
Print Assumptions C93_probe_rtt.
(** C93: the upper bound on bytes in flight falls only when too much of it was lost. *)
Theorem C93_bound p ops s o s' : mc_all p ops = Ok s -> mc_step p o s = Ok s' -> nw_hi (mc_net s') < nw_hi (mc_net s) -> exists e, o = MEvent e /\ (me_high e = true \/ me_loss e = true /\ mc_mode s = MStartup).
Proof.
  intros h h1 hl. destruct (all_inv p ops) as (v & E & i & _). rewrite h in E. injection E as <-. destruct o as [e|now]; cbn [mc_step] in h1.
  - exists e. split; [reflexivity|]. unfold mc_event in h1. destruct (loop_inv p e 4 _ _ i) as (m & n & Em & _ & _ & _ & _ & k). rewrite Em in h1. cbn [bind] in h1. injection h1 as <-. apply k. exact hl.
  - injection h1 as <-. destruct (send_inv p now s i) as (_ & _ & _ & _ & k). lia.
Qed.
Print Assumptions C93_bound.

(** C93: startup ends with an event exactly if that ends a round in which the bandwidth
    did not grow, and the network model finds a plateau, a standing queue, or too many
    losses while not limited by the application. *)
Theorem C93_startup_exit p ops s e s' : mc_all p ops = Ok s -> mc_mode s = MStartup -> mc_step p (MEvent e) s = Ok s' ->
  (mc_mode s' <> MStartup <-> me_end e = true /\ me_growth e = false /\ (me_plateau e = true \/ mp_squeue p = true /\ me_queue e = true \/ me_app e = false /\ me_loss e = true)).
Proof.
  intros h hm h1. destruct (all_inv p ops) as (v & E & i & _). rewrite h in E. injection E as <-. rewrite hm in i. cbn [mc_step] in h1. unfold mc_event in h1. rewrite hm in h1. destruct (mc_net s) as [nf nh na nc]. cbn in i. destruct i as (-> & -> & ->).
  cbn [mode_loop mode_event] in h1.
  assert (k : forall n t, nw_full n = true -> nw_adv n = 0 -> nw_cycles n = 0 -> forall r, mode_loop p e 3 (MDrain (cy_default t)) n = Ok r -> fst r <> MStartup).
  { intros n t q1 q2 q3 r hr. destruct (loop_inv p e 3 (MDrain (cy_default t)) n) as (m & n' & Em & _ & _ & kr & _); [cbn; eauto|]. rewrite Em in hr. injection hr as <-. intros q. cbn in q. subst m. cbn in kr. lia. }
  cbn [bind] in h1. unfold startup_event in h1. cbn [nw_full] in h1.
  destruct (me_end e); cbn [negb fst snd] in h1; [|cbn in h1; injection h1 as <-; cbn; split; [congruence|intros (q & _); discriminate]]. cbv zeta in h1.
  destruct (me_growth e); cbn [negb andb] in h1; [rewrite !Bool.andb_false_r in h1; cbn in h1; injection h1 as <-; cbn; split; [congruence|intros (_ & q & _); discriminate]|].
  assert (fin : forall n, nw_full n = true -> nw_adv n = 0 -> nw_cycles n = 0 -> bind (mode_loop p e 3 (MDrain (cy_default (me_time e))) n) (fun r => Ok (mkMc (fst r) (snd r) (if (me_flight e =? 0) && mp_quiet p then Some (me_time e) else mc_quiet s))) = Ok s' -> mc_mode s' <> MStartup).
  { intros n q1 q2 q3 hq. destruct (mode_loop p e 3 (MDrain (cy_default (me_time e))) n) as [r| |] eqn:Er; cbn [bind] in hq; try discriminate. injection hq as <-. cbn. exact (k n _ q1 q2 q3 r Er). }
  destruct (me_plateau e) eqn:Q1; [|destruct (mp_squeue p && me_queue e) eqn:Q2; [|destruct (negb (me_app e) && me_loss e) eqn:Q3]].
  - split; [intros _; auto|]. intros _. destruct (mp_squeue p), (me_queue e), (me_app e), (me_loss e); cbn [negb andb nw_full nw_set_full nw_set_hi fst snd bind] in h1; (eapply fin; [| | |exact h1]); reflexivity.
  - apply Bool.andb_true_iff in Q2. destruct Q2 as (Q2 & Q4). rewrite Q2, Q4 in h1. split; [intros _; auto 10|]. intros _. destruct (me_app e), (me_loss e); cbn [negb andb nw_full nw_set_full nw_set_hi fst snd bind] in h1; (eapply fin; [| | |exact h1]); reflexivity.
  - apply Bool.andb_true_iff in Q3. destruct Q3 as (Q3 & Q4). apply Bool.negb_true_iff in Q3. rewrite Q3, Q4 in h1. split; [intros _; auto 10|]. intros _.
    destruct (mp_squeue p), (me_queue e); try discriminate; cbn [negb andb nw_full nw_set_full nw_set_hi fst snd bind] in h1; (eapply fin; [| | |exact h1]); reflexivity.
  - destruct (mp_squeue p), (me_queue e), (me_app e), (me_loss e); try discriminate; cbn in h1; injection h1 as <-; cbn; (split; [congruence|]); intros (_ & _ & q); intuition discriminate.
Qed.
Print Assumptions C93_startup_exit.
(** C93: drain ends with the first event after which no more than one bandwidth-delay
    product is in flight. *)
Theorem C93_drain_exit p ops s c e s' : mc_all p ops = Ok s -> mc_mode s = MDrain c -> mc_step p (MEvent e) s = Ok s' -> (mc_mode s' = MDrain c <-> me_bdp e < me_flight e).
Proof.
  intros h hm h1. destruct (all_inv p ops) as (v & E & i & _). rewrite h in E. injection E as <-. rewrite hm in i. cbn in i. destruct i as (i0 & (t0 & ->) & i2 & i3). cbn [mc_step] in h1. unfold mc_event in h1. rewrite hm in h1. cbn [mode_loop mode_event] in h1. unfold drain_event in h1.
  destruct (me_flight e <=? me_bdp e) eqn:Ef; [|cbn in h1; injection h1 as <-; cbn; split; [lia|auto]]. split; [|lia]. intros q. exfalso.
  unfold probe_mode in h1. destruct (pb_enter p (me_time e) (cy_default t0) (mc_net s)) as [c1 n1] eqn:Ee. destruct (enter_first _ _ _ _ _ _ i2 i3 Ee) as (k1 & k2 & _). cbn [bind fst snd] in h1.
  match type of h1 with bind ?x _ = _ => change x with (mode_loop p e 3 (MProbe c1) n1) in h1 end. destruct (loop_inv p e 3 (MProbe c1) n1) as (m & n & Em & _ & _ & kr & _); [cbn; split; [congruence|exact k1]|]. rewrite Em in h1. cbn [bind] in h1. injection h1 as <-. cbn in q. subst m. cbn in kr. lia.
Qed.
Print Assumptions C93_drain_exit.
(** C93: on sending after a quiet time PROBE_RTT ends unless its time is set and not yet
    over; nothing else changes the mode, and the quiet time is over. *)
Theorem C93_quiet p now s : mc_mode (mc_send p now s) = mc_mode s \/ (mp_quiet p = true /\ mc_quiet s <> None /\ exists c x c', mc_mode s = MRtt c x /\ mc_mode (mc_send p now s) = MProbe c' /\ (forall t, x = Some t -> t < now)).
Proof.
  unfold mc_send. destruct (mp_quiet p); auto. destruct (mc_quiet s) eqn:Eq; auto. destruct (mc_mode s) as [|c|c|c [x|]] eqn:E; auto.
  - destruct (x <? now) eqn:Ex; [|left; cbn; auto]. right. split; [auto|]. split; [discriminate|]. unfold probe_mode. cbn. do 3 eexists. split; [reflexivity|]. split; [reflexivity|]. intros t q. injection q as <-. lia.
  - right. split; [auto|]. split; [discriminate|]. unfold probe_mode. cbn. do 3 eexists. split; [reflexivity|]. split; [reflexivity|]. discriminate.
Qed.
Print Assumptions C93_quiet.
Theorem C93_quiet_ends p now s : mp_quiet p = true -> mc_quiet s <> None -> mc_quiet (mc_send p now s) = None /\ (forall c x, mc_mode s = MRtt c x -> (forall t, x = Some t -> t < now) -> exists c', mc_mode (mc_send p now s) = MProbe c').
Proof.
  intros h1 h2. unfold mc_send. rewrite h1. destruct (mc_quiet s); [|congruence]. split.
  - destruct (mc_mode s) as [|c|c|c [x|]]; cbn; auto. destruct (x <? now); reflexivity.
  - intros c x E hx. rewrite E. destruct x as [x|]; [|cbn; eauto]. specialize (hx x eq_refl). replace (x <? now) with true by lia. cbn. eauto.
Qed.
Print Assumptions C93_quiet_ends.
Theorem C93_quiet_begins p e s s' : mc_step p (MEvent e) s = Ok s' -> mc_quiet s' = if (me_flight e =? 0) && mp_quiet p then Some (me_time e) else mc_quiet s.
Proof. cbn [mc_step]. unfold mc_event. destruct (mode_loop _ _ _ _ _); cbn [bind]; intros h; try discriminate. injection h as <-. reflexivity. Qed.
Print Assumptions C93_quiet_begins.
(** C93: going up, samples count as from probing, and the bytes to acknowledge before
    the upper bound grows by a packet are the window, halved once for each round of
    probing before, but no less than a packet. *)
Theorem C93_going_up p ops s c e s' c' : mc_all p ops = Ok s -> mc_mode s = MProbe c -> mc_step p (MEvent e) s = Ok s' -> mc_mode s' = MProbe c' -> cy_phase c = PRefill -> cy_phase c' = PUp ->
  cy_probing c' = true /\ cy_rounds c' = 0 /\ cy_pstart c' = me_time e /\ cy_uprounds c' = Z.min (cy_uprounds c + 1) 30 /\ cy_upbytes c' = Some (Z.max (me_cwnd e / 2 ^ cy_uprounds c) 1300).
Proof.
  intros h hm h1 hm' p1 p2. destruct (all_inv p ops) as (v & E & i & _). rewrite h in E. injection E as <-. rewrite hm in i. cbn in i. destruct i as (_ & i). pose proof i as (_ & _ & ir & _).
  cbn [mc_step] in h1. unfold mc_event in h1. rewrite hm in h1. cbn [mode_loop mode_event] in h1. unfold pb_event in h1. fold (tick e c) in h1. destruct (tick_facts e c) as (t1 & _ & _ & _ & t5 & _). rewrite t1, p1 in h1. unfold update_refill in h1.
  destruct (adapt p e (tick e c) (mc_net s)) as [[hh d] m] eqn:Ea. apply adapt_shape in Ea. destruct Ea as ((_ & s2 & _) & _ & v1 & _). destruct ((0 <? cy_rounds d) && me_end e).
  - unfold enter_up, raise_slope in h1. cbn [cy_uprounds] in h1. rewrite v1, t5 in h1. replace (64 <=? cy_uprounds c) with false in h1 by lia. cbn in h1. injection h1 as <-. cbn in hm'. injection hm' as <-. cbn. repeat split; auto.
  - cbn in h1. injection h1 as <-. cbn in hm'. injection hm' as <-. rewrite s2, t1, p1 in p2. discriminate.
Qed.
Print Assumptions C93_going_up.
(** C93: going down, the cycle notes why: too much was in flight, or the last cycle had
    probed too high and the bound was reached again (a risky probe); else there was a
    queue after the first round. *)
Theorem C93_going_down p ops s c e s' c' : mc_all p ops = Ok s -> mc_mode s = MProbe c -> mc_step p (MEvent e) s = Ok s' -> mc_mode s' = MProbe c' -> cy_phase c = PUp -> cy_phase c' = PDown ->
  cy_start c' = me_time e /\ cy_pstart c' = me_time e /\ cy_rounds c' = 0 /\ cy_since c' = 0 /\ cy_adv c' = false /\
  (cy_high c' = true /\ cy_risky c' = false /\ me_high e = true /\ me_valid e = true \/
   cy_high c' = false /\ (cy_risky c' = true -> cy_high c = true /\ nw_hi (mc_net s') <= me_prior e) /\
   (cy_risky c' = false -> me_upqueue e = true /\ (0 < cy_rounds c \/ me_end e = true /\ cy_pstart c <> me_time e))).
Proof.
  intros h hm h1 hm' p1 p2. destruct (all_inv p ops) as (v & E & i & _). rewrite h in E. injection E as <-. rewrite hm in i. cbn in i. destruct i as (_ & i). pose proof i as (_ & _ & ir & ib & _).
  cbn [mc_step] in h1. unfold mc_event in h1. rewrite hm in h1. cbn [mode_loop mode_event] in h1. unfold pb_event in h1. fold (tick e c) in h1. destruct (tick_facts e c) as (t1 & _ & _ & _ & t5 & t6 & _ & _ & t9 & _ & t11 & _). rewrite t1, p1 in h1. unfold update_up in h1.
  destruct (adapt p e (tick e c) (mc_net s)) as [[hh d] m] eqn:Ea. apply adapt_shape in Ea. destruct Ea as ((_ & s2 & s3 & _ & _ & _ & _ & s8 & _) & _ & v1 & v2 & _ & v4 & _). destruct hh.
  - cbn in h1. injection h1 as <-. cbn in hm'. injection hm' as <-. cbn. destruct (v4 eq_refl) as (_ & _ & k1 & k2). auto 10.
  - destruct (upward_ok p e d m) as (d2 & m2 & Eu & (_ & r2 & r3 & _ & _ & _ & _ & r8 & _) & _); [rewrite v1, t5; exact ir|rewrite v2, t6; exact ib|]. rewrite Eu in h1. cbn [bind] in h1. cbv zeta in h1.
    destruct (cy_high d2 && (nw_hi m2 <=? me_prior e)) eqn:Er; cbn [orb negb andb] in h1.
    + cbn in h1. injection h1 as <-. cbn in hm'. injection hm' as <-. cbn. apply Bool.andb_true_iff in Er. destruct Er as (e1 & e2). repeat split; auto. right. split; [reflexivity|]. split; [intros _; split; [congruence|clear - e2; lia]|discriminate].
    + destruct ((0 <? cy_rounds d2) && me_upqueue e) eqn:Eq.
      * cbn in h1. injection h1 as <-. cbn in hm'. injection hm' as <-. cbn. apply Bool.andb_true_iff in Eq. destruct Eq as (e1 & e2). repeat split; auto. right. split; [reflexivity|]. split; [discriminate|]. intros _. split; [exact e2|]. rewrite r3, s3 in e1. apply Z.ltb_lt in e1. destruct t11 as [k|(k & k2 & k3)]; [left; clear - k e1; lia|right; auto].
      * cbn in h1. injection h1 as <-. cbn in hm'. injection hm' as <-. rewrite r2, s2, t1, p1 in p2. discriminate.
Qed.
Print Assumptions C93_going_down.

(** Beside them: startup ends with a plateau and the queue drains in the same event;
    then down, cruise after a minimal round trip, refill after the wait, up a round
    later, down with too many losses, and PROBE_RTT on leaving that *)
Definition C93_p : mpar := mkMp 2000 200 false false true true true.
Definition ev (t : Z) (en : bool) (flight : Z) (high expired : bool) : mev :=
  mkMe t en false true 1200 flight 20000 20000 15000 false true false false 0 10000 (fun h => h) 50 (fun _ => false) high 12000 false expired 5000.
Definition C93_ops : list mop :=
  [MEvent (ev 4600 true 100 false false); MEvent (ev 4390 true 100 false false); MEvent (ev 4300 true 20000 false true); MEvent (ev 4200 true 20000 true false);
   MEvent (ev 4100 true 20000 false false); MEvent (ev 4000 false 20000 false false); MEvent (ev 1200 true 20000 false false); MEvent (ev 1100 true 20000 false false); MEvent (ev 1000 true 10000 false false)].
Definition C93_at (k : nat) : option (Z * option phase * bool * Z * Z * Z) :=
  match mc_all C93_p (skipn k C93_ops) with
  | Ok s => Some (rank (mc_mode s), option_map cy_phase (cycle_of (mc_mode s)), match mc_mode s with MRtt _ _ => true | _ => false end, nw_adv (mc_net s), nw_cycles (mc_net s), nw_hi (mc_net s))
  | _ => None
  end.
Example C93_witness : times_ok C93_ops /\ map C93_at [8; 7; 6; 5; 4; 3; 2; 1; 0]%nat =
  [Some (2, Some PDown, false, 0, 1, hi_default); Some (2, Some PCruise, false, 1, 1, hi_default); Some (2, Some PCruise, false, 1, 1, hi_default);
   Some (2, Some PRefill, false, 1, 1, hi_default); Some (2, Some PUp, false, 1, 1, hi_default); Some (2, Some PDown, false, 1, 2, 12000);
   Some (2, Some PCruise, true, 2, 2, 15000); Some (2, Some PCruise, true, 2, 2, 15000); Some (2, Some PCruise, false, 2, 2, 15000)].
Proof. split; [cbn; lia|]. vm_compute. reflexivity. Qed.
Example C93_startup_witness : exists s s', mc_all C93_p [MEvent (ev 900 false 20000 false false)] = Ok s /\ mc_mode s = MStartup /\
  mc_all C93_p [MEvent (ev 1000 true 20000 false false)] = Ok s' /\ mc_mode s' = MDrain (cy_default 1000) /\ nw_full (mc_net s') = true.
Proof. do 2 eexists. vm_compute. repeat split. Qed.

(** C93: nothing bounds the length of PROBE_RTT: its time starts only once the bytes in
    flight are down to its target, a fraction of the bandwidth-delay product, while the
    window stays at the initial one or more (C92), which can be above that target; a
    sender with enough to send may stay in PROBE_RTT as long as it keeps more in flight. *)
Theorem C93_probe_rtt_ends_refuted : ~ (exists bound, forall p ops e0 e s0 s c0 x0 c x, times_ok (MEvent e :: MEvent e0 :: ops) ->
  mc_all p (MEvent e0 :: ops) = Ok s0 -> mc_mode s0 = MRtt c0 x0 -> mc_all p (MEvent e :: MEvent e0 :: ops) = Ok s -> mc_mode s = MRtt c x -> me_time e <= me_time e0 + bound).
Proof.
  intros (B & k).
  assert (h : exists ops e0 s0 c0, mc_all C93_p (MEvent e0 :: ops) = Ok s0 /\ mc_mode s0 = MRtt c0 None /\ times_ok (MEvent e0 :: ops) /\ me_time e0 = 4300).
  { exists (skipn 3 C93_ops), (ev 4300 true 20000 false true). do 2 eexists. split; [vm_compute; reflexivity|]. split; [reflexivity|]. split; [cbn; lia|reflexivity]. }
  destruct h as (ops & e0 & s0 & c0 & h0 & hm & ht & he0). remember (MEvent e0 :: ops) as l eqn:el.
  assert (hs : exists e s, me_time e = 4301 + Z.max 0 B /\ mc_event C93_p e s0 = Ok s /\ mc_mode s = MRtt c0 None).
  { exists (ev (4301 + Z.max 0 B) true 20000 false false). unfold mc_event. rewrite hm. eexists. split; [reflexivity|]. split; reflexivity. }
  destruct hs as (e & s & he & h1 & hm1).
  assert (ha : mc_all C93_p (MEvent e :: l) = Ok s) by (cbn [mc_all]; rewrite h0; exact h1).
  subst l. assert (t : me_time e <= me_time e0 + B); [|lia].
  apply (k C93_p ops e0 e s0 s c0 None c0 None); auto. revert ht. cbn [times_ok op_time]. intuition lia.
Qed.
Print Assumptions C93_probe_rtt_ends_refuted.
