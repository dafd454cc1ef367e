(** C64: key updates. *)
Require Import Verif.Base Verif.Errors Verif.KeyModel Verif.KeySpec.

(** ** Any peer *)
Definition kinv (c : kst) : Prop := k_seal c = k_open c /\ 0 <= k_open c /\ k_phase c = Z.odd (k_open c) /\ match k_ku c with Some u => u_open u = k_open c - 1 | None => True end.
Lemma odd_next x : Z.odd (x + 1) = negb (Z.odd x). Proof. rewrite Z.odd_add. destruct (Z.odd x); reflexivity. Qed.
Lemma confirm_kinv p c r c' : confirm p c = (r, c') -> kinv c -> kinv c' /\ k_open c' = k_open c /\ k_ku c' = k_ku c.
Proof. unfold confirm. intros h hk. destruct (kp_done p); [destruct (k_server c)|]; injection h as <- <-; auto. Qed.
(** What krecv can do *)
Lemma krecv_cases now e p c r c' : krecv now e p c = (r, c') -> kinv c ->
  kinv c' /\ (k_open c' = k_open c /\ k_ku c' = k_ku c \/
    k_open c' = k_open c + 1 /\ kp_gen p = Some (k_open c + 1) /\ k_conf c = true /\ kp_phase p <> k_phase c /\ (forall u, k_ku c = Some u -> u_acked u = true /\ u_pn u <= kp_pn p) /\
    k_ku c' = Some (mkKu (k_open c) (kp_pn p) false (now + e_pto e * 3))).
Proof.
  unfold krecv, choose. intros h hk. set (d := k_conf c && negb (Bool.eqb (kp_phase p) (k_phase c))) in *.
  assert (hsame : forall c'', confirm p c = (r, c'') -> c'' = c' -> kinv c' /\ k_open c' = k_open c /\ k_ku c' = k_ku c) by (intros c'' h1 ->; exact (confirm_kinv _ _ _ _ h1 hk)).
  destruct (if d then match k_ku c with Some u => if kp_pn p <? u_pn u then (u_open u, false) else (k_open c + 1, true) | None => (k_open c + 1, true) end else (k_open c, false)) as [g next] eqn:ec.
  destruct (opens g p) eqn:eo; cbn [negb] in h; [|injection h as <- <-; auto].
  destruct (e_dup e); [injection h as <- <-; auto|]. destruct (e_empty e); [injection h as <- <-; auto|]. destruct (e_pid e); [injection h as <- <-; auto|].
  destruct next; [|destruct (hsame _ h eq_refl) as (h1 & h2 & h3); auto].
  destruct (match k_ku c with Some u => negb (u_acked u) | None => false end) eqn:eu; [injection h as <- <-; auto|].
  destruct hk as (h1 & h2 & h3 & h4). destruct (confirm_kinv _ _ _ _ h) as (i1 & i2 & i3).
  { unfold kinv. cbn [k_seal k_open k_phase k_ku u_open]. repeat split; try lia. rewrite odd_next, <- h3. reflexivity. }
  cbn [k_open k_ku] in i2, i3. split; [exact i1|]. right. destruct d eqn:ed; [|discriminate]. unfold d in ed. apply andb_true_iff in ed. destruct ed as (e1 & e2).
  assert (hg : g = k_open c + 1) by (destruct (k_ku c) as [u|]; [destruct (kp_pn p <? u_pn u)|]; congruence).
  split; [exact i2|]. split; [unfold opens in eo; destruct (kp_gen p) as [x|]; [apply Z.eqb_eq in eo; congruence|discriminate]|]. split; [exact e1|].
  split; [intros hx; rewrite hx, Bool.eqb_reflx in e2; discriminate|]. split; [|exact i3].
  intros u hu. rewrite hu in eu, ec. split; [destruct (u_acked u); [reflexivity|discriminate]|]. destruct (Z.ltb_spec (kp_pn p) (u_pn u)); [discriminate|lia].
Qed.
Lemma kstep_kinv o c y c' : kstep o c = (y, c') -> kinv c -> kinv c'.
Proof.
  destruct o as [now e p|pn some done|now]; cbn [kstep]; intros h hk.
  - destruct (krecv now e p c) as [r c1] eqn:e1. injection h as _ <-. exact (proj1 (krecv_cases _ _ _ _ _ _ e1 hk)).
  - unfold ksend in h. destruct hk as (h1 & h2 & h3 & h4). destruct (k_ku c) as [u|] eqn:eu; injection h as _ <-; unfold kinv; cbn [k_seal k_open k_phase k_ku u_open]; rewrite ?eu; auto.
  - injection h as _ <-. unfold ktimeout. destruct hk as (h1 & h2 & h3 & h4). destruct (k_ku c) as [u|] eqn:eu; [destruct (u_timer u <=? now)|]; unfold kinv; cbn [k_seal k_open k_phase k_ku]; rewrite ?eu; auto.
Qed.
Lemma krun_kinv : forall ops c t c', krun ops c = (t, c') -> kinv c -> kinv c'.
Proof.
  induction ops as [|o ops ih]; intros c t c' h hk; cbn [krun] in h; [injection h as <- <-; exact hk|]. destruct (kstep o c) as [y c1] eqn:e1. destruct (krun ops c1) as [t2 c2] eqn:e2. injection h as <- <-.
  exact (ih _ _ _ e2 (kstep_kinv _ _ _ _ e1 hk)).
Qed.
Lemma new_kinv server : kinv (key_new server).
Proof. unfold kinv, key_new. cbn. repeat split; lia. Qed.

(** The keys for sending are always of the same generation as those for receiving, and
    the phase bit sent shows it. *)
Theorem C64_in_step server ops t c : krun ops (key_new server) = (t, c) -> k_seal c = k_open c /\ k_phase c = Z.odd (k_open c) /\
  forall pn some done p c', ksend pn some done c = (Some p, c') -> kp_gen p = Some (k_open c) /\ kp_phase p = Z.odd (k_open c) /\ kp_pn p = pn.
Proof.
  intros h. destruct (krun_kinv _ _ _ _ h (new_kinv server)) as (h1 & h2 & h3 & h4). split; [exact h1|]. split; [exact h3|].
  intros pn some done p c' hs. unfold ksend in hs. destruct some; [|discriminate]. destruct (k_ku c); injection hs as <- _; cbn [kp_gen kp_phase kp_pn k_seal k_phase]; rewrite h1; auto.
Qed.
Print Assumptions C64_in_step.
(** They change only when a packet sealed with the next ones was opened, on a confirmed
    connection, after a call that may have sent something since the last change, or the
    time for the old keys was up. *)
Theorem C64_authentic server ops t c o y c' : krun ops (key_new server) = (t, c) -> kstep o c = (y, c') ->
  k_open c' = k_open c \/
  k_open c' = k_open c + 1 /\ k_conf c = true /\ (exists now e p, o = KRecv now e p /\ kp_gen p = Some (k_open c + 1)) /\
  (forall u, k_ku c = Some u -> u_acked u = true).
Proof.
  intros h hs. pose proof (krun_kinv _ _ _ _ h (new_kinv server)) as hk. destruct o as [now e p|pn some done|now]; cbn [kstep] in hs.
  - destruct (krecv now e p c) as [r c1] eqn:e1. injection hs as _ <-. destruct (krecv_cases _ _ _ _ _ _ e1 hk) as (_ & [(h1 & _)|(h1 & h2 & h3 & _ & h4 & _)]); [auto|].
    right. split; [exact h1|]. split; [exact h3|]. split; [eauto 6|]. intros u hu. exact (proj1 (h4 u hu)).
  - left. unfold ksend in hs. destruct (k_ku c); injection hs as _ <-; reflexivity.
  - left. injection hs as _ <-. unfold ktimeout. destruct (k_ku c) as [u|]; [destruct (u_timer u <=? now)|]; reflexivity.
Qed.
Print Assumptions C64_authentic.
(** A packet that is not authentic changes nothing and is not answered. *)
Theorem C64_forged now e p c : kp_gen p = None -> krecv now e p c = (Err Done, c).
Proof. intros h. unfold krecv. destruct (choose p c) as [g next]. unfold opens. rewrite h. reflexivity. Qed.
Print Assumptions C64_forged.
(** The history of the calls since the last change: *)
Definition quiet (u : ku) (o : kop) : Prop := match o with KSend _ _ _ => False | KTimeout now => now < u_timer u | KRecv _ _ _ => True end.
Lemma quiet_run u : u_acked u = false -> forall ops c t c1 g f, Forall (quiet u) ops -> krun ops c = (t, c1) -> kinv c ->
  k_open c = g /\ k_phase c = f /\ k_conf c = true /\ k_ku c = Some u -> k_open c1 = g /\ k_phase c1 = f /\ k_conf c1 = true /\ k_ku c1 = Some u.
Proof.
  intros hua. induction ops as [|o ops ih]; intros c2 t c1 g f hq hr1 hk (i1 & i2 & i3 & i4); cbn [krun] in hr1; [injection hr1 as <- <-; auto|].
  destruct (kstep o c2) as [y c3] eqn:e3. destruct (krun ops c3) as [t2 c4] eqn:e4. injection hr1 as <- <-. inversion hq as [|? ? q1 q2]; subst.
  refine (ih c3 _ _ _ _ q2 e4 (kstep_kinv _ _ _ _ e3 hk) _). destruct o as [now e p|pn some done|now]; cbn [kstep quiet] in *; [|destruct q1|].
  - destruct (krecv now e p c2) as [r3 c5] eqn:e5. injection e3 as _ <-. unfold krecv in e5. destruct (choose p c2) as [g next]. destruct (opens g p); [|injection e5 as <- <-; auto]. cbn [negb] in e5.
    destruct (e_dup e); [injection e5 as <- <-; auto|]. destruct (e_empty e); [injection e5 as <- <-; auto|]. destruct (e_pid e); [injection e5 as <- <-; auto|]. rewrite i4 in e5. rewrite hua in e5. cbn [negb] in e5.
    unfold confirm in e5. destruct next; [injection e5 as <- <-; auto|]. destruct (kp_done p); [destruct (k_server c2)|]; injection e5 as <- <-; cbn [k_open k_phase k_conf k_ku]; auto.
  - injection e3 as _ <-. unfold ktimeout. rewrite i4. destruct (Z.leb_spec (u_timer u) now); [lia|auto].
Qed.
(** a second change, before any call to send and before the old keys are dropped, is an
    error, and changes nothing. *)
Theorem C64_twice server ops0 t0 c0 now0 e0 p0 r c ops t c1 now e p : krun ops0 (key_new server) = (t0, c0) -> krecv now0 e0 p0 c0 = (r, c) -> k_open c = k_open c0 + 1 ->
  Forall (quiet (mkKu (k_open c0) (kp_pn p0) false (now0 + e_pto e0 * 3))) ops -> krun ops c = (t, c1) ->
  k_open c1 = k_open c /\ (kp_gen p = Some (k_open c + 1) -> plain e -> kp_phase p = negb (k_phase c) -> kp_pn p0 <= kp_pn p -> krecv now e p c1 = (Err KeyUpdate, c1)).
Proof.
  intros hr h1 h2 hq hr1. pose proof (krun_kinv _ _ _ _ hr (new_kinv server)) as hk0. set (u := mkKu (k_open c0) (kp_pn p0) false (now0 + e_pto e0 * 3)) in *.
  destruct (krecv_cases _ _ _ _ _ _ h1 hk0) as (hk & [(hx & _)|(_ & _ & hcf & _ & _ & hu)]); [lia|]. fold u in hu.
  assert (hcc : k_conf c = true).
  { clear - h1 hcf. unfold krecv in h1. destruct (choose p0 c0) as [g next]. destruct (opens g p0); [|injection h1 as <- <-; exact hcf]. cbn [negb] in h1.
    destruct (e_dup e0); [injection h1 as <- <-; exact hcf|]. destruct (e_empty e0); [injection h1 as <- <-; exact hcf|]. destruct (e_pid e0); [injection h1 as <- <-; exact hcf|].
    unfold confirm in h1. cbn [k_server] in h1. destruct next; [destruct (match k_ku c0 with Some u => negb (u_acked u) | None => false end); [injection h1 as <- <-; exact hcf|]|]; (destruct (kp_done p0); [destruct (k_server c0)|]; injection h1 as <- <-; cbn; auto). }
  pose proof (quiet_run u eq_refl ops c t c1 (k_open c) (k_phase c) hq hr1 hk (conj eq_refl (conj eq_refl (conj hcc hu)))) as hinv.
  destruct hinv as (i1 & i2 & i3 & i4). split; [exact i1|]. intros hg (pl1 & pl2 & pl3) hph hpn. unfold krecv, choose. rewrite i3, i2, hph, i4, i1. unfold u. cbn [u_pn u_acked].
  destruct (Z.ltb_spec (kp_pn p) (kp_pn p0)); [lia|]. replace (Bool.eqb (negb (k_phase c)) (k_phase c)) with false by (destruct (k_phase c); reflexivity). cbn [andb negb].
  unfold opens. rewrite hg, Z.eqb_refl, pl1, pl2, pl3. reflexivity.
Qed.
Print Assumptions C64_twice.
(** The old keys are gone by the first timeout after three PTOs. *)
Theorem C64_discarded c now : (forall u, k_ku c = Some u -> u_timer u <= now) -> k_ku (ktimeout now c) = None /\ k_open (ktimeout now c) = k_open c.
Proof. intros h. unfold ktimeout. destruct (k_ku c) as [u|] eqn:e; [|auto]. specialize (h u eq_refl). destruct (Z.leb_spec (u_timer u) now); [auto|lia]. Qed.
Print Assumptions C64_discarded.

(** ** An honest peer *)
Definition done_with (c : kst) : Prop := forall u, k_ku c = Some u -> u_acked u = true.
Record ninv (n : net) : Prop := mkNinv {
  ni_k : kinv (n_us n);
  ni_theirs : forall p, In p (n_theirs n) -> exists g, kp_gen p = Some g /\ 0 <= g <= n_gen n /\ kp_phase p = Z.odd g /\ kp_pn p <= n_last n;
  ni_order : forall p q g h, In p (n_theirs n) -> In q (n_theirs n) -> kp_gen p = Some g -> kp_gen q = Some h -> g < h -> kp_pn p < kp_pn q;
  ni_gen : n_heard n <= k_open (n_us n) <= n_gen n /\ n_gen n <= n_heard n + 1;
  ni_ours : forall p, In p (n_ours n) -> exists g, kp_gen p = Some g /\ g <= k_open (n_us n) /\ (g = k_open (n_us n) -> done_with (n_us n));
  ni_heard : n_heard n = k_open (n_us n) -> done_with (n_us n);
  ni_ku : forall u, k_ku (n_us n) = Some u -> exists p, In p (n_theirs n) /\ kp_gen p = Some (k_open (n_us n)) /\ kp_pn p = u_pn u }.
Lemma new_ninv server : ninv (net_new server).
Proof. split; cbn; try (intros; tauto); try apply new_kinv; try lia; intros; discriminate. Qed.
(** The state after a packet of the peer, or another, was received *)
Lemma recv_ninv n now e p c : ninv n -> (In p (n_theirs n) \/ kp_gen p = None) -> snd (krecv now e p (n_us n)) = c -> ninv (mkNet c (n_theirs n) (n_last n) (n_gen n) (n_heard n) (n_ours n)).
Proof.
  intros [h1 h2 h3 h4 h5 h6 h7] hp hc. destruct (krecv now e p (n_us n)) as [r c1] eqn:e1. cbn [snd] in hc. subst c1.
  destruct (krecv_cases _ _ _ _ _ _ e1 h1) as (hk & [(g1 & g2)|(g1 & g2 & _ & _ & g3 & g4)]).
  - unfold done_with in *. split; cbn [n_us n_theirs n_last n_gen n_heard n_ours]; unfold done_with; rewrite ?g1, ?g2; auto.
  - destruct hp as [hp|hp]; [|congruence]. destruct (h2 p hp) as (g & i1 & i2 & i3 & i4). rewrite g2 in i1. injection i1 as <-.
    split; cbn [n_us n_theirs n_last n_gen n_heard n_ours]; rewrite ?g1; auto; try lia.
    + intros q hq. destruct (h5 q hq) as (g & j1 & j2 & j3). exists g. split; [exact j1|]. split; lia.
    + intros u hu. rewrite g4 in hu. injection hu as <-. exists p. auto.
Qed.
Lemma nstep_ninv o n r n' : nstep o n = (r, n') -> ninv n -> ninv n'.
Proof.
  intros h hn. destruct o as [skip done| |i now e|now e p|pn some done|i|now]; cbn [nstep] in h.
  - injection h as <- <-. destruct hn as [h1 h2 h3 h4 h5 h6 h7]. split; cbn [n_us n_theirs n_last n_gen n_heard n_ours]; auto.
    + intros p hp. apply in_app_or in hp. destruct hp as [hp|[<-|[]]].
      * destruct (h2 p hp) as (g & i1 & i2 & i3 & i4). exists g. repeat split; auto; lia.
      * exists (n_gen n). cbn. destruct h1 as (_ & h1 & _). repeat split; auto; lia.
    + intros p q g k hp hq hg hk hlt. apply in_app_or in hp, hq. destruct hq as [hq|[<-|[]]].
      * destruct hp as [hp|[<-|[]]]; [exact (h3 p q g k hp hq hg hk hlt)|]. cbn in hg. injection hg as <-. destruct (h2 q hq) as (x & i1 & i2 & _). rewrite hk in i1. injection i1 as <-. lia.
      * destruct hp as [hp|[<-|[]]]; [|cbn in *; congruence + (injection hg as <-; injection hk as <-; lia)]. destruct (h2 p hp) as (x & _ & _ & _ & i4). cbn. lia.
    + intros u hu. destruct (h7 u hu) as (p & hp & hx). exists p. split; [apply in_or_app; auto|exact hx].
  - injection h as <- <-. destruct (Z.eqb_spec (n_heard n) (n_gen n)) as [e|e]; [|exact hn]. destruct hn as [h1 h2 h3 h4 h5 h6 h7]. split; cbn [n_us n_theirs n_last n_gen n_heard n_ours]; auto; try lia.
    intros p hp. destruct (h2 p hp) as (g & i1 & i2 & i3 & i4). exists g. repeat split; auto; lia.
  - destruct (nth_error (n_theirs n) i) as [p|] eqn:ep; [|injection h as <- <-; exact hn]. destruct (krecv now e p (n_us n)) as [r1 c] eqn:e1. injection h as <- <-.
    apply (recv_ninv n now e p c hn); [left; exact (nth_error_In _ _ ep)|rewrite e1; reflexivity].
  - destruct (krecv now e (mkKp (kp_pn p) (kp_phase p) None (kp_done p)) (n_us n)) as [r1 c] eqn:e1. injection h as <- <-.
    apply (recv_ninv n now e (mkKp (kp_pn p) (kp_phase p) None (kp_done p)) c hn); [right; reflexivity|rewrite e1; reflexivity].
  - destruct (ksend pn some done (n_us n)) as [p c] eqn:e1. injection h as <- <-. destruct hn as [h1 h2 h3 h4 h5 h6 h7].
    assert (hk : kinv c) by (apply (kstep_kinv (KSend pn some done) (n_us n) (KoSent p) c); [cbn [kstep]; rewrite e1; reflexivity|exact h1]).
    unfold ksend in e1. assert (hd : done_with c /\ k_open c = k_open (n_us n) /\ (forall q, p = Some q -> kp_gen q = Some (k_seal (n_us n))) /\ (forall u, k_ku c = Some u -> exists v, k_ku (n_us n) = Some v /\ u_pn u = u_pn v)).
    { unfold done_with. destruct (k_ku (n_us n)) as [v|] eqn:ev; injection e1 as <- <-; cbn [k_ku k_open k_seal k_phase].
      - split; [intros u hu; injection hu as <-; reflexivity|]. split; [reflexivity|]. split; [intros q hq; destruct some; [injection hq as <-; reflexivity|discriminate]|]. intros u hu; injection hu as <-; eauto.
      - rewrite ev. split; [discriminate|]. split; [reflexivity|]. split; [intros q hq; destruct some; [injection hq as <-; reflexivity|discriminate]|discriminate]. }
    destruct hd as (d1 & d2 & d3 & d4). split; cbn [n_us n_theirs n_last n_gen n_heard n_ours]; rewrite ?d2; auto.
    + intros q hq. assert (hq2 : In q (n_ours n) \/ p = Some q) by (destruct p as [p|]; [apply in_app_or in hq; destruct hq as [hq|[->|[]]]; auto|auto]). destruct hq2 as [hq2|hq2].
      * destruct (h5 q hq2) as (g & j1 & j2 & j3). exists g. auto.
      * exists (k_seal (n_us n)). split; [exact (d3 q hq2)|]. destruct h1 as (h1 & _). rewrite h1. split; [lia|auto].
    + intros u hu. destruct (d4 u hu) as (v & hv & hv2). rewrite hv2. exact (h7 v hv).
  - destruct (nth_error (n_ours n) i) as [p|] eqn:ep; injection h as <- <-; [|exact hn]. destruct hn as [h1 h2 h3 h4 h5 h6 h7]. destruct (h5 p (nth_error_In _ _ ep)) as (g & j1 & j2 & j3). rewrite j1.
    split; cbn [n_us n_theirs n_last n_gen n_heard n_ours]; auto; try lia. intros e. destruct (Z.max_spec (n_heard n) g) as [(_ & em)|(_ & em)]; rewrite em in e; auto.
  - injection h as <- <-. destruct hn as [h1 h2 h3 h4 h5 h6 h7]. assert (hk : kinv (ktimeout now (n_us n))) by (apply (kstep_kinv (KTimeout now) (n_us n) KoUnit); [reflexivity|exact h1]).
    assert (hd : k_open (ktimeout now (n_us n)) = k_open (n_us n) /\ (k_ku (ktimeout now (n_us n)) = None \/ k_ku (ktimeout now (n_us n)) = k_ku (n_us n))).
    { unfold ktimeout. destruct (k_ku (n_us n)) as [u|] eqn:eu; [destruct (u_timer u <=? now)|]; cbn; auto. }
    destruct hd as (d1 & d2). assert (d3 : done_with (n_us n) -> done_with (ktimeout now (n_us n))) by (unfold done_with; destruct d2 as [-> | ->]; [discriminate|auto]).
    split; cbn [n_us n_theirs n_last n_gen n_heard n_ours]; rewrite ?d1; auto.
    + intros q hq. destruct (h5 q hq) as (g & j1 & j2 & j3). exists g. auto.
    + intros u hu. destruct d2 as [d2|d2]; rewrite d2 in hu; [discriminate|]. exact (h7 u hu).
Qed.
Lemma nrun_ninv : forall ops n l n', nrun ops n = (l, n') -> ninv n -> ninv n'.
Proof.
  induction ops as [|o ops ih]; intros n l n' h hn; cbn [nrun] in h; [injection h as <- <-; exact hn|]. destruct (nstep o n) as [r n1] eqn:e1. destruct (nrun ops n1) as [l2 n2] eqn:e2. injection h as <- <-.
  exact (ih _ _ _ e2 (nstep_ninv _ _ _ _ e1 hn)).
Qed.

Local Ltac fast := (repeat match goal with h : forall _, _ |- _ => clear h end; lia).
(** What becomes of each of an honest peer's packets whenever it arrives, on a confirmed
    connection: it is opened, unless the keys it was sealed with are dropped, and then it
    is ignored; it never breaks the connection; and we have moved to the keys it shows. *)
Theorem C64_honest server ops l n p g now e : nrun ops (net_new server) = (l, n) -> In p (n_theirs n) -> kp_gen p = Some g -> plain e -> (kp_done p = true -> k_server (n_us n) = false) -> k_conf (n_us n) = true ->
  let c := n_us n in g <= k_open c + 1 /\ (0 <= k_open c <= n_gen n /\ n_gen n <= k_open c + 1) /\
  ((k_open c <= g \/ g = k_open c - 1 /\ k_ku c <> None) -> exists c', krecv now e p c = (Ok tt, c') /\ k_open c' = Z.max g (k_open c) /\ k_seal c' = k_open c' /\ k_conf c' = true) /\
  (~ (k_open c <= g \/ g = k_open c - 1 /\ k_ku c <> None) -> krecv now e p c = (Err Done, c)).
Proof.
  intros hr hp hg (pl1 & pl2 & pl3) hdone hcf. destruct (nrun_ninv _ _ _ _ hr (new_ninv server)) as [(h11 & h12 & h13 & h14) h2 h3 h4 h5 h6 h7]. cbv zeta. set (c := n_us n) in *.
  destruct (h2 p hp) as (g1 & i1 & i2 & i3 & i4). rewrite hg in i1. injection i1 as <-. split; [lia|]. split; [lia|]. clearbody c.
  assert (hconf : forall c1, k_conf c1 = true -> k_server c1 = k_server c -> exists c2, confirm p c1 = (Ok tt, c2) /\ k_open c2 = k_open c1 /\ k_seal c2 = k_seal c1 /\ k_conf c2 = true).
  { intros c1 hx hy. unfold confirm. destruct (kp_done p); [rewrite hy, (hdone eq_refl)|]; eexists; split; try reflexivity; auto. }
  assert (hsame : forall g1, (g1 =? g) = true -> opens g1 p = true) by (intros x hx; unfold opens; rewrite hg, Z.eqb_sym; exact hx).
  assert (hdiff : forall g1, g1 <> g -> opens g1 p = false) by (intros x hx; unfold opens; rewrite hg; destruct (Z.eqb_spec g x); congruence).
  assert (hrec : forall g1 next, choose p c = (g1, next) -> krecv now e p c = if negb (opens g1 p) then (Err Done, c) else if next then if match k_ku c with Some u => negb (u_acked u) | None => false end then (Err KeyUpdate, c)
        else confirm p (mkK (k_open c + 1) (k_seal c + 1) (negb (k_phase c)) (k_conf c) (k_server c) (Some (mkKu (k_open c) (kp_pn p) false (now + e_pto e * 3)))) else confirm p c).
  { intros g1 next hc. unfold krecv. rewrite hc, pl1, pl2, pl3. reflexivity. }
  assert (hodd : forall x y, x = y + 1 -> Bool.eqb (Z.odd x) (Z.odd y) = false /\ Bool.eqb (Z.odd y) (Z.odd x) = false) by (intros x y ->; rewrite odd_next; destruct (Z.odd y); auto).
  assert (hd : g = k_open c \/ g = k_open c + 1 \/ g = k_open c - 1 \/ g < k_open c - 1) by fast. destruct hd as [hd|[hd|[hd|hd]]].
  - split; [intros _|intros hx; exfalso; apply hx; fast]. destruct (hconf c hcf eq_refl) as (c2 & k1 & k2 & k3 & k4). exists c2. split; [|split; [fast|split; [fast|exact k4]]].
    rewrite (hrec (k_open c) false); [rewrite hsame by (apply Z.eqb_eq; fast); exact k1|]. unfold choose. rewrite hcf, i3, h13, <- hd, Bool.eqb_reflx. reflexivity.
  - split; [intros _|intros hx; exfalso; apply hx; fast].
    destruct (hconf (mkK (k_open c + 1) (k_seal c + 1) (negb (k_phase c)) (k_conf c) (k_server c) (Some (mkKu (k_open c) (kp_pn p) false (now + e_pto e * 3)))) hcf eq_refl) as (c2 & k1 & k2 & k3 & k4).
    cbn [k_open k_seal] in k2, k3. exists c2. split; [|split; [fast|split; [fast|exact k4]]].
    rewrite (hrec (k_open c + 1) true).
    + rewrite hsame by (apply Z.eqb_eq; fast). cbn [negb]. assert (hdw : done_with c) by (apply h6; fast). destruct (k_ku c) as [u|] eqn:eu; [rewrite (hdw u ltac:(first [exact eu|reflexivity]))|]; exact k1.
    + unfold choose. rewrite hcf, i3, h13, (proj1 (hodd _ _ hd)). cbn [andb negb]. destruct (k_ku c) as [u|] eqn:eu; [|reflexivity]. destruct (h7 u ltac:(first [exact eu|reflexivity])) as (q & q1 & q2 & q3). pose proof (h3 q p _ _ q1 hp q2 hg ltac:(fast)). destruct (Z.ltb_spec (kp_pn p) (u_pn u)); [fast|reflexivity].
  - assert (ho : Bool.eqb (Z.odd g) (Z.odd (k_open c)) = false) by (apply (hodd (k_open c) g); fast). destruct (k_ku c) as [u|] eqn:eu.
    + split; [intros _|intros hx; exfalso; apply hx; right; split; [exact hd|discriminate]]. destruct (hconf c hcf eq_refl) as (c2 & k1 & k2 & k3 & k4). exists c2. split; [|split; [fast|split; [fast|exact k4]]].
      rewrite (hrec (k_open c - 1) false); [rewrite hsame by (apply Z.eqb_eq; fast); exact k1|]. unfold choose. rewrite hcf, i3, h13, ho, ?eu. cbn [andb negb].
      destruct (h7 u ltac:(first [exact eu|reflexivity])) as (q & q1 & q2 & q3). pose proof (h3 p q _ _ hp q1 hg q2 ltac:(fast)). destruct (Z.ltb_spec (kp_pn p) (u_pn u)); [|fast]. f_equal. fast.
    + split; [intros [hx|(_ & hx)]; [fast|congruence]|intros _]. rewrite (hrec (k_open c + 1) true); [rewrite hdiff by fast; reflexivity|]. unfold choose. rewrite hcf, i3, h13, ho, ?eu. reflexivity.
  - split; [intros [hx|(hx & _)]; fast|intros _]. destruct (choose p c) as [g1 next] eqn:ech. rewrite (hrec g1 next eq_refl), hdiff; [reflexivity|].
    unfold choose in ech. destruct (_ && _) in ech; [|injection ech as <- _; fast]. destruct (k_ku c) as [u|]; [destruct (kp_pn p <? u_pn u)|]; injection ech as <- _; fast.
Qed.
Print Assumptions C64_honest.
(** Nothing that happens between honest endpoints is taken for an error of the peer. *)
Definition no_other_cause (o : nop) : Prop := match o with NDeliver _ _ e | NForge _ e _ => e_pid e <> Some KeyUpdate | _ => True end.
Theorem C64_no_error server ops l n : nrun ops (net_new server) = (l, n) -> Forall no_other_cause ops -> ~ In (Some (Err KeyUpdate)) l.
Proof.
  assert (H : forall ops n0 l n, nrun ops n0 = (l, n) -> ninv n0 -> Forall no_other_cause ops -> ~ In (Some (Err KeyUpdate)) l).
  2: { intros h hf. exact (H _ _ _ _ h (new_ninv server) hf). }
  clear. induction ops as [|o ops ih]; intros n0 l n h hn hf; cbn [nrun] in h; [injection h as <- <-; intros []|]. destruct (nstep o n0) as [r n1] eqn:e1. destruct (nrun ops n1) as [l2 n2] eqn:e2. injection h as <- <-. inversion hf as [|? ? f1 f2]; subst.
  intros [hx|hx]; [|exact (ih _ _ _ e2 (nstep_ninv _ _ _ _ e1 hn) f2 hx)]. subst r.
  assert (hk : forall now e p c', krecv now e p (n_us n0) = (Err KeyUpdate, c') -> e_pid e <> Some KeyUpdate -> (In p (n_theirs n0) \/ kp_gen p = None) -> False).
  { intros now e p c' hr he hp. destruct hn as [h1 h2 h3 h4 h5 h6 h7]. unfold krecv in hr. destruct (choose p (n_us n0)) as [g next] eqn:ec. destruct (opens g p) eqn:eo; [|discriminate]. cbn [negb] in hr.
    destruct (e_dup e); [discriminate|]. destruct (e_empty e); [discriminate|]. destruct (e_pid e) as [x|]; [congruence|].
    assert (hcon : forall c1 c2, confirm p c1 <> (Err KeyUpdate, c2)) by (intros c1 c2; unfold confirm; destruct (kp_done p); [destruct (k_server c1)|]; discriminate).
    destruct next; [|exact (hcon _ _ hr)]. destruct (match k_ku (n_us n0) with Some u => negb (u_acked u) | None => false end) eqn:eu; [|exact (hcon _ _ hr)].
    unfold opens in eo. destruct (kp_gen p) as [x|] eqn:eg; [|discriminate]. apply Z.eqb_eq in eo. subst x. destruct hp as [hp|hp]; [|discriminate]. destruct (h2 p hp) as (y & i1 & i2 & _). rewrite eg in i1. injection i1 as <-.
    assert (g = k_open (n_us n0) + 1).
    { unfold choose in ec. destruct (k_conf (n_us n0) && negb (Bool.eqb (kp_phase p) (k_phase (n_us n0)))); [|discriminate]. destruct (k_ku (n_us n0)) as [u|]; [destruct (kp_pn p <? u_pn u)|]; congruence. }
    assert (hd : done_with (n_us n0)) by (apply h6; lia). destruct (k_ku (n_us n0)) as [u|] eqn:eku; [|discriminate]. rewrite (hd u eku) in eu. discriminate. }
  destruct o as [skip done| |i now e|now e p|pn some done|i|now]; cbn [nstep no_other_cause] in *; try discriminate.
  - destruct (nth_error (n_theirs n0) i) as [p|] eqn:ep; [|discriminate]. destruct (krecv now e p (n_us n0)) as [r1 c] eqn:ek. injection e1 as -> _. exact (hk _ _ _ _ ek f1 (or_introl (nth_error_In _ _ ep))).
  - destruct (krecv now e (mkKp (kp_pn p) (kp_phase p) None (kp_done p)) (n_us n0)) as [r1 c] eqn:ek. injection e1 as -> _. exact (hk _ _ _ _ ek f1 (or_intror eq_refl)).
  - destruct (nth_error (n_ours n0) i); discriminate.
Qed.
Print Assumptions C64_no_error.

Definition ev := mkE false false None 100.
(** Two updates, with a packet of the first keys arriving after the first and another
    after the second *)
Definition two_updates : list nop :=
  [NTheirs 0 false; NTheirs 0 false; NTheirs 0 false; NDeliver 0 0 ev; NSend 0 true false; NHeard 0; NUpdate; NTheirs 0 false; NDeliver 3 10 ev; NDeliver 1 20 ev;
   NSend 1 true false; NHeard 1; NUpdate; NTheirs 0 false; NDeliver 4 30 ev; NDeliver 2 40 ev; NDeliver 3 50 ev].
Example C64_witness : let r := nrun two_updates (net_new true) in
  k_open (n_us (snd r)) = 2 /\ n_gen (snd r) = 2 /\ k_conf (n_us (snd r)) = true /\ Forall no_other_cause two_updates /\
  flat_map (fun x => match x with Some y => [y] | None => [] end) (fst r) = [Ok tt; Ok tt; Ok tt; Ok tt; Err Done; Ok tt].
Proof. cbv zeta. split; [vm_compute; reflexivity|]. split; [vm_compute; reflexivity|]. split; [vm_compute; reflexivity|]. split; [repeat constructor; discriminate|]. vm_compute. reflexivity. Qed.
Example C64_twice_witness : let c0 := key_new true in let c := snd (krecv 0 ev (mkKp 5 true (Some 1) false) c0) in
  k_open c = 1 /\ krecv 10 ev (mkKp 6 false (Some 2) false) c = (Err KeyUpdate, c) /\ k_open (snd (krecv 10 ev (mkKp 6 false (Some 2) false) (snd (ksend 0 true false c)))) = 2.
Proof. vm_compute. auto. Qed.

(** The update is not always confirmed by a packet sent: when the timer has dropped the
    old keys, or when a call to send had nothing to put into its packet, the next update
    is taken although nothing was sent with the keys before it. *)
Theorem C64_unconfirmed_update_refuted : forall o, o = KTimeout 300 \/ o = KSend 0 false false ->
  exists c, c = snd (krun [KRecv 0 ev (mkKp 5 true (Some 1) false); o; KRecv 400 ev (mkKp 6 false (Some 2) false)] (key_new true)) /\ k_open c = 2.
Proof. intros o [-> | ->]; eexists; (split; [reflexivity|]); vm_compute; reflexivity. Qed.
(** A client that has not got HANDSHAKE_DONE yet does not follow a server that updates its
    keys, as it may once a packet of the client has reached it: from then on it drops all
    the server sends, HANDSHAKE_DONE included. *)
Theorem C64_unconfirmed_client_refuted : exists ops n, n = snd (nrun ops (net_new false)) /\ n_gen n = 1 /\ k_conf (n_us n) = false /\ k_open (n_us n) = 0 /\
  forall now e p, kp_gen p = Some 1 -> krecv now e p (n_us n) = (Err Done, n_us n).
Proof.
  exists [NTheirs 0 true; NSend 0 true false; NHeard 0; NUpdate; NTheirs 0 true]. eexists. split; [reflexivity|]. split; [vm_compute; reflexivity|]. split; [vm_compute; reflexivity|]. split; [vm_compute; reflexivity|].
  intros now e p h. assert (hu : n_us (snd (nrun [NTheirs 0 true; NSend 0 true false; NHeard 0; NUpdate; NTheirs 0 true] (net_new false))) = key_new false) by (vm_compute; reflexivity). rewrite hu.
  unfold krecv, choose, opens. cbn [key_new k_conf k_open andb]. rewrite h. reflexivity.
Qed.
