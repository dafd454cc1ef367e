(** Path validation *)
Require Import Verif.Base Verif.Errors Verif.LifeModel Verif.LifeMicro Verif.LifeMicro2 Verif.LifeMicro3 Verif.LifeMicro4 Verif.LifeSpec Verif.LifeProofs1 Verif.LifeProofs2 Verif.LifeProofs3 Verif.LifeProofs5 Verif.LifeProofs6.

Lemma fold_size d : forall (l : list (Z * Z * Z)) acc, 
  (fold_left (fun acc x => if fst (fst x) =? d then snd (fst x) else acc) l acc = acc /\ existsb (fun x => fst (fst x) =? d) l = false) \/
  exists x, In x l /\ fst (fst x) = d /\ fold_left (fun acc x => if fst (fst x) =? d then snd (fst x) else acc) l acc = snd (fst x).
Proof.
  induction l as [|x l ih]; intros acc; cbn [fold_left existsb]; [left; auto|]. destruct (Z.eqb_spec (fst (fst x)) d) as [e|e].
  - right. destruct (ih (snd (fst x))) as [(h1 & h2)|(z & h1 & h2 & h3)]; [exists x; split; [left; reflexivity|auto]|exists z; split; [right; exact h1|auto]].
  - destruct (ih acc) as [(h1 & h2)|(z & h1 & h2 & h3)]; [left; split; [exact h1|cbn; exact h2]|right; exists z; split; [right; exact h1|auto]].
Qed.
Lemma resp_result d p v q : response_received d p = (v, q) -> has_pending d p = true ->
  exists n, (exists x, In x (p_flight p) /\ fst (fst x) = d /\ snd (fst x) = n) /\
  p_addr q = p_addr p /\ (forall x, In x (p_flight q) -> In x (p_flight p)) /\ p_maxch q = Z.max (p_maxch p) n /\ 3 <= rank (p_st q) /\
  (p_st q = Validated -> p_st p = Validated \/ 1200 <= p_maxch q) /\ (v = true -> p_st q = Validated).
Proof.
  intros h hp. unfold response_received in h.
  set (n := fold_left _ _ _) in h. exists n. split.
  { destruct (fold_size d (p_flight p) 0) as [(_ & h2)|(x & h1 & h2 & h3)]; [unfold has_pending in hp; congruence|]. exists x. split; [exact h1|]. split; [exact h2|]. unfold n. symmetry. exact h3. }
  clearbody n. cbv zeta in h. set (p1 := set_flight _ _) in h.
  assert (e1 : p_addr p1 = p_addr p /\ (forall x, In x (p_flight p1) -> In x (p_flight p)) /\ p_maxch p1 = p_maxch p /\ p_st p1 = p_st p).
  { subst p1. cbn. split; [reflexivity|]. split; [intros x hx; apply filter_In in hx; apply hx|]. auto. }
  clearbody p1. destruct e1 as (e1 & e2 & e3 & e4).
  assert (e5 : p_addr (promote_to ValidatingMtu p1) = p_addr p /\ p_flight (promote_to ValidatingMtu p1) = p_flight p1 /\ p_maxch (promote_to ValidatingMtu p1) = p_maxch p /\ 3 <= rank (p_st (promote_to ValidatingMtu p1)) /\ (p_st (promote_to ValidatingMtu p1) = ValidatingMtu \/ p_st (promote_to ValidatingMtu p1) = p_st p)).
  { unfold promote_to. destruct (Z.ltb_spec (rank (p_st p1)) (rank ValidatingMtu)); cbn; [repeat split; auto; lia|]. repeat split; auto. }
  set (p2 := promote_to ValidatingMtu p1) in *. clearbody p2. destruct e5 as (f1 & f2 & f3 & f4 & f5).
  cbn [set_maxch p_st p_maxch] in h. rewrite f3 in h.
  destruct (Z.eqb_spec (rank (p_st p2)) (rank ValidatingMtu)) as [er|er].
  - destruct (Z.leb_spec MIN_INITIAL (Z.max (p_maxch p) n)) as [el|el]; injection h as <- <-.
    + unfold promote_to. cbn [set_maxch p_st]. destruct (Z.ltb_spec (rank (p_st p2)) (rank Validated)); [|cbn in *; lia]. cbn [set_st set_maxch p_addr p_flight p_maxch p_st].
      rewrite f2. repeat split; auto; cbn; lia.
    + cbn [set_want set_maxch p_addr p_flight p_maxch p_st]. rewrite f2. repeat split; auto; [|discriminate]. intros e. rewrite e in er. cbn in er. lia.
  - injection h as <- <-. cbn [set_maxch p_addr p_flight p_maxch p_st]. rewrite f2. repeat split; auto; [|discriminate].
    intros e. left. destruct f5 as [f5|f5]; [rewrite f5 in er; cbn in er; lia|congruence].
Qed.

(** Events that say that a path was validated *)
Definition about (a : addr) (e : event) : Prop := e = EvValidated a \/ e = EvMigrated a.
Definition valid_at (a : addr) (c : conn) : Prop := exists i p, nth_error (x_paths c) i = Some p /\ p_addr p = a /\ p_st p = Validated.
Lemma set_active_events i c a e : about a e -> In e (x_events (snd (set_active i c))) -> In e (x_events c) \/ valid_at a (snd (set_active i c)).
Proof.
  intros ha. unfold set_active. set (c1 := match active_pid (x_paths c) with Some old => up old (set_on false) c | None => c end).
  assert (e1 : x_events c1 = x_events c) by (subst c1; destruct (active_pid (x_paths c)); reflexivity).
  destruct (nth_error (x_paths c1) i) as [p|] eqn:ep; [|cbn [snd]; rewrite e1; auto].
  destruct (server (up i (set_on true) c1)); [destruct (validated p) eqn:ev|]; cbn [snd]; intros h; try (left; rewrite <- e1; exact h).
  cbn [notify w_events x_events] in h. apply in_app_or in h. destruct h as [h|[h|[]]]; [left; rewrite <- e1; exact h|]. right.
  exists i, (set_on true p). split; [apply upd_same; exact ep|]. cbn. destruct ha as [ha|ha]; rewrite ha in h; [discriminate|]. injection h as h. split; [exact h|].
  unfold validated in ev. destruct (p_st p); cbn in ev; try discriminate. reflexivity.
Qed.
Lemma valid_upd a i f c : (forall p, p_addr (f p) = p_addr p /\ p_st (f p) = p_st p) -> valid_at a c -> valid_at a (up i f c).
Proof.
  intros hf (j & p & h1 & h2 & h3). destruct (Nat.eq_dec i j) as [<-|hn].
  - exists i, (f p). split; [apply upd_same; exact h1|]. destruct (hf p) as (-> & ->). auto.
  - exists j, p. split; [cbn [up w_paths x_paths]; rewrite upd_other by exact hn; exact h1|auto].
Qed.
Lemma tapply_events g c a e : tguard g c -> about a e -> In e (x_events (tapply g c)) -> In e (x_events c) \/ valid_at a (tapply g c).
Proof.
  intros hg ha h.
  destruct g; try (left; exact h).
  - left. cbn [tapply] in h. unfold credit in h. destruct (by_addr _ _); exact h.
  - left. cbn [tapply] in h. unfold insert_path in h. destruct (_ <? _).
    + destruct tell; cbn in h; [|exact h]. apply in_app_or in h. destruct h as [h|[h|[]]]; [exact h|]. destruct ha as [->| ->]; discriminate.
    + destruct (index unused (x_paths c)); [|exact h]. destruct tell; cbn in h; repeat (apply in_app_or in h; destruct h as [h|[h|[]]]; [|destruct ha as [->| ->]; discriminate]); exact h.
  - left. cbn [tapply] in h. destruct (_ && _) in h; [exact h|]. unfold credit in h. destruct (by_addr _ _); exact h.
  - left. cbn [tapply] in h. unfold restart_idle in h. destruct (idle_timeout c); exact h.
  - left. cbn [tapply w_events x_events] in h. destruct (x_events c); [destruct h|right; exact h].
  - cbn [tapply] in h |- *. unfold got_response in h |- *. destruct (active_pid (x_paths c)) as [act|]; [|auto].
    destruct (index (has_pending d) (x_paths c)) as [i|] eqn:ei; [|auto]. destruct (index_some _ _ _ ei) as (p & hp & hpd). rewrite hp in h |- *.
    destruct (response_received d p) as [v q] eqn:er. destruct (resp_result _ _ _ _ er hpd) as (n & _ & e1 & _ & _ & _ & _ & e7).
    destruct v; [|auto]. cbn [snd] in h |- *.
    assert (hv : forall b, b = p_addr p -> valid_at b (notify (EvValidated (p_addr p)) (up i (fun _ => set_mig false q) c)) /\ valid_at b (notify (EvMigrated (p_addr p)) (notify (EvValidated (p_addr p)) (up i (fun _ => set_mig false q) c)))).
    { intros b ->. split; exists i, (set_mig false q); (split; [exact (upd_same (fun _ => set_mig false q) _ _ _ hp)|]); cbn; auto. }
    destruct (Nat.eqb i act && p_mig p).
    + cbn [notify w_events x_events up w_paths] in h. rewrite <- app_assoc in h. apply in_app_or in h. destruct h as [h|h]; [auto|]. right.
      apply hv. destruct h as [h|[h|[]]]; destruct ha as [->| ->]; try discriminate; injection h as <-; reflexivity.
    + cbn [notify w_events x_events up w_paths] in h. apply in_app_or in h. destruct h as [h|[h|[]]]; [auto|]. right.
      apply hv. destruct ha as [->| ->]; try discriminate; injection h as <-; reflexivity.
  - cbn [tapply] in *. exact (set_active_events _ _ _ _ ha h).
  - cbn [tapply] in *. unfold peer_migrated in *. destruct (active_pid (x_paths c)) as [old|]; [|auto]. destruct (Nat.eqb old i); [auto|].
    pose proof (fun h => set_active_events i c a e ha h) as hs. destruct (set_active i c) as [r c1]. cbn [snd] in hs.
    destruct r; [|exact (hs h)|exact (hs h)]. destruct (nth_error (x_paths c1) i); [|exact (hs h)]. destruct (nth_error (x_paths c1) old); [|exact (hs h)]. cbn [snd] in h |- *.
    destruct (_ && _); [|exact (hs h)]. destruct (hs h) as [h1|h1]; [auto|]. right. apply valid_upd; [|exact h1]. intros q. cbn. auto.
  - left. cbn [tapply] in h. unfold tell_failures in h. cbn [w_paths x_events w_events] in h. apply in_app_or in h. destruct h as [h|h]; [exact h|].
    apply in_map_iff in h. destruct h as (p & h1 & _). destruct ha as [->| ->]; discriminate.
Qed.

Section validation.
Variable a : addr.
Variable A : Z -> Z -> Prop.
Variable H : Z -> Prop.
Variable V : Z -> Prop.
Hypothesis hA : forall d n, A d n -> 0 < n.
Hypothesis hV : forall d n m, A d n -> H d -> m <= n -> V m.
Hypothesis hV2 : forall n m, V n -> m <= n -> V m.

Definition good (p : path) : Prop :=
  (forall x, In x (p_flight p) -> A (fst (fst x)) (snd (fst x))) /\ (p_maxch p = 0 \/ V (p_maxch p)) /\
  (2 <= rank (p_st p) -> exists d n, A d n) /\ (3 <= rank (p_st p) -> V 1) /\ (p_st p = Validated -> V 1200).
Definition inv45 (c : conn) : Prop :=
  (forall i p, nth_error (x_paths c) i = Some p -> p_addr p = a -> good p) /\ (forall e, about a e -> In e (x_events c) -> V 1200).
Definition ok45 (g : tag) : Prop :=
  match g with GPath _ (PSent b d n _) => b = a -> A d n | GResp d => H d | _ => True end.
Lemma good_same p q : p_st q = p_st p -> p_flight q = p_flight p -> p_maxch q = p_maxch p -> good p -> good q.
Proof. unfold good. intros -> -> ->. auto. Qed.
Lemma pch45 g c p p' : ok45 g -> pch g c p p' -> p_addr p' = a -> (p_addr p = a -> good p) -> good p'.
Proof.
  intros ho hc ha hp. destruct g; cbn [pch] in hc; try (subst p'; exact (hp ha)).
  - destruct hc as [->|[hpg ->]]; [exact (hp ha)|]. rewrite pap_addr in ha. specialize (hp ha). destruct m; cbn [pap] in *; try exact hp.
    + apply (good_same p); [..|exact hp]; unfold challenge_received; destruct (_ =? _); reflexivity.
    + destruct hp as (h1 & h2 & h3 & h4 & h5). assert (hd : A d n) by (apply ho; destruct hpg as (<- & _); exact ha).
      assert (hst : p_st (add_challenge d n now p) = p_st p \/ p_st (add_challenge d n now p) = Validating) by (unfold add_challenge, promote_to; destruct (_ <? _); cbn; auto).
      assert (hmc : p_maxch (add_challenge d n now p) = p_maxch p) by (unfold add_challenge, promote_to; destruct (_ <? _); reflexivity).
      unfold good. rewrite hmc, flight_add. split.
      { intros x hx. apply in_app_or in hx. destruct hx as [hx|[<-|[]]]; [exact (h1 _ hx)|exact hd]. }
      split; [exact h2|]. split; [eauto|]. destruct hst as [-> | ->]; [auto|]. cbn. split; [lia|discriminate].
  - destruct hc as [->|(_ & _ & _ & ->)]; exact (hp ha).
  - destruct hc as [->|(_ & _ & _ & ->)]; exact (hp ha).
  - destruct (soft_keeps _ _ hc) as (e1 & e2 & e3 & e4 & _). rewrite e1 in ha. apply (good_same p); auto.
  - destruct hc as [->|(hpd & v & q & h2 & h3)]; [exact (hp ha)|]. destruct (resp_result _ _ _ _ h2 hpd) as (n & (x & hx1 & hx2 & hx3) & e1 & e2 & e3 & e4 & e5 & _).
    assert (hg : p_addr q = a -> good q).
    { intros hq. rewrite e1 in hq. destruct (hp hq) as (g1 & g2 & g3 & g4 & g5). pose proof (g1 _ hx1) as hAx. rewrite hx2, hx3 in hAx. cbn in ho.
      assert (hn : V n) by (apply (hV d n); [exact hAx|exact ho|lia]). assert (h0 := hA _ _ hAx).
      assert (hmx : V (p_maxch q)) by (rewrite e3; destruct (Z.max_spec (p_maxch p) n) as [[_ ->]|[hle ->]]; [exact hn|]; destruct g2 as [g2|g2]; [lia|exact g2]).
      split; [intros z hz; exact (g1 _ (e2 _ hz))|]. split; [right; exact hmx|]. split; [intros _; eauto|]. split; [intros _; apply (hV2 n); [exact hn|lia]|].
      intros hv. destruct (e5 hv) as [hv2|hv2]; [exact (g5 hv2)|]. exact (hV2 _ _ hmx hv2). }
    destruct h3 as [->|[_ ->]]; [exact (hg ha)|]. apply (good_same q); try reflexivity. apply hg. exact ha.
  - destruct (soft_keeps _ _ hc) as (e1 & e2 & e3 & e4 & _). rewrite e1 in ha. apply (good_same p); auto.
  - destruct (soft_keeps _ _ hc) as (e1 & e2 & e3 & e4 & _). rewrite e1 in ha. apply (good_same p); auto.
  - destruct (fired_keeps _ _ _ _ hc) as (e1 & e2 & e3 & _ & _ & _ & _ & e8 & _). rewrite e1 in ha. destruct (hp ha) as (g1 & g2 & g3 & g4 & g5).
    unfold good. rewrite e3. split; [intros x hx; exact (g1 _ (e2 _ hx))|]. split; [exact g2|]. destruct e8 as [-> | ->]; [auto|]. cbn. split; [lia|]. split; [lia|discriminate].
Qed.
Lemma tag45 g c : ok45 g -> tguard g c -> inv45 c -> inv45 (tapply g c).
Proof.
  intros ho hg (h1 & h2).
  assert (hp : forall i p, nth_error (x_paths (tapply g c)) i = Some p -> p_addr p = a -> good p).
  { intros i p' hp' ha. destruct (tapply_nth _ _ _ _ hg hp') as [(p & hp & hc)|(q & n & tell & -> & ->)].
    - exact (pch45 _ _ _ _ ho hc ha (h1 _ _ hp)).
    - destruct hg as (_ & (b & d & w & m & ->) & _). unfold good. cbn. split; [intros x []|]. split; [auto|]. split; [lia|]. split; [lia|discriminate]. }
  split; [exact hp|]. intros e he hin. destruct (tapply_events _ _ _ _ hg he hin) as [h3|(i & p & h3 & h4 & h5)]; [exact (h2 _ he h3)|]. apply (hp _ _ h3 h4). exact h5.
Qed.
Lemma via45 : forall l c c', via l c c' -> Forall ok45 l -> inv45 c -> inv45 c'.
Proof. induction 1 as [|g l c c' hg hv ih]; intros hl hi; [exact hi|]. inversion hl as [|? ? h1 h2]; subst. apply ih; [exact h2|]. apply tag45; assumption. Qed.
End validation.

Lemma good_mono (A A' : Z -> Z -> Prop) (V V' : Z -> Prop) p : (forall d n, A d n -> A' d n) -> (forall n, V n -> V' n) -> good A V p -> good A' V' p.
Proof.
  intros h1 h2 (g1 & g2 & g3 & g4 & g5). split; [auto|]. split; [destruct g2; auto|]. split; [intros h; destruct (g3 h) as (d & n & h3); eauto|]. auto.
Qed.
Lemma inv45_mono a (A A' : Z -> Z -> Prop) (V V' : Z -> Prop) c : (forall d n, A d n -> A' d n) -> (forall n, V n -> V' n) -> inv45 a A V c -> inv45 a A' V' c.
Proof. intros h1 h2 (g1 & g2). split; [intros i p hp ha; eapply good_mono; eauto|]. intros e he hin. apply h2. exact (g2 e he hin). Qed.

Lemma asked_app t1 t2 a d n : asked (t1 ++ t2) a d n <-> asked t1 a d n \/ asked t2 a d n.
Proof.
  unfold asked. split.
  - intros (s & h1 & h2). rewrite all_out_app in h1. apply in_app_or in h1. destruct h1; [left|right]; eauto.
  - intros [(s & h1 & h2)|(s & h1 & h2)]; exists s; (split; [rewrite all_out_app; apply in_or_app; auto|exact h2]).
Qed.
Lemma heard_app t1 t2 d : heard t1 d \/ heard t2 d -> heard (t1 ++ t2) d.
Proof. intros [(b & k & h1 & h2)|(b & k & h1 & h2)]; exists b, k; (split; [rewrite all_in_app; apply in_or_app; auto|exact h2]). Qed.
Lemma proven_app t1 t2 a n : proven t1 a n -> proven (t1 ++ t2) a n.
Proof. intros (u1 & u2 & d & m & -> & h1 & h2 & h3). exists u1, (u2 ++ t2), d, m. rewrite app_assoc. split; [reflexivity|]. split; [exact h1|]. split; [exact h2|]. apply heard_app. auto. Qed.
Lemma proven_le t a n m : proven t a n -> m <= n -> proven t a m.
Proof. intros (u1 & u2 & d & k & -> & h1 & h2 & h3) h. exists u1, u2, d, k. split; [reflexivity|]. split; [exact h1|]. split; [lia|exact h3]. Qed.
Definition sized (t : trace) : Prop := forall x, In x (all_out t) -> 0 < s_size (snd x).

Lemma step45 a t0 o c y c' : step o c = (y, c') -> zheld c -> sized t0 -> inv45 a (asked t0 a) (proven t0 a) c ->
  sized (t0 ++ [(o, y)]) /\ inv45 a (asked (t0 ++ [(o, y)]) a) (proven (t0 ++ [(o, y)]) a) c'.
Proof.
  intros h hz hsz hi. destruct (step_via _ _ _ _ h hz) as (_ & l & hv & ho & _ & _ & _ & hpr & _ & hpos & _).
  assert (hsz1 : forall x, In x (y_sent y) -> 0 < s_size (snd x)) by (rewrite Forall_forall in hpos; exact hpos).
  split.
  { intros x hx. rewrite all_out_app, out_one in hx. apply in_app_or in hx. destruct hx; auto. }
  assert (hsent : forall i d n t, In (GPath i (PSent a d n t)) l -> asked [(o, y)] a d n).
  { intros i d n t hin. assert (hx : In (a, d, n, t) (flat_map probes l)) by (apply in_flat_map; exists (GPath i (PSent a d n t)); split; [exact hin|left; reflexivity]).
    rewrite hpr in hx. apply in_flat_map in hx. destruct hx as ([b s] & h1 & h2). cbn [fst snd] in h2. unfold chal_of in h2. destruct (s_chal s) as [d0|] eqn:ed; [|destruct h2].
    destruct h2 as [h2|[]]. injection h2 as -> -> <- _. exists s. rewrite out_one. auto. }
  assert (hzh : forall k b, In (k, b) (x_held c) -> k_ty k = TZero) by (intros k b hk; unfold zheld in hz; rewrite Forall_forall in hz; exact (hz _ hk)).
  rewrite Forall_forall in ho.
  assert (mono : forall d n, asked t0 a d n -> asked (t0 ++ [(o, y)]) a d n) by (intros d n hd; apply asked_app; auto).
  assert (mono2 : forall n, proven t0 a n -> proven (t0 ++ [(o, y)]) a n) by (intros n; apply proven_app).
  (* either nothing was heard or nothing was asked *)
  assert (hcase : (forall d, ~ In (GResp d) l) \/ ((forall i b d n t, ~ In (GPath i (PSent b d n t)) l) /\ forall d, In (GResp d) l -> heard [(o, y)] d)).
  { destruct o as [now b ks|now from to max hso os|now timers|app code reason|b scid|b scid|q| |i9 t9 pto rtt|i9 d9];
      try (left; intros d hd; specialize (ho _ hd); cbn in ho; (tauto || discriminate)).
    - right. split.
      + intros i b0 d n t hd. specialize (ho _ hd). cbn in ho. destruct ho as [[]|[(k & h1 & h2)|(k & b1 & h1 & h2)]]; exact h2.
      + intros d hd. specialize (ho _ hd). cbn in ho. destruct ho as [[]|[(k & h1 & h2 & h3)|(k & b1 & h1 & h2 & h3)]]; [|rewrite (hzh _ _ h1) in h3; congruence].
        exists b, k. rewrite in_one. split; [apply in_map; exact h1|auto].
    - left. intros d hd. specialize (ho _ hd). cbn in ho. destruct ho as [[]|[[[]|(k & b0 & h1 & h2 & h3)]|[]]]. rewrite (hzh _ _ h1) in h3. congruence. }
  destruct hcase as [hno|(hno & hhe)].
  - apply (via45 a (asked (t0 ++ [(o, y)]) a) (fun _ => False) (proven (t0 ++ [(o, y)]) a)) with (l := l) (c := c); [| | |exact hv| |].
    + intros d n (s & h1 & h2 & <-). rewrite all_out_app, out_one in h1. apply in_app_or in h1. destruct h1 as [h1|h1]; [exact (hsz _ h1)|exact (hsz1 _ h1)].
    + intros d n m _ [].
    + intros n m. apply proven_le.
    + apply Forall_forall. intros g hg. destruct g; cbn; try exact I; [|exact (hno _ hg)]. destruct m; cbn; try exact I. intros ->. apply asked_app. right. exact (hsent _ _ _ _ hg).
    + eapply inv45_mono; [exact mono|exact mono2|exact hi].
  - apply (inv45_mono a (asked t0 a) (asked (t0 ++ [(o, y)]) a) (proven (t0 ++ [(o, y)]) a) (proven (t0 ++ [(o, y)]) a)); [exact mono|auto|].
    apply (via45 a (asked t0 a) (heard [(o, y)]) (proven (t0 ++ [(o, y)]) a)) with (l := l) (c := c); [| | |exact hv| |].
    + intros d n (s & h1 & h2 & <-). exact (hsz _ h1).
    + intros d n m h1 h2 h3. exists t0, [(o, y)], d, n. auto.
    + intros n m. apply proven_le.
    + apply Forall_forall. intros g hg. destruct g; cbn; try exact I; [|exact (hhe _ hg)]. destruct m; cbn; try exact I. destruct (hno _ _ _ _ _ hg).
    + eapply inv45_mono; [|exact mono2|exact hi]. auto.
Qed.
Lemma run45 a : forall ops c t0 t c', run ops c = (t, c') -> zheld c -> sized t0 -> inv45 a (asked t0 a) (proven t0 a) c ->
  inv45 a (asked (t0 ++ t) a) (proven (t0 ++ t) a) c' /\ (forall e, about a e -> In (OEvent, OutEvent (Some e)) t -> proven (t0 ++ t) a 1200).
Proof.
  induction ops as [|o ops ih]; intros c t0 t c' h hz hsz hi; cbn [run] in h; [injection h as <- <-; rewrite app_nil_r; split; [exact hi|intros e _ []]|].
  destruct (step o c) as [y c1] eqn:e1. destruct (run ops c1) as [t2 c2] eqn:e2. injection h as <- <-.
  destruct (step45 a t0 o c y c1 e1 hz hsz hi) as (h1 & h2).
  destruct (ih _ _ _ _ e2 (step_zheld _ _ _ _ e1 hz) h1 h2) as (h3 & h4). rewrite <- app_assoc in h3, h4. cbn [app] in h3, h4. split; [exact h3|].
  intros e he [hin|hin]; [|exact (h4 e he hin)]. injection hin as -> ->. cbn [step] in e1. destruct (x_events c) as [|e0 ev] eqn:ee; [discriminate|]. injection e1 as -> _.
  apply proven_app. apply (proj2 hi e he). rewrite ee. left. reflexivity.
Qed.

(** * Distinct addresses, and their number *)
Lemma upd_map {A B} (f : A -> B) x : forall l i, map f (upd i (fun _ => x) l) = upd i (fun _ => f x) (map f l).
Proof. induction l as [|y l ih]; intros [|i]; cbn; try reflexivity. rewrite ih. reflexivity. Qed.
Lemma upd_nodup {A} (x : A) : forall l i, NoDup l -> ~ In x l -> NoDup (upd i (fun _ => x) l).
Proof.
  induction l as [|y l ih]; intros [|i] h hx; cbn; try exact h; inversion h as [|? ? h1 h2]; subst.
  - constructor; [|exact h2]. intros hin. apply hx. right. exact hin.
  - constructor; [|apply ih; [exact h2|intros hin; apply hx; right; exact hin]]. intros hin.
    assert (hin2 : In y l \/ y = x).
    { clear - hin. revert i hin. induction l as [|z l ih2]; intros [|i] hin; cbn in hin; [destruct hin|destruct hin| |].
      - destruct hin as [->|hin]; auto. left. right. exact hin.
      - destruct hin as [->|hin]; [left; left; reflexivity|]. destruct (ih2 _ hin); auto. left. right. exact H. }
    destruct hin2 as [h3|h3]; [exact (h1 h3)|]. subst y. apply hx. left. reflexivity.
Qed.
Lemma nodup_snoc {A} (x : A) : forall l, NoDup l -> ~ In x l -> NoDup (l ++ [x]).
Proof.
  induction l as [|y l ih]; intros h hx; cbn; [repeat constructor; intros []|]. inversion h as [|? ? h1 h2]; subst. constructor; [|apply ih; [exact h2|intros hin; apply hx; right; exact hin]].
  intros hin. apply in_app_or in hin. destruct hin as [hin|[<-|[]]]; [exact (h1 hin)|]. apply hx. left. reflexivity.
Qed.
Definition inv78 (m : Z) (c : conn) : Prop := NoDup (map p_addr (x_paths c)) /\ 1 <= zlen (x_paths c) <= Z.max 1 m.
Lemma tag78 m g c : g_maxp (x_cfg c) = m -> tguard g c -> inv78 m c -> inv78 m (tapply g c).
Proof.
  intros hm hg (h1 & h2).
  assert (dec : adds g \/ ~ adds g) by (destruct g; cbn; auto).
  destruct dec as [ha|ha].
  - destruct g; try destruct ha. destruct hg as (hb & _ & _). cbn [tapply]. unfold insert_path.
    assert (hnin : ~ In (p_addr p) (map p_addr (x_paths c))) by (intros hin; apply in_map_iff in hin; destruct hin as (q & e & hq); exact (by_addr_none _ _ hb q hq e)).
    destruct (Z.ltb_spec (zlen (x_paths c)) (g_maxp (x_cfg c))) as [hlt|hlt].
    + assert (e : x_paths (snd (Ok (length (x_paths c)) : res error nat, if tell then notify (EvNew (p_addr p)) (w_paths (x_paths c ++ [p]) c) else w_paths (x_paths c ++ [p]) c)) = x_paths c ++ [p]) by (destruct tell; reflexivity).
      unfold inv78. rewrite e, map_app, zlen_app. cbn [map]. split; [|unfold zlen at 2 4; cbn; lia].
      apply nodup_snoc; assumption.
    + destruct (index unused (x_paths c)) as [i|]; [|split; assumption].
      match goal with |- inv78 m (snd ?x) => assert (e : x_paths (snd x) = upd i (fun _ => p) (x_paths c)) by (destruct tell; reflexivity) end.
      unfold inv78. rewrite e, upd_map. unfold zlen. rewrite up_length. split; [apply upd_nodup; assumption|exact h2].
  - pose proof (tapply_addr g c ha) as e. unfold inv78. rewrite e. split; [exact h1|]. unfold zlen. rewrite (map_len _ _ e). exact h2.
Qed.
Lemma via78 m : forall l c c', via l c c' -> g_maxp (x_cfg c) = m -> inv78 m c -> inv78 m c'.
Proof. induction 1 as [|g l c c' hg hv ih]; intros hm hi; [exact hi|]. apply ih; [rewrite tapply_cfg; exact hm|]. apply tag78; assumption. Qed.
Lemma run78 m : forall ops c t c', run ops c = (t, c') -> zheld c -> g_maxp (x_cfg c) = m -> inv78 m c -> inv78 m c'.
Proof.
  induction ops as [|o ops ih]; intros c t c' h hz hm hi; cbn [run] in h; [injection h as <- <-; exact hi|].
  destruct (step o c) as [y c1] eqn:e1. destruct (run ops c1) as [t2 c2] eqn:e2. injection h as <- <-.
  destruct (step_via _ _ _ _ e1 hz) as (_ & l & hv & _).
  apply (ih _ _ _ e2 (step_zheld _ _ _ _ e1 hz)); [rewrite (step_cfg _ _ _ _ e1 hz); exact hm|]. exact (via78 m _ _ _ hv hm hi).
Qed.

(** * A path that failed stays so until it is challenged again. *)
Definition lapsed (m : Z) (p : path) : Prop := (forall x, In x (p_flight p) -> snd x <= m) /\ (p_st p = Failed -> p_flight p = []).
Definition invF (m : Z) (c : conn) : Prop := forall i p, nth_error (x_paths c) i = Some p -> lapsed m p.
Definition okF (now : Z) (g : tag) : Prop := match g with GPath _ (PSent _ _ _ t) => t = now | GFire n _ => n = now | _ => True end.
Lemma loss_flight s now t p : p_flight (loss_timeout s now t p) = filter (fun x => negb (snd x <=? now)) (p_flight p).
Proof.
  unfold loss_timeout. cbv zeta. cbn [set_rec p_flight]. destruct (filter (fun x => snd x <=? now) (p_flight p)) as [|[[d n] t0] l]; [reflexivity|].
  match goal with |- context[if (MAX_TIMEOUTS <=? p_lost ?q) || _ then _ else _] => set (q0 := q) end.
  assert (hq : p_flight q0 = filter (fun x => negb (snd x <=? now)) (p_flight p)) by (subst q0; destruct (p_lost_at _); [destruct (_ <=? _)|]; reflexivity).
  destruct (_ || _); exact hq.
Qed.
Lemma filter_late now (l : list (Z * Z * Z)) : (forall x, In x l -> snd x <= now) -> filter (fun x => negb (snd x <=? now)) l = [].
Proof. induction l as [|x l ih]; intros h; [reflexivity|]. cbn [filter]. pose proof (h x (or_introl eq_refl)). destruct (Z.leb_spec (snd x) now); [|lia]. cbn [negb]. apply ih. intros y hy. apply h. right. exact hy. Qed.
Lemma tagF now g c : tguard g c -> okF now g -> invF now c -> invF now (tapply g c).
Proof.
  intros hg ho h i p' hp'. destruct (tapply_nth _ _ _ _ hg hp') as [(p & hp & hc)|(q & n & tell & -> & ->)].
  - specialize (h _ _ hp). destruct g; cbn [pch] in hc; try (subst p'; exact h).
    + destruct hc as [->|[hpg ->]]; [exact h|]. destruct m; cbn [pap] in *; try exact h.
      * unfold challenge_received. destruct (_ =? _); exact h.
      * cbn in ho. subst now0. destruct h as (h1 & h2). split.
        -- rewrite flight_add. intros x hx. apply in_app_or in hx. destruct hx as [hx|[<-|[]]]; [exact (h1 _ hx)|cbn; lia].
        -- unfold add_challenge, promote_to. cbn [set_flight set_want p_st]. destruct (Z.ltb_spec (rank (p_st p)) (rank Validating)); cbn [set_want set_st p_st set_flight]; [discriminate|]. intros e. rewrite e in *. cbn in *. lia.
    + destruct hc as [->|(_ & _ & _ & ->)]; exact h.
    + destruct hc as [->|(_ & _ & _ & ->)]; exact h.
    + destruct (soft_keeps _ _ hc) as (_ & e2 & e3 & _). unfold lapsed. rewrite e2, e3. exact h.
    + destruct hc as [->|(hpd & v & q9 & h2 & h3)]; [exact h|]. destruct (resp_result _ _ _ _ h2 hpd) as (n & _ & _ & e2 & _ & e4 & _ & _).
      assert (hq : lapsed now q9) by (split; [intros x hx; exact (proj1 h _ (e2 _ hx))|]; intros e; rewrite e in e4; cbn in e4; lia).
      destruct h3 as [->|[_ ->]]; exact hq.
    + destruct (soft_keeps _ _ hc) as (_ & e2 & e3 & _). unfold lapsed. rewrite e2, e3. exact h.
    + destruct (soft_keeps _ _ hc) as (_ & e2 & e3 & _). unfold lapsed. rewrite e2, e3. exact h.
    + cbn in ho. subst now0. destruct hc as (q & hq & ->). assert (hl : lapsed now q).
      { destruct hq as [->|(t & ->)]; [exact h|]. split; [|intros _]; rewrite loss_flight, filter_late by apply h; [intros x []|reflexivity]. }
      destruct (failure_due q); exact hl.
  - destruct hg as (_ & (b & d & w & m & ->) & _). split; [intros x []|discriminate].
Qed.
Lemma viaF now : forall l c c', via l c c' -> Forall (okF now) l -> invF now c -> invF now c'.
Proof. induction 1 as [|g l c c' hg hv ih]; intros hl hi; [exact hi|]. inversion hl as [|? ? h1 h2]; subst. apply ih; [exact h2|]. apply tagF; assumption. Qed.
Lemma invF_le m n c : m <= n -> invF m c -> invF n c.
Proof. intros h hi i p hp. destruct (hi i p hp) as (h1 & h2). split; [intros x hx; specialize (h1 x hx); lia|exact h2]. Qed.
Lemma stepF o c y c' now : step o c = (y, c') -> zheld c -> (match time_of o with Some n => n = now | None => True end) -> invF now c -> invF now c'.
Proof.
  intros h hz ht hi. destruct (step_via _ _ _ _ h hz) as (_ & l & hv & ho & _). apply (viaF now _ _ _ hv); [|exact hi].
  revert ho. apply Forall_impl. intros g ho.
  destruct o as [n b ks|n from to max hso os|n timers|app code reason|b scid|b scid|q| |i9 t9 pto rtt|i9 d9]; cbn [otag time_of] in *.
  - destruct g; cbn; try exact I; cbn in ho; [destruct m; cbn; try exact I|]; (destruct ho as [[]|[(k & h1 & h2)|(k & b1 & h1 & h2)]]; destruct h2).
  - subst n. destruct ho as [ho|[ho|ho]]; destruct g; cbn; try exact I; cbn in ho; try tauto; try (destruct m; cbn; try exact I; try tauto); try (destruct ho as [[]|(k & b1 & h1 & h2)]; destruct h2). 
  - subst n. destruct g; cbn in ho |- *; try tauto.
  - destruct g; cbn in ho |- *; tauto.
  - destruct g; cbn in ho |- *; try tauto. destruct m; tauto.
  - destruct g; cbn in ho |- *; try tauto. destruct m; tauto.
  - destruct g; cbn in ho |- *; try tauto. destruct m; tauto.
  - subst g. exact I.
  - subst g. exact I.
  - subst g. exact I.
Qed.
Lemma runF : forall ops c t c' M, run ops c = (t, c') -> zheld c -> clock M ops -> invF M c -> exists N, invF N c' /\ M <= N /\ forall ops2, clock M (ops ++ ops2) -> clock N ops2.
Proof.
  induction ops as [|o ops ih]; intros c t c' M h hz hcl hi; cbn [run] in h; [injection h as <- <-; exists M; split; [exact hi|]; split; [lia|auto]|].
  destruct (step o c) as [y c1] eqn:e1. destruct (run ops c1) as [t2 c2] eqn:e2. injection h as <- <-. pose proof (step_zheld _ _ _ _ e1 hz) as hz1.
  cbn [clock app] in *. destruct (time_of o) as [n|] eqn:et.
  - destruct hcl as (hn & hcl). assert (h1 : invF n c1) by (apply (stepF o c y c1 n e1 hz); [rewrite et; reflexivity|]; exact (invF_le _ _ _ hn hi)).
    destruct (ih _ _ _ n e2 hz1 hcl h1) as (N & hN & hle & hc). exists N. split; [exact hN|]. split; [lia|]. intros ops2 (_ & h2). exact (hc _ h2).
  - assert (h1 : invF M c1) by (apply (stepF o c y c1 M e1 hz); [rewrite et; exact I|exact hi]). exact (ih _ _ _ M e2 hz1 hcl h1).
Qed.

Definition adds_at (o : op) : option addr := match o with ORecv _ b _ | OProbe b _ | OMigrate b _ => Some b | _ => None end.
Definition stuck (a : addr) (x : option addr) (c : conn) : Prop :=
  (x = Some a -> exists i p, nth_error (x_paths c) i = Some p /\ p_addr p = a) /\
  forall i p, nth_error (x_paths c) i = Some p -> p_addr p = a -> p_st p = Failed /\ p_flight p = [].
Definition okS (a : addr) (x : option addr) (g : tag) : Prop := match g with GPath _ (PSent b _ _ _) => b <> a | GNew p _ _ => x = Some (p_addr p) | _ => True end.
Lemma tagS a x g c : tguard g c -> okS a x g -> stuck a x c -> stuck a x (tapply g c).
Proof.
  intros hg ho (h1 & h2). split.
  - intros hx. destruct (h1 hx) as (i & p & hp & ha). assert (dec : adds g \/ ~ adds g) by (destruct g; cbn; auto). destruct dec as [had|had].
    + exfalso. destruct g; try destruct had. cbn in ho. rewrite hx in ho. injection ho as ho. destruct hg as (hb & _). rewrite <- ho in hb. exact (by_addr_none _ _ hb p (nth_error_In _ _ hp) ha).
    + destruct (addr_nth _ _ _ _ (tapply_addr g c had) hp) as (p' & hp' & ha'). exists i, p'. split; [exact hp'|congruence].
  - intros i p' hp' ha. destruct (tapply_nth _ _ _ _ hg hp') as [(p & hp & hc)|(q & n & tell & -> & ->)].
    + specialize (h2 _ _ hp). destruct g; cbn [pch] in hc; try (subst p'; exact (h2 ha)).
      * destruct hc as [->|[hpg ->]]; [exact (h2 ha)|]. rewrite pap_addr in ha. specialize (h2 ha). destruct m; cbn [pap] in *; try exact h2.
        -- unfold challenge_received. destruct (_ =? _); exact h2.
        -- destruct hpg as (e & _). cbn in ho. congruence.
      * destruct hc as [->|(_ & _ & _ & ->)]; exact (h2 ha).
      * destruct hc as [->|(_ & _ & _ & ->)]; exact (h2 ha).
      * destruct (soft_keeps _ _ hc) as (e1 & e2 & e3 & _). rewrite e1 in ha. rewrite e2, e3. exact (h2 ha).
      * destruct hc as [->|(hpd & v & q9 & h3 & h4)]; [exact (h2 ha)|]. exfalso. destruct (resp_same _ _ _ _ h3) as (e1 & _).
        assert (hpa : p_addr p = a) by (destruct h4 as [->|[_ ->]]; cbn in ha; congruence). destruct (h2 hpa) as (_ & e). destruct (pending_in _ _ hpd) as (z & hz & _). rewrite e in hz. destruct hz.
      * destruct (soft_keeps _ _ hc) as (e1 & e2 & e3 & _). rewrite e1 in ha. rewrite e2, e3. exact (h2 ha).
      * destruct (soft_keeps _ _ hc) as (e1 & e2 & e3 & _). rewrite e1 in ha. rewrite e2, e3. exact (h2 ha).
      * destruct (fired_keeps _ _ _ _ hc) as (e1 & e2 & _ & _ & _ & _ & _ & e8 & _). rewrite e1 in ha. destruct (h2 ha) as (h3 & h4). split; [destruct e8 as [e8|e8]; congruence|].
        destruct (p_flight p') as [|z l]; [reflexivity|]. specialize (e2 z (or_introl eq_refl)). rewrite h4 in e2. destruct e2.
    + exfalso. cbn in ho. rewrite ha in ho. destruct (h1 ho) as (j & p & hp & hpa). destruct hg as (hb & _). rewrite ha in hb. exact (by_addr_none _ _ hb p (nth_error_In _ _ hp) hpa).
Qed.
Lemma viaS a x : forall l c c', via l c c' -> Forall (okS a x) l -> stuck a x c -> stuck a x c'.
Proof. induction 1 as [|g l c c' hg hv ih]; intros hl hi; [exact hi|]. inversion hl as [|? ? h1 h2]; subst. apply ih; [exact h2|]. apply tagS; assumption. Qed.
Lemma stepS a o c y c' : step o c = (y, c') -> zheld c -> (forall d n, ~ asked [(o, y)] a d n) -> stuck a (adds_at o) c -> stuck a (adds_at o) c'.
Proof.
  intros h hz hna hs. destruct (step_via _ _ _ _ h hz) as (_ & l & hv & ho & _ & _ & _ & hpr & _ & _ & _). apply (viaS _ _ _ _ _ hv); [|exact hs].
  assert (hsent : forall i d n t, ~ In (GPath i (PSent a d n t)) l).
  { intros i d n t hin. assert (hx : In (a, d, n, t) (flat_map probes l)) by (apply in_flat_map; exists (GPath i (PSent a d n t)); split; [exact hin|left; reflexivity]).
    rewrite hpr in hx. apply in_flat_map in hx. destruct hx as ([b s] & h1 & h2). cbn [fst snd] in h2. unfold chal_of in h2. destruct (s_chal s) as [d0|] eqn:ed; [|destruct h2].
    destruct h2 as [h2|[]]. injection h2 as -> -> <- _. apply (hna d (s_size s)). exists s. rewrite out_one. auto. }
  assert (hzh : forall k b, In (k, b) (x_held c) -> k_ty k = TZero) by (intros k b hk; unfold zheld in hz; rewrite Forall_forall in hz; exact (hz _ hk)).
  rewrite Forall_forall in ho |- *. intros g hg. specialize (ho g hg). destruct g; cbn [okS]; try exact I.
  - destruct m; try exact I. intros ->. exact (hsent _ _ _ _ hg).
  - destruct o as [now b ks|now from to max hso os|now timers|app code reason|b scid|b scid|q| |i9 t9 pto rtt|i9 d9]; cbn in ho |- *; try tauto; try discriminate.
    + destruct ho as [[]|[(k & h1 & h2 & h3 & _)|(k & b1 & h1 & h2 & _)]]; [congruence|]. rewrite (hzh _ _ h1) in h2. discriminate.
    + destruct ho as [[]|[[[]|(k & b1 & h1 & h2 & _)]|[]]]. rewrite (hzh _ _ h1) in h2. discriminate.
    + destruct ho as (h1 & _). congruence.
    + destruct ho as (h1 & _). congruence.
Qed.
