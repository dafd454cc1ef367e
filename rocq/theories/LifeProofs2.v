(** What each small change does to a path *)
Require Import Verif.Base Verif.Errors Verif.LifeModel Verif.LifeMicro Verif.LifeMicro2 Verif.LifeMicro3 Verif.LifeMicro4 Verif.LifeSpec Verif.LifeProofs1.

(** Changes of whether a path is active, its id and its flags *)
Inductive soft : path -> path -> Prop :=
| soft_refl p : soft p p
| soft_on v p q : soft (set_on v p) q -> soft p q
| soft_dcid v p q : soft (set_dcid v p) q -> soft p q
| soft_mig v p q : soft (set_mig v p) q -> soft p q
| soft_want v p q : soft (set_want v p) q -> soft p q.
Lemma soft_trans p q r : soft p q -> soft q r -> soft p r.
Proof. intros h. revert r. induction h; intros r hr; [exact hr|eapply soft_on|eapply soft_dcid|eapply soft_mig|eapply soft_want]; eauto. Qed.
Lemma soft_keeps p q : soft p q -> p_addr q = p_addr p /\ p_st q = p_st p /\ p_flight q = p_flight p /\ p_maxch q = p_maxch p /\ p_queue q = p_queue p /\
  p_budget q = p_budget p /\ p_ok q = p_ok p /\ p_told q = p_told p.
Proof. induction 1; auto 10. Qed.

Definition credited (f : Z) (srv : bool) (a : addr) (n : Z) (p p' : path) : Prop :=
  p_addr p = a /\ srv = true /\ p_ok p = false /\ p' = set_budget (p_budget p + n * f) p.
Definition fired (srv : bool) (now : Z) (p p' : path) : Prop :=
  exists q, (q = p \/ exists t, q = loss_timeout srv now t p) /\ p' = (if failure_due q then set_told true q else q).
Definition pch (g : tag) (c : conn) (p p' : path) : Prop :=
  match g with
  | GPath _ m => p' = p \/ pguard c m p /\ p' = pap m p
  | GCredit a n => p' = p \/ credited (g_factor (x_cfg c)) (server c) a n p p'
  | GReplay k a => p' = p \/ credited (g_factor (x_cfg c)) (server c) a (k_len k) p p'
  | GResp d => p' = p \/ has_pending d p = true /\ exists v q, response_received d p = (v, q) /\ (p' = q \/ v = true /\ p' = set_mig false q)
  | GActive _ | GMigrate _ | GFill => soft p p'
  | GFire now _ => fired (server c) now p p'
  | _ => p' = p
  end.

Lemma upd_nth {A} (f : A -> A) : forall l j i y, nth_error (upd j f l) i = Some y -> exists x, nth_error l i = Some x /\ (y = x \/ i = j /\ y = f x).
Proof.
  induction l as [|x l ih]; intros [|j] [|i] y h; cbn [upd nth_error] in h; try discriminate.
  - injection h as <-. exists x. auto.
  - exists y. auto.
  - injection h as <-. exists x. auto.
  - destruct (ih _ _ _ h) as (z & h1 & h2). exists z. split; [exact h1|]. destruct h2 as [h2|[-> h2]]; auto.
Qed.

Lemma fill_nth : forall ps pool i p', nth_error (fst (fill ps pool)) i = Some p' -> exists p, nth_error ps i = Some p /\ soft p p'.
Proof.
  induction ps as [|p ps ih]; intros pool i p' h; cbn [fill] in h; [destruct i; discriminate|].
  destruct (is_some (p_dcid p)).
  - specialize (ih pool). destruct (fill ps pool) as [ps' pool']. cbn [fst] in *. destruct i as [|i]; cbn in *.
    + injection h as <-. exists p. split; [reflexivity|constructor].
    + exact (ih _ _ h).
  - destruct pool as [|q pool]; [cbn [fst] in h; exists p'; split; [exact h|constructor]|].
    specialize (ih pool). destruct (fill ps pool) as [ps' pool']. cbn [fst] in *. destruct i as [|i]; cbn in *.
    + injection h as <-. exists p. split; [reflexivity|]. eapply soft_dcid. constructor.
    + exact (ih _ _ h).
Qed.
Lemma fire_nth s now : forall ps ts i p', nth_error (fire s now ts ps) i = Some p' -> exists p, nth_error ps i = Some p /\ (p' = p \/ exists t, p' = loss_timeout s now t p).
Proof.
  induction ps as [|p ps ih]; intros ts i p' h; cbn [fire] in h; [destruct i; discriminate|]. destruct i as [|i]; cbn in *.
  - injection h as <-. exists p. split; [reflexivity|]. destruct (due (p_timer p) now); [right; eexists; reflexivity|auto].
  - exact (ih _ _ _ h).
Qed.
Lemma set_active_nth i c j p' : nth_error (x_paths (snd (set_active i c))) j = Some p' -> exists p, nth_error (x_paths c) j = Some p /\ soft p p'.
Proof.
  unfold set_active. set (c1 := match active_pid (x_paths c) with Some old => up old (set_on false) c | None => c end).
  assert (h1 : forall j p', nth_error (x_paths c1) j = Some p' -> exists p, nth_error (x_paths c) j = Some p /\ soft p p').
  { clear j p'. intros j p' h. subst c1. destruct (active_pid (x_paths c)) as [old|]; [|exists p'; split; [exact h|constructor]].
    destruct (upd_nth _ _ _ _ _ h) as (p & hp & [->|[_ ->]]); exists p; (split; [exact hp|]); [constructor|eapply soft_on; constructor]. }
  destruct (nth_error (x_paths c1) i) as [q|]; [|apply h1].
  assert (h2 : forall j p', nth_error (x_paths (up i (set_on true) c1)) j = Some p' -> exists p, nth_error (x_paths c) j = Some p /\ soft p p').
  { clear j p'. intros j p' h. destruct (upd_nth _ _ _ _ _ h) as (p & hp & hc). destruct (h1 _ _ hp) as (p0 & hp0 & hs0). exists p0. split; [exact hp0|].
    destruct hc as [->|[_ ->]]; [exact hs0|]. eapply soft_trans; [exact hs0|]. eapply soft_on. constructor. }
  destruct (server _); [destruct (validated q)|]; cbn [snd]; [apply h2| |apply h2].
  intros h. destruct (upd_nth _ _ _ _ _ h) as (p & hp & hc). destruct (h2 _ _ hp) as (p0 & hp0 & hs0). exists p0. split; [exact hp0|].
  destruct hc as [->|[_ ->]]; [exact hs0|]. eapply soft_trans; [exact hs0|]. cbv zeta. destruct (under_validation _); [eapply soft_mig; constructor|].
  eapply soft_mig. eapply soft_want. constructor.
Qed.
Lemma migrated_nth i c j p' : nth_error (x_paths (snd (peer_migrated i c))) j = Some p' -> exists p, nth_error (x_paths c) j = Some p /\ soft p p'.
Proof.
  unfold peer_migrated. destruct (active_pid (x_paths c)) as [old|]; [|intros h; exists p'; split; [exact h|constructor]].
  destruct (Nat.eqb old i); [intros h; exists p'; split; [exact h|constructor]|].
  pose proof (fun j p' => set_active_nth i c j p') as hs. destruct (set_active i c) as [r c1]. cbn [snd] in hs. destruct r; [|apply hs|apply hs].
  destruct (nth_error (x_paths c1) i); [|apply hs]. destruct (nth_error (x_paths c1) old); [|apply hs].
  destruct (_ && _); [|apply hs]. cbn [snd]. intros h. destruct (upd_nth _ _ _ _ _ h) as (p2 & hp & hc). destruct (hs _ _ hp) as (p3 & hp3 & hs3). exists p3. split; [exact hp3|].
  destruct hc as [->|[_ ->]]; [exact hs3|]. eapply soft_trans; [exact hs3|]. eapply soft_dcid. constructor.
Qed.
Lemma credit_nth a n c j p' : nth_error (x_paths (credit a n c)) j = Some p' -> exists p, nth_error (x_paths c) j = Some p /\ (p' = p \/ credited (g_factor (x_cfg c)) (server c) a n p p').
Proof.
  unfold credit. destruct (by_addr a (x_paths c)) as [i|] eqn:e; [|intros h; exists p'; auto].
  intros h. destruct (upd_nth _ _ _ _ _ h) as (p & hp & hc). exists p. split; [exact hp|]. destruct hc as [->|[-> ->]]; [auto|].
  destruct (by_addr_some _ _ _ e) as (q & hq & ha). rewrite hp in hq. injection hq as <-.
  destruct (server c) eqn:es; cbn [andb]; [|auto]. destruct (p_ok p) eqn:eo; cbn [negb]; [auto|]. right. split; [exact ha|]. auto.
Qed.

Lemma tapply_nth g c i p' : tguard g c -> nth_error (x_paths (tapply g c)) i = Some p' ->
  (exists p, nth_error (x_paths c) i = Some p /\ pch g c p p') \/ (exists q n tell, g = GNew q n tell /\ p' = q).
Proof.
  intros hg h.
  destruct g; cbn [tapply] in h; cbn [pch]; try (left; exists p'; split; [exact h|]; reflexivity).
  - destruct (upd_nth _ _ _ _ _ h) as (p & hp & hc). left. exists p. split; [exact hp|]. destruct hc as [hc|[-> hc]]; [left; exact hc|right].
    destruct hg as (q & hq & hg). rewrite hp in hq. injection hq as <-. auto.
  - left. apply credit_nth. exact h.
  - unfold insert_path in h. destruct (zlen (x_paths c) <? g_maxp (x_cfg c)).
    + assert (h2 : nth_error (x_paths c ++ [p]) i = Some p') by (destruct tell; exact h).
      destruct (lt_dec i (length (x_paths c))) as [hl|hl].
      * rewrite nth_error_app1 in h2 by exact hl. left. exists p'. auto.
      * rewrite nth_error_app2 in h2 by lia. destruct (i - length (x_paths c))%nat as [|[|n9]]; cbn in h2; try discriminate. injection h2 as <-. right. eauto 6.
    + destruct (index unused (x_paths c)) as [j|]; [|left; exists p'; auto].
      assert (h2 : nth_error (upd j (fun _ => p) (x_paths c)) i = Some p') by (destruct tell; exact h).
      destruct (upd_nth _ _ _ _ _ h2) as (p0 & hp & [->|[_ ->]]); [left; exists p0; auto|right; eauto 6].
  - left. destruct (_ && _); [exists p'; split; [exact h|left; reflexivity]|]. destruct (credit_nth _ _ _ _ _ h) as (p & hp & hc). exists p. auto.
  - left. unfold restart_idle in h. destruct (idle_timeout c); exists p'; auto.
  - left. apply fill_nth in h. exact h.
  - left. unfold got_response in h. destruct (active_pid (x_paths c)) as [act|]; [|exists p'; auto].
    destruct (index (has_pending d) (x_paths c)) as [j|] eqn:ej; [|exists p'; auto].
    destruct (index_some _ _ _ ej) as (p & hp & hpd). rewrite hp in h. destruct (response_received d p) as [v q] eqn:er.
    assert (h2 : nth_error (upd j (fun _ => if v then set_mig false q else q) (x_paths c)) i = Some p').
    { destruct v; cbn [snd] in h; [destruct (_ && _) in h|]; exact h. }
    destruct (upd_nth _ _ _ _ _ h2) as (p0 & hp0 & [->|[-> ->]]); [exists p0; auto|]. rewrite hp in hp0. injection hp0 as <-.
    exists p. split; [exact hp|]. right. split; [exact hpd|]. exists v, q. split; [exact er|]. destruct v; auto.
  - left. apply set_active_nth in h. exact h.
  - left. apply migrated_nth in h. exact h.
  - left. unfold tell_failures in h. cbn [w_paths x_paths w_events] in h. rewrite nth_error_map in h.
    destruct (nth_error (fire (server c) now timers (x_paths c)) i) as [q|] eqn:eq; [|discriminate]. cbn in h. injection h as <-.
    destruct (fire_nth _ _ _ _ _ _ eq) as (p & hp & hc). exists p. split; [exact hp|]. exists q. split; [exact hc|reflexivity].
Qed.

(** A property of paths that every change keeps *)
Lemma via_paths (P : path -> Prop) (ok : tag -> Prop) :
  (forall g c p p', ok g -> tguard g c -> P p -> pch g c p p' -> P p') ->
  (forall q n tell, ok (GNew q n tell) -> fresh q -> P q) ->
  forall l c c', via l c c' -> Forall ok l -> (forall i p, nth_error (x_paths c) i = Some p -> P p) ->
  forall i p, nth_error (x_paths c') i = Some p -> P p.
Proof.
  intros h1 h2. induction 1 as [|g l c c' hg hv ih]; intros hl hP; [exact hP|]. inversion hl as [|? ? hl1 hl2]; subst. apply ih; [exact hl2|].
  intros i p' hp'. destruct (tapply_nth _ _ _ _ hg hp') as [(p & hp & hc)|(q & n & tell & -> & ->)].
  - exact (h1 _ _ _ _ hl1 hg (hP _ _ hp) hc).
  - destruct hg as (_ & hf & _). exact (h2 _ _ _ hl1 hf).
Qed.
Lemma loss_keeps s now t p : let q := loss_timeout s now t p in
  p_addr q = p_addr p /\ (forall x, In x (p_flight q) -> In x (p_flight p)) /\ p_maxch q = p_maxch p /\ p_queue q = p_queue p /\ p_budget q = p_budget p /\
  p_ok q = p_ok p /\ p_told q = p_told p /\ (p_st q = p_st p \/ p_st q = Failed) /\ p_dcid q = p_dcid p.
Proof.
  unfold loss_timeout. cbv zeta.
  assert (hin : forall x, In x (filter (fun x => negb (snd x <=? now)) (p_flight p)) -> In x (p_flight p)) by (intros x hx; apply filter_In in hx; apply hx).
  cbn [set_rec p_flight].
  destruct (filter (fun x => snd x <=? now) (p_flight p)) as [|[[d n] t0] lx]; [cbn; auto 12|].
  match goal with |- context[if (MAX_TIMEOUTS <=? p_lost ?q) || _ then _ else _] => set (q0 := q) end.
  assert (hq : p_addr q0 = p_addr p /\ (forall x, In x (p_flight q0) -> In x (p_flight p)) /\ p_maxch q0 = p_maxch p /\ p_queue q0 = p_queue p /\ p_budget q0 = p_budget p /\
     p_ok q0 = p_ok p /\ p_told q0 = p_told p /\ p_st q0 = p_st p /\ p_dcid q0 = p_dcid p).
  { subst q0. destruct (p_lost_at _); [destruct (_ <=? _)|]; cbn; auto 12. }
  destruct hq as (a1 & a2 & a3 & a4 & a5 & a6 & a7 & a8 & a9).
  destruct (_ || _); cbn [set_on set_st set_want p_addr p_flight p_maxch p_queue p_budget p_ok p_told p_st p_dcid]; auto 12.
Qed.
Lemma fired_keeps s now p p' : fired s now p p' ->
  p_addr p' = p_addr p /\ (forall x, In x (p_flight p') -> In x (p_flight p)) /\ p_maxch p' = p_maxch p /\ p_queue p' = p_queue p /\ p_budget p' = p_budget p /\
  p_ok p' = p_ok p /\ (p_told p = true -> p_told p' = true) /\ (p_st p' = p_st p \/ p_st p' = Failed) /\ p_dcid p' = p_dcid p /\ (p_st p' = Failed -> p_told p' = true).
Proof.
  intros (q & hq & ->).
  assert (h : p_addr q = p_addr p /\ (forall x, In x (p_flight q) -> In x (p_flight p)) /\ p_maxch q = p_maxch p /\ p_queue q = p_queue p /\ p_budget q = p_budget p /\
     p_ok q = p_ok p /\ p_told q = p_told p /\ (p_st q = p_st p \/ p_st q = Failed) /\ p_dcid q = p_dcid p).
  { destruct hq as [->|(t & ->)]; [auto 12|apply loss_keeps]. }
  destruct h as (a1 & a2 & a3 & a4 & a5 & a6 & a7 & a8 & a9).
  destruct (failure_due q) eqn:e; cbn [set_told p_addr p_flight p_maxch p_queue p_budget p_ok p_told p_st p_dcid].
  - auto 14.
  - split; [exact a1|]. split; [exact a2|]. split; [exact a3|]. split; [exact a4|]. split; [exact a5|]. split; [exact a6|]. split; [congruence|]. split; [exact a8|]. split; [exact a9|].
    intros h. unfold failure_due in e. rewrite h in e. cbn in e. destruct (p_told q); [reflexivity|discriminate].
Qed.
