(** C43, C44, C45, C78, C79: timers, the idle timeout, and paths. *)
Require Import Verif.Base Verif.Errors Verif.LifeModel Verif.LifeMicro Verif.LifeMicro2 Verif.LifeMicro3 Verif.LifeMicro4 Verif.LifeSpec Verif.LifeProofs1 Verif.LifeProofs2 Verif.LifeProofs3 Verif.LifeProofs4 Verif.LifeProofs5 Verif.LifeProofs6 Verif.LifeProofs7 Verif.PropLife.

(** ** C43: on_timeout and timeout_instant *)
Lemma run_told : forall ops c t c', run ops c = (t, c') -> zheld c -> (forall i p, nth_error (x_paths c) i = Some p -> told p) -> forall i p, nth_error (x_paths c') i = Some p -> told p.
Proof.
  induction ops as [|o ops ih]; intros c t c' h hz ht; cbn [run] in h; [injection h as <- <-; exact ht|].
  destruct (step o c) as [y c1] eqn:e1. destruct (run ops c1) as [t2 c2] eqn:e2. injection h as <- <-.
  apply (ih _ _ _ e2 (step_zheld _ _ _ _ e1 hz)). destruct (step_via _ _ _ _ e1 hz) as (_ & l & hv & _). exact (told_via _ _ _ hv ht).
Qed.
(** Too early, on_timeout changes nothing, as long as there is an active path or the
    connection is draining. *)
Theorem C43_early g h a0 retry ops t c now timers : run ops (conn_new g h a0 retry) = (t, c) -> is_closed c = false -> is_draining c = true \/ active_pid (x_paths c) <> None ->
  match timeout_instant c with Some x => now < x | None => True end -> on_timeout now timers c = c.
Proof.
  intros hr hc ha hb. apply timeout_early; auto. intros p hp. apply In_nth_error in hp as (i & hp).
  refine (run_told _ _ _ _ hr (new_zheld _ _ _ _) _ i p hp). intros j q hq. destruct j as [|[|j]]; cbn in hq; [injection hq as <-; discriminate|discriminate|discriminate].
Qed.
Print Assumptions C43_early.
(** In time, it acts: it closes the connection, discards old keys, or has a path act on
    its own timer. *)
Theorem C43_acts now timers c x : timeout_instant c = Some x -> x <= now ->
  let c' := on_timeout now timers c in
  is_closed c' = true \/ l_ku (x_life c) <> None /\ l_ku (x_life c') = None \/
  exists i p p', nth_error (x_paths c) i = Some p /\ due (p_timer p) now = true /\ nth_error (x_paths c') i = Some p' /\ p_ptos p' = p_ptos p + 1.
Proof. exact (timeout_acts now timers c x). Qed.
Print Assumptions C43_acts.
Example C43_witness : active_pid (x_paths c_open) = Some O /\ is_closed c_open = false /\ timeout_instant c_open = Some 500 /\
  on_timeout 499 [] c_open = c_open /\ map p_ptos (x_paths (on_timeout 500 [None] c_open)) = [1].
Proof. vm_compute. auto 10. Qed.

(** A client with two validated paths, A and B, and no other id *)
Definition two_paths : list op :=
  [ORecv 0 A [pk TInitial 1200 0 [FCrypto (HOk hd1)]]; ORecv 0 A [pk TShort 50 0 [FNewCid 1]]; OProbe B true; OSend 1 None None 1350 (HOk hd1) [po None 77 1200]; ORecv 2 A [pk TShort 50 1 [FResponse 77]]].
Definition run_two := run two_paths (conn_new g2 h0 A false).
Definition c_two := snd run_two.
Example C45_two : map (fun p => (p_addr p, p_st p, p_dcid p, active p)) (x_paths c_two) = [(A, Validated, Some 0, true); (B, Validated, Some 1, false)].
Proof. vm_compute. reflexivity. Qed.

(** The active path may lose its id, to the peer or to retire_dcid.  Then on_timeout does
    something at any time: it makes another path the active one. *)
Theorem C43_early_refuted : exists c now, c = snd (run (two_paths ++ [ORetireDcid 0]) (conn_new g2 h0 A false)) /\ is_closed c = false /\
  (exists x, timeout_instant c = Some x /\ now < x) /\ on_timeout now [] c <> c.
Proof.
  eexists. exists 3. split; [reflexivity|]. split; [vm_compute; reflexivity|]. split; [eexists; split; [vm_compute; reflexivity|reflexivity]|].
  intros h. apply (f_equal (fun c => active_pid (x_paths c))) in h. vm_compute in h. discriminate.
Qed.
(** On a closed connection, which has no timeout any more, on_timeout still sets
    is_timed_out. *)
Theorem C43_closed_refuted : exists ops c now, c = snd (run ops (conn_new g1 h0 A false)) /\ is_closed c = true /\ timeout_instant c = None /\ l_timed (x_life c) = false /\
  l_timed (x_life (on_timeout now [] c)) = true.
Proof.
  exists [ORecv 0 A [pk TShort 50 0 [FCrypto (HOk hd1)]]; ORecv 1 A [mkK TShort 50 true true IDrop]]. eexists. exists 40000000000.
  split; [reflexivity|]. vm_compute. auto.
Qed.

(** ** C44: the idle timeout *)
(** Disabled only if both endpoints disable it, else the least of those enabled, but
    three times the PTO of the active path at least. *)
Theorem C44_value c : idle_timeout c =
  match least (g_idle (x_cfg c)) (h_pidle (x_hs c)) with Some v => Some (Z.max v (3 * active_pto c)) | None => None end.
Proof. exact (idle_value c). Qed.
Print Assumptions C44_value.
(** The connection is timed out only by on_timeout, once the time is up, and is closed
    then. *)
Lemma tag_timed g c : g <> GTimed -> l_timed (x_life (tapply g c)) = l_timed (x_life c).
Proof. intros h. rewrite tapply_life. destruct g; try reflexivity; cbn [life_of]; try congruence; destruct (idle_timeout c); reflexivity. Qed.
Theorem C44_only g h a0 retry ops t c o y c' : run ops (conn_new g h a0 retry) = (t, c) -> step o c = (y, c') -> l_timed (x_life c) = false -> l_timed (x_life c') = true ->
  is_closed c' = true /\ exists now timers v, o = OTimeout now timers /\ l_idle (x_life c) = Some v /\ v <= now.
Proof.
  intros hr hs h1 h2. pose proof (run_zheld _ _ _ _ hr (new_zheld _ _ _ _)) as hz.
  destruct (step_via _ _ _ _ hs hz) as (_ & l & hv & ho & _).
  assert (hx : In GTimed l).
  { clear - hv h1 h2. induction hv as [|g l c c' hg hv ih]; [congruence|]. assert (d : g = GTimed \/ g <> GTimed) by (destruct g; auto; right; discriminate).
    destruct d as [->|d]; [left; reflexivity|]. right. apply ih; [rewrite tag_timed by exact d; exact h1|exact h2]. }
  rewrite Forall_forall in ho. specialize (ho _ hx).
  destruct o as [now b ks|now from to max hso os|now timers|app code reason|b scid|b scid|q| |i9 t9 pto rtt|i9 d9]; cbn in ho; try tauto; try discriminate.
  - destruct ho as [[]|[(k & _ & [])|(k & b1 & _ & [])]].
  - destruct ho as [[]|[[[]|(k & b1 & _ & [])]|[]]].
  - cbn [step] in hs. injection hs as _ <-. destruct (timeout_timed _ _ _ h1 h2) as (v & hv1 & hv2 & hv3). split; [|exists now, timers, v; auto].
    unfold on_timeout. rewrite hv3, hv1. cbn [due]. destruct (Z.leb_spec v now); [reflexivity|lia].
Qed.
Print Assumptions C44_only.
Theorem C44_expires c v now timers : l_drain (x_life c) = None -> l_idle (x_life c) = Some v -> v <= now ->
  is_closed (on_timeout now timers c) = true /\ l_timed (x_life (on_timeout now timers c)) = true.
Proof. intros h1 h2 h3. unfold on_timeout. rewrite h1, h2. cbn [due]. destruct (Z.leb_spec v now); [auto|lia]. Qed.
Print Assumptions C44_expires.
(** A packet processed at [n] keeps the connection from timing out for as long as both
    endpoints agreed to, whatever happens in between. *)
Theorem C44_kept g h a0 retry ops0 t0 c o y c1 n ops t c2 b now timers : run ops0 (conn_new g h a0 retry) = (t0, c) -> step o c = (y, c1) -> time_of o = Some n -> x_recv c1 <> x_recv c ->
  at_least (g_idle g) b (h_pidle (x_hs c)) -> idle_ok (g_idle g) b (o :: ops) -> clock n ops -> run ops c1 = (t, c2) ->
  l_timed (x_life c2) = false -> l_timed (x_life (on_timeout now timers c2)) = true -> n + b <= now.
Proof.
  intros hr hs ht hx hal hid. assert (hz := run_zheld _ _ _ _ hr (new_zheld _ _ _ _)). assert (hg : x_cfg c = g) by (rewrite (run_cfg _ _ _ _ hr (new_zheld _ _ _ _)); reflexivity).
  rewrite <- hg in hal, hid. exact (idle_kept b c o y c1 n ops t c2 now timers hz hs ht hx hal hid).
Qed.
Print Assumptions C44_kept.
Example C44_witness : let o := ORecv 1000 A [pk TShort 40 3 [FOther false]] in let c1 := snd (step o c_open) in
  x_recv c_open = 1 /\ x_recv c1 = 2 /\ at_least (g_idle g1) 20000000000 (h_pidle (x_hs c_open)) /\
  l_timed (x_life (on_timeout 20000000999 [] c1)) = false /\ l_timed (x_life (on_timeout 20000001000 [] c1)) = true.
Proof. cbv zeta. split; [vm_compute; reflexivity|]. split; [vm_compute; reflexivity|]. split; [exists 20000000000; split; [vm_compute; reflexivity|lia]|]. vm_compute. auto. Qed.

(** ** C45: path validation *)
Lemma inv45_none a c : by_addr a (x_paths c) = None -> (forall e, about a e -> ~ In e (x_events c)) -> inv45 a (asked [] a) (proven [] a) c.
Proof. intros h1 h2. split; [|intros e he hin; destruct (h2 e he hin)]. intros i p hp ha. destruct (by_addr_none _ _ h1 p (nth_error_In _ _ hp) ha). Qed.
(** From when there was no path to [a]: if there is one now, the state of its validation
    says no more than what happened since: that a challenge was sent, that one was
    answered, and that one in a packet of full size was. *)
Theorem C45_validated g h a0 retry ops1 t1 c ops2 t2 c' a p : run ops1 (conn_new g h a0 retry) = (t1, c) -> by_addr a (x_paths c) = None -> (forall e, about a e -> ~ In e (x_events c)) ->
  run ops2 c = (t2, c') -> In p (x_paths c') -> p_addr p = a ->
  (p_st p = Validating -> exists d n, asked t2 a d n) /\ (p_st p = ValidatingMtu -> proven t2 a 1) /\ (p_st p = Validated -> proven t2 a 1200).
Proof.
  intros hr1 hb he hr2 hp ha. pose proof (run_zheld _ _ _ _ hr1 (new_zheld _ _ _ _)) as hz.
  destruct (run45 a ops2 c [] t2 c' hr2 hz ltac:(intros x []) (inv45_none _ _ hb he)) as ((h1 & _) & _). apply In_nth_error in hp as (i & hp). destruct (h1 i p hp ha) as (_ & _ & g3 & g4 & g5).
  split; [intros e; apply g3; rewrite e; cbn; lia|]. split; [intros e; apply g4; rewrite e; cbn; lia|exact g5].
Qed.
Print Assumptions C45_validated.
(** A path is reported as validated, or as migrated to by the peer, only after such a
    challenge was answered. *)
Theorem C45_reported g h a0 retry ops1 t1 c ops2 t2 c' a e : run ops1 (conn_new g h a0 retry) = (t1, c) -> by_addr a (x_paths c) = None -> (forall e, about a e -> ~ In e (x_events c)) ->
  run ops2 c = (t2, c') -> e = EvValidated a \/ e = EvMigrated a -> In (OEvent, OutEvent (Some e)) t2 -> proven t2 a 1200.
Proof.
  intros hr1 hb he hr2 hab hin. pose proof (run_zheld _ _ _ _ hr1 (new_zheld _ _ _ _)) as hz.
  destruct (run45 a ops2 c [] t2 c' hr2 hz ltac:(intros x []) (inv45_none _ _ hb he)) as (_ & h2). exact (h2 e hab hin).
Qed.
Print Assumptions C45_reported.
(** A path that failed stays failed until a challenge is sent to it. *)
Theorem C45_failed g h a0 retry ops t c o y c' M p p' : run ops (conn_new g h a0 retry) = (t, c) -> clock M (ops ++ [o]) -> step o c = (y, c') ->
  In p (x_paths c) -> p_st p = Failed -> In p' (x_paths c') -> p_addr p' = p_addr p -> p_st p' = Failed \/ exists d n, asked [(o, y)] (p_addr p) d n.
Proof.
  intros hr hcl hs hp hf hp' ha. pose proof (run_zheld _ _ _ _ hr (new_zheld _ _ _ _)) as hz.
  assert (hc0 : clock M ops) by (clear - hcl; revert M hcl; induction ops as [|o1 ops ih]; intros M hcl; [exact I|]; cbn [app clock] in *; destruct (time_of o1); [destruct hcl; split; auto|auto]).
  destruct (runF _ _ _ _ M hr (new_zheld _ _ _ _) hc0) as (N & hN & _ & _).
  { intros i q hq. destruct i as [|[|i]]; cbn in hq; [injection hq as <-|discriminate|discriminate]. split; [intros x []|discriminate]. }
  assert (h78 : inv78 (g_maxp g) c).
  { apply (run78 _ _ _ _ _ hr (new_zheld _ _ _ _) eq_refl). split; [repeat constructor; intros []|]. cbn. lia. }
  assert (hask : (exists d n, asked [(o, y)] (p_addr p) d n) \/ forall d n, ~ asked [(o, y)] (p_addr p) d n).
  { unfold asked. generalize (all_out [(o, y)]). intros l. induction l as [|[b s] l ih]; [right; intros d n (s & [] & _)|].
    destruct ih as [(d & n & s1 & h1 & h2)|ih]; [left; exists d, n, s1; split; [right; exact h1|exact h2]|].
    destruct (aeqb b (p_addr p)) eqn:eb; [apply aeqb_eq in eb; subst b; destruct (s_chal s) as [d|] eqn:ed; [left; exists d, (s_size s), s; split; [left; reflexivity|auto]|]|];
      (right; intros d0 n (s1 & [h1|h1] & h2); [|apply (ih d0 n); exists s1; auto]).
    - injection h1 as <-. destruct h2. congruence.
    - assert (hb1 : b = p_addr p) by congruence. rewrite hb1, aeqb_refl in eb. discriminate. }
  destruct hask as [hask|hask]; [auto|]. left.
  assert (huni : forall q, In q (x_paths c) -> p_addr q = p_addr p -> q = p).
  { destruct h78 as (hnd & _). clear - hnd hp. induction (x_paths c) as [|x l ih]; [destruct hp|]. cbn [map] in hnd. inversion hnd as [|? ? h1 h2]; subst. intros q [->|hq] e.
    - destruct hp as [->|hp]; [reflexivity|]. exfalso. apply h1. rewrite e. apply in_map. exact hp.
    - destruct hp as [->|hp]; [exfalso; apply h1; rewrite <- e; apply in_map; exact hq|]. exact (ih hp h2 q hq e). }
  assert (hst : stuck (p_addr p) (adds_at o) c).
  { split; [intros _; apply In_nth_error in hp as (i & hp); exists i, p; auto|]. intros i q hq e. rewrite (huni q (nth_error_In _ _ hq) e). split; [exact hf|]. apply In_nth_error in hp as (j & hp). apply (hN j p hp). exact hf. }
  destruct (stepS _ _ _ _ _ hs hz hask hst) as (_ & h3). apply In_nth_error in hp' as (i & hp'). exact (proj1 (h3 i p' hp' ha)).
Qed.
Print Assumptions C45_failed.
Example C45_witness : by_addr B (x_paths (conn_new g2 h0 A false)) = None /\ proven (fst run_two) B 1200 /\ x_events c_two = [EvValidated B].
Proof.
  split; [reflexivity|]. split; [|vm_compute; reflexivity].
  exists (firstn 4 (fst run_two)), (skipn 4 (fst run_two)), 77, 1200. split; [symmetry; apply firstn_skipn|]. split; [|split; [lia|]].
  - exists (mkS TShort 1200 [] (Some 77) None). split; [known all_out (firstn 4 (fst run_two)); left; reflexivity|auto].
  - exists A, (pk TShort 50 1 [FResponse 77]). split; [known all_in (skipn 4 (fst run_two)); left; reflexivity|]. split; [discriminate|left; reflexivity].
Qed.
(** Three challenges lost, and the path has failed; probed again, the next one lost. *)
Definition lose (t : Z) : list op := [OSend t None None 1350 (HOk hd1) [po None 77 1200]; ORecovery 1 (Some (t + 10)) 10 3; OTimeout (t + 10) []].
Definition probing : list op := [ORecv 0 A [pk TInitial 1200 0 [FCrypto (HOk hd1)]]; ORecv 0 A [pk TShort 50 0 [FNewCid 1]]; OProbe B true].
Definition c_failed := snd (run (probing ++ lose 100 ++ lose 200 ++ lose 300) (conn_new g2 h0 A false)).
Example C45_failed_witness : map p_st (x_paths c_failed) = [Validated; Failed] /\ x_events c_failed = [EvFailed B] /\
  map p_st (x_paths (snd (run [OProbe B true; OTimeout 350 []] c_failed))) = [Validated; Failed] /\
  map p_st (x_paths (snd (run [OProbe B true; OSend 400 None None 1350 (HOk hd1) [po None 78 1200]] c_failed))) = [Validated; Validating].
Proof. vm_compute. auto. Qed.
(** A path that fails for the second time is not reported: its failure was already told
    once. *)
Theorem C45_silent_failure_refuted : exists c c', c = snd (run [OProbe B true; OSend 400 None None 1350 (HOk hd1) [po None 77 1200]; ORecovery 1 (Some 410) 10 3] c_failed) /\
  c' = on_timeout 410 [] c /\ map p_st (x_paths c) = [Validated; Validating] /\ map p_st (x_paths c') = [Validated; Failed] /\ x_events c' = x_events c.
Proof. eexists. eexists. split; [reflexivity|]. split; [reflexivity|]. vm_compute. auto. Qed.

(** ** C78: paths *)
(** No two paths have the same addresses, and there are never more than configured. *)
Theorem C78_paths g h a0 retry ops t c : run ops (conn_new g h a0 retry) = (t, c) -> NoDup (map p_addr (x_paths c)) /\ 1 <= zlen (x_paths c) <= Z.max 1 (g_maxp g).
Proof. intros hr. apply (run78 _ _ _ _ _ hr (new_zheld _ _ _ _) eq_refl). split; [repeat constructor; intros []|]. cbn. lia. Qed.
Print Assumptions C78_paths.
Example C78_witness : map p_addr (x_paths c_two) = [A; B] /\ x_paths (snd (run (two_paths ++ [OProbe B true; OProbe (5, 5) true]) (conn_new g2 h0 A false))) <> x_paths c_two.
Proof. split; [vm_compute; reflexivity|]. intros h. apply (f_equal (map p_want)) in h. vm_compute in h. discriminate. Qed.
(** There can be two active paths: the one that lost its id and was replaced is not told,
    and is active again when it gets another id. *)
Theorem C78_two_active_refuted : exists ops c, c = snd (run ops (conn_new g2 h0 A false)) /\ map (fun p => (p_addr p, active p)) (x_paths c) = [(A, true); (B, true)].
Proof. exists (two_paths ++ [ORetireDcid 0; OTimeout 3 []; ORecv 4 B [pk TShort 40 5 [FNewCid 2]]]). eexists. split; [reflexivity|]. vm_compute. reflexivity. Qed.
(** There can be none on a connection that is otherwise well: migrate makes a path active
    that has failed, and says that all is well. *)
Theorem C78_none_active_refuted : exists c, c = snd (step (OMigrate B true) c_failed) /\ fst (step (OMigrate B true) c_failed) = OutSeq (Ok 1) /\ is_closed c = false /\ l_err (x_life c) = None /\ active_pid (x_paths c) = None.
Proof. eexists. split; [reflexivity|]. vm_compute. auto. Qed.

(** ** C79: retire_dcid *)
(** It refuses to leave the connection without a usable path, and then changes nothing. *)
Lemma combine_in {A} (l : list A) : forall s i x, nth_error l i = Some x -> In ((s + i)%nat, x) (combine (seq s (length l)) l).
Proof. induction l as [|y l ih]; intros s i x h; destruct i as [|i]; cbn in *; try discriminate; [injection h as ->; left; f_equal; lia|]. right. specialize (ih (S s) i x h). replace (s + S i)%nat with (S s + i)%nat by lia. exact ih. Qed.
Lemma in_combine_nth {A} (l : list A) : forall s j x, In (j, x) (combine (seq s (length l)) l) -> exists i, j = (s + i)%nat /\ nth_error l i = Some x.
Proof. induction l as [|y l ih]; intros s j x h; cbn in h; [destruct h|]. destruct h as [h|h]; [injection h as <- <-; exists O; split; [lia|reflexivity]|]. destruct (ih _ _ _ h) as (i & -> & h2). exists (S i). split; [lia|exact h2]. Qed.
Theorem C79_retire q c r c' : retire_dcid q c = (r, c') -> match r with Ok _ => exists p, In p (x_paths c') /\ usable p = true | _ => c' = c end.
Proof.
  unfold retire_dcid. intros h. destruct (active_pid (x_paths c)) as [act|] eqn:ea; [|injection h as <- <-; reflexivity]. destruct (index_some _ _ _ ea) as (p & hp & hact). rewrite hp in h.
  cbv zeta in h. match type of h with (if ?b then _ else _) = _ => destruct b eqn:eb end; [injection h as <- <-; reflexivity|].
  assert (hup : usable p = true) by (unfold usable; rewrite hact; reflexivity).
  destruct (index _ (x_paths c)) as [i|] eqn:ei.
  2: { injection h as <- <-. exists p. split; [exact (nth_error_In _ _ hp)|exact hup]. }
  destruct (index_some _ _ _ ei) as (p1 & hp1 & hd). destruct (x_pool c) as [|d pool] eqn:epool; injection h as <- <-.
  - destruct (Nat.eq_dec i act) as [->|hn].
    + rewrite hp in hp1. injection hp1 as <-. rewrite hd in eb. cbn [andb] in eb. apply negb_false_iff in eb. apply existsb_exists in eb. destruct eb as ([j x] & h1 & h2). cbn [fst snd] in h2.
      apply andb_true_iff in h2. destruct h2 as (h2 & h3). apply in_combine_nth in h1. destruct h1 as (k & -> & h1). exists x. split; [|exact h3]. apply nth_error_In with (n := k). cbn [up w_paths x_paths]. rewrite upd_other; [exact h1|].
      intros e. subst k. cbn in h2. rewrite Nat.eqb_refl in h2. discriminate.
    + exists p. split; [|exact hup]. apply nth_error_In with (n := act). cbn [up w_paths x_paths]. rewrite upd_other by exact hn. exact hp.
  - cbn [w_pool x_paths up w_paths]. destruct (Nat.eq_dec i act) as [->|hn].
    + exists (set_dcid (Some d) p). split; [apply nth_error_In with (n := act); apply upd_same; exact hp|]. unfold usable, active in *. cbn [set_dcid p_on p_dcid p_st working is_some] in *. unfold working in *. cbn [set_dcid p_st]. apply andb_true_iff in hact. destruct hact as (hact & _). rewrite hact. reflexivity.
    + exists p. split; [|exact hup]. apply nth_error_In with (n := act). rewrite upd_other by exact hn. exact hp.
Qed.
Print Assumptions C79_retire.
Example C79_witness : fst (retire_dcid 0 c_two) = Ok tt /\ fst (retire_dcid 0 (snd (run (firstn 1 two_paths) (conn_new g2 h0 A false)))) = Err OutOfIdentifiers.
Proof. vm_compute. auto. Qed.
(** But the path that is left is not made active: until on_timeout is called, which no
    timer asks for, the next packet received closes the connection. *)
Theorem C79_stuck_refuted : exists c c', c = snd (retire_dcid 0 c_two) /\ recv 10 B [pk TShort 40 7 [FOther false]] c = (Err InvalidState, c') /\ l_err (x_life c') = Some (false, 10, []).
Proof. eexists. eexists. split; [reflexivity|]. vm_compute. auto. Qed.
