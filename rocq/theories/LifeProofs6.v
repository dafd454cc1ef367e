(** Timers *)
Require Import Verif.Base Verif.Errors Verif.LifeModel Verif.LifeMicro Verif.LifeMicro2 Verif.LifeMicro3 Verif.LifeMicro4 Verif.LifeSpec Verif.LifeProofs1 Verif.LifeProofs2 Verif.LifeProofs3 Verif.LifeProofs5.

(** * A path that failed has been reported. *)
Definition told (p : path) : Prop := p_st p = Failed -> p_told p = true.
Lemma promote_told s p : told p -> rank s <> 0 -> told (promote_to s p).
Proof. unfold told, promote_to. intros h hs. destruct (_ <? _) eqn:e; [|exact h]. cbn. intros ->. destruct (hs eq_refl). Qed.
Lemma resp_told d p v q : response_received d p = (v, q) -> told p -> told q.
Proof.
  unfold response_received. cbv zeta. intros h ht.
  set (p1 := promote_to ValidatingMtu (set_flight (filter (fun x => negb (fst (fst x) =? d)) (p_flight (set_lost 0 (p_lost_at (set_ok true p)) (set_ok true p)))) (set_lost 0 (p_lost_at (set_ok true p)) (set_ok true p)))) in *.
  assert (h1 : told p1) by (apply promote_told; [exact ht|discriminate]).
  destruct (_ =? _) in h; [destruct (_ <=? _) in h|]; injection h as _ <-; [apply promote_told; [exact h1|discriminate]|exact h1|exact h1].
Qed.
Lemma told_via l c c' : via l c c' -> (forall i p, nth_error (x_paths c) i = Some p -> told p) -> forall i p, nth_error (x_paths c') i = Some p -> told p.
Proof.
  intros hv. apply (via_paths told (fun _ => True)) with (l := l); [| |exact hv|apply Forall_forall; auto].
  - intros g c0 p p' _ hg h hc. destruct g; cbn [pch] in hc; try (subst p'; exact h).
    + destruct hc as [->|[hpg ->]]; [exact h|]. destruct m; cbn [pap] in *; try exact h.
      * unfold challenge_received. destruct (_ =? _); exact h.
      * unfold add_challenge. apply (promote_told Validating) in h; [exact h|discriminate].
    + destruct hc as [->|(_ & _ & _ & ->)]; exact h.
    + destruct hc as [->|(_ & _ & _ & ->)]; exact h.
    + destruct (soft_keeps _ _ hc) as (_ & h2 & _ & _ & _ & _ & _ & h8). unfold told. rewrite h2, h8. exact h.
    + destruct hc as [->|(_ & v & q9 & h2 & h3)]; [exact h|]. pose proof (resp_told _ _ _ _ h2 h) as e. destruct h3 as [->|[_ ->]]; exact e.
    + destruct (soft_keeps _ _ hc) as (_ & h2 & _ & _ & _ & _ & _ & h8). unfold told. rewrite h2, h8. exact h.
    + destruct (soft_keeps _ _ hc) as (_ & h2 & _ & _ & _ & _ & _ & h8). unfold told. rewrite h2, h8. exact h.
    + destruct (fired_keeps _ _ _ _ hc) as (_ & _ & _ & _ & _ & _ & _ & _ & _ & h10). exact h10.
  - intros q n tell _ (a & d & w & m & ->). discriminate.
Qed.

(** * The instant of the timeout *)
Definition before (now : Z) (t : option Z) : Prop := match t with Some t => now < t | None => True end.
Lemma before_due now t : before now t -> due t now = false.
Proof. destruct t as [t|]; cbn; [lia|reflexivity]. Qed.
Lemma before_omin now a b : before now (omin a b) -> before now a /\ before now b.
Proof. destruct a, b; cbn; lia. Qed.
Lemma before_timers now ps : before now (fold_right (fun p acc => omin (p_timer p) acc) None ps) -> Forall (fun p => before now (p_timer p)) ps.
Proof. induction ps as [|p ps ih]; cbn [fold_right]; intros h; [constructor|]. apply before_omin in h. destruct h as (h1 & h2). constructor; [exact h1|exact (ih h2)]. Qed.
Lemma fire_none s now : forall ps ts, Forall (fun p => before now (p_timer p)) ps -> fire s now ts ps = ps.
Proof. induction ps as [|p ps ih]; intros ts h; [reflexivity|]. inversion h as [|? ? h1 h2]; subst. cbn [fire]. rewrite (before_due _ _ h1), (ih _ h2). reflexivity. Qed.
Lemma tell_none c : (forall p, In p (x_paths c) -> told p) -> tell_failures c = c.
Proof.
  intros h. unfold tell_failures.
  assert (h1 : forall p, In p (x_paths c) -> failure_due p = false).
  { intros p hp. specialize (h p hp). unfold told in h. unfold failure_due. destruct (p_st p); try reflexivity. rewrite h by reflexivity. reflexivity. }
  assert (e1 : filter failure_due (x_paths c) = []).
  { destruct (filter failure_due (x_paths c)) as [|p l] eqn:e; [reflexivity|]. assert (hp : In p (filter failure_due (x_paths c))) by (rewrite e; left; reflexivity).
    apply filter_In in hp. destruct hp as (hp1 & hp2). rewrite h1 in hp2 by exact hp1. discriminate. }
  assert (e2 : map (fun p => if failure_due p then set_told true p else p) (x_paths c) = x_paths c).
  { rewrite <- (map_id (x_paths c)) at 2. apply map_ext_in. intros p hp. rewrite h1 by exact hp. reflexivity. }
  rewrite e1, e2. cbn [map]. rewrite app_nil_r. destruct c; reflexivity.
Qed.
Lemma timeout_early now timers c : is_closed c = false -> (is_draining c = true \/ active_pid (x_paths c) <> None) -> (forall p, In p (x_paths c) -> told p) ->
  before now (timeout_instant c) -> on_timeout now timers c = c.
Proof.
  intros hc ha ht hb. unfold timeout_instant in hb. unfold is_closed in hc. rewrite hc in hb. unfold on_timeout. unfold is_draining in ha.
  destruct (l_drain (x_life c)) as [t|]; cbn [is_some] in *.
  - cbn in hb. destruct (Z.leb_spec t now); [lia|reflexivity].
  - destruct ha as [ha|ha]; [discriminate|]. apply before_omin in hb. destruct hb as (h1 & hb). apply before_omin in hb. destruct hb as (h2 & h3).
    rewrite (before_due _ _ h1), (before_due _ _ h3). cbv zeta. rewrite fire_none by (apply before_timers; exact h2).
    replace (w_paths (x_paths c) c) with c by (destruct c; reflexivity). rewrite (tell_none _ ht). destruct (active_pid (x_paths c)); [reflexivity|congruence].
Qed.

Lemma omin_due now a b : due (omin a b) now = true -> due a now = true \/ due b now = true.
Proof. destruct a, b; cbn; intros h; auto; lia. Qed.
Lemma timers_due now : forall ps, due (fold_right (fun p acc => omin (p_timer p) acc) None ps) now = true -> exists i p, nth_error ps i = Some p /\ due (p_timer p) now = true.
Proof.
  induction ps as [|p ps ih]; cbn [fold_right]; intros h; [discriminate|]. apply omin_due in h. destruct h as [h|h]; [exists 0%nat, p; auto|].
  destruct (ih h) as (i & q & h1 & h2). exists (S i), q. auto.
Qed.
Lemma fire_at s now : forall ps ts i p, nth_error ps i = Some p -> due (p_timer p) now = true -> exists t, nth_error (fire s now ts ps) i = Some (loss_timeout s now t p).
Proof.
  induction ps as [|q ps ih]; intros ts [|i] p h hd; cbn in h; try discriminate; cbn [fire nth_error].
  - injection h as ->. rewrite hd. eexists. reflexivity.
  - exact (ih _ _ _ h hd).
Qed.
Lemma loss_ptos s now t p : p_ptos (loss_timeout s now t p) = p_ptos p + 1.
Proof.
  unfold loss_timeout. cbv zeta. destruct (filter _ _) as [|[[d n] t0] l]; [reflexivity|].
  match goal with |- context[if (MAX_TIMEOUTS <=? p_lost ?q) || _ then _ else _] => set (q0 := q) end.
  assert (hq : p_ptos q0 = p_ptos p + 1) by (subst q0; destruct (p_lost_at _); [destruct (_ <=? _)|]; reflexivity).
  destruct (_ || _); exact hq.
Qed.
Lemma soft_ptos p q : soft p q -> p_ptos q = p_ptos p.
Proof. induction 1; auto. Qed.
Lemma set_active_nth' i c j p : nth_error (x_paths c) j = Some p -> exists p', nth_error (x_paths (snd (set_active i c))) j = Some p' /\ soft p p'.
Proof.
  intros h. destruct (nth_error (x_paths (snd (set_active i c))) j) as [p'|] eqn:e.
  - destruct (set_active_nth _ _ _ _ e) as (q & hq & hs). rewrite h in hq. injection hq as <-. eauto.
  - exfalso. apply nth_error_None in e. assert (e2 : length (x_paths (snd (set_active i c))) = length (x_paths c)) by (apply map_len, set_active_addr). apply nth_lt in h. lia.
Qed.
Lemma timeout_acts now timers c t : timeout_instant c = Some t -> t <= now ->
  let c' := on_timeout now timers c in
  is_closed c' = true \/ l_ku (x_life c) <> None /\ l_ku (x_life c') = None \/
  exists i p p', nth_error (x_paths c) i = Some p /\ due (p_timer p) now = true /\ nth_error (x_paths c') i = Some p' /\ p_ptos p' = p_ptos p + 1.
Proof.
  intros h hn. unfold timeout_instant in h. destruct (l_closed (x_life c)) eqn:ec; [discriminate|]. unfold on_timeout.
  destruct (l_drain (x_life c)) as [x|]; cbn [is_some] in h.
  - injection h as ->. destruct (Z.leb_spec t now); [left; reflexivity|lia].
  - destruct (due (l_idle (x_life c)) now) eqn:ei; [left; reflexivity|]. cbv zeta.
    assert (hd : due (omin (l_idle (x_life c)) (omin (fold_right (fun p acc => omin (p_timer p) acc) None (x_paths c)) (l_ku (x_life c)))) now = true) by (rewrite h; cbn; lia).
    apply omin_due in hd. rewrite ei in hd. destruct hd as [hd|hd]; [discriminate|]. apply omin_due in hd.
    set (c1 := if due (l_ku (x_life c)) now then on_life (set_ku None) c else c).
    assert (hp1 : x_paths c1 = x_paths c) by (subst c1; destruct (due (l_ku (x_life c)) now); reflexivity).
    set (c2 := tell_failures (w_paths (fire (server c1) now timers (x_paths c1)) c1)).
    assert (hl2 : x_life c2 = x_life c1) by reflexivity.
    assert (hend : forall P : conn -> Prop, (forall i, P c2 -> P (snd (set_active i c2))) -> P c2 -> P (match active_pid (x_paths c2) with Some _ => c2 | None => match index usable (x_paths c2) with None => mark_closed c2 | Some i => match set_active i c2 with (Ok _, c3) => c3 | (_, c3) => mark_closed c3 end end end) \/ is_closed (match active_pid (x_paths c2) with Some _ => c2 | None => match index usable (x_paths c2) with None => mark_closed c2 | Some i => match set_active i c2 with (Ok _, c3) => c3 | (_, c3) => mark_closed c3 end end end) = true).
    { intros P h1 h2. destruct (active_pid (x_paths c2)); [auto|]. destruct (index usable (x_paths c2)) as [i|]; [|right; reflexivity]. specialize (h1 i h2). destruct (set_active i c2) as [[u|e|] c3]; cbn [snd] in h1; [auto|right; reflexivity|right; reflexivity]. }
    destruct hd as [hd|hd].
    + destruct (timers_due _ _ hd) as (i & p & hp & hdp).
      destruct (fire_at (server c1) now (x_paths c1) timers i p) as (t0 & hf); [rewrite hp1; exact hp|exact hdp|].
      destruct (hend (fun c' => exists p', nth_error (x_paths c') i = Some p' /\ p_ptos p' = p_ptos p + 1)) as [(p' & h1 & h2)|h1]; [| |right; right; exists i, p, p'; auto|left; exact h1].
      * intros j (p' & h1 & h2). destruct (set_active_nth' j _ _ _ h1) as (p2 & h3 & h4). exists p2. split; [exact h3|]. rewrite (soft_ptos _ _ h4). exact h2.
      * exists (let q := loss_timeout (server c1) now t0 p in if failure_due q then set_told true q else q).
        split; [unfold c2, tell_failures; cbn [w_paths x_paths w_events]; rewrite nth_error_map, hf; reflexivity|]. cbv zeta. destruct (failure_due _); cbn [set_told p_ptos]; apply loss_ptos.
    + assert (hk : l_ku (x_life c2) = None) by (rewrite hl2; subst c1; rewrite hd; reflexivity).
      destruct (hend (fun c' => l_ku (x_life c') = None)) as [h1|h1]; [|exact hk| |left; exact h1].
      * intros j h1. destruct (set_active_same j c2) as (_ & _ & e & _). rewrite e. exact h1.
      * right. left. split; [destruct (l_ku (x_life c)); [discriminate|discriminate hd]|exact h1].
Qed.

(** * The idle timeout *)
Lemma idle_value c : idle_timeout c = match least (g_idle (x_cfg c)) (h_pidle (x_hs c)) with Some v => Some (Z.max v (3 * active_pto c)) | None => None end.
Proof.
  unfold idle_timeout, least. cbn [filter]. destruct (g_idle (x_cfg c) =? 0), (h_pidle (x_hs c) =? 0); reflexivity.
Qed.
Definition inv44 (b l : Z) (c : conn) : Prop := at_least (g_idle (x_cfg c)) b (h_pidle (x_hs c)) /\ forall v, l_idle (x_life c) = Some v -> l + b <= v.
Definition ok44 (mine b now : Z) (g : tag) : Prop :=
  match g with
  | GRestart n | GCount n => n = now
  | GHs h => at_least mine b (h_pidle h)
  | _ => True
  end.
Lemma at_least_idle mine b c : g_idle (x_cfg c) = mine -> at_least mine b (h_pidle (x_hs c)) -> exists v, idle_timeout c = Some v /\ b <= v.
Proof. intros <- (v & h1 & h2). rewrite idle_value, h1. eexists. split; [reflexivity|lia]. Qed.
Lemma tapply_hs g c : (forall h, g <> GHs h) -> h_pidle (x_hs (tapply g c)) = h_pidle (x_hs c).
Proof.
  intros h. destruct g; try (match goal with |- context[tapply ?g c] => rewrite (proj2 (tapply_keeps g c (I : keeps g))); reflexivity end); try reflexivity; cbn [tapply].
  - destruct (_ && _); [reflexivity|]. destruct (credit_same a (k_len k) (w_held (tl (x_held c)) c)) as (_ & -> & _). reflexivity.
  - destruct (h h0 eq_refl).
  - destruct conf; reflexivity.
Qed.
Lemma tag44 mine b now l g c : g_idle (x_cfg c) = mine -> tguard g c -> ok44 mine b now g -> l <= now -> inv44 b l c ->
  inv44 b l (tapply g c) /\ (forall n, g = GCount n -> inv44 b now (tapply g c)) /\ ((forall n, g <> GCount n) -> x_recv (tapply g c) = x_recv c).
Proof.
  intros hm hg ho hl (h1 & h2). split; [|split].
  - split.
    + rewrite tapply_cfg. destruct g; try (rewrite tapply_hs by discriminate; exact h1). cbn [tapply w_hs x_hs]. rewrite hm. exact ho.
    + rewrite tapply_life. destruct g; cbn [life_of]; try exact h2. cbn in ho. subst now0.
      destruct (at_least_idle _ b c hm ltac:(rewrite <- hm; exact h1)) as (v & -> & hv). cbn. intros w hw. injection hw as <-. lia.
  - intros n ->. cbn in ho, hg. subst n. destruct (at_least_idle _ b c hm ltac:(rewrite <- hm; exact h1)) as (v & e & hv). specialize (hg _ e).
    split; [exact h1|]. cbn [tapply w_recv x_life]. rewrite hg. intros w hw. injection hw as <-. lia.
  - intros hn. destruct g; try reflexivity; cbn [tapply].
    + apply (credit_same a n c).
    + apply (insert_same p tell c).
    + destruct (_ && _); [reflexivity|]. apply (credit_same a (k_len k) (w_held (tl (x_held c)) c)).
    + apply (restart_same now0 c).
    + destruct (hn n eq_refl).
    + apply (response_same d c).
    + apply (set_active_same i c).
    + apply (migrated_same i c).
Qed.
Lemma via44 mine b now : forall l c c', via l c c' -> g_idle (x_cfg c) = mine -> Forall (ok44 mine b now) l -> forall L, L <= now -> inv44 b L c ->
  inv44 b L c' /\ (x_recv c' <> x_recv c -> inv44 b now c').
Proof.
  induction 1 as [|g l c c' hg hv ih]; intros hm hl L hL hi; [split; [exact hi|congruence]|]. inversion hl as [|? ? hl1 hl2]; subst.
  destruct (tag44 _ b now L g c eq_refl hg hl1 hL hi) as (h1 & h2 & h3).
  assert (hm2 : g_idle (x_cfg (tapply g c)) = g_idle (x_cfg c)) by (rewrite tapply_cfg; reflexivity).
  assert (dec : (exists n, g = GCount n) \/ forall n, g <> GCount n) by (destruct g; try (right; discriminate); left; eauto).
  destruct dec as [(n & e)|hn].
  - specialize (h2 n e). destruct (ih hm2 hl2 now (Z.le_refl _) h2) as (h4 & _). split; [|auto]. destruct h4 as (h5 & h6). split; [exact h5|]. intros v hv2. specialize (h6 v hv2). lia.
  - destruct (ih hm2 hl2 L hL h1) as (h4 & h5). split; [exact h4|]. intros hx. apply h5. rewrite h3 by exact hn. exact hx.
Qed.
Lemma step44 mine b o c y c' L now : step o c = (y, c') -> zheld c -> g_idle (x_cfg c) = mine -> idle_ok mine b [o] -> L <= now ->
  (match time_of o with Some n => n = now | None => True end) -> inv44 b L c -> inv44 b L c' /\ (x_recv c' <> x_recv c -> inv44 b now c').
Proof.
  intros h hz hm hid hL ht hi. destruct (step_via _ _ _ _ h hz) as (_ & l & hv & ho & _).
  apply (via44 mine b now l c c' hv hm); [|exact hL|exact hi].
  inversion hid as [|? ? hid1 _]; subst. rewrite Forall_forall in *. intros g hg. specialize (ho g hg).
  assert (hzh : forall k a, In (k, a) (x_held c) -> k_ty k = TZero) by (intros k a hk; unfold zheld in hz; rewrite Forall_forall in hz; exact (hz _ hk)).
  assert (hp : forall n a k, ptag n a k g -> n = now -> (k_ty k <> TZero -> forall x, In (FCrypto x) (frames_in k) -> at_least (g_idle (x_cfg c)) b (hands_over x)) -> ok44 (g_idle (x_cfg c)) b now g).
  { intros n a k hp hn hk. destruct g; cbn in hp |- *; try exact I; try congruence.
    destruct hp as (h1 & x & h2 & ->). specialize (hk h1 x h2). destruct x; exact hk. }
  destruct o as [n a ks|n from to max hso os|n timers|app code reason|a scid|a scid|q| |i t pto rtt|i d]; cbn [otag time_of] in *.
  - subst n. destruct g; cbn [ok44]; try exact I; cbn [rectag] in ho.
    + destruct ho as [[]|[(k & h1 & h2)|(k & b0 & h1 & h2)]]; [exact h2|exact h2].
    + destruct ho as [[]|[(k & h1 & h2)|(k & b0 & h1 & h2)]].
      * apply (hp _ _ _ h2 eq_refl). intros _ x hx. exact (hid1 k x h1 hx).
      * apply (hp _ _ _ h2 eq_refl). rewrite (hzh _ _ h1). congruence.
    + destruct ho as [[]|[(k & h1 & h2)|(k & b0 & h1 & h2)]]; [exact h2|exact h2].
  - subst n. destruct ho as [ho|[ho|ho]].
    + destruct g; cbn in ho |- *; try tauto. rewrite ho. destruct hso; exact hid1.
    + destruct g; cbn [ok44]; try exact I; cbn [rtag] in ho.
      * destruct ho as [[]|(k & b0 & h1 & h2)]. exact h2.
      * destruct ho as [[]|(k & b0 & h1 & h2)]. apply (hp _ _ _ h2 eq_refl). rewrite (hzh _ _ h1). congruence.
      * destruct ho as [[]|(k & b0 & h1 & h2)]. exact h2.
    + destruct g; cbn in ho |- *; tauto.
  - destruct g; cbn in ho |- *; tauto.
  - destruct g; cbn in ho |- *; tauto.
  - destruct g; cbn in ho |- *; tauto.
  - destruct g; cbn in ho |- *; tauto.
  - destruct g; cbn in ho |- *; tauto.
  - subst g. exact I.
  - subst g. exact I.
  - subst g. exact I.
Qed.
Lemma run44 mine b : forall ops c t c' L M, run ops c = (t, c') -> zheld c -> g_idle (x_cfg c) = mine -> idle_ok mine b ops -> clock M ops -> L <= M -> inv44 b L c -> inv44 b L c'.
Proof.
  induction ops as [|o ops ih]; intros c t c' L M h hz hm hid hcl hL hi; cbn [run] in h; [injection h as <- <-; exact hi|].
  destruct (step o c) as [y c1] eqn:e1. destruct (run ops c1) as [t2 c2] eqn:e2. injection h as <- <-. inversion hid as [|? ? hid1 hid2]; subst.
  assert (hm1 : g_idle (x_cfg c1) = g_idle (x_cfg c)) by (rewrite (step_cfg _ _ _ _ e1 hz); reflexivity).
  assert (hid0 : idle_ok (g_idle (x_cfg c)) b [o]) by (constructor; [exact hid1|constructor]).
  cbn [clock] in hcl. destruct (time_of o) as [n|] eqn:et.
  - destruct hcl as (hn & hcl). destruct (step44 _ b o c y c1 L n e1 hz eq_refl hid0) as (h1 & _); [lia|rewrite et; reflexivity|exact hi|].
    exact (ih _ _ _ L n e2 (step_zheld _ _ _ _ e1 hz) hm1 hid2 hcl ltac:(lia) h1).
  - destruct (step44 _ b o c y c1 L M e1 hz eq_refl hid0 hL) as (h1 & _); [rewrite et; exact I|exact hi|].
    exact (ih _ _ _ L M e2 (step_zheld _ _ _ _ e1 hz) hm1 hid2 hcl hL h1).
Qed.
Lemma timeout_timed now timers c : l_timed (x_life c) = false -> l_timed (x_life (on_timeout now timers c)) = true -> exists v, l_idle (x_life c) = Some v /\ v <= now /\ l_drain (x_life c) = None.
Proof.
  intros h1 h2. unfold on_timeout in h2. destruct (l_drain (x_life c)) as [t|]; [destruct (t <=? now); cbn in h2; congruence|].
  destruct (l_idle (x_life c)) as [v|]; cbn [due] in h2.
  - destruct (Z.leb_spec v now); [exists v; auto|]. exfalso. cbv zeta in h2.
    set (c1 := if due (l_ku (x_life c)) now then on_life (set_ku None) c else c) in *. assert (e1 : l_timed (x_life c1) = false) by (subst c1; destruct (due (l_ku (x_life c)) now); exact h1).
    set (c2 := tell_failures (w_paths (fire (server c1) now timers (x_paths c1)) c1)) in *. assert (e2 : l_timed (x_life c2) = false) by exact e1.
    destruct (active_pid (x_paths c2)); [congruence|]. destruct (index usable (x_paths c2)) as [i|]; [|cbn in h2; congruence].
    destruct (set_active_same i c2) as (_ & _ & e3 & _). destruct (set_active i c2) as [[u|e|] c3]; cbn [snd] in e3; cbn in h2; rewrite e3 in h2; congruence.
  - exfalso. cbv zeta in h2.
    set (c1 := if due (l_ku (x_life c)) now then on_life (set_ku None) c else c) in *. assert (e1 : l_timed (x_life c1) = false) by (subst c1; destruct (due (l_ku (x_life c)) now); exact h1).
    set (c2 := tell_failures (w_paths (fire (server c1) now timers (x_paths c1)) c1)) in *. assert (e2 : l_timed (x_life c2) = false) by exact e1.
    destruct (active_pid (x_paths c2)); [congruence|]. destruct (index usable (x_paths c2)) as [i|]; [|cbn in h2; congruence].
    destruct (set_active_same i c2) as (_ & _ & e3 & _). destruct (set_active i c2) as [[u|e|] c3]; cbn [snd] in e3; cbn in h2; rewrite e3 in h2; congruence.
Qed.
(** A packet processed at [n] keeps the connection for at least [b]. *)
Lemma idle_kept b c o y c1 n ops t c2 now timers : zheld c -> step o c = (y, c1) -> time_of o = Some n -> x_recv c1 <> x_recv c ->
  at_least (g_idle (x_cfg c)) b (h_pidle (x_hs c)) -> idle_ok (g_idle (x_cfg c)) b (o :: ops) -> clock n ops -> run ops c1 = (t, c2) ->
  l_timed (x_life c2) = false -> l_timed (x_life (on_timeout now timers c2)) = true -> n + b <= now.
Proof.
  intros hz h1 ht hx hal hid hcl hr hf htm. inversion hid as [|? ? hid1 hid2]; subst.
  set (L := match l_idle (x_life c) with Some v => Z.min n (v - b) | None => n end).
  assert (hL : L <= n) by (subst L; destruct (l_idle (x_life c)); lia).
  assert (hi : inv44 b L c) by (split; [exact hal|]; intros v hv; subst L; rewrite hv; lia).
  destruct (step44 _ b o c y c1 L n h1 hz eq_refl ltac:(constructor; [exact hid1|constructor]) hL) as (_ & h2); [rewrite ht; reflexivity|exact hi|].
  assert (hm1 : g_idle (x_cfg c1) = g_idle (x_cfg c)) by (rewrite (step_cfg _ _ _ _ h1 hz); reflexivity).
  pose proof (run44 _ b ops c1 t c2 n n hr (step_zheld _ _ _ _ h1 hz) hm1 hid2 hcl (Z.le_refl _) (h2 hx)) as (_ & h3).
  destruct (timeout_timed _ _ _ hf htm) as (v & hv & hle & _). specialize (h3 v hv). lia.
Qed.
