(** LifeMicro continued: sending, and every operation *)
Require Import Verif.Base Verif.Errors Verif.LifeModel Verif.LifeMicro Verif.LifeMicro2.

(** Sending *)
Lemma responses_split : forall q room ds q' room', responses room q = (ds, q', room') ->
  (exists mid, q = ds ++ mid ++ q' /\ zlen mid <= 1) /\ room' = room - 9 * zlen ds.
Proof.
  induction q as [|d q ih]; intros room ds q' room' h; cbn [responses] in h.
  - injection h as <- <- <-. split; [exists []; split; [reflexivity|cbn; lia]|cbn; lia].
  - destruct (9 <=? room).
    + destruct (responses (room - 9) q) as [[ds2 q2] room2] eqn:e. injection h as <- <- <-.
      destruct (ih _ _ _ _ e) as ((mid & h1 & h2) & h3). split; [exists mid; split; [cbn [app]; rewrite <- h1; reflexivity|exact h2]|]. rewrite zlen_cons. lia.
    + injection h as <- <- <-. split; [exists [d]; split; [reflexivity|cbn; lia]|cbn; lia].
Qed.

Definition stag (now : Z) (g : tag) : Prop :=
  match g with
  | GPath _ (PPop _ _ _) | GPath _ (PDebit _ _) | GAes true | GDrain _ => True
  | GPath _ (PSent _ _ _ t) => t = now
  | GRestart n => n = now
  | _ => False
  end.
Definition drains (g : tag) : list Z := match g with GDrain t => [t] | _ => [] end.
Definition chal_of (a : addr) (now : Z) (s : sent) : list (addr * Z * Z * Z) :=
  match s_chal s with Some d => [(a, d, s_size s, now)] | None => [] end.
Definition close_of (s : sent) : list cerr := match s_close s with Some e => [e] | None => [] end.
Definition room_ok (c : conn) (i : nat) (avail : Z) : Prop :=
  forall p, nth_error (x_paths c) i = Some p -> server c = true -> p_ok p = false -> avail <= p_budget p.

Lemma up_nth i f c p : nth_error (x_paths c) i = Some p -> nth_error (x_paths (up i f c)) i = Some (f p).
Proof. apply upd_same. Qed.
Lemma add_challenge_same d n now p : p_budget (add_challenge d n now p) = p_budget p /\ p_ok (add_challenge d n now p) = p_ok p /\ p_addr (add_challenge d n now p) = p_addr p.
Proof. unfold add_challenge, promote_to. destruct (_ <? _); cbn; auto. Qed.

Lemma send_single_via now i avail o c r c' : send_single now i avail o c = (r, c') -> room_ok c i avail ->
  r <> Panic /\
  exists l, via l c c' /\ Forall (stag now) l /\
  match r with
  | Ok s =>
      exists p, nth_error (x_paths c) i = Some p /\ flat_map spent l = [(p_addr p, s_size s)] /\ flat_map probes l = chal_of (p_addr p) now s /\
        flat_map answers l = map (pair (p_addr p)) (s_resp s) /\ 0 < s_size s <= avail /\ (s_ty s <> TShort -> s_chal s = None /\ s_resp s = []) /\
        room_ok c' i (avail - s_size s) /\ l_err (x_life c') = l_err (x_life c) /\
        match s_close s with Some e => l_err (x_life c) = Some e /\ l_drain (x_life c') = Some (now + p_pto p * 3) | None => l_drain (x_life c') = l_drain (x_life c) end
  | _ => flat_map spent l = [] /\ flat_map probes l = [] /\ flat_map answers l = [] /\ x_life c' = x_life c
  end.
Proof.
  intros h hroom. unfold send_single in h.
  assert (triv : forall e, (Err e, c) = (r, c') -> r <> Panic /\ exists l, via l c c' /\ Forall (stag now) l /\ match r with Ok s => False | _ => flat_map spent l = [] /\ flat_map probes l = [] /\ flat_map answers l = [] /\ x_life c' = x_life c end).
  { intros e he. injection he as <- <-. split; [discriminate|]. exists []. split; [constructor|]. split; [constructor|]. auto. }
  assert (triv' : forall e, (Err e, c) = (r, c') -> r <> Panic /\
  exists l, via l c c' /\ Forall (stag now) l /\
  match r with
  | Ok s =>
      exists p, nth_error (x_paths c) i = Some p /\ flat_map spent l = [(p_addr p, s_size s)] /\ flat_map probes l = chal_of (p_addr p) now s /\
        flat_map answers l = map (pair (p_addr p)) (s_resp s) /\ 0 < s_size s <= avail /\ (s_ty s <> TShort -> s_chal s = None /\ s_resp s = []) /\
        room_ok c' i (avail - s_size s) /\ l_err (x_life c') = l_err (x_life c) /\
        match s_close s with Some e => l_err (x_life c) = Some e /\ l_drain (x_life c') = Some (now + p_pto p * 3) | None => l_drain (x_life c') = l_drain (x_life c) end
  | _ => flat_map spent l = [] /\ flat_map probes l = [] /\ flat_map answers l = [] /\ x_life c' = x_life c
  end).
  { intros e he. destruct (triv e he) as (h1 & l & h2 & h3 & h4). split; [exact h1|]. exists l. split; [exact h2|]. split; [exact h3|]. destruct r; [destruct h4|exact h4|exact h4]. }
  clear triv.
  destruct (avail <=? 0); [exact (triv' _ h)|]. destruct (is_draining c); [exact (triv' _ h)|].
  destruct (nth_error (x_paths c) i) as [p|] eqn:hp; [|exact (triv' _ h)].
  destruct (pkt_type o p c) as [t|e|] eqn:et; [|exact (triv' _ h)|].
  2: { unfold pkt_type in et. destruct (l_err (x_life c)) as [[[[] ?] ?]|]; try discriminate; destruct (o_pend o); try discriminate; destruct (_ && _); discriminate. }
  destruct (negb (is_some (p_dcid p))); [exact (triv' _ h)|].
  destruct ((o_size o <=? 0) || (avail <? o_size o)) eqn:esz; [exact (triv' _ h)|]. destruct (o_fail o) as [e|]; [exact (triv' _ h)|].
  clear triv'. apply orb_false_iff in esz. destruct esz as [es1 es2].
  set (short := match t with TShort => true | _ => false end) in *.
  destruct (if short then responses (o_room o) (p_queue p) else ([], p_queue p, o_room o)) as [[rs q] room] eqn:er.
  assert (hq : (exists mid, p_queue p = rs ++ mid ++ q) /\ (short = false -> rs = [])).
  { destruct short.
    - destruct (responses_split _ _ _ _ _ er) as ((mid & h1 & _) & _). split; [exists mid; exact h1|discriminate].
    - injection er as <- <- <-. split; [exists []; reflexivity|reflexivity]. }
  destruct hq as (hq1 & hq2).
  set (c1 := up i (set_queue q) c) in *.
  assert (v1 : via [GPath i (PPop (p_addr p) rs q)] c c1).
  { apply (via_one (GPath i (PPop (p_addr p) rs q))). exists p. split; [exact hp|]. split; [reflexivity|exact hq1]. }
  assert (hp1 : nth_error (x_paths c1) i = Some (set_queue q p)) by (apply up_nth; exact hp).
  set (ch := if short && p_want p && (9 <=? room) then Some (o_data o) else None) in *.
  set (cl := if active p || (zlen (x_paths c1) =? 1) then _ else None) in h.
  assert (hcl : forall e, cl = Some e -> l_err (x_life c) = Some e).
  { clear h. clearbody ch. intros e he. subst cl. destruct (active p || _); [|discriminate]. change (l_err (x_life c1)) with (l_err (x_life c)) in he.
    destruct (l_err (x_life c)) as [e'|]; [|discriminate]. destruct (_ && _); [exact he|discriminate]. }
  set (c2 := if is_some cl then on_life (set_drain (Some (now + p_pto p * 3))) c1 else c1) in *.
  set (ael := o_ael o || negb (match rs with [] => true | _ => false end) || is_some ch || is_some cl) in *.
  assert (v2 : exists l2, via l2 c1 c2 /\ Forall (fun g => exists t, g = GDrain t) l2).
  { subst c2. destruct (is_some cl); [|exists []; split; constructor]. exists [GDrain (now + p_pto p * 3)].
    split; [apply (via_one (GDrain _)); exact I|]. constructor; [eauto|constructor]. }
  destruct v2 as (l2 & v2 & f2).
  destruct (negb (ael || o_other o)) eqn:eempty.
  { injection h as <- <-. split; [discriminate|].
    assert (hael : ael = false) by (destruct ael; [discriminate|reflexivity]). unfold ael in hael.
    apply orb_false_iff in hael. destruct hael as [hael hncl]. apply orb_false_iff in hael. destruct hael as [hael _]. apply orb_false_iff in hael. destruct hael as [_ hrs].
    assert (rs = []) by (destruct rs; [reflexivity|discriminate]). subst rs.
    exists [GPath i (PPop (p_addr p) [] q)]. assert (c2 = c1) by (subst c2; rewrite hncl; reflexivity). rewrite H.
    split; [exact v1|]. split; [repeat constructor|]. repeat split; reflexivity. }
  set (c3 := match ch with Some d => up i (add_challenge d (o_size o) now) c2 | None => c2 end) in *.
  assert (hp2 : nth_error (x_paths c2) i = Some (set_queue q p)) by (subst c2; destruct (is_some cl); exact hp1).
  assert (v3 : exists l3, via l3 c2 c3 /\ Forall (stag now) l3 /\ flat_map spent l3 = [] /\ flat_map answers l3 = [] /\
       flat_map probes l3 = match ch with Some d => [(p_addr p, d, o_size o, now)] | None => [] end).
  { subst c3. destruct ch as [d|] eqn:ec.
    - exists [GPath i (PSent (p_addr p) d (o_size o) now)]. split.
      + apply (via_one (GPath i (PSent (p_addr p) d (o_size o) now))). exists (set_queue q p). split; [exact hp2|]. cbn. split; [reflexivity|].
        split; [|clear - es1; lia]. subst ch. destruct (p_want p); [reflexivity|]. rewrite andb_false_r in ec. discriminate.
      + split; [repeat constructor|]. auto.
    - exists []. split; [constructor|]. split; [constructor|]. auto. }
  destruct v3 as (l3 & v3 & f3 & sp3 & an3 & pr3).
  assert (hp3 : exists p3, nth_error (x_paths c3) i = Some p3 /\ p_addr p3 = p_addr p /\ p_budget p3 = p_budget p /\ p_ok p3 = p_ok p).
  { subst c3. destruct ch as [d|].
    - eexists. split; [apply up_nth; exact hp2|]. destruct (add_challenge_same d (o_size o) now (set_queue q p)) as (h1 & h2 & h3). rewrite h1, h2, h3. auto.
    - eexists. split; [exact hp2|]. auto. }
  destruct hp3 as (p3 & hp3 & ha3 & hb3 & ho3).
  set (c4 := up i (fun p => set_budget (sat_sub (p_budget p) (o_size o)) p) c3) in *.
  assert (hsrv : server c3 = server c).
  { subst c3 c2. destruct ch; destruct (is_some cl); reflexivity. }
  assert (v4 : via [GPath i (PDebit (p_addr p) (o_size o))] c3 c4).
  { apply (via_one (GPath i (PDebit (p_addr p) (o_size o)))). exists p3. split; [exact hp3|]. cbn [pguard]. split; [exact ha3|]. split; [clear - es1; lia|].
    intros h1 h2. rewrite hb3. rewrite hsrv in h1. rewrite ho3 in h2. specialize (hroom p hp h1 h2). clear - hroom es2. lia. }
  assert (hp4 : nth_error (x_paths c4) i = Some (set_budget (sat_sub (p_budget p3) (o_size o)) p3)) by (exact (up_nth i (fun p => set_budget (sat_sub (p_budget p) (o_size o)) p) c3 p3 hp3)).
  set (c5 := if ael && negb (x_aes c4) then restart_idle now c4 else c4) in *.
  assert (v5 : exists l5, via l5 c4 c5 /\ Forall (fun g => g = GRestart now) l5).
  { subst c5. destruct (ael && _); [apply restart_via|exists []; split; constructor]. }
  destruct v5 as (l5 & v5 & f5).
  set (c6 := if ael then w_aes true c5 else c5) in *.
  assert (v6 : exists l6, via l6 c5 c6 /\ Forall (fun g => g = GAes true) l6).
  { subst c6. destruct ael; [|exists []; split; constructor]. exists [GAes true]. split; [apply (via_one (GAes true)); exact I|repeat constructor]. }
  destruct v6 as (l6 & v6 & f6).
  injection h as <- <-. split; [discriminate|].
  exists (([GPath i (PPop (p_addr p) rs q)] ++ l2) ++ l3 ++ [GPath i (PDebit (p_addr p) (o_size o))] ++ l5 ++ l6).
  split; [exact (via_app _ _ _ _ _ (via_app _ _ _ _ _ v1 v2) (via_app _ _ _ _ _ v3 (via_app _ _ _ _ _ v4 (via_app _ _ _ _ _ v5 v6))))|].
  split.
  { apply Forall_app. split; [constructor; [exact I|]; revert f2; apply Forall_impl; intros g (t0 & ->); exact I|].
    apply Forall_app. split; [exact f3|]. apply Forall_app. split; [repeat constructor|]. apply Forall_app.
    split; [revert f5; apply Forall_impl; intros g ->; reflexivity|revert f6; apply Forall_impl; intros g ->; exact I]. }
  assert (nil2 : forall B (f : tag -> list B), (forall t, f (GDrain t) = []) -> flat_map f l2 = []) by (intros B f hf; apply (flat_nil' _ _ _ f2); intros g (t0 & ->); apply hf).
  assert (nil5 : forall B (f : tag -> list B), f (GRestart now) = [] -> flat_map f l5 = []) by (intros B f hf; apply (flat_nil' _ _ _ f5); intros g ->; exact hf).
  assert (nil6 : forall B (f : tag -> list B), f (GAes true) = [] -> flat_map f l6 = []) by (intros B f hf; apply (flat_nil' _ _ _ f6); intros g ->; exact hf).
  exists p. split; [reflexivity|]. cbn [s_size s_chal s_resp s_ty s_close].
  split; [rewrite !flat_map_app, sp3, nil2, nil5, nil6 by reflexivity; reflexivity|].
  split; [unfold chal_of; cbn [s_chal s_size]; rewrite !flat_map_app, pr3, nil2, nil5, nil6 by reflexivity; cbn [flat_map probes]; rewrite ?app_nil_r; reflexivity|].
  split; [rewrite !flat_map_app, an3, nil2, nil5, nil6 by reflexivity; cbn [flat_map answers]; rewrite ?app_nil_r; reflexivity|].
  split; [clear - es1 es2; lia|].
  split.
  { intros ht. assert (hs : short = false) by (subst short; destruct t; congruence). split; [subst ch; rewrite hs; reflexivity|apply hq2; exact hs]. }
  assert (ex5 : x_paths c6 = x_paths c4 /\ server c6 = server c).
  { split.
    { assert (e5 : x_paths c5 = x_paths c4) by (subst c5; destruct (ael && negb (x_aes c4)); [apply restart_paths|reflexivity]).
      rewrite <- e5. subst c6. destruct ael; reflexivity. }
    transitivity (server c4); [|exact hsrv]. rewrite (via_server _ _ _ v6), (via_server _ _ _ v5). reflexivity. }
  destruct ex5 as (ex5 & es5).
  split.
  { intros p6 hp6 h1 h2. rewrite ex5 in hp6. rewrite hp4 in hp6. injection hp6 as <-. cbn in h2 |- *. rewrite hb3. rewrite es5 in h1. rewrite ho3 in h2.
    specialize (hroom p hp h1 h2). unfold sat_sub. clear - hroom. lia. }
  assert (hlife : l_err (x_life c6) = l_err (x_life c2) /\ l_drain (x_life c6) = l_drain (x_life c2)).
  { assert (hx : x_life c4 = x_life c2) by (subst c4 c3; destruct ch; reflexivity). rewrite <- hx.
    assert (e6 : x_life c6 = x_life c5) by (subst c6; destruct ael; reflexivity). rewrite e6.
    subst c5. destruct (ael && negb (x_aes c4)); [unfold restart_idle; destruct (idle_timeout c4); auto|auto]. }
  destruct hlife as (-> & ->).
  subst c2. destruct cl as [e|]; cbn [is_some]; (split; [reflexivity|]); [split; [apply hcl; reflexivity|reflexivity]|reflexivity].
Qed.

Lemma index_in {A} (f : A -> bool) l i : index f l = Some i -> exists x, nth_error l i = Some x /\ f x = true.
Proof. intros h. exact (index_some _ _ _ h). Qed.
Lemma send_pid_ok from to c : send_pid from to c <> Panic /\
  (forall i, send_pid from to c = Ok i -> exists p, nth_error (x_paths c) i = Some p /\ goes from to p = true).
Proof.
  unfold send_pid. set (f := fun p => goes from to p && is_some (p_dcid p) && probing_required p).
  destruct (if h_est (x_hs c) then index f (x_paths c) else None) as [j|] eqn:e1.
  - split; [discriminate|]. intros i h. injection h as <-. destruct (h_est (x_hs c)); [|discriminate].
    destruct (index_in _ _ _ e1) as (p & h1 & h2). exists p. split; [exact h1|]. subst f. cbv beta in h2. destruct (goes from to p); [reflexivity|discriminate].
  - destruct (active_pid (x_paths c)) as [j|] eqn:e2; [|split; discriminate].
    destruct (nth_error (x_paths c) j) as [p|] eqn:e3; [|split; discriminate].
    destruct (goes from to p) eqn:e4; [|split; discriminate]. split; [discriminate|]. intros i h. injection h as <-. eauto.
Qed.
Lemma stag_noadd now l : Forall (stag now) l -> Forall (fun g => ~ adds g) l.
Proof. apply Forall_impl. intros g h h2. destruct g; cbn in *; tauto. Qed.
Lemma drained_loop now from to i : forall os left c, is_draining c = true -> send_loop now from to i left os c = (Ok [], c).
Proof.
  intros os left c h. destruct os as [|o os]; [reflexivity|]. cbn [send_loop]. destruct (left <=? 0) eqn:e; [reflexivity|].
  unfold send_single. rewrite e, h. reflexivity.
Qed.

Lemma send_loop_via now from to i a : forall os left c r c', send_loop now from to i left os c = (r, c') ->
  (exists p, nth_error (x_paths c) i = Some p /\ p_addr p = a) -> room_ok c i left -> 0 <= left ->
  r <> Panic /\
  exists l, via l c c' /\ Forall (stag now) l /\
  match r with
  | Ok ss =>
      flat_map spent l = map (fun s => (a, s_size s)) ss /\ flat_map probes l = flat_map (chal_of a now) ss /\
      flat_map answers l = flat_map (fun s => map (pair a) (s_resp s)) ss /\ Forall (fun s => 0 < s_size s) ss /\ sum_sent ss <= left /\
      l_err (x_life c') = l_err (x_life c) /\
      (flat_map close_of ss = [] /\ l_drain (x_life c') = l_drain (x_life c) \/
       exists e, flat_map close_of ss = [e] /\ l_err (x_life c) = Some e /\ is_draining c' = true)
  | _ => flat_map probes l = [] /\ flat_map answers l = [] /\ l_err (x_life c') = l_err (x_life c)
  end.
Proof.
  induction os as [|o os ih]; intros left c r c' h hp hroom hleft.
  - cbn [send_loop] in h. injection h as <- <-. split; [discriminate|]. exists []. split; [constructor|]. split; [constructor|].
    split; [reflexivity|]. split; [reflexivity|]. split; [reflexivity|]. split; [constructor|]. split; [exact hleft|]. split; [reflexivity|]. left. auto.
  - cbn [send_loop] in h.
    destruct (left <=? 0).
    { injection h as <- <-. split; [discriminate|]. exists []. split; [constructor|]. split; [constructor|].
      split; [reflexivity|]. split; [reflexivity|]. split; [reflexivity|]. split; [constructor|]. split; [exact hleft|]. split; [reflexivity|]. left. auto. }
    destruct (send_single now i left o c) as [r1 c1] eqn:e1.
    destruct (send_single_via _ _ _ _ _ _ _ e1 hroom) as (n1 & l1 & v1 & f1 & m1).
    destruct r1 as [s|e|]; [| |destruct (n1 eq_refl)].
    2: { destruct m1 as (m1 & m2 & m3 & m4).
      assert (he : (Ok [], c1) = (r, c') \/ (Err e, c1) = (r, c')) by (destruct e; auto).
      destruct he as [he|he]; injection he as <- <-; (split; [discriminate|]); exists l1; (split; [exact v1|]); (split; [exact f1|]).
      - split; [exact m1|]. split; [exact m2|]. split; [exact m3|]. split; [constructor|]. split; [exact hleft|]. rewrite m4. split; [reflexivity|]. left. auto.
      - rewrite m4. auto. }
    destruct m1 as (p & hp1 & sp1 & pr1 & an1 & hs1 & ht1 & hr1 & hl1 & hc1).
    destruct hp as (p' & hp' & ha). rewrite hp1 in hp'. injection hp' as <-. rewrite ha in *.
    set (stop := match s_ty s with TShort => Ok true | _ => _ end) in h.
    assert (hstop : stop <> Panic /\ (forall b, stop = Ok b -> b = false -> s_ty s <> TShort) /\ (forall e, stop = Err e -> s_ty s <> TShort)).
    { subst stop. destruct (s_ty s); cbn;
        try (destruct (o_stop o); [|destruct (is_some from && is_some to); [|pose proof (proj1 (send_pid_ok from to c1)); destruct (send_pid from to c1)]]);
        (split; [congruence|]; split; [intros b9 hb9 hb2; congruence|intros e9 he9; congruence]). }
    destruct hstop as (hst1 & hst2 & hst3).
    assert (single : Ok [s] = r -> c1 = c' -> r <> Panic /\
      exists l, via l c c' /\ Forall (stag now) l /\
      match r with
      | Ok ss =>
          flat_map spent l = map (fun s => (a, s_size s)) ss /\ flat_map probes l = flat_map (chal_of a now) ss /\
          flat_map answers l = flat_map (fun s => map (pair a) (s_resp s)) ss /\ Forall (fun s => 0 < s_size s) ss /\ sum_sent ss <= left /\
          l_err (x_life c') = l_err (x_life c) /\
          (flat_map close_of ss = [] /\ l_drain (x_life c') = l_drain (x_life c) \/
           exists e, flat_map close_of ss = [e] /\ l_err (x_life c) = Some e /\ is_draining c' = true)
      | _ => flat_map probes l = [] /\ flat_map answers l = [] /\ l_err (x_life c') = l_err (x_life c)
      end).
    { intros <- <-. split; [discriminate|]. exists l1. split; [exact v1|]. split; [exact f1|]. split; [exact sp1|]. cbn [flat_map map]. rewrite !app_nil_r.
      split; [exact pr1|]. split; [exact an1|]. split; [constructor; [lia|constructor]|]. split; [cbn; lia|]. split; [exact hl1|].
      unfold close_of. destruct (s_close s) as [e|]; [right; exists e|left; auto]. destruct hc1 as [h1 h2]. split; [reflexivity|]. split; [exact h1|].
      unfold is_draining. rewrite h2. reflexivity. }
    destruct stop as [[|]|e|]; [injection h as <- <-; apply single; reflexivity| | |destruct (hst1 eq_refl)].
    + destruct (ht1 (hst2 _ eq_refl eq_refl)) as (hch & hre).
      destruct (send_loop now from to i (left - s_size s) os c1) as [r2 c2] eqn:e2.
      assert (hp2 : exists p, nth_error (x_paths c1) i = Some p /\ p_addr p = a).
      { destruct (addr_nth _ _ _ _ (via_addr _ _ _ v1 (stag_noadd _ _ f1)) hp1) as (p2 & h3 & h4). exists p2. split; [exact h3|congruence]. }
      destruct (ih _ _ _ _ e2 hp2 hr1 ltac:(lia)) as (n2 & l2 & v2 & f2 & m2).
      destruct r2 as [ss|e|]; [| |destruct (n2 eq_refl)].
      * injection h as <- <-. split; [discriminate|]. exists (l1 ++ l2). split; [exact (via_app _ _ _ _ _ v1 v2)|]. split; [apply Forall_app; auto|].
        destruct m2 as (sp2 & pr2 & an2 & hs2 & hsum & hl2 & hc2). rewrite !flat_map_app, sp1, pr1, an1, sp2, pr2, an2. cbn [flat_map map app].
        split; [reflexivity|]. split; [reflexivity|]. split; [reflexivity|]. split; [constructor; [lia|exact hs2]|].
        split; [cbn [sum_sent fold_right]; fold (sum_sent ss); lia|]. split; [congruence|].
        unfold close_of at 1 3. destruct (s_close s) as [e|]; cbn [app].
        -- destruct hc1 as [h1 h2]. assert (hd : is_draining c1 = true) by (unfold is_draining; rewrite h2; reflexivity).
           rewrite (drained_loop now from to i os _ _ hd) in e2. injection e2 as <- <-. right. exists e. auto.
        -- destruct hc2 as [[h1 h2]|(e & h1 & h2 & h3)]; [left; split; [exact h1|congruence]|right; exists e; split; [exact h1|]; split; [congruence|exact h3]].
      * injection h as <- <-. split; [discriminate|]. exists (l1 ++ l2). split; [exact (via_app _ _ _ _ _ v1 v2)|]. split; [apply Forall_app; auto|].
        destruct m2 as (pr2 & an2 & hl2). rewrite !flat_map_app, pr1, an1, pr2, an2. unfold chal_of. rewrite hch, hre. split; [reflexivity|]. split; [reflexivity|congruence].
    + injection h as <- <-. split; [discriminate|]. exists l1. split; [exact v1|]. split; [exact f1|].
      destruct (ht1 (hst3 _ eq_refl)) as (hch & hre). rewrite pr1, an1. unfold chal_of. rewrite hch, hre. auto.
Qed.

Definition sendtag (now : Z) (hso : hout) (held : list (packet * addr)) (g : tag) : Prop := hstag hso g \/ rtag now held g \/ stag now g.

Lemma send_via now from to max hso os c r c' : send now from to max hso os c = (r, c') -> zheld c ->
  r <> Panic /\
  exists l, via l c c' /\ Forall (sendtag now hso (x_held c)) l /\
   (forall d, sumz (queued d) l + sumz (held_asks d) l <= sumz (replayed d) l) /\
   (forall f a0, sumz (gain f a0) l = 0) /\
   match r with
   | Ok (n, a, ss) =>
       ss <> [] /\ flat_map spent l = map (fun s => (a, s_size s)) ss /\ flat_map probes l = flat_map (chal_of a now) ss /\
       flat_map answers l = flat_map (fun s => map (pair a) (s_resp s)) ss /\ Forall (fun s => 0 < s_size s) ss /\
       (flat_map close_of ss = [] \/ exists e, flat_map close_of ss = [e] /\ l_err (x_life c') = Some e /\ is_draining c' = true)
   | _ => flat_map probes l = [] /\ flat_map answers l = []
   end.
Proof.
  intros h hz. unfold send in h.
  (* ends without a datagram *)
  assert (stop : forall e l c1, via l c c1 -> Forall (fun g => hstag hso g \/ rtag now (x_held c) g) l ->
     (forall d, sumz (queued d) l + sumz (held_asks d) l <= sumz (replayed d) l) -> (forall f a0, sumz (gain f a0) l = 0) ->
     (Err e, c1) = (r, c') -> r <> Panic /\
     exists l, via l c c' /\ Forall (sendtag now hso (x_held c)) l /\
      (forall d, sumz (queued d) l + sumz (held_asks d) l <= sumz (replayed d) l) /\
      (forall f a0, sumz (gain f a0) l = 0) /\
      match r with
      | Ok (n, a, ss) =>
          ss <> [] /\ flat_map spent l = map (fun s => (a, s_size s)) ss /\ flat_map probes l = flat_map (chal_of a now) ss /\
          flat_map answers l = flat_map (fun s => map (pair a) (s_resp s)) ss /\ Forall (fun s => 0 < s_size s) ss /\
          (flat_map close_of ss = [] \/ exists e, flat_map close_of ss = [e] /\ l_err (x_life c') = Some e /\ is_draining c' = true)
      | _ => flat_map probes l = [] /\ flat_map answers l = []
      end).
  { intros e l c1 v f q g he. injection he as <- <-. split; [discriminate|]. exists l. split; [exact v|].
    split; [revert f; apply Forall_impl; intros t [ht|ht]; [left; exact ht|right; left; exact ht]|]. split; [exact q|]. split; [exact g|].
    assert (nn : forall t, hstag hso t \/ rtag now (x_held c) t -> probes t = [] /\ answers t = []).
    { intros t [ht|ht]; destruct t; cbn in ht; try tauto; try (split; reflexivity).
      destruct ht as [[]|(k0 & b0 & _ & hp)]. destruct m; cbn in hp; try tauto; split; reflexivity. }
    split; apply (flat_nil' _ _ _ f); intros t ht; apply (nn t ht). }
  destruct (max <=? 0) eqn:em; [refine (stop _ [] c _ _ _ _ h); [constructor|constructor|intros d; cbn; lia|reflexivity]|].
  destruct (is_closed c || is_draining c); [refine (stop _ [] c _ _ _ _ h); [constructor|constructor|intros d; cbn; lia|reflexivity]|].
  (* the handshake *)
  destruct (if is_some (l_err (x_life c)) then (Ok tt, c) else do_handshake hso c) as [r1 c1] eqn:e1.
  assert (s1 : r1 <> Panic /\ exists l1, via l1 c c1 /\ Forall (hstag hso) l1).
  { destruct (l_err (x_life c)) as [e|] eqn:ee; cbn [is_some] in e1.
    - injection e1 as <- <-. split; [discriminate|]. exists []. split; constructor.
    - destruct (handshake_via _ _ _ _ e1 ee) as (l & v & f & _ & np). split; [exact np|]. exists l. auto. }
  destruct s1 as (n1 & l1 & v1 & f1).
  assert (hz1 : forall f : tag -> Z, (forall g, hstag hso g -> f g = 0) -> sumz f l1 = 0) by (intros f hf; exact (sumz_zero' _ _ _ f1 hf)).
  assert (q1 : forall d, sumz (queued d) l1 = 0 /\ sumz (held_asks d) l1 = 0 /\ sumz (replayed d) l1 = 0).
  { intros d. repeat split; apply hz1; intros g hg; destruct g; cbn in hg |- *; first [reflexivity|destruct hg]. }
  assert (g1 : forall f a0, sumz (gain f a0) l1 = 0) by (intros f a0; apply hz1; intros g hg; destruct g; cbn in hg |- *; first [reflexivity|destruct hg]).
  assert (f1' : Forall (fun g => hstag hso g \/ rtag now (x_held c) g) l1) by (revert f1; apply Forall_impl; auto).
  destruct r1 as [u|e|]; [| |destruct (n1 eq_refl)].
  2: { refine (stop _ l1 c1 v1 f1' _ g1 h). intros d. destruct (q1 d) as (-> & -> & ->). lia. }
  (* the packets held *)
  destruct (replay (length (x_held c1)) now c1) as [r2 c2] eqn:e2.
  destruct (replay_via now _ _ _ _ e2 (via_zheld _ _ _ v1 hz) (le_n _)) as (n2 & l2 & v2 & f2 & q2 & g2).
  assert (hh1 : incl (x_held c1) (x_held c)).
  { intros x hx. destruct (via_held _ _ _ _ v1 hx) as [h1|h1]; [exact h1|]. rewrite Forall_forall in f1. destruct (f1 _ h1). }
  assert (v12 : via (l1 ++ l2) c c2) by exact (via_app _ _ _ _ _ v1 v2).
  assert (f12 : Forall (fun g => hstag hso g \/ rtag now (x_held c) g) (l1 ++ l2)).
  { apply Forall_app. split; [exact f1'|]. revert f2. apply Forall_impl. intros g hg. right.
    destruct g; cbn [rtag] in *; auto; destruct hg as [hg|(k0 & b0 & h1 & h2)]; auto; right; exists k0, b0; auto. }
  assert (q12 : forall d, sumz (queued d) (l1 ++ l2) + sumz (held_asks d) (l1 ++ l2) <= sumz (replayed d) (l1 ++ l2)).
  { intros d. rewrite !sumz_app. destruct (q1 d) as (-> & -> & ->). specialize (q2 d). lia. }
  assert (g12 : forall f a0, sumz (gain f a0) (l1 ++ l2) = 0) by (intros f a0; rewrite sumz_app, g1, g2; reflexivity).
  destruct r2 as [u2|e2'|]; [| |destruct (n2 eq_refl)].
  all: cbv beta iota in h; clear n1 n2.
  all: destruct (negb (h_ready (x_hs c2))); [exact (stop _ _ _ v12 f12 q12 g12 h)|].
  all: match type of h with (match ?p with _ => _ end) = _ => set (pd := p) in h end.
  all: assert (hpd : pd <> Panic) by (subst pd; destruct from, to; try apply (proj1 (send_pid_ok _ _ _)); destruct (by_addr _ _); discriminate).
  all: clearbody pd; destruct pd as [i|e|]; [|exact (stop _ _ _ v12 f12 q12 g12 h)|destruct (hpd eq_refl)].
  all: destruct (nth_error (x_paths c2) i) as [p|] eqn:ep; [|exact (stop _ _ _ v12 f12 q12 g12 h)].
  all: cbv zeta in h; set (left := if negb (p_ok p) && server c2 then Z.min max (p_budget p) else max) in h.
  all: destruct (Z_le_gt_dec 0 left) as [hl|hl].
  all: try (assert (hnil : send_loop now from to i left os c2 = (Ok [], c2)) by (destruct os; [reflexivity|]; cbn [send_loop]; replace (left <=? 0) with true by lia; reflexivity);
            rewrite hnil in h; exact (stop _ _ _ v12 f12 q12 g12 h)).
  all: destruct (send_loop now from to i left os c2) as [r3 c3] eqn:e3.
  all: assert (hroom : room_ok c2 i left) by
    (intros p' hp' h1 h2; rewrite ep in hp'; injection hp' as <-; subst left; rewrite h1, h2; cbn [negb andb]; lia).
  all: destruct (send_loop_via now from to i (p_addr p) os left c2 r3 c3 e3 (ex_intro _ p (conj ep eq_refl)) hroom hl) as (n3 & l3 & v3 & f3 & m3).
  all: assert (v123 : via ((l1 ++ l2) ++ l3) c c3) by exact (via_app _ _ _ _ _ v12 v3).
  all: assert (f123 : Forall (sendtag now hso (x_held c)) ((l1 ++ l2) ++ l3)) by
    (apply Forall_app; split; [revert f12; apply Forall_impl; intros g [hg|hg]; [left; exact hg|right; left; exact hg]|revert f3; apply Forall_impl; intros g hg; right; right; exact hg]).
  all: assert (z3 : forall f : tag -> Z, (forall g, stag now g -> f g = 0) -> sumz f l3 = 0) by (intros f hf; exact (sumz_zero' _ _ _ f3 hf)).
  all: assert (q123 : forall d, sumz (queued d) ((l1 ++ l2) ++ l3) + sumz (held_asks d) ((l1 ++ l2) ++ l3) <= sumz (replayed d) ((l1 ++ l2) ++ l3)) by
    (intros d; rewrite !(sumz_app _ (l1 ++ l2)); rewrite !(z3 _) by (intros g hg; destruct g as [? []| | | | | | | | | | | | | | | | | | | | | | | |]; cbn in hg |- *; first [reflexivity|destruct hg]); specialize (q12 d); lia).
  all: assert (g123 : forall f a0, sumz (gain f a0) ((l1 ++ l2) ++ l3) = 0) by
    (intros f a0; rewrite (sumz_app _ (l1 ++ l2)), g12, z3; [reflexivity|]; intros g hg; destruct g; cbn in hg |- *; first [reflexivity|destruct hg]).
  all: assert (nn : forall t, hstag hso t \/ rtag now (x_held c) t -> probes t = [] /\ answers t = [] /\ spent t = []) by
    (intros t [ht|ht]; destruct t; cbn in ht; try tauto; try (repeat split; reflexivity); destruct ht as [[]|(k0 & b0 & _ & hp)]; destruct m; cbn in hp; try tauto; repeat split; reflexivity).
  all: assert (pr12 : flat_map probes (l1 ++ l2) = []) by (apply (flat_nil' _ _ _ f12); intros t ht; apply (nn t ht)).
  all: assert (an12 : flat_map answers (l1 ++ l2) = []) by (apply (flat_nil' _ _ _ f12); intros t ht; apply (nn t ht)).
  all: assert (sp12 : flat_map spent (l1 ++ l2) = []) by (apply (flat_nil' _ _ _ f12); intros t ht; apply (nn t ht)).
  all: destruct r3 as [ss|e|]; [| |destruct (n3 eq_refl)].
  all: [> destruct ss as [|s ss] | | destruct ss as [|s ss] | ].
  all: injection h as <- <-; (split; [discriminate|]); exists ((l1 ++ l2) ++ l3); (split; [exact v123|]); (split; [exact f123|]); (split; [exact q123|]); (split; [exact g123|]).
  all: rewrite !(flat_map_app _ (l1 ++ l2)), ?pr12, ?an12, ?sp12; cbn [app].
  all: try (destruct m3 as (m3 & m4 & _); split; assumption).
  all: try (destruct m3 as (_ & m3 & m4 & _); split; assumption).
  all: destruct m3 as (m3 & m4 & m5 & m6 & m7 & m8 & m9); (split; [discriminate|]); (split; [exact m3|]); (split; [exact m4|]); (split; [exact m5|]); (split; [exact m6|]).
  all: destruct m9 as [[m9 _]|(e & h1 & h2 & h3)]; [left; exact m9|right; exists e; rewrite m8; auto].
Qed.
