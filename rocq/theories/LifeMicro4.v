(** LifeMicro continued: every operation *)
Require Import Verif.Base Verif.Errors Verif.LifeModel Verif.LifeMicro Verif.LifeMicro2 Verif.LifeMicro3.

Definition ttag (now : Z) (timers : list (option Z)) (g : tag) : Prop :=
  match g with
  | GClosed | GTimed | GKu None | GActive _ => True
  | GFire n t => n = now /\ t = timers
  | _ => False
  end.
Lemma set_active_ok i c p : nth_error (x_paths c) i = Some p -> fst (set_active i c) = Ok tt.
Proof.
  intros h. unfold set_active. set (c1 := match active_pid (x_paths c) with Some old => up old (set_on false) c | None => c end).
  assert (h1 : nth_error (x_paths c1) i <> None).
  { apply nth_error_Some. subst c1. apply nth_lt in h. destruct (active_pid (x_paths c)); [|exact h]. cbn [up w_paths x_paths]. rewrite up_length. exact h. }
  destruct (nth_error (x_paths c1) i); [|congruence]. destruct (server _); [destruct (validated _)|]; reflexivity.
Qed.

Lemma timeout_via now timers c : exists l, via l c (on_timeout now timers c) /\ Forall (ttag now timers) l.
Proof.
  unfold on_timeout. destruct (l_drain (x_life c)) as [t|] eqn:ed.
  - destruct (t <=? now); [exists [GClosed]; split; [apply (via_one GClosed); exact I|repeat constructor]|exists []; split; constructor].
  - destruct (due (l_idle (x_life c)) now).
    + exists [GClosed; GTimed]. split; [|repeat constructor]. econstructor; [exact I|]. apply (via_one GTimed). exact ed.
    + cbv zeta. set (c1 := if due (l_ku (x_life c)) now then on_life (set_ku None) c else c).
      assert (v1 : exists l1, via l1 c c1 /\ Forall (ttag now timers) l1 /\ l_drain (x_life c1) = None).
      { subst c1. destruct (due (l_ku (x_life c)) now).
        - exists [GKu None]. split; [apply (via_one (GKu None)); exact I|]. split; [repeat constructor|exact ed].
        - exists []. split; [constructor|]. split; [constructor|exact ed]. }
      destruct v1 as (l1 & v1 & f1 & d1).
      set (c2 := tell_failures (w_paths (fire (server c1) now timers (x_paths c1)) c1)).
      assert (v2 : via (l1 ++ [GFire now timers]) c c2) by (apply (via_app _ _ _ _ _ v1); apply (via_one (GFire now timers)); exact d1).
      assert (f2 : Forall (ttag now timers) (l1 ++ [GFire now timers])) by (apply Forall_app; split; [exact f1|constructor; [split; reflexivity|constructor]]).
      destruct (active_pid (x_paths c2)) as [j|] eqn:ea; [exists (l1 ++ [GFire now timers]); auto|].
      destruct (index usable (x_paths c2)) as [i|] eqn:ei.
      * destruct (index_some _ _ _ ei) as (p & hp & hu).
        assert (hd : is_some (p_dcid p) = true).
        { unfold usable, active in hu. destruct (is_some (p_dcid p)); [reflexivity|]. rewrite !andb_false_r in hu. discriminate. }
        pose proof (set_active_ok i c2 p hp) as hok. destruct (set_active i c2) as [r3 c3] eqn:e3. cbn [fst] in hok. subst r3.
        exists ((l1 ++ [GFire now timers]) ++ [GActive i]). split.
        -- apply (via_app _ _ _ _ _ v2). replace c3 with (tapply (GActive i) c2) by (cbn [tapply]; rewrite e3; reflexivity).
           apply (via_one (GActive i)). split; [auto|]. exists p. auto.
        -- apply Forall_app. split; [exact f2|repeat constructor].
      * exists ((l1 ++ [GFire now timers]) ++ [GClosed]). split; [apply (via_app _ _ _ _ _ v2); apply (via_one GClosed); exact I|].
        apply Forall_app. split; [exact f2|repeat constructor].
Qed.

Definition ctag (a : addr) (g : tag) : Prop :=
  match g with
  | GNew p n _ => p_addr p = a /\ p_budget p = 0 /\ n = 0
  | GPool _ | GPath _ PWant | GPath _ (PDcid _) | GActive _ => True
  | _ => False
  end.
Lemma create_via a scid c r c' : create_path a scid c = (r, c') -> by_addr a (x_paths c) = None ->
  r <> Panic /\ exists l, via l c c' /\ Forall (ctag a) l /\
  match r with Ok i => exists p, nth_error (x_paths c') i = Some p /\ p_addr p = a /\ is_some (p_dcid p) = true /\ server c' = false | _ => True end.
Proof.
  intros h hb. unfold create_path in h.
  assert (triv : forall e, (Err e, c) = (r, c') -> r <> Panic /\ exists l, via l c c' /\ Forall (ctag a) l /\
     match r with Ok i => exists p, nth_error (x_paths c') i = Some p /\ p_addr p = a /\ is_some (p_dcid p) = true /\ server c' = false | _ => True end).
  { intros e he. injection he as <- <-. split; [discriminate|]. exists []. split; [constructor|]. split; [constructor|exact I]. }
  destruct (server c) eqn:es; [exact (triv _ h)|]. destruct (negb scid); [exact (triv _ h)|].
  destruct (x_pool c) as [|q pool]; [exact (triv _ h)|].
  set (p := set_dcid (Some q) (path_new a false false)) in *.
  destruct (insert_path p false c) as [r1 c1] eqn:e1.
  destruct (insert_via p 0 false c r1 c1 e1 hb ltac:(exists a, (Some q), false, 0; reflexivity) eq_refl) as (n1 & m1).
  destruct r1 as [i|e|]; [|subst c1; exact (triv _ h)|destruct (n1 eq_refl)].
  destruct m1 as (v1 & hp). injection h as <- <-. split; [discriminate|]. exists ([GNew p 0 false] ++ [GPool pool]).
  split; [apply (via_app _ _ _ _ _ v1); apply (via_one (GPool pool)); exact I|].
  split; [repeat constructor|]. exists p. split; [exact hp|]. split; [reflexivity|]. split; [reflexivity|].
  transitivity (server c1); [reflexivity|]. rewrite (via_server _ _ _ v1). exact es.
Qed.

Lemma probe_via a scid c r c' : probe_path a scid c = (r, c') -> r <> Panic /\ exists l, via l c c' /\ Forall (ctag a) l.
Proof.
  intros h. unfold probe_path in h.
  destruct (match by_addr a (x_paths c) with Some i => (Ok i, c) | None => create_path a scid c end) as [r1 c1] eqn:e1.
  assert (s1 : r1 <> Panic /\ exists l1, via l1 c c1 /\ Forall (ctag a) l1 /\ match r1 with Ok i => exists p, nth_error (x_paths c1) i = Some p | _ => True end).
  { destruct (by_addr a (x_paths c)) as [i|] eqn:eb.
    - injection e1 as <- <-. split; [discriminate|]. exists []. split; [constructor|]. split; [constructor|].
      destruct (by_addr_some _ _ _ eb) as (p & hp & _). exists p. exact hp.
    - destruct (create_via _ _ _ _ _ e1 eb) as (n1 & l1 & v1 & f1 & m1). split; [exact n1|]. exists l1. split; [exact v1|]. split; [exact f1|].
      destruct r1; [|exact I|exact I]. destruct m1 as (p & hp & _). exists p. exact hp. }
  destruct s1 as (n1 & l1 & v1 & f1 & m1). destruct r1 as [i|e|]; [|injection h as <- <-; split; [discriminate|]; exists l1; auto|destruct (n1 eq_refl)].
  destruct m1 as (p & hp).
  assert (v2 : via (l1 ++ [GPath i PWant]) c (up i (set_want true) c1)) by (apply (via_app _ _ _ _ _ v1); apply (via_one (GPath i PWant)); exists p; split; [exact hp|exact I]).
  rewrite (up_nth _ _ _ _ hp) in h. injection h as <- <-. split; [destruct (p_dcid _); discriminate|].
  exists (l1 ++ [GPath i PWant]). split; [exact v2|]. apply Forall_app. split; [exact f1|repeat constructor].
Qed.

Lemma migrate_via a scid c r c' : migrate a scid c = (r, c') -> r <> Panic /\ exists l, via l c c' /\ Forall (ctag a) l.
Proof.
  intros h. unfold migrate in h.
  destruct (server c) eqn:es; [injection h as <- <-; split; [discriminate|]; exists []; split; constructor|].
  cbv zeta in h.
  assert (go : forall i q c1 p l1, via l1 c c1 -> Forall (ctag a) l1 -> nth_error (x_paths c1) i = Some p -> is_some (p_dcid p) = true ->
     match set_active i c1 with (Ok _, c) => (Ok q, c) | (Err e, c) => (Err e, c) | (Panic, c) => (Panic, c) end = (r, c') ->
     r <> Panic /\ exists l, via l c c' /\ Forall (ctag a) l).
  { intros i q c1 p l1 v1 f1 hp hd hh. pose proof (set_active_ok i c1 p hp) as hok. destruct (set_active i c1) as [r3 c3] eqn:e3. cbn [fst] in hok. subst r3.
    injection hh as <- <-. split; [discriminate|]. exists (l1 ++ [GActive i]). split.
    - apply (via_app _ _ _ _ _ v1). replace c3 with (tapply (GActive i) c1) by (cbn [tapply]; rewrite e3; reflexivity).
      apply (via_one (GActive i)). split; [rewrite (via_server _ _ _ v1), es; discriminate|]. exists p. auto.
    - apply Forall_app. split; [exact f1|repeat constructor]. }
  destruct (by_addr a (x_paths c)) as [i|] eqn:eb.
  - destruct (by_addr_some _ _ _ eb) as (p & hp & hpa). rewrite hp in h.
    destruct (active p); [injection h as <- <-; split; [destruct (p_dcid p); discriminate|]; exists []; split; constructor|].
    destruct (negb scid); [injection h as <- <-; split; [discriminate|]; exists []; split; constructor|].
    destruct (p_dcid p) as [q|] eqn:eq; [apply (go i q c p []); [constructor|constructor|exact hp|rewrite eq; reflexivity|exact h]|].
    destruct (x_pool c) as [|q pool]; [injection h as <- <-; split; [discriminate|]; exists []; split; constructor|].
    apply (go i q (w_pool pool (up i (set_dcid (Some q)) c)) (set_dcid (Some q) p) ([GPath i (PDcid (Some q))] ++ [GPool pool])); [| | |reflexivity|exact h].
    + apply (via_app _ _ _ (up i (set_dcid (Some q)) c)); [apply (via_one (GPath i (PDcid (Some q)))); exists p; split; [exact hp|exact I]|apply (via_one (GPool pool)); exact I].
    + repeat constructor.
    + exact (up_nth _ _ _ _ hp).
  - destruct (create_path a scid c) as [r1 c1] eqn:e1. destruct (create_via _ _ _ _ _ e1 eb) as (n1 & l1 & v1 & f1 & m1).
    destruct r1 as [i|e|]; [|injection h as <- <-; split; [discriminate|]; exists l1; auto|destruct (n1 eq_refl)].
    destruct m1 as (p & hp & _ & hd & _). rewrite hp in h. destruct (p_dcid p) as [q|] eqn:eq; [|discriminate].
    apply (go i q c1 p l1 v1 f1 hp); [rewrite eq; reflexivity|exact h].
Qed.

Definition rettag (g : tag) : Prop := match g with GPool _ | GPath _ (PDcid _) => True | _ => False end.
Lemma retire_via q c r c' : retire_dcid q c = (r, c') -> r <> Panic /\ exists l, via l c c' /\ Forall rettag l.
Proof.
  intros h. unfold retire_dcid in h.
  assert (triv : forall x, x <> Panic -> (x, c) = (r, c') -> r <> Panic /\ exists l, via l c c' /\ Forall rettag l).
  { intros x hx he. injection he as <- <-. split; [exact hx|]. exists []. split; constructor. }
  destruct (active_pid (x_paths c)) as [act|] eqn:ea; [|refine (triv _ _ h); discriminate].
  destruct (nth_error (x_paths c) act) as [pa|] eqn:ep; [|refine (triv _ _ h); discriminate].
  cbv zeta in h. destruct (_ && negb _); [refine (triv _ _ h); discriminate|].
  set (f := fun p => match p_dcid p with Some d => d =? q | None => false end) in *.
  destruct (index f (x_paths c)) as [i|] eqn:ei.
  - destruct (index_some _ _ _ ei) as (p & hp & _).
    destruct (x_pool c) as [|d pool]; injection h as <- <-; (split; [discriminate|]).
    + exists [GPath i (PDcid None)]. split; [apply (via_one (GPath i (PDcid None))); exists p; split; [exact hp|exact I]|repeat constructor].
    + exists ([GPath i (PDcid (Some d))] ++ [GPool pool]). split; [|repeat constructor].
      apply (via_app _ _ _ (up i (set_dcid (Some d)) c)); [apply (via_one (GPath i (PDcid (Some d)))); exists p; split; [exact hp|exact I]|apply (via_one (GPool pool)); exact I].
  - injection h as <- <-. split; [discriminate|]. eexists [GPool _]. split; [apply (via_one (GPool _)); exact I|repeat constructor].
Qed.

(** Every operation *)
Definition otag (o : op) (held : list (packet * addr)) (g : tag) : Prop :=
  match o with
  | ORecv now a ks => rectag now a ks held g
  | OSend now _ _ _ hso _ => sendtag now hso held g
  | OTimeout now timers => ttag now timers g
  | OClose _ _ _ => endtag g
  | OProbe a _ | OMigrate a _ => ctag a g
  | ORetireDcid _ => rettag g
  | OEvent => g = GPop
  | ORecovery i t o r => g = GPath i (PRec t o r)
  | ODcid i d => g = GPath i (PDcid d)
  end.
Definition op_packets (o : op) : list packet := match o with ORecv _ _ ks => ks | _ => [] end.
Definition out_panics (y : out) : Prop := y = OutUnit Panic \/ y = OutSeq Panic \/ y = OutSent Panic.
Definition op_now (o : op) : Z := match o with ORecv n _ _ | OSend n _ _ _ _ _ | OTimeout n _ => n | _ => 0 end.
Definition y_sent (y : out) : list (addr * sent) := match y with OutSent (Ok (_, a, ss)) => map (pair a) ss | _ => [] end.
Definition op_gain (f : Z) (a : addr) (o : op) : Z :=
  match o with ORecv _ b ks => if aeqb b a then (total ks + zeros ks) * f else 0 | _ => 0 end.

Lemma flat_pair {B} (f : addr -> sent -> list B) a : forall ss, flat_map (fun x => f (fst x) (snd x)) (map (pair a) ss) = flat_map (f a) ss.
Proof. induction ss as [|s ss ih]; cbn; [reflexivity|]. rewrite ih. reflexivity. Qed.

Lemma upd_none {A} (f : A -> A) : forall l i, nth_error l i = None -> upd i f l = l.
Proof. induction l as [|x l ih]; intros [|i] h; cbn in *; try reflexivity; [discriminate|]. rewrite ih by exact h. reflexivity. Qed.
Lemma up_none i f c : nth_error (x_paths c) i = None -> up i f c = c.
Proof. intros h. unfold up. rewrite (upd_none _ _ _ h). destruct c; reflexivity. Qed.

Lemma step_via o c y c' : step o c = (y, c') -> zheld c ->
  ~ out_panics y /\
  exists l, via l c c' /\ Forall (otag o (x_held c)) l /\
   (forall d, sumz (queued d) l + sumz (held_asks d) l <= sumz (asks d) (op_packets o) + sumz (replayed d) l) /\
   (forall a0, Forall (fun k => 0 <= k_len k) (op_packets o) -> 0 <= g_factor (x_cfg c) ->
      sumz (gain (g_factor (x_cfg c)) a0) l <= op_gain (g_factor (x_cfg c)) a0 o) /\
   (y_sent y <> [] -> flat_map spent l = map (fun x => (fst x, s_size (snd x))) (y_sent y)) /\
   flat_map probes l = flat_map (fun x => chal_of (fst x) (op_now o) (snd x)) (y_sent y) /\
   flat_map answers l = flat_map (fun x => map (pair (fst x)) (s_resp (snd x))) (y_sent y) /\
   Forall (fun x => 0 < s_size (snd x)) (y_sent y) /\
   (flat_map (fun x => close_of (snd x)) (y_sent y) = [] \/
    exists e, flat_map (fun x => close_of (snd x)) (y_sent y) = [e] /\ l_err (x_life c') = Some e /\ is_draining c' = true).
Proof.
  intros h hz.
  (* operations that send nothing, queue nothing and credit nothing *)
  assert (quiet : forall l, (forall g, otag o (x_held c) g -> (forall d, queued d g = 0) /\ (forall d, held_asks d g = 0) /\ (forall f a, gain f a g <= 0) /\ probes g = [] /\ answers g = []) ->
    ~ out_panics y -> y_sent y = [] -> (forall a0, 0 <= op_gain (g_factor (x_cfg c)) a0 o \/ g_factor (x_cfg c) < 0) -> via l c c' -> Forall (otag o (x_held c)) l ->
    ~ out_panics y /\
    exists l, via l c c' /\ Forall (otag o (x_held c)) l /\
     (forall d, sumz (queued d) l + sumz (held_asks d) l <= sumz (asks d) (op_packets o) + sumz (replayed d) l) /\
     (forall a0, Forall (fun k => 0 <= k_len k) (op_packets o) -> 0 <= g_factor (x_cfg c) ->
        sumz (gain (g_factor (x_cfg c)) a0) l <= op_gain (g_factor (x_cfg c)) a0 o) /\
     (y_sent y <> [] -> flat_map spent l = map (fun x => (fst x, s_size (snd x))) (y_sent y)) /\
     flat_map probes l = flat_map (fun x => chal_of (fst x) (op_now o) (snd x)) (y_sent y) /\
     flat_map answers l = flat_map (fun x => map (pair (fst x)) (s_resp (snd x))) (y_sent y) /\
     Forall (fun x => 0 < s_size (snd x)) (y_sent y) /\
     (flat_map (fun x => close_of (snd x)) (y_sent y) = [] \/
      exists e, flat_map (fun x => close_of (snd x)) (y_sent y) = [e] /\ l_err (x_life c') = Some e /\ is_draining c' = true)).
  { intros l hq hp hs hgain hv hf. split; [exact hp|]. exists l. split; [exact hv|]. split; [exact hf|]. rewrite hs. cbn [flat_map map].
    assert (hrep : forall d, 0 <= sumz (replayed d) l) by (intros d; apply sumz_nonneg; apply Forall_forall; intros g _; destruct g; cbn; try lia; apply asks_pos).
    split.
    { intros d. rewrite (sumz_zero' _ (queued d) _ hf) by (intros g hg; apply (hq g hg)). rewrite (sumz_zero' _ (held_asks d) _ hf) by (intros g hg; apply (hq g hg)).
      pose proof (asks_nonneg d (op_packets o)). specialize (hrep d). lia. }
    split.
    { intros a0 _ hfac. assert (hle : sumz (gain (g_factor (x_cfg c)) a0) l <= 0).
      { clear hv hrep. induction hf as [|g l hg hf ih]; [cbn; lia|]. rewrite sumz_cons. pose proof (proj1 (proj2 (proj2 (hq g hg))) (g_factor (x_cfg c)) a0). lia. }
      destruct (hgain a0); lia. }
    split; [congruence|]. split; [apply (flat_nil' _ _ _ hf); intros g hg; apply (hq g hg)|]. split; [apply (flat_nil' _ _ _ hf); intros g hg; apply (hq g hg)|].
    split; [constructor|]. left. reflexivity. }
  destruct o as [now a ks|now from to max hso os|now timers|app code reason|a scid|a scid|q| |i t pto rtt|i d]; cbn [step] in h.
  - destruct (recv now a ks c) as [r c1] eqn:e. injection h as <- <-. destruct (recv_via _ _ _ _ _ _ e hz) as (n & l & v & f & q & g).
    split; [intros [hp|[hp|hp]]; [injection hp as hp; exact (n hp)|discriminate|discriminate]|]. exists l. cbn [y_sent op_packets op_gain flat_map map otag].
    split; [exact v|]. split; [exact f|]. split; [exact q|]. split; [exact g|]. split; [congruence|].
    assert (nn : forall t, rectag now a ks (x_held c) t -> probes t = [] /\ answers t = []).
    { intros t ht. destruct t; try (split; reflexivity). cbn in ht. destruct ht as [[]|[(k0 & _ & hp)|(k0 & b0 & _ & hp)]]; destruct m; cbn in hp; try tauto; split; reflexivity. }
    split; [apply (flat_nil' _ _ _ f); intros t ht; apply (nn t ht)|]. split; [apply (flat_nil' _ _ _ f); intros t ht; apply (nn t ht)|]. split; [constructor|]. left. reflexivity.
  - destruct (send now from to max hso os c) as [r c1] eqn:e. injection h as <- <-. destruct (send_via _ _ _ _ _ _ _ _ _ e hz) as (n & l & v & f & q & g & m).
    split; [intros [hp|[hp|hp]]; [discriminate|discriminate|injection hp as hp; exact (n hp)]|]. exists l. cbn [op_packets op_gain otag op_now].
    split; [exact v|]. split; [exact f|]. split; [intros d; specialize (q d); rewrite sumz_nil; lia|]. split; [intros a0 _ _; rewrite g; lia|].
    destruct r as [[[dlen a] ss]|e1|]; cbn [y_sent flat_map map].
    + destruct m as (m1 & m2 & m3 & m4 & m5 & m6). rewrite map_map. cbn [fst snd]. split; [intros _; exact m2|].
      rewrite (flat_pair (fun a s => chal_of a now s)), (flat_pair (fun a s => map (pair a) (s_resp s))), (flat_pair (fun _ s => close_of s)).
      split; [exact m3|]. split; [exact m4|]. split; [apply Forall_map; exact m5|]. exact m6.
    + destruct m as (m1 & m2). split; [congruence|]. split; [exact m1|]. split; [exact m2|]. split; [constructor|]. left. reflexivity.
    + destruct (n eq_refl).
  - injection h as <- <-. destruct (timeout_via now timers c) as (l & v & f). apply (quiet l); auto.
    + intros g hg. destruct g; cbn in hg; try tauto; repeat split; intros; cbn; lia.
    + intros [hp|[hp|hp]]; discriminate.
    + intros a0. left. cbn. lia.
  - destruct (close app code reason c) as [r c1] eqn:e. injection h as <- <-. destruct (close_via _ _ _ _ _ _ e) as (l & v & f & n). apply (quiet l); auto.
    + intros g hg. destruct g; cbn in hg; try tauto; repeat split; intros; cbn; lia.
    + intros [hp|[hp|hp]]; [injection hp as hp; exact (n hp)|discriminate|discriminate].
    + intros a0. left. cbn. lia.
  - destruct (probe_path a scid c) as [r c1] eqn:e. injection h as <- <-. destruct (probe_via _ _ _ _ _ e) as (n & l & v & f). apply (quiet l); auto.
    + intros g hg. destruct g; cbn in hg; try tauto; [destruct m; try tauto|..]; repeat split; intros; cbn; try lia. destruct (aeqb _ _); lia.
    + intros [hp|[hp|hp]]; [discriminate|injection hp as hp; exact (n hp)|discriminate].
    + intros a0. left. cbn. lia.
  - destruct (migrate a scid c) as [r c1] eqn:e. injection h as <- <-. destruct (migrate_via _ _ _ _ _ e) as (n & l & v & f). apply (quiet l); auto.
    + intros g hg. destruct g; cbn in hg; try tauto; [destruct m; try tauto|..]; repeat split; intros; cbn; try lia. destruct (aeqb _ _); lia.
    + intros [hp|[hp|hp]]; [discriminate|injection hp as hp; exact (n hp)|discriminate].
    + intros a0. left. cbn. lia.
  - destruct (retire_dcid q c) as [r c1] eqn:e. injection h as <- <-. destruct (retire_via _ _ _ _ e) as (n & l & v & f). apply (quiet l); auto.
    + intros g hg. destruct g; cbn in hg; try tauto; [destruct m; try tauto|..]; repeat split; intros; cbn; lia.
    + intros [hp|[hp|hp]]; [injection hp as hp; exact (n hp)|discriminate|discriminate].
    + intros a0. left. cbn. lia.
  - destruct (x_events c) as [|e ev] eqn:ee; injection h as <- <-.
    + apply (quiet []); [|intros [hp|[hp|hp]]; discriminate|reflexivity|intros a0; left; cbn; lia|constructor|constructor].
      intros g hg. cbn [otag] in hg. subst g. split; [intros; reflexivity|]. split; [intros; reflexivity|]. split; [intros; cbn; lia|]. split; reflexivity.
    + apply (quiet [GPop]); [|intros [hp|[hp|hp]]; discriminate|reflexivity|intros a0; left; cbn; lia| |repeat constructor].
      * intros g hg. cbn [otag] in hg. subst g. split; [intros; reflexivity|]. split; [intros; reflexivity|]. split; [intros; cbn; lia|]. split; reflexivity.
      * replace (w_events ev c) with (tapply GPop c) by (cbn [tapply]; rewrite ee; reflexivity). apply via_one. exact I.
  - destruct (nth_error (x_paths c) i) as [p|] eqn:ep.
    + injection h as <- <-. apply (quiet [GPath i (PRec t pto rtt)]); [|intros [hp|[hp|hp]]; discriminate|reflexivity|intros a0; left; cbn; lia| |repeat constructor].
      * intros g hg. cbn [otag] in hg. subst g. split; [intros; reflexivity|]. split; [intros; reflexivity|]. split; [intros; cbn; lia|]. split; reflexivity.
      * apply (via_one (GPath i (PRec t pto rtt))). exists p. split; [exact ep|exact I].
    + rewrite up_none in h by exact ep. injection h as <- <-. apply (quiet []); [|intros [hp|[hp|hp]]; discriminate|reflexivity|intros a0; left; cbn; lia|constructor|constructor].
      intros g hg. cbn [otag] in hg. subst g. split; [intros; reflexivity|]. split; [intros; reflexivity|]. split; [intros; cbn; lia|]. split; reflexivity.
  - destruct (nth_error (x_paths c) i) as [p|] eqn:ep.
    + injection h as <- <-. apply (quiet [GPath i (PDcid d)]); [|intros [hp|[hp|hp]]; discriminate|reflexivity|intros a0; left; cbn; lia| |repeat constructor].
      * intros g hg. cbn [otag] in hg. subst g. split; [intros; reflexivity|]. split; [intros; reflexivity|]. split; [intros; cbn; lia|]. split; reflexivity.
      * apply (via_one (GPath i (PDcid d))). exists p. split; [exact ep|exact I].
    + rewrite up_none in h by exact ep. injection h as <- <-. apply (quiet []); [|intros [hp|[hp|hp]]; discriminate|reflexivity|intros a0; left; cbn; lia|constructor|constructor].
      intros g hg. cbn [otag] in hg. subst g. split; [intros; reflexivity|]. split; [intros; reflexivity|]. split; [intros; cbn; lia|]. split; reflexivity.
Qed.
