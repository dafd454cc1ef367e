(** Every operation of LifeModel is a sequence of small changes.  Invariants are
    then proved change by change. *)
Require Import Verif.Base Verif.Errors Verif.LifeModel.

Inductive pm : Type :=
| PQueue (a : addr) (max d : Z)
| PPop (a : addr) (rs q : list Z)
| POk
| PSent (a : addr) (d n now : Z)
| PDebit (a : addr) (n : Z)
| PRec (t : option Z) (o r : Z)
| PDcid (d : option Z)
| PWant.
Definition pap (m : pm) (p : path) : path :=
  match m with
  | PQueue _ max d => challenge_received max d p
  | PPop _ _ q => set_queue q p
  | POk => set_ok true p
  | PSent _ d n now => add_challenge d n now p
  | PDebit _ n => set_budget (sat_sub (p_budget p) n) p
  | PRec t o r => set_rec t o r (p_ptos p) p
  | PDcid d => set_dcid d p
  | PWant => set_want true p
  end.

Inductive tag : Type :=
| GPath (i : nat) (m : pm)
| GCredit (a : addr) (n : Z)
| GNew (p : path) (n : Z) (tell : bool)
| GHold (k : packet) (a : addr)
| GReplay (k : packet) (a : addr)
| GClear
| GErr (e : cerr) | GPeer (e : cerr) | GDrain (t : Z) | GRestart (now : Z) | GKu (o : option Z) | GTimed | GClosed
| GHs (h : hs) | GFlag (conf : bool)
| GCount (n : Z) | GAes (b : bool) | GNp (n : Z) | GPop | GPool (l : list Z) | GFill
| GResp (d : Z)
| GActive (i : nat)
| GMigrate (i : nat)
| GFire (now : Z) (timers : list (option Z)).

Definition tapply (g : tag) (c : conn) : conn :=
  match g with
  | GPath i m => up i (pap m) c
  | GCredit a n => credit a n c
  | GNew p _ tell => snd (insert_path p tell c)
  | GHold k a => w_held (x_held c ++ [(k, a)]) c
  | GReplay k a => if negb (is_some (by_addr a (x_paths c))) && negb (server c) then w_held (tl (x_held c)) c else credit a (k_len k) (w_held (tl (x_held c)) c)
  | GClear => w_held [] c
  | GErr e => on_life (set_err (Some e)) c
  | GPeer e => on_life (set_perr (Some e)) c
  | GDrain t => on_life (set_drain (Some t)) c
  | GRestart now => restart_idle now c
  | GKu o => on_life (set_ku o) c
  | GTimed => on_life (set_timed true) c
  | GClosed => mark_closed c
  | GHs h => w_hs h c
  | GFlag b => w_hs (if b then set_conf true (x_hs c) else set_ready true (x_hs c)) c
  | GCount _ => w_recv (x_recv c + 1) c
  | GAes b => w_aes b c
  | GNp n => w_np n c
  | GPop => w_events (tl (x_events c)) c
  | GPool l => w_pool l c
  | GFill => w_pool (snd (fill (x_paths c) (x_pool c))) (w_paths (fst (fill (x_paths c) (x_pool c))) c)
  | GResp d => snd (got_response d c)
  | GActive i => snd (set_active i c)
  | GMigrate i => snd (peer_migrated i c)
  | GFire now timers => tell_failures (w_paths (fire (server c) now timers (x_paths c)) c)
  end.

Definition pguard (c : conn) (m : pm) (p : path) : Prop :=
  match m with
  | PQueue a max d => p_addr p = a /\ max = g_qlen (x_cfg c)
  | PPop a rs q => p_addr p = a /\ exists mid, p_queue p = rs ++ mid ++ q
  | PSent a d n now => p_addr p = a /\ p_want p = true /\ 0 < n
  | PDebit a n => p_addr p = a /\ 0 < n /\ (server c = true -> p_ok p = false -> n <= p_budget p)
  | _ => True
  end.
Definition fresh (p : path) : Prop :=
  exists a d w n, p = mkP a d Unknown false [] 0 0 None [] n false w false false None 0 0 0.
Definition tguard (g : tag) (c : conn) : Prop :=
  match g with
  | GPath i m => exists p, nth_error (x_paths c) i = Some p /\ pguard c m p
  | GNew p n tell => by_addr (p_addr p) (x_paths c) = None /\ fresh p /\ p_budget p = n * g_factor (x_cfg c) /\ exists i, insert_path p tell c = (Ok i, tapply (GNew p n tell) c)
  | GHold k a => k_ty k = TZero /\ zlen (x_held c) < MAX_HELD
  | GReplay k a => h_zkey (x_hs c) = true /\ exists q, x_held c = (k, a) :: q
  | GErr e => l_err (x_life c) = None
  | GRestart now => idle_timeout c <> None
  | GCount n => forall v, idle_timeout c = Some v -> l_idle (x_life c) = Some (n + v)
  | GTimed => l_drain (x_life c) = None
  | GResp d => active_pid (x_paths c) <> None
  | GMigrate i => server c = true /\ active_pid (x_paths c) <> None /\ (i < length (x_paths c))%nat
  | GActive i => (server c = true -> active_pid (x_paths c) = None) /\ exists p, nth_error (x_paths c) i = Some p /\ is_some (p_dcid p) = true
  | GFire _ _ => l_drain (x_life c) = None
  | _ => True
  end.

Inductive via : list tag -> conn -> conn -> Prop :=
| via_nil c : via [] c c
| via_cons g l c c' : tguard g c -> via l (tapply g c) c' -> via (g :: l) c c'.

Lemma via_one g c : tguard g c -> via [g] c (tapply g c).
Proof. intros h. econstructor; [exact h|]. constructor. Qed.
Lemma via_app l1 : forall l2 c1 c2 c3, via l1 c1 c2 -> via l2 c2 c3 -> via (l1 ++ l2) c1 c3.
Proof.
  induction l1 as [|g l1 ih]; intros l2 c1 c2 c3 h1 h2.
  - inversion h1; subst. exact h2.
  - inversion h1 as [|? ? ? ? hg h3]; subst. cbn [app]. econstructor; [exact hg|]. exact (ih _ _ _ _ h3 h2).
Qed.

Definition sumz {A} (f : A -> Z) (l : list A) : Z := fold_right (fun x n => f x + n) 0 l.
Lemma sumz_app {A} (f : A -> Z) l1 l2 : sumz f (l1 ++ l2) = sumz f l1 + sumz f l2.
Proof. induction l1 as [|x l1 ih]; cbn [app sumz fold_right]; [reflexivity|]. fold (sumz f (l1 ++ l2)). fold (sumz f l1). lia. Qed.
Lemma sumz_cons {A} (f : A -> Z) x l : sumz f (x :: l) = f x + sumz f l.
Proof. reflexivity. Qed.
Lemma sumz_zero {A} (f : A -> Z) l : Forall (fun x => f x = 0) l -> sumz f l = 0.
Proof. induction 1 as [|x l h1 h2 ih]; [reflexivity|]. rewrite sumz_cons. lia. Qed.
Lemma sumz_zero' {A} (P : A -> Prop) (f : A -> Z) l : Forall P l -> (forall x, P x -> f x = 0) -> sumz f l = 0.
Proof. intros h1 h2. apply sumz_zero. revert h1. apply Forall_impl. exact h2. Qed.
Lemma flat_nil' {A B} (P : A -> Prop) (f : A -> list B) l : Forall P l -> (forall x, P x -> f x = []) -> flat_map f l = [].
Proof. intros h1 h2. induction h1 as [|x l h3 h4 ih]; [reflexivity|]. cbn [flat_map]. rewrite (h2 _ h3), ih. reflexivity. Qed.
Lemma sumz_nil {A} (f : A -> Z) : sumz f [] = 0.
Proof. reflexivity. Qed.

(** What the changes are worth to the sums used later: what address [a] is credited
    with; how many challenges with data [d] are queued *)
Definition gain (f : Z) (a : addr) (g : tag) : Z :=
  match g with
  | GCredit b n => if aeqb b a then n * f else 0
  | GNew p _ _ => if aeqb (p_addr p) a then p_budget p else 0
  | GHold k b => if aeqb b a then k_len k * f else 0
  | _ => 0
  end.
Definition holds (d : Z) (f : frame) : Z := match f with FChallenge x => if x =? d then 1 else 0 | _ => 0 end.
Definition frames_in (k : packet) : list frame := match k_in k with IOk _ _ _ fs => fs | _ => [] end.
Definition asks (d : Z) (k : packet) : Z := sumz (holds d) (frames_in k).
Definition queued (d : Z) (g : tag) : Z :=
  match g with GPath _ (PQueue _ _ x) => if x =? d then 1 else 0 | _ => 0 end.
Definition held_asks (d : Z) (g : tag) : Z := match g with GHold k _ => asks d k | _ => 0 end.
Definition spent (g : tag) : list (addr * Z) := match g with GPath _ (PDebit a n) => [(a, n)] | _ => [] end.
Definition probes (g : tag) : list (addr * Z * Z * Z) := match g with GPath _ (PSent a d n t) => [(a, d, n, t)] | _ => [] end.
Definition answers (g : tag) : list (addr * Z) := match g with GPath _ (PPop a rs _) => map (fun r => (a, r)) rs | _ => [] end.

Lemma up_cfg i f c : x_cfg (up i f c) = x_cfg c. Proof. reflexivity. Qed.
Lemma up_length {A} (f : A -> A) : forall l i, length (upd i f l) = length l.
Proof. induction l as [|x l ih]; intros [|i]; cbn [upd length]; auto. Qed.
Lemma upd_same {A} (f : A -> A) : forall l i p, nth_error l i = Some p -> nth_error (upd i f l) i = Some (f p).
Proof. induction l as [|x l ih]; intros [|i] p h; cbn in *; try discriminate; [injection h as ->; reflexivity|]. exact (ih _ _ h). Qed.
Lemma upd_other {A} (f : A -> A) : forall l i j, i <> j -> nth_error (upd i f l) j = nth_error l j.
Proof. induction l as [|x l ih]; intros [|i] [|j] h; cbn; try reflexivity; try lia. apply ih. lia. Qed.
Lemma index_some {A} (f : A -> bool) : forall l i, index f l = Some i -> exists x, nth_error l i = Some x /\ f x = true.
Proof.
  induction l as [|x l ih]; intros i h; cbn [index] in h; [discriminate|].
  destruct (f x) eqn:e; [injection h as <-; exists x; auto|].
  destruct (index f l) as [j|] eqn:e2; cbn [option_map] in h; [|discriminate]. injection h as <-. exact (ih _ eq_refl).
Qed.
Lemma index_none {A} (f : A -> bool) : forall l, index f l = None -> forall x, In x l -> f x = false.
Proof.
  induction l as [|x l ih]; intros h y hy; [destruct hy|]. cbn [index] in h. destruct (f x) eqn:e; [discriminate|].
  destruct (index f l) eqn:e2; [discriminate|]. destruct hy as [<-|hy]; [exact e|]. exact (ih eq_refl _ hy).
Qed.
Lemma index_find {A} (f : A -> bool) : forall l, (index f l = None <-> find f l = None).
Proof.
  induction l as [|x l ih]; cbn [index find]; [tauto|]. destruct (f x); [split; discriminate|].
  destruct (index f l); cbn [option_map]; split; intros h.
  - discriminate.
  - apply ih in h. discriminate h.
  - apply ih. reflexivity.
  - reflexivity.
Qed.
Lemma aeqb_eq a b : aeqb a b = true <-> a = b.
Proof. destruct a, b. unfold aeqb; cbn [fst snd]. split; intros h; [f_equal; lia|injection h as -> ->; lia]. Qed.
Lemma aeqb_refl a : aeqb a a = true. Proof. apply aeqb_eq. reflexivity. Qed.
Lemma by_addr_some a ps i : by_addr a ps = Some i -> exists p, nth_error ps i = Some p /\ p_addr p = a.
Proof. intros h. apply index_some in h. destruct h as (p & h1 & h2). exists p. split; [exact h1|]. apply aeqb_eq. exact h2. Qed.
Lemma by_addr_none a ps : by_addr a ps = None -> forall p, In p ps -> p_addr p <> a.
Proof. intros h p hp e. pose proof (index_none _ _ h p hp) as h2. cbn beta in h2. rewrite e, aeqb_refl in h2. discriminate. Qed.

Definition hs_in (o : hout) : hs := match o with HOk h | HErr _ _ h | HAlert _ _ h => h end.
Definition hstag (o : hout) (g : tag) : Prop := match g with GHs h => h_pidle h = h_pidle (hs_in o) | GErr _ | GClear => True | _ => False end.
Lemma handshake_via o c r c' : do_handshake o c = (r, c') -> l_err (x_life c) = None ->
  exists l, via l c c' /\ Forall (hstag o) l /\ (r = Ok tt -> l_err (x_life c') = None) /\ r <> Panic.
Proof.
  intros h hn. unfold do_handshake in h.
  destruct o as [hh|ssl e hh|al e hh].
  - destruct (h_est (x_hs c)) eqn:ee.
    + injection h as <- <-. exists []. split; [constructor|]. split; [constructor|]. repeat split; auto. discriminate.
    + set (h2 := mkH (h_est hh) (h_conf (x_hs c) || (h_est hh && server c)) (h_early hh) (h_level hh) (h_zkey hh) (h_ready (x_hs c)) (h_pidle hh)) in *.
      destruct (h_est hh).
      * injection h as <- <-. exists [GHs h2; GClear]. split; [econstructor; [exact I|]; apply via_one; exact I|].
        split; [repeat constructor|]. repeat split; auto. discriminate.
      * injection h as <- <-. exists [GHs h2]. split; [apply (via_one (GHs h2)); exact I|].
        split; [repeat constructor|]. repeat split; auto. discriminate.
  - set (h2 := mkH (h_est (x_hs c) || h_est hh) (h_conf (x_hs c)) (h_early hh) (h_level hh) (h_zkey hh) (h_ready (x_hs c)) (h_pidle hh)) in *.
    cbn [x_life w_hs] in h. rewrite hn in h. cbn [is_some negb] in h. rewrite andb_true_r in h.
    destruct ssl; injection h as <- <-.
    + exists [GHs h2; GErr (false, 1, [])]. split; [econstructor; [exact I|]; apply (via_one (GErr (false, 1, []))); exact hn|].
      split; [repeat constructor|]. repeat split; auto; discriminate.
    + exists [GHs h2]. split; [apply (via_one (GHs h2)); exact I|]. split; [repeat constructor|]. repeat split; auto; discriminate.
  - set (h2 := mkH (h_est (x_hs c) || h_est hh) (h_conf (x_hs c)) (h_early hh) (h_level hh) (h_zkey hh) (h_ready (x_hs c)) (h_pidle hh)) in *.
    injection h as <- <-. exists [GHs h2; GErr (false, 256 + al, [])].
    split; [econstructor; [exact I|]; apply (via_one (GErr (false, 256 + al, []))); exact hn|].
    split; [repeat constructor|]. repeat split; auto; discriminate.
Qed.

Lemma handshake_paths o c r c' : do_handshake o c = (r, c') -> x_paths c' = x_paths c /\ x_cfg c' = x_cfg c.
Proof.
  unfold do_handshake. intros h. destruct o; [destruct (h_est (x_hs c)); [|destruct (h_est h0)]| |]; injection h as <- <-; cbn; auto.
  destruct (ssl && _); auto.
Qed.

(** Addresses only change when a path is added. *)
Lemma map_upd {A B} (g : A -> B) (f : A -> A) : (forall x, g (f x) = g x) -> forall l i, map g (upd i f l) = map g l.
Proof. intros h. induction l as [|x l ih]; intros [|i]; cbn [upd map]; [reflexivity|reflexivity|rewrite h; reflexivity|rewrite ih; reflexivity]. Qed.
Lemma map_upd_at {A B} (g : A -> B) (f : A -> A) : forall l i, (forall x, nth_error l i = Some x -> g (f x) = g x) -> map g (upd i f l) = map g l.
Proof.
  induction l as [|x l ih]; intros [|i] h; cbn [upd map]; [reflexivity|reflexivity| |].
  - rewrite h; reflexivity.
  - rewrite ih; [reflexivity|]. exact h.
Qed.
Lemma pap_addr m p : p_addr (pap m p) = p_addr p.
Proof. destruct m; cbn [pap]; try reflexivity; unfold challenge_received, add_challenge, promote_to; [destruct (_ =? _)|destruct (_ <? _)]; reflexivity. Qed.
Lemma promote_addr s p : p_addr (promote_to s p) = p_addr p.
Proof. unfold promote_to. destruct (_ <? _); reflexivity. Qed.
Lemma response_addr d p : p_addr (snd (response_received d p)) = p_addr p.
Proof.
  unfold response_received. destruct (_ =? _); [destruct (_ <=? _)|]; cbn [snd]; repeat (rewrite promote_addr || cbn [p_addr set_want set_maxch set_flight set_lost set_ok]); reflexivity.
Qed.
Lemma loss_addr s now t p : p_addr (loss_timeout s now t p) = p_addr p.
Proof.
  unfold loss_timeout. destruct (filter _ _) as [|[[d n] tt] l]; [reflexivity|].
  cbv zeta. destruct (_ || _); [|]; cbn [p_addr set_want set_on set_st]; (destruct (p_lost_at _); [destruct (_ <=? _)|]; reflexivity).
Qed.
Lemma fire_addr s now : forall ps ts, map p_addr (fire s now ts ps) = map p_addr ps.
Proof. induction ps as [|p ps ih]; intros ts; cbn [fire map]; [reflexivity|]. rewrite ih. destruct (due _ _); [rewrite loss_addr|]; reflexivity. Qed.
Lemma fill_addr : forall ps q, map p_addr (fst (fill ps q)) = map p_addr ps.
Proof.
  induction ps as [|p ps ih]; intros q; cbn [fill]; [reflexivity|]. destruct (is_some (p_dcid p)).
  - specialize (ih q). destruct (fill ps q). cbn [fst map] in *. rewrite ih. reflexivity.
  - destruct q as [|x q]; [reflexivity|]. specialize (ih q). destruct (fill ps q). cbn [fst map] in *. rewrite ih. reflexivity.
Qed.
Lemma set_active_addr i c : map p_addr (x_paths (snd (set_active i c))) = map p_addr (x_paths c).
Proof.
  unfold set_active. set (c1 := match active_pid (x_paths c) with Some old => up old (set_on false) c | None => c end).
  assert (h : map p_addr (x_paths c1) = map p_addr (x_paths c)).
  { subst c1. destruct (active_pid _); [|reflexivity]. cbn [up w_paths x_paths]. apply map_upd. reflexivity. }
  destruct (nth_error _ i) as [p|]; [|exact h].
  assert (h2 : map p_addr (x_paths (up i (set_on true) c1)) = map p_addr (x_paths c)).
  { rewrite <- h. cbn [up w_paths x_paths]. apply map_upd. reflexivity. }
  destruct (server _); [destruct (validated p)|]; cbn [snd]; [exact h2| |exact h2].
  rewrite <- h2. cbn [up w_paths x_paths]. apply map_upd. intros q. cbv zeta. destruct (under_validation _); reflexivity.
Qed.
Lemma migrated_addr i c : map p_addr (x_paths (snd (peer_migrated i c))) = map p_addr (x_paths c).
Proof.
  unfold peer_migrated. destruct (active_pid _); [|reflexivity]. destruct (Nat.eqb n i); [reflexivity|].
  pose proof (set_active_addr i c) as h. destruct (set_active i c) as [[u|e|] c1]; cbn [snd] in *; [|exact h|exact h].
  destruct (nth_error _ i); [|exact h]. destruct (nth_error _ n); [|exact h]. cbn [snd].
  destruct (_ && _); [|exact h]. rewrite <- h. cbn [up w_paths x_paths]. apply map_upd. reflexivity.
Qed.
Lemma response_paths_addr d c : map p_addr (x_paths (snd (got_response d c))) = map p_addr (x_paths c).
Proof.
  unfold got_response. destruct (active_pid _); [|reflexivity]. destruct (index _ _) as [i|]; [|reflexivity].
  destruct (nth_error (x_paths c) i) as [p|] eqn:e; [|reflexivity].
  pose proof (response_addr d p) as h. destruct (response_received d p) as [b p']. cbn [snd] in h.
  assert (h2 : forall q, p_addr q = p_addr p -> map p_addr (x_paths (up i (fun _ => q) c)) = map p_addr (x_paths c)).
  { intros q hq. cbn [up w_paths x_paths]. apply map_upd_at. intros x hx. rewrite e in hx. injection hx as <-. exact hq. }
  destruct b; [destruct (_ && _)|]; cbn [snd notify w_events x_paths]; apply h2; exact h.
Qed.
Lemma restart_paths now c : x_paths (restart_idle now c) = x_paths c.
Proof. unfold restart_idle. destruct (idle_timeout c); reflexivity. Qed.
Lemma restart_cfg now c : x_cfg (restart_idle now c) = x_cfg c.
Proof. unfold restart_idle. destruct (idle_timeout c); reflexivity. Qed.
Lemma credit_paths_addr a n c : map p_addr (x_paths (credit a n c)) = map p_addr (x_paths c).
Proof. unfold credit. destruct (by_addr _ _); [|reflexivity]. cbn [up w_paths x_paths]. apply map_upd. intros p. destruct (_ && _); reflexivity. Qed.

Definition adds (g : tag) : Prop := match g with GNew _ _ _ => True | _ => False end.
Lemma tell_failures_addr c : map p_addr (x_paths (tell_failures c)) = map p_addr (x_paths c).
Proof. unfold tell_failures. cbn [w_paths x_paths]. rewrite map_map. apply map_ext. intros p. destruct (failure_due p); reflexivity. Qed.
Lemma tapply_addr g c : ~ adds g -> map p_addr (x_paths (tapply g c)) = map p_addr (x_paths c).
Proof.
  intros h. destruct g; cbn [tapply]; try reflexivity.
  - cbn [up w_paths x_paths]. apply map_upd. apply pap_addr.
  - apply credit_paths_addr.
  - destruct h. exact I.
  - destruct (_ && _); [reflexivity|]. rewrite credit_paths_addr. reflexivity.
  - rewrite restart_paths. reflexivity.
  - cbn [w_pool w_paths x_paths]. apply fill_addr.
  - apply response_paths_addr.
  - apply set_active_addr.
  - apply migrated_addr.
  - rewrite tell_failures_addr. cbn [w_paths x_paths]. apply fire_addr.
Qed.
Lemma credit_cfg a n c : x_cfg (credit a n c) = x_cfg c.
Proof. unfold credit. destruct (by_addr _ _); reflexivity. Qed.
Lemma set_active_cfg i c : x_cfg (snd (set_active i c)) = x_cfg c.
Proof.
  unfold set_active. set (c1 := match active_pid (x_paths c) with Some old => up old (set_on false) c | None => c end).
  assert (h : x_cfg c1 = x_cfg c) by (subst c1; destruct (active_pid _); reflexivity).
  destruct (nth_error _ i); [|exact h]. destruct (server _); [destruct (validated _)|]; exact h.
Qed.
Lemma tapply_cfg g c : x_cfg (tapply g c) = x_cfg c.
Proof.
  destruct g; cbn [tapply]; try reflexivity.
  - apply credit_cfg.
  - unfold insert_path. destruct (_ <? _); [destruct tell; reflexivity|]. destruct (index _ _); [destruct tell|]; reflexivity.
  - destruct (_ && _); [reflexivity|]. rewrite credit_cfg. reflexivity.
  - apply restart_cfg.
  - unfold got_response. destruct (active_pid _); [|reflexivity]. destruct (index _ _); [|reflexivity]. destruct (nth_error _ _); [|reflexivity].
    destruct (response_received _ _) as [b0 p1]. destruct b0; [destruct (_ && _)|]; reflexivity.
  - apply set_active_cfg.
  - unfold peer_migrated. destruct (active_pid _); [|reflexivity]. destruct (Nat.eqb _ _); [reflexivity|].
    pose proof (set_active_cfg i c) as h. destruct (set_active i c) as [[u|e|] c1]; cbn [snd] in *; [|exact h|exact h].
    destruct (nth_error _ i); [|exact h]. destruct (nth_error _ n); [|exact h]. cbn [snd]. destruct (_ && _); exact h.
Qed.
Lemma via_addr l c c' : via l c c' -> Forall (fun g => ~ adds g) l -> map p_addr (x_paths c') = map p_addr (x_paths c).
Proof.
  induction 1 as [|g l c c' hg h ih]; intros hf; [reflexivity|]. inversion hf; subst. rewrite ih by assumption. apply tapply_addr. assumption.
Qed.
Lemma via_cfg l c c' : via l c c' -> x_cfg c' = x_cfg c.
Proof. induction 1 as [|g l c c' hg h ih]; [reflexivity|]. rewrite ih. apply tapply_cfg. Qed.
Lemma via_server l c c' : via l c c' -> server c' = server c.
Proof. intros h. unfold server. rewrite (via_cfg _ _ _ h). reflexivity. Qed.
Lemma addr_nth ps ps' i p : map p_addr ps' = map p_addr ps -> nth_error ps i = Some p -> exists p', nth_error ps' i = Some p' /\ p_addr p' = p_addr p.
Proof.
  intros h1 h2. apply (map_nth_error p_addr) in h2. rewrite <- h1 in h2.
  rewrite nth_error_map in h2. destruct (nth_error ps' i) as [p'|]; [|discriminate]. exists p'. split; [reflexivity|]. injection h2 as ->. reflexivity.
Qed.

(** What leaves the held packets and the handshake alone *)
Definition keeps (g : tag) : Prop := match g with GHold _ _ | GReplay _ _ | GClear | GHs _ | GFlag _ => False | _ => True end.
Definition nohold (g : tag) : Prop := match g with GHold _ _ | GReplay _ _ | GClear => False | _ => True end.
Lemma keeps_nohold l : Forall keeps l -> Forall nohold l.
Proof. apply Forall_impl. intros g h. destruct g; cbn in *; tauto. Qed.
Lemma set_active_same i c : let c' := snd (set_active i c) in x_held c' = x_held c /\ x_hs c' = x_hs c /\ x_life c' = x_life c /\ x_recv c' = x_recv c /\ x_pool c' = x_pool c.
Proof.
  unfold set_active. set (c1 := match active_pid (x_paths c) with Some old => up old (set_on false) c | None => c end).
  assert (h : x_held c1 = x_held c /\ x_hs c1 = x_hs c /\ x_life c1 = x_life c /\ x_recv c1 = x_recv c /\ x_pool c1 = x_pool c) by (subst c1; destruct (active_pid _); cbn; auto 6).
  destruct (nth_error _ i); [|exact h]. destruct (server _); [destruct (validated _)|]; exact h.
Qed.
Lemma migrated_same i c : let c' := snd (peer_migrated i c) in x_held c' = x_held c /\ x_hs c' = x_hs c /\ x_life c' = x_life c /\ x_recv c' = x_recv c /\ x_pool c' = x_pool c.
Proof.
  cbv zeta. unfold peer_migrated. destruct (active_pid _); [|cbn; auto 6]. destruct (Nat.eqb _ _); [cbn; auto 6|].
  pose proof (set_active_same i c) as h. destruct (set_active i c) as [[u|e|] c1]; cbn [snd] in *; [|exact h|exact h].
  destruct (nth_error _ i); [|exact h]. destruct (nth_error _ n); [|exact h]. cbn [snd]. destruct (_ && _); exact h.
Qed.
Lemma response_same d c : let c' := snd (got_response d c) in x_held c' = x_held c /\ x_hs c' = x_hs c /\ x_life c' = x_life c /\ x_recv c' = x_recv c /\ x_pool c' = x_pool c.
Proof.
  cbv zeta. unfold got_response. destruct (active_pid _); [|cbn; auto 6]. destruct (index _ _); [|cbn; auto 6]. destruct (nth_error _ _); [|cbn; auto 6].
  destruct (response_received _ _) as [b0 p1]. destruct b0; [destruct (_ && _)|]; cbn; auto 6.
Qed.
Lemma insert_same p tell c : let c' := snd (insert_path p tell c) in x_held c' = x_held c /\ x_hs c' = x_hs c /\ x_life c' = x_life c /\ x_recv c' = x_recv c /\ x_pool c' = x_pool c.
Proof.
  cbv zeta. unfold insert_path. destruct (_ <? _); [destruct tell; cbn; auto 6|]. destruct (index _ _); [destruct tell|]; cbn; auto 6.
Qed.
Lemma credit_same a n c : let c' := credit a n c in x_held c' = x_held c /\ x_hs c' = x_hs c /\ x_life c' = x_life c /\ x_recv c' = x_recv c /\ x_pool c' = x_pool c.
Proof. cbv zeta. unfold credit. destruct (by_addr _ _); cbn; auto 6. Qed.
Lemma restart_same now c : let c' := restart_idle now c in x_held c' = x_held c /\ x_hs c' = x_hs c /\ x_recv c' = x_recv c /\ x_pool c' = x_pool c.
Proof. cbv zeta. unfold restart_idle. destruct (idle_timeout c); cbn; auto. Qed.
Lemma tapply_keeps g c : keeps g -> x_held (tapply g c) = x_held c /\ x_hs (tapply g c) = x_hs c.
Proof.
  intros h. destruct g; cbn in h; try tauto; try (cbn; auto; fail); cbn [tapply].
  - destruct (credit_same a n c) as (h1 & h2 & _). auto.
  - destruct (insert_same p tell c) as (h1 & h2 & _). auto.
  - destruct (restart_same now c) as (h1 & h2 & _). auto.
  - destruct (response_same d c) as (h1 & h2 & _). auto.
  - destruct (set_active_same i c) as (h1 & h2 & _). auto.
  - destruct (migrated_same i c) as (h1 & h2 & _). auto.
Qed.
Lemma via_keeps l c c' : via l c c' -> Forall keeps l -> x_held c' = x_held c /\ x_hs c' = x_hs c.
Proof.
  induction 1 as [|g l c c' hg v ih]; intros hf; [auto|]. inversion hf as [|? ? h1 h2]; subst.
  destruct (ih h2) as [-> ->]. apply tapply_keeps. exact h1.
Qed.

(** Frames *)
Definition ftag (now : Z) (t : pty) (a : addr) (fs : list frame) (g : tag) : Prop :=
  match g with
  | GPath _ (PQueue b _ d) => b = a /\ In (FChallenge d) fs /\ (t = TShort \/ t = TZero)
  | GResp d => In (FResponse d) fs /\ t <> TZero
  | GPeer e => In (FClose e) fs
  | GErr _ => t <> TZero /\ exists o, In (FCrypto o) fs
  | GHs h => t <> TZero /\ exists o, In (FCrypto o) fs /\ h_pidle h = h_pidle (hs_in o)
  | GFlag b => t <> TZero
  | GDrain n => exists e, In (FClose e) fs
  | GClear => t <> TZero
  | GPool _ => True
  | _ => False
  end.
Lemma ftag_mono now t a fs fs' g : incl fs fs' -> ftag now t a fs g -> ftag now t a fs' g.
Proof.
  intros h. destruct g; cbn [ftag]; auto.
  - destruct m; auto. intros (h1 & h2 & h3). auto.
  - intros (ht & o & ho). split; [exact ht|]. exists o. auto.
  - intros (o & ho). exists o. auto.
  - intros (ht & o & ho & ho2). split; [exact ht|]. exists o. auto.
  - intros (h1 & h2). auto.
Qed.
Lemma ftag_noadd now t a fs l : Forall (ftag now t a fs) l -> Forall (fun g => ~ adds g) l.
Proof. apply Forall_impl. intros g h h2. destruct g; cbn in *; tauto. Qed.

Lemma frame_via now t i f c r c' p : process_frame now i f c = (r, c') -> allowed t f = true -> l_err (x_life c) = None ->
  nth_error (x_paths c) i = Some p ->
  exists l, via l c c' /\ Forall (ftag now t (p_addr p) [f]) l /\ (forall d, sumz (queued d) l <= holds d f) /\
    (r = Ok tt -> l_err (x_life c') = None) /\ r <> Panic.
Proof.
  intros h ha hn hp. destruct f; cbn [process_frame] in h.
  - injection h as <- <-. exists [GPath i (PQueue (p_addr p) (g_qlen (x_cfg c)) d)].
    split; [apply (via_one (GPath i (PQueue (p_addr p) (g_qlen (x_cfg c)) d))); exists p; cbn; auto|].
    split; [constructor; [cbn; split; [reflexivity|]; split; [auto|destruct t; auto; discriminate ha]|constructor]|]. split; [intros x; cbn; lia|]. split; [auto|discriminate].
  - assert (ht : t <> TZero) by (intros ->; discriminate ha).
    assert (hres : r = fst (got_response d c) /\ c' = snd (got_response d c)) by (rewrite h; auto). destruct hres as [hr ->].
    destruct (active_pid (x_paths c)) as [act|] eqn:ea.
    + exists [GResp d]. split; [apply (via_one (GResp d)); cbn; congruence|]. split; [constructor; [cbn; auto|constructor]|].
      split; [intros x; cbn; lia|]. rewrite hr. unfold got_response. rewrite ea.
      destruct (index (has_pending d) (x_paths c)) as [j|] eqn:ej; [|split; [auto|discriminate]].
      destruct (index_some _ _ _ ej) as (q & hq & _). rewrite hq.
      destruct (response_received d q) as [bv q']. destruct bv; [destruct (_ && _)|]; split; auto; discriminate.
    + unfold got_response in hr |- *. rewrite ea in hr |- *. cbn [fst snd] in *. exists []. split; [constructor|]. split; [constructor|].
      split; [intros x; cbn; lia|]. subst r. split; [auto|discriminate].
  - cbn [on_life x_paths w_life] in h. destruct (find active (x_paths c)) as [q|]; injection h as <- <-.
    + exists [GPeer e; GDrain (now + p_pto q * 3)]. split; [econstructor; [exact I|]; apply (via_one (GDrain _)); exact I|].
      split; [constructor; [cbn; auto|constructor; [cbn; eauto|constructor]]|]. split; [intros x; cbn; lia|]. split; [auto|discriminate].
    + exists [GPeer e]. split; [apply (via_one (GPeer e)); exact I|].
      split; [constructor; [cbn; auto|constructor]|]. split; [intros x; cbn; lia|]. split; [auto|discriminate].
  - destruct (handshake_via _ _ _ _ h hn) as (l & hv & hf & h1 & h2). exists l. split; [exact hv|]. split.
    + revert hf. apply Forall_impl. intros g hg. assert (ht : t <> TZero) by (intros ->; discriminate ha). destruct g; cbn in *; try tauto; split; try exact ht; eexists; eauto.
    + split; [|auto]. intros d. rewrite (sumz_zero' _ (queued d) l hf); [cbn; lia|]. intros g hg. destruct g; cbn in *; tauto.
  - destruct (server c); injection h as <- <-.
    + exists []. split; [constructor|]. split; [constructor|]. split; [intros x; cbn; lia|]. split; [auto|discriminate].
    + exists [GFlag true]. split; [apply (via_one (GFlag true)); exact I|]. split; [constructor; [cbn; intros ->; discriminate ha|constructor]|].
      split; [intros x; cbn; lia|]. split; [auto|discriminate].
  - injection h as <- <-. exists [GPool (x_pool c ++ [seq])]. split; [apply (via_one (GPool _)); exact I|]. split; [constructor; [exact I|constructor]|].
    split; [intros x; cbn; lia|]. split; [auto|discriminate].
  - injection h as <- <-. exists []. split; [constructor|]. split; [constructor|]. split; [intros x; cbn; lia|]. split; [auto|discriminate].
  - injection h as <- <-. exists []. split; [constructor|]. split; [constructor|]. split; [intros x; cbn; lia|]. split; [auto|discriminate].
Qed.

Lemma frames_via now t i : forall fs c r c' p, process_frames now t i fs c = (r, c') -> l_err (x_life c) = None ->
  nth_error (x_paths c) i = Some p ->
  exists l, via l c c' /\ Forall (ftag now t (p_addr p) fs) l /\ (forall d, sumz (queued d) l <= sumz (holds d) fs) /\
    (r = Ok tt -> l_err (x_life c') = None) /\ r <> Panic.
Proof.
  induction fs as [|f fs ih]; intros c r c' p h hn hp; cbn [process_frames] in h.
  - injection h as <- <-. exists []. split; [constructor|]. split; [constructor|]. split; [intros d; cbn; lia|]. split; [auto|discriminate].
  - assert (hz : forall d, 0 <= sumz (holds d) fs).
    { intros d. clear. induction fs as [|f fs ih]; [cbn; lia|]. rewrite sumz_cons. destruct f; cbn [holds]; try lia. destruct (_ =? _); lia. }
    assert (hz1 : forall d, 0 <= holds d f) by (intros d; destruct f; cbn [holds]; try lia; destruct (_ =? _); lia).
    destruct (allowed t f) eqn:ea.
    + destruct (process_frame now i f c) as [r1 c1] eqn:e1.
      destruct (frame_via _ _ _ _ _ _ _ _ e1 ea hn hp) as (l1 & v1 & f1 & s1 & o1 & n1).
      assert (f1' : Forall (ftag now t (p_addr p) (f :: fs)) l1).
      { revert f1. apply Forall_impl. intros g. apply ftag_mono. intros x [<-|[]]. left. reflexivity. }
      destruct r1 as [[]|e|].
      * destruct (addr_nth _ _ _ _ (via_addr _ _ _ v1 (ftag_noadd _ _ _ _ _ f1)) hp) as (p1 & hp1 & ea1).
        destruct (ih _ _ _ _ h (o1 eq_refl) hp1) as (l2 & v2 & f2 & s2 & o2 & n2). rewrite ea1 in f2.
        exists (l1 ++ l2). split; [exact (via_app _ _ _ _ _ v1 v2)|]. split.
        { apply Forall_app. split; [exact f1'|]. revert f2. apply Forall_impl. intros g. apply ftag_mono. intros x hx. right. exact hx. }
        split; [intros d; rewrite sumz_app, sumz_cons; specialize (s1 d); specialize (s2 d); lia|]. auto.
      * injection h as <- <-. exists l1. split; [exact v1|]. split; [exact f1'|].
        split; [intros d; rewrite sumz_cons; specialize (s1 d); specialize (hz d); lia|]. split; [discriminate|discriminate].
      * destruct n1. reflexivity.
    + injection h as <- <-. exists []. split; [constructor|]. split; [constructor|].
      split; [intros d; rewrite sumz_nil, sumz_cons; specialize (hz d); specialize (hz1 d); lia|]. split; [discriminate|discriminate].
Qed.

(** Receiving *)
Lemma map_len ps ps' : map p_addr ps' = map p_addr ps -> length ps' = length ps.
Proof. intros h. rewrite <- (map_length p_addr ps), <- h, map_length. reflexivity. Qed.
Lemma nth_some {A} (l : list A) i : (i < length l)%nat -> exists x, nth_error l i = Some x.
Proof. intros h. destruct (nth_error l i) eqn:e; [eauto|]. apply nth_error_None in e. lia. Qed.
Lemma nth_lt {A} (l : list A) i x : nth_error l i = Some x -> (i < length l)%nat.
Proof. intros h. apply nth_error_Some. congruence. Qed.

Lemma set_active_ok i c : (i < length (x_paths c))%nat -> exists c', set_active i c = (Ok tt, c').
Proof.
  intros h. unfold set_active. set (c1 := match active_pid (x_paths c) with Some old => up old (set_on false) c | None => c end).
  assert (h1 : length (x_paths c1) = length (x_paths c)) by (subst c1; destruct (active_pid _); [cbn [up w_paths x_paths]; apply up_length|reflexivity]).
  destruct (nth_some (x_paths c1) i) as (p & ->); [lia|]. destruct (server _); [destruct (validated _)|]; eauto.
Qed.
Lemma migrated_ok i c : (i < length (x_paths c))%nat -> active_pid (x_paths c) <> None -> exists c', peer_migrated i c = (Ok tt, c').
Proof.
  intros h ha. unfold peer_migrated. destruct (active_pid (x_paths c)) as [old|] eqn:e; [|congruence].
  destruct (Nat.eqb old i); [eauto|]. destruct (set_active_ok i c h) as (c1 & h1). rewrite h1.
  pose proof (set_active_addr i c) as h2. rewrite h1 in h2. cbn [snd] in h2. apply map_len in h2.
  destruct (index_some _ _ _ e) as (q & hq & _). apply nth_lt in hq.
  destruct (nth_some (x_paths c1) i) as (p1 & ->); [lia|]. destruct (nth_some (x_paths c1) old) as (p2 & ->); [lia|]. eauto.
Qed.

Definition fintag (now : Z) (t : pty) (g : tag) : Prop :=
  match g with
  | GFill | GNp _ | GMigrate _ | GAes false => True
  | GRestart n | GCount n => n = now
  | GPath _ POk => t = THandshake
  | _ => False
  end.

Lemma restart_via now c : exists l, via l c (restart_idle now c) /\ Forall (fun g => g = GRestart now) l.
Proof.
  destruct (idle_timeout c) eqn:e.
  - exists [GRestart now]. split; [apply (via_one (GRestart now)); cbn; congruence|repeat constructor].
  - exists []. unfold restart_idle. rewrite e. split; constructor.
Qed.

Lemma finish_via now t i pn pr c r c' : finish_recv now t i pn pr c = (r, c') -> (i < length (x_paths c))%nat ->
  exists l, via l c c' /\ Forall (fintag now t) l /\ r <> Panic.
Proof.
  unfold finish_recv. intros h hi.
  assert (e0 : (let '(ps, pool) := fill (x_paths c) (x_pool c) in w_pool pool (w_paths ps c)) = tapply GFill c).
  { cbn [tapply]. destruct (fill (x_paths c) (x_pool c)). reflexivity. }
  destruct (fill (x_paths c) (x_pool c)) as [ps pool] eqn:ef.
  set (c1 := w_pool pool (w_paths ps c)) in *.
  assert (v1 : via [GFill] c c1) by (rewrite e0; apply via_one; exact I).
  assert (hl1 : length (x_paths c1) = length (x_paths c)) by (apply map_len; apply (via_addr _ _ _ v1); repeat constructor; cbn; tauto).
  set (tl' := fun c2 => 
     let c3 := restart_idle now c2 in
     let c3 := w_recv (x_recv c3 + 1) c3 in
     let c3 := if server c3 && match t with THandshake => true | _ => false end then up i (set_ok true) c3 else c3 in
     w_aes false c3).
  assert (htl : forall c2, (i < length (x_paths c2))%nat -> exists l, via l c2 (tl' c2) /\ Forall (fintag now t) l).
  { intros c2 h2. subst tl'. cbv beta zeta.
    destruct (restart_via now c2) as (l1 & v2 & f2).
    set (c3 := restart_idle now c2) in *. set (c4 := w_recv (x_recv c3 + 1) c3).
    assert (v4 : via [GCount now] c3 c4).
    { apply (via_one (GCount now)). cbn [tguard]. unfold c3, restart_idle. intros v.
      destruct (idle_timeout c2) as [v0|] eqn:ev; [|congruence]. change (idle_timeout (on_life (set_idle (Some (now + v0))) c2)) with (idle_timeout c2). rewrite ev. intros hv. injection hv as <-. reflexivity. }
    assert (h4 : length (x_paths c4) = length (x_paths c2)) by (cbn [c4 w_recv x_paths]; unfold c3; rewrite restart_paths; reflexivity).
    assert (v5 : exists l, via l c4 (if server c4 && match t with THandshake => true | _ => false end then up i (set_ok true) c4 else c4) /\ Forall (fintag now t) l).
    { destruct (server c4 && _) eqn:es; [|exists []; split; constructor].
      destruct t; rewrite ?andb_false_r in es; try discriminate. exists [GPath i POk].
      split; [|repeat constructor]. apply (via_one (GPath i POk)). destruct (nth_some (x_paths c4) i) as (p & hp); [lia|]. exists p. split; [exact hp|exact I]. }
    destruct v5 as (l5 & v5 & f5).
    eexists. split; [exact (via_app _ _ _ _ _ v2 (via_app _ _ _ _ _ v4 (via_app _ _ _ _ _ v5 (via_one (GAes false) _ I))))|].
    apply Forall_app. split; [revert f2; apply Forall_impl; intros g ->; reflexivity|].
    apply Forall_app. split; [repeat constructor|]. apply Forall_app. split; [exact f5|repeat constructor]. }
  change (match (if pr then (Ok tt, c1) else
      let c2 := if (match t with TShort | TZero => true | _ => false end) then w_np (Z.max (x_np c1) pn) c1 else c1 in
      match active_pid (x_paths c2) with
      | None => (Err InvalidState, c2)
      | Some act => if server c2 && negb (Nat.eqb i act) && (x_np c2 =? pn) then peer_migrated i c2 else (Ok tt, c2)
      end) with
      | (Ok _, c2) => (Ok tt, tl' c2) | (Err e, c2) => (Err e, c2) | (Panic, c2) => (Panic, c2) end = (r, c')) in h.
  destruct pr.
  - injection h as <- <-. destruct (htl c1 ltac:(lia)) as (l & v & f). exists (GFill :: l).
    split; [exact (via_app [GFill] _ _ _ _ v1 v)|]. split; [constructor; [exact I|exact f]|discriminate].
  - set (c2 := if (match t with TShort | TZero => true | _ => false end) then w_np (Z.max (x_np c1) pn) c1 else c1) in *.
    assert (v2 : exists l, via l c1 c2 /\ Forall (fintag now t) l).
    { subst c2. destruct t; try (exists []; split; constructor);
        (exists [GNp (Z.max (x_np c1) pn)]; split; [apply (via_one (GNp _)); exact I|repeat constructor]). }
    destruct v2 as (l2 & v2 & f2).
    assert (hl2 : length (x_paths c2) = length (x_paths c)) by (rewrite <- hl1; subst c2; destruct t; reflexivity).
    cbv zeta in h. destruct (active_pid (x_paths c2)) as [act|] eqn:ea.
    + destruct (server c2 && negb (Nat.eqb i act) && (x_np c2 =? pn)) eqn:eb.
      * destruct (migrated_ok i c2) as (c3 & h3); [lia|congruence|]. rewrite h3 in h. injection h as <- <-.
        assert (v3 : via [GMigrate i] c2 c3).
        { replace c3 with (tapply (GMigrate i) c2) by (cbn [tapply]; rewrite h3; reflexivity). apply via_one.
          apply andb_prop in eb. destruct eb as [eb _]. apply andb_prop in eb. destruct eb as [eb _].
          cbn [tguard]. split; [exact eb|]. split; [congruence|lia]. }
        assert (hl3 : length (x_paths c3) = length (x_paths c)).
        { rewrite <- hl2. apply map_len. apply (via_addr _ _ _ v3). repeat constructor; cbn; tauto. }
        destruct (htl c3 ltac:(lia)) as (l & v & f).
        eexists. split; [exact (via_app _ _ _ _ _ v1 (via_app _ _ _ _ _ v2 (via_app _ _ _ _ _ v3 v)))|].
        split; [|discriminate]. constructor; [exact I|]. apply Forall_app. split; [exact f2|]. constructor; [exact I|exact f].
      * injection h as <- <-. destruct (htl c2 ltac:(lia)) as (l & v & f).
        eexists. split; [exact (via_app _ _ _ _ _ v1 (via_app _ _ _ _ _ v2 v))|].
        split; [|discriminate]. constructor; [exact I|]. apply Forall_app. split; [exact f2|exact f].
    + injection h as <- <-. eexists. split; [exact (via_app _ _ _ _ _ v1 v2)|]. split; [constructor; [exact I|exact f2]|discriminate].
Qed.

Definition opened (k : packet) : Prop := match k_in k with IOk _ _ _ _ => True | _ => False end.
Definition ptag (now : Z) (a : addr) (k : packet) (g : tag) : Prop :=
  match g with
  | GPath _ (PQueue b _ d) => In (FChallenge d) (frames_in k) /\ (k_ty k = TShort /\ b = a \/ k_ty k = TZero)
  | GPath _ POk => k_ty k = THandshake /\ opened k
  | GResp d => In (FResponse d) (frames_in k) /\ k_ty k <> TZero
  | GPeer e => In (FClose e) (frames_in k)
  | GDrain _ => exists e, In (FClose e) (frames_in k)
  | GNew p n _ => k_ty k = TShort /\ p_addr p = a /\ n = k_len k
  | GHold k' b => k' = k /\ b = a
  | GRestart n | GCount n => n = now
  | GHs h => k_ty k <> TZero /\ exists o, In (FCrypto o) (frames_in k) /\ h_pidle h = h_pidle (hs_in o)
  | GFlag _ => True
  | GErr _ => k_ty k <> TZero /\ exists o, In (FCrypto o) (frames_in k)
  | GClear => k_ty k <> TZero
  | GPool _ | GKu _ | GNp _ | GFill | GMigrate _ | GAes false => True
  | _ => False
  end.
Definition pid_ok (a : addr) (pid : option nat) (ps : list path) : Prop :=
  match pid with Some i => exists p, nth_error ps i = Some p /\ p_addr p = a | None => by_addr a ps = None end.
Definition is_short (k : packet) : bool := match k_ty k with TShort => true | _ => false end.
Definition is_zero (k : packet) : bool := match k_ty k with TZero => true | _ => false end.
Definition worth (pid : option nat) (k : packet) : Z :=
  (if is_short k && negb (is_some pid) then k_len k else 0) + (if is_zero k then k_len k else 0).

Lemma asks_pos d k : 0 <= asks d k.
Proof. unfold asks. induction (frames_in k) as [|f fs ih]; [cbn; lia|]. rewrite sumz_cons. destruct f; cbn [holds]; try lia. destruct (_ =? _); lia. Qed.
Lemma fintag_noadd now t l : Forall (fintag now t) l -> Forall (fun g => ~ adds g) l.
Proof. apply Forall_impl. intros g h h2. destruct g; cbn in *; tauto. Qed.
Lemma gain_frames now t a fs f a0 l : Forall (ftag now t a fs) l -> sumz (gain f a0) l = 0.
Proof. intros h. apply (sumz_zero' _ _ _ h). intros g hg. destruct g; cbn in *; tauto. Qed.
Lemma gain_fin now t f a0 l : Forall (fintag now t) l -> sumz (gain f a0) l = 0.
Proof. intros h. apply (sumz_zero' _ _ _ h). intros g hg. destruct g; cbn in *; tauto. Qed.
Lemma queued_fin now t d l : Forall (fintag now t) l -> sumz (queued d) l = 0 /\ sumz (held_asks d) l = 0.
Proof. intros h. split; apply (sumz_zero' _ _ _ h); intros g hg; destruct g; cbn in *; try tauto. destruct m; tauto. Qed.
Lemma held_frames now t a fs d l : Forall (ftag now t a fs) l -> sumz (held_asks d) l = 0.
Proof. intros h. apply (sumz_zero' _ _ _ h). intros g hg. destruct g; cbn in *; tauto. Qed.

Lemma insert_via p n tell c r c' : insert_path p tell c = (r, c') -> by_addr (p_addr p) (x_paths c) = None -> fresh p -> p_budget p = n * g_factor (x_cfg c) ->
  r <> Panic /\
  match r with
  | Ok i => via [GNew p n tell] c c' /\ nth_error (x_paths c') i = Some p
  | _ => c' = c
  end.
Proof.
  intros h hb hf hbud. unfold insert_path in h. destruct (zlen (x_paths c) <? g_maxp (x_cfg c)) eqn:em.
  - injection h as <- <-. split; [discriminate|]. split.
    + replace (if tell then _ else _) with (tapply (GNew p n tell) c); [apply via_one; split; [exact hb|]; split; [exact hf|]; split; [exact hbud|]|].
      * eexists. cbn [tapply]. unfold insert_path. rewrite em. reflexivity.
      * cbn [tapply]. unfold insert_path. rewrite em. reflexivity.
    + destruct tell; cbn [notify w_events w_paths x_paths]; rewrite nth_error_app2 by lia; rewrite Nat.sub_diag; reflexivity.
  - destruct (index unused (x_paths c)) as [i|] eqn:ei.
    + injection h as <- <-. split; [discriminate|]. split.
      * replace (if tell then _ else _) with (tapply (GNew p n tell) c); [apply via_one; split; [exact hb|]; split; [exact hf|]; split; [exact hbud|]|].
        -- eexists. cbn [tapply]. unfold insert_path. rewrite em, ei. reflexivity.
        -- cbn [tapply]. unfold insert_path. rewrite em, ei. reflexivity.
      * destruct (index_some _ _ _ ei) as (q & hq & _).
        destruct tell; cbn [notify up w_events w_paths x_paths]; rewrite (upd_same _ _ _ _ hq); reflexivity.
    + injection h as <- <-. split; [discriminate|reflexivity].
Qed.

Lemma recv_path_via now a pid k known c r c' : recv_path (is_short k) known (k_len k) a pid c = (r, c') -> pid_ok a pid (x_paths c) ->
  r <> Panic /\
  exists l, via l c c' /\ Forall (ptag now a k) l /\ (forall d, sumz (queued d) l = 0 /\ sumz (held_asks d) l = 0) /\
   (forall a0, sumz (gain (g_factor (x_cfg c)) a0) l = 0 \/
      is_short k && negb (is_some pid) = true /\ aeqb a a0 = true /\ sumz (gain (g_factor (x_cfg c)) a0) l = k_len k * g_factor (x_cfg c)) /\
   l_err (x_life c') = l_err (x_life c) /\ Forall keeps l /\
   match r with Ok i => exists p, nth_error (x_paths c') i = Some p /\ (is_short k = true -> p_addr p = a) | _ => True end.
Proof.
  intros h hp. unfold recv_path in h. destruct (is_short k) eqn:es; cbn [negb] in h.
  - destruct known; cbn [negb] in h.
    + destruct pid as [i|].
      * injection h as <- <-. split; [discriminate|]. exists []. split; [constructor|]. split; [constructor|]. split; [intros d; split; reflexivity|].
        split; [intros a0; left; reflexivity|]. split; [reflexivity|]. split; [constructor|]. destruct hp as (p & h1 & h2). exists p. auto.
      * set (p := set_want true (set_budget (k_len k * g_factor (x_cfg c)) (path_new a false false))) in *.
        assert (hf : fresh p) by (exists a, None, true, (k_len k * g_factor (x_cfg c)); reflexivity).
        destruct (insert_via p (k_len k) (server c) c r c' h hp hf eq_refl) as (hn & hr). split; [exact hn|].
        destruct r as [i|e|].
        -- destruct hr as (hv & hi). exists [GNew p (k_len k) (server c)]. split; [exact hv|].
           assert (ht : k_ty k = TShort) by (unfold is_short in es; destruct (k_ty k); congruence).
           split; [constructor; [cbn; auto|constructor]|]. split; [intros d; split; reflexivity|].
           split.
           { intros a0. cbn [sumz fold_right gain]. replace (p_addr p) with a by reflexivity. destruct (aeqb a a0); [right; cbn [is_some negb andb]; repeat split; cbn; lia|left; reflexivity]. }
           split.
           { unfold insert_path in h. destruct (_ <? _); [injection h as _ <-; destruct (server c); reflexivity|].
             destruct (index unused (x_paths c)); [injection h as _ <-; destruct (server c); reflexivity|discriminate]. }
           split; [repeat constructor|]. exists p. split; [exact hi|]. reflexivity.
        -- subst c'. exists []. split; [constructor|]. split; [constructor|]. split; [intros d; split; reflexivity|]. split; [intros a0; left; reflexivity|]. split; [reflexivity|]. split; [constructor|exact I].
        -- congruence.
    + injection h as <- <-. split; [discriminate|]. exists []. split; [constructor|]. split; [constructor|]. split; [intros d; split; reflexivity|].
      split; [intros a0; left; reflexivity|]. split; [reflexivity|]. split; [constructor|exact I].
  - assert (hr : c' = c /\ r = match active_pid (x_paths c) with Some i => Ok i | None => Err InvalidState end).
    { destruct (active_pid (x_paths c)); injection h as <- <-; auto. }
    destruct hr as [-> ->]. split; [destruct (active_pid _); discriminate|].
    exists []. split; [constructor|]. split; [constructor|]. split; [intros d; split; reflexivity|]. split; [intros a0; left; reflexivity|]. split; [reflexivity|]. split; [constructor|].
    destruct (active_pid (x_paths c)) as [i|] eqn:e; [|exact I]. destruct (index_some _ _ _ e) as (p & hq & _). exists p. split; [exact hq|discriminate].
Qed.

Lemma ftag_ptag now a a' k g : (k_ty k = TShort -> a' = a) -> ftag now (k_ty k) a' (frames_in k) g -> ptag now a k g.
Proof. intros h. destruct g; cbn [ftag ptag]; auto; try tauto. destruct m; cbn; try tauto. intros (-> & h2 & [h3|h3]); auto. Qed.
Lemma fintag_ptag now a k g : opened k -> fintag now (k_ty k) g -> ptag now a k g.
Proof. intros ho. destruct g; cbn [fintag ptag]; auto; try tauto. destruct m; tauto. Qed.

Lemma recv_single_via now a pid k c r c' : recv_single now a pid k c = (r, c') -> pid_ok a pid (x_paths c) ->
  r <> Panic /\
  exists l, via l c c' /\ Forall (ptag now a k) l /\
   (forall d, sumz (queued d) l + sumz (held_asks d) l <= asks d k) /\
   (forall a0, 0 <= k_len k -> 0 <= g_factor (x_cfg c) -> sumz (gain (g_factor (x_cfg c)) a0) l <= if aeqb a a0 then worth pid k * g_factor (x_cfg c) else 0) /\
   (forall v, r = Ok v -> v = k_len k /\ l_err (x_life c') = None) /\
   (k_ty k = TZero -> h_zkey (x_hs c) = true -> x_held c' = x_held c /\ h_zkey (x_hs c') = true /\ Forall nohold l).
Proof.
  intros h hp. unfold recv_single in h.
  assert (triv : forall e, r = Err e -> c' = c -> r <> Panic /\
    exists l, via l c c' /\ Forall (ptag now a k) l /\ (forall d, sumz (queued d) l + sumz (held_asks d) l <= asks d k) /\
     (forall a0, 0 <= k_len k -> 0 <= g_factor (x_cfg c) -> sumz (gain (g_factor (x_cfg c)) a0) l <= if aeqb a a0 then worth pid k * g_factor (x_cfg c) else 0) /\
     (forall v, r = Ok v -> v = k_len k /\ l_err (x_life c') = None) /\
     (k_ty k = TZero -> h_zkey (x_hs c) = true -> x_held c' = x_held c /\ h_zkey (x_hs c') = true /\ Forall nohold l)).
  { intros e -> ->. split; [discriminate|]. exists []. split; [constructor|]. split; [constructor|]. split.
    - intros d. rewrite !sumz_nil. pose proof (asks_pos d k). lia.
    - split; [|split; [discriminate|intros h1 h2; split; [reflexivity|]; split; [exact h2|constructor]]]. intros a0 h1 h2. rewrite sumz_nil. unfold worth.
      assert (0 <= k_len k * g_factor (x_cfg c)) by (apply Z.mul_nonneg_nonneg; assumption).
      destruct (aeqb a a0), (is_short k && negb (is_some pid)), (is_zero k); lia. }
  destruct (is_closed c || is_draining c); [injection h as <- <-; eapply triv; reflexivity|].
  destruct (l_err (x_life c)) as [er|] eqn:hn; cbn [is_some] in h; [injection h as <- <-; eapply triv; reflexivity|].
  set (c0 := if k_keys k then w_hs (set_ready true (x_hs c)) c else c) in *.
  assert (v0 : exists l, via l c c0 /\ Forall (fun g => g = GFlag false) l).
  { subst c0. destruct (k_keys k).
    - exists [GFlag false]. split; [apply (via_one (GFlag false)); exact I|]. constructor; [reflexivity|constructor].
    - exists []. split; constructor. }
  destruct v0 as (l0 & v0 & f0).
  assert (z0 : forall f, f (GFlag false) = 0 -> sumz f l0 = 0).
  { intros f hf. apply (sumz_zero' _ _ _ f0). intros g ->. apply hf. }
  assert (p0 : Forall (ptag now a k) l0) by (revert f0; apply Forall_impl; intros g ->; exact I).
  assert (e0 : x_paths c0 = x_paths c /\ x_cfg c0 = x_cfg c /\ l_err (x_life c0) = None).
  { subst c0. destruct (k_keys k); cbn; auto. }
  destruct e0 as (ep0 & ec0 & el0).
  assert (hh0 : x_held c0 = x_held c) by (subst c0; destruct (k_keys k); reflexivity).
  assert (hk0 : h_zkey (x_hs c0) = h_zkey (x_hs c)) by (subst c0; destruct (k_keys k); reflexivity).
  assert (nh0 : Forall nohold l0) by (revert f0; apply Forall_impl; intros g ->; exact I).
  assert (triv0 : forall e, r = Err e -> c' = c0 -> r <> Panic /\
    exists l, via l c c' /\ Forall (ptag now a k) l /\ (forall d, sumz (queued d) l + sumz (held_asks d) l <= asks d k) /\
     (forall a0, 0 <= k_len k -> 0 <= g_factor (x_cfg c) -> sumz (gain (g_factor (x_cfg c)) a0) l <= if aeqb a a0 then worth pid k * g_factor (x_cfg c) else 0) /\
     (forall v, r = Ok v -> v = k_len k /\ l_err (x_life c') = None) /\
     (k_ty k = TZero -> h_zkey (x_hs c) = true -> x_held c' = x_held c /\ h_zkey (x_hs c') = true /\ Forall nohold l)).
  { intros e -> ->. split; [discriminate|]. exists l0. split; [exact v0|]. split; [exact p0|]. split.
    - intros d. rewrite !z0 by reflexivity. pose proof (asks_pos d k). lia.
    - split; [|split; [discriminate|intros h1 h2; split; [exact hh0|]; split; [rewrite hk0; exact h2|exact nh0]]]. intros a0 h1 h2. rewrite z0 by reflexivity. unfold worth.
      assert (0 <= k_len k * g_factor (x_cfg c)) by (apply Z.mul_nonneg_nonneg; assumption).
      destruct (aeqb a a0), (is_short k && negb (is_some pid)), (is_zero k); lia. }
  destruct (match k_ty k with TZero => negb (h_zkey (x_hs c0)) | _ => false end) eqn:ez.
  - destruct ((zlen (x_held c0) <? MAX_HELD) && negb (h_est (x_hs c0))) eqn:eh.
    + injection h as <- <-. split; [discriminate|]. exists (l0 ++ [GHold k a]).
      assert (ht : k_ty k = TZero) by (destruct (k_ty k); congruence).
      split.
      { apply (via_app _ _ _ _ _ v0). apply (via_one (GHold k a)). cbn [tguard]. split; [exact ht|]. lia. }
      split; [apply Forall_app; split; [exact p0|]; constructor; [cbn; auto|constructor]|].
      split; [intros d; rewrite !sumz_app, !z0 by reflexivity; cbn [sumz fold_right queued held_asks]; lia|].
      split.
      { intros a0 h1 h2. rewrite sumz_app, z0 by reflexivity. cbn [sumz fold_right gain]. unfold worth, is_zero, is_short. rewrite ht. cbn [andb]. destruct (aeqb a a0); lia. }
      split; [intros v hv; injection hv as <-; auto|].
      intros _ h2. rewrite ht, hk0, h2 in ez. discriminate.
    + destruct (server c0 && (x_recv c0 =? 0)); injection h as <- <-; eapply triv0; reflexivity.
  - destruct (k_in k) as [|e|known pn ku fs] eqn:ek.
    + injection h as <- <-. eapply triv0; reflexivity.
    + injection h as <- <-. eapply triv0; reflexivity.
    + assert (hp0 : pid_ok a pid (x_paths c0)) by (rewrite ep0; exact hp).
      destruct (recv_path (match k_ty k with TShort => true | _ => false end) known (k_len k) a pid c0) as [r1 c1] eqn:e1.
      destruct (recv_path_via now a pid k known c0 r1 c1 e1 hp0) as (n1 & l1 & v1 & f1 & q1 & g1 & el1 & k1 & hr1).
      assert (cf1 : x_cfg c1 = x_cfg c) by (rewrite (via_cfg _ _ _ v1); exact ec0).
      rewrite ec0 in g1.
      assert (gb1 : forall a0, 0 <= k_len k -> 0 <= g_factor (x_cfg c) -> sumz (gain (g_factor (x_cfg c)) a0) l1 <= if aeqb a a0 then worth pid k * g_factor (x_cfg c) else 0).
      { intros a0 h1 h2. assert (0 <= k_len k * g_factor (x_cfg c)) by (apply Z.mul_nonneg_nonneg; assumption).
        destruct (g1 a0) as [->|(h3 & h4 & ->)]; unfold worth.
        - destruct (aeqb a a0), (is_short k && negb (is_some pid)), (is_zero k); lia.
        - rewrite h3, h4. destruct (is_zero k); lia. }
      destruct r1 as [i|e|]; [| |destruct (n1 eq_refl)].
      2: { injection h as <- <-. split; [discriminate|]. exists (l0 ++ l1). split; [exact (via_app _ _ _ _ _ v0 v1)|]. split; [apply Forall_app; auto|].
           split; [intros d; rewrite !sumz_app, !z0 by reflexivity; destruct (q1 d) as [-> ->]; pose proof (asks_pos d k); lia|].
           split; [intros a0 h1 h2; rewrite sumz_app, z0 by reflexivity; specialize (gb1 a0 h1 h2); lia|]. split; [discriminate|].
           intros h1 h2. destruct (via_keeps _ _ _ v1 k1) as (ha & hb). split; [rewrite ha; exact hh0|]. split; [rewrite hb, hk0; exact h2|].
           apply Forall_app. split; [exact nh0|]. apply keeps_nohold. exact k1. }
      destruct (via_keeps _ _ _ v1 k1) as (hh1 & hk1).
      destruct hr1 as (p1 & hp1 & ha1).
      set (c2 := if ku then match nth_error (x_paths c1) i with Some p => on_life (set_ku (Some (now + p_pto p * 3))) c1 | None => c1 end else c1) in *.
      assert (v2 : exists l, via l c1 c2 /\ Forall (fun g => exists o, g = GKu o) l).
      { subst c2. destruct ku; [|exists []; split; constructor]. rewrite hp1.
        exists [GKu (Some (now + p_pto p1 * 3))]. split; [apply (via_one (GKu _)); exact I|]. constructor; [eauto|constructor]. }
      destruct v2 as (l2 & v2 & f2).
      assert (hp2 : nth_error (x_paths c2) i = Some p1) by (subst c2; destruct ku; [rewrite hp1|]; exact hp1).
      assert (el2 : l_err (x_life c2) = None) by (subst c2; destruct ku; [rewrite hp1; cbn|]; rewrite el1; exact el0).
      assert (z2 : forall f, (forall o, f (GKu o) = 0) -> sumz f l2 = 0).
      { intros f hf. apply (sumz_zero' _ _ _ f2). intros g (o & ->). apply hf. }
      assert (p2 : Forall (ptag now a k) l2) by (revert f2; apply Forall_impl; intros g (o & ->); exact I).
      destruct (process_frames now (k_ty k) i fs c2) as [r3 c3] eqn:e3.
      destruct (frames_via _ _ _ _ _ _ _ _ e3 el2 hp2) as (l3 & v3 & f3 & q3 & o3 & n3).
      assert (efs : frames_in k = fs) by (unfold frames_in; rewrite ek; reflexivity).
      assert (p3 : Forall (ptag now a k) l3).
      { revert f3. apply Forall_impl. intros g hg. apply (ftag_ptag now a (p_addr p1)); [|rewrite efs; exact hg].
        intros ht. apply ha1. unfold is_short. rewrite ht. reflexivity. }
      assert (k3 : k_ty k = TZero -> Forall keeps l3).
      { intros ht. revert f3. apply Forall_impl. intros g hg. rewrite ht in hg. destruct g; cbn in *; tauto. }
      assert (k2 : Forall keeps l2) by (revert f2; apply Forall_impl; intros g (o & ->); exact I).
      assert (kall : k_ty k = TZero -> h_zkey (x_hs c) = true -> x_held c3 = x_held c /\ h_zkey (x_hs c3) = true /\ Forall nohold (l0 ++ l1 ++ l2 ++ l3)).
      { intros h1 h2. destruct (via_keeps _ _ _ v2 k2) as (hh2 & hk2). destruct (via_keeps _ _ _ v3 (k3 h1)) as (hh3 & hk3).
        split; [rewrite hh3, hh2, hh1; exact hh0|]. split; [rewrite hk3, hk2, hk1, hk0; exact h2|].
        apply Forall_app; split; [exact nh0|]. apply Forall_app; split; [apply keeps_nohold; exact k1|].
        apply Forall_app; split; apply keeps_nohold; auto. }
      assert (vall : via (l0 ++ l1 ++ l2 ++ l3) c c3) by exact (via_app _ _ _ _ _ v0 (via_app _ _ _ _ _ v1 (via_app _ _ _ _ _ v2 v3))).
      assert (pall : Forall (ptag now a k) (l0 ++ l1 ++ l2 ++ l3)) by (repeat (apply Forall_app; split); assumption).
      assert (qall : forall d, sumz (queued d) (l0 ++ l1 ++ l2 ++ l3) + sumz (held_asks d) (l0 ++ l1 ++ l2 ++ l3) <= asks d k).
      { intros d. rewrite !sumz_app, !z0, !z2 by reflexivity. destruct (q1 d) as [-> ->]. rewrite (held_frames _ _ _ _ d _ f3).
        specialize (q3 d). unfold asks. rewrite efs. lia. }
      assert (gall : forall a0, 0 <= k_len k -> 0 <= g_factor (x_cfg c) -> sumz (gain (g_factor (x_cfg c)) a0) (l0 ++ l1 ++ l2 ++ l3) <= if aeqb a a0 then worth pid k * g_factor (x_cfg c) else 0).
      { intros a0 h1 h2. rewrite !sumz_app, z0, z2 by reflexivity. rewrite (gain_frames _ _ _ _ _ _ _ f3). specialize (gb1 a0 h1 h2). lia. }
      destruct r3 as [[]|e|]; [| |destruct (n3 eq_refl)].
      2: { injection h as <- <-. split; [discriminate|]. exists (l0 ++ l1 ++ l2 ++ l3). split; [exact vall|]. split; [exact pall|]. split; [exact qall|]. split; [exact gall|]. split; [discriminate|exact kall]. }
      destruct (finish_recv now (k_ty k) i pn (forallb is_probing fs) c3) as [r4 c4] eqn:e4.
      assert (hl3 : (i < length (x_paths c3))%nat).
      { rewrite (map_len _ _ (via_addr _ _ _ v3 (ftag_noadd _ _ _ _ _ f3))). apply nth_lt in hp2. exact hp2. }
      destruct (finish_via _ _ _ _ _ _ _ _ e4 hl3) as (l4 & v4 & f4 & n4).
      assert (vf : via ((l0 ++ l1 ++ l2 ++ l3) ++ l4) c c4) by exact (via_app _ _ _ _ _ vall v4).
      assert (pf : Forall (ptag now a k) ((l0 ++ l1 ++ l2 ++ l3) ++ l4)).
      { apply Forall_app. split; [exact pall|]. revert f4. apply Forall_impl. intros g. apply fintag_ptag. unfold opened. rewrite ek. exact I. }
      assert (k4 : Forall keeps l4) by (revert f4; apply Forall_impl; intros g hg; destruct g; cbn in *; tauto).
      assert (kf : k_ty k = TZero -> h_zkey (x_hs c) = true -> x_held c4 = x_held c /\ h_zkey (x_hs c4) = true /\ Forall nohold ((l0 ++ l1 ++ l2 ++ l3) ++ l4)).
      { intros h1 h2. destruct (kall h1 h2) as (ha & hb & hc). destruct (via_keeps _ _ _ v4 k4) as (hh4 & hk4).
        split; [rewrite hh4; exact ha|]. split; [rewrite hk4; exact hb|]. apply Forall_app. split; [exact hc|]. apply keeps_nohold. exact k4. }
      assert (el4 : l_err (x_life c4) = None).
      { rewrite <- (o3 eq_refl). clear -f4 v4. revert f4. induction v4 as [|g l c c' hg v ih]; intros f4; [reflexivity|].
        inversion f4 as [|? ? h1 h2]; subst. rewrite ih by exact h2. destruct g; cbn in h1; try tauto; try reflexivity.
        - cbn [tapply]. unfold restart_idle. destruct (idle_timeout c); reflexivity.
        - cbn [tapply]. destruct (migrated_same i c) as (_ & _ & -> & _). reflexivity. }
      assert (qf : forall d, sumz (queued d) ((l0 ++ l1 ++ l2 ++ l3) ++ l4) + sumz (held_asks d) ((l0 ++ l1 ++ l2 ++ l3) ++ l4) <= asks d k).
      { intros d. rewrite (sumz_app _ _ l4), (sumz_app _ _ l4). destruct (queued_fin _ _ d _ f4) as [-> ->]. specialize (qall d). lia. }
      assert (gf : forall a0, 0 <= k_len k -> 0 <= g_factor (x_cfg c) -> sumz (gain (g_factor (x_cfg c)) a0) ((l0 ++ l1 ++ l2 ++ l3) ++ l4) <= if aeqb a a0 then worth pid k * g_factor (x_cfg c) else 0).
      { intros a0 h1 h2. rewrite (sumz_app _ _ l4), (gain_fin _ _ _ _ _ f4). specialize (gall a0 h1 h2). lia. }
      destruct r4 as [[]|e|]; [| |destruct (n4 eq_refl)]; injection h as <- <-; (split; [discriminate|]); eexists;
        (split; [exact vf|]); (split; [exact pf|]); (split; [exact qf|]); (split; [exact gf|]); (split; [|exact kf]); [|discriminate].
      intros v hv. injection hv as <-. auto.
Qed.
