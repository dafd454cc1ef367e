(** C41, C42, C46: what a connection may send before the client is validated, how it
    ends, and how it answers path challenges. *)
Require Import Verif.Base Verif.Errors Verif.LifeModel Verif.LifeMicro Verif.LifeMicro2 Verif.LifeMicro3 Verif.LifeMicro4 Verif.LifeSpec Verif.LifeProofs1 Verif.LifeProofs2 Verif.LifeProofs3 Verif.LifeProofs4 Verif.LifeProofs5 Verif.LifeProofs6 Verif.LifeProofs7.

Lemma new_zheld g h a retry : zheld (conn_new g h a retry).
Proof. constructor. Qed.
Lemma run_app : forall o1 o2 c t c', run (o1 ++ o2) c = (t, c') -> exists t1 t2 c1, run o1 c = (t1, c1) /\ run o2 c1 = (t2, c') /\ t = t1 ++ t2.
Proof.
  induction o1 as [|o o1 ih]; intros o2 c t c' h; cbn [app run] in *; [exists [], t, c; auto|].
  destruct (step o c) as [y c1]. destruct (run (o1 ++ o2) c1) as [t0 c2] eqn:e. injection h as <- <-.
  destruct (ih _ _ _ _ e) as (t1 & t2 & c3 & h1 & h2 & ->). exists ((o, y) :: t1), t2, c3. rewrite h1. auto.
Qed.

Lemma run_cfg : forall ops c t c', run ops c = (t, c') -> zheld c -> x_cfg c' = x_cfg c.
Proof.
  induction ops as [|o ops ih]; intros c t c' h hz; cbn [run] in h; [injection h as <- <-; reflexivity|].
  destruct (step o c) as [y c1] eqn:e1. destruct (run ops c1) as [t2 c2] eqn:e2. injection h as <- <-.
  rewrite (ih _ _ _ e2 (step_zheld _ _ _ _ e1 hz)). exact (step_cfg _ _ _ _ e1 hz).
Qed.

(** ** C41: the anti-amplification limit *)
(** The whole claim, for an address not validated by a Retry. *)
Definition amplification_limited : Prop := forall g h a0 retry ops t c a,
  g_server g = true -> 0 <= g_factor g -> sane ops -> retry = false \/ a <> a0 -> run ops (conn_new g h a0 retry) = (t, c) -> unproven t a ->
  tx_datagrams a t <= g_factor g * rx a t.
Lemma phi_none f a c : by_addr a (x_paths c) = None -> x_held c = [] -> phi f a c = 0.
Proof.
  intros h1 h2. unfold phi, held_bytes. rewrite h2. cbn.
  assert (e : forall l, (forall p, In p l -> p_addr p <> a) -> sum_of (wb a) l = 0).
  { induction l as [|p l ih]; intros hl; [reflexivity|]. cbn [sum_of]. rewrite ih by (intros q hq; apply hl; right; exact hq).
    assert (hp : wb a p = 0) by (unfold wb; destruct (aeqb (p_addr p) a) eqn:ea; [|reflexivity]; apply aeqb_eq in ea; destruct (hl p (or_introl eq_refl) ea)). lia. }
  rewrite e; [lia|]. intros p hp. exact (by_addr_none _ _ h1 p hp).
Qed.
Lemma phi_nonneg f a D c : 0 <= f -> inv41 a D c -> 0 <= phi f a c.
Proof.
  intros hf (h1 & h2). unfold phi. assert (0 <= sum_of (wb a) (x_paths c)).
  { apply sum_nonneg. intros p hp. apply In_nth_error in hp as (i & hp). unfold wb. destruct (aeqb (p_addr p) a) eqn:ea; [|lia]. apply (h1 _ _ hp). apply aeqb_eq. exact ea. }
  assert (0 <= held_bytes a c). { unfold held_bytes. apply sum_nonneg. intros x hx. unfold hok in h2. rewrite Forall_forall in h2. specialize (h2 _ hx). destruct (aeqb _ _); lia. }
  nia.
Qed.
Lemma amplified g c ops t c' a D : x_cfg c = g -> g_server g = true -> 0 <= g_factor g -> sane ops -> zheld c -> phi (g_factor g) a c = 0 -> inv41 a D c -> run ops c = (t, c') -> unproven t a ->
  (forall d, D d <-> exists n, asked t a d n) -> tx a t <= g_factor g * (rx a t + rx_zero a t).
Proof.
  intros hg hs hf hsane hz hphi hi hr (hu1 & hu2) hD.
  destruct (run41 (g_factor g) a D ops c t c' hr hz hf ltac:(rewrite hg; reflexivity) ltac:(unfold server; rewrite hg; exact hs) hsane hu1) as (h1 & h2).
  - intros d hd hd2. apply hD in hd2 as (n & hd2). exact (hu2 _ _ hd2 hd).
  - intros d n hd. apply hD. eauto.
  - exact hi.
  - pose proof (phi_nonneg _ _ _ _ hf h1). nia.
Qed.
(** What is proved: the packets sent to an address, whose padding is not counted, are
    within the limit, if the bytes of 0-RTT packets, which may be held and read twice,
    are counted twice. *)
Theorem C41_packets_partial g h a0 retry ops t c a : g_server g = true -> 0 <= g_factor g -> sane ops -> retry = false \/ a <> a0 ->
  run ops (conn_new g h a0 retry) = (t, c) -> unproven t a -> tx a t <= g_factor g * (rx a t + rx_zero a t).
Proof.
  intros hs hf hsane ha hr hu. apply (amplified g (conn_new g h a0 retry) ops t c a (fun d => exists n, asked t a d n)); auto; try reflexivity; try (intros d; reflexivity).
  - apply new_zheld.
  - unfold phi, held_bytes, wb. cbn. destruct (aeqb _ _); lia.
  - split; [|constructor]. intros i p hp. destruct i as [|[|i]]; cbn in hp; [injection hp as <-|discriminate|discriminate]. intros e. cbn in e. split; [cbn; lia|]. split; [destruct ha as [->|ha]; [reflexivity|congruence]|intros x []].
Qed.
Print Assumptions C41_packets_partial.
(** The same for an address that becomes new: whatever happened before, once there is no
    path to it the limit starts over. *)
Theorem C41_new_path_partial g h a0 retry ops1 t1 c1 ops2 t2 c2 a : g_server g = true -> 0 <= g_factor g -> sane ops2 ->
  run ops1 (conn_new g h a0 retry) = (t1, c1) -> by_addr a (x_paths c1) = None -> x_held c1 = [] -> run ops2 c1 = (t2, c2) -> unproven t2 a ->
  tx a t2 <= g_factor g * (rx a t2 + rx_zero a t2).
Proof.
  intros hs hf hsane2 hr1 hb hh hr2 hu.
  assert (hg : x_cfg c1 = g) by (rewrite (run_cfg _ _ _ _ hr1 (new_zheld _ _ _ _)); reflexivity). assert (hz : zheld c1) by exact (run_zheld _ _ _ _ hr1 (new_zheld _ _ _ _)).
  apply (amplified g c1 ops2 t2 c2 a (fun d => exists n, asked t2 a d n)); auto.
  - exact (phi_none _ _ _ hb hh).
  - split; [|unfold hok; rewrite hh; constructor]. intros i p hp e. destruct (by_addr_none _ _ hb p (nth_error_In _ _ hp) e).
  - intros d. reflexivity.
Qed.
Print Assumptions C41_new_path_partial.

(** A datagram is its packets, and padding only if one of them is an Initial packet, up
    to 1200 bytes. *)
Lemma send_datagram now from to max hso os c n b ss c' : send now from to max hso os c = (Ok (n, b, ss), c') ->
  n = sum_sent ss \/ sum_sent ss < n <= 1200 /\ exists s, In s ss /\ s_ty s = TInitial.
Proof.
  unfold send. intros h. destruct (max <=? 0); [discriminate|]. destruct (is_closed c || is_draining c); [discriminate|].
  destruct (if is_some (l_err (x_life c)) then (Ok tt, c) else do_handshake hso c) as [[u|e|] c1]; try discriminate.
  destruct (replay (length (x_held c1)) now c1) as [[u1|e|] c2]; try discriminate.
  all: destruct (negb (h_ready (x_hs c2))); [discriminate|].
  all: match type of h with match ?x with _ => _ end = _ => destruct x as [i|e1|]; try discriminate end.
  all: destruct (nth_error (x_paths c2) i) as [p|]; [|discriminate].
  all: cbv zeta in h; set (left := if negb (p_ok p) && server c2 then Z.min max (p_budget p) else max) in h.
  all: destruct (send_loop now from to i left os c2) as [[ss1|e1|] c3]; try discriminate.
  all: assert (hx : n = sum_sent ss1 + (if existsb (fun s => match s_ty s with TInitial => true | _ => false end) ss1 && (0 <? left - sum_sent ss1) && (sum_sent ss1 <? MIN_INITIAL) then Z.min (left - sum_sent ss1) (MIN_INITIAL - sum_sent ss1) else 0) /\ ss = ss1) by (destruct ss1; [discriminate|]; split; congruence).
  all: clear h; destruct hx as (-> & <-).
  all: destruct (existsb (fun s => match s_ty s with TInitial => true | _ => false end) ss) eqn:ei; cbn [andb]; [|left; lia].
  all: destruct (Z.ltb_spec 0 (left - sum_sent ss)); cbn [andb]; [|left; lia]; destruct (Z.ltb_spec (sum_sent ss) MIN_INITIAL); [|left; lia]; right; unfold MIN_INITIAL in *.
  all: split; [lia|]; apply existsb_exists in ei; destruct ei as (s & h1 & h2); exists s; split; [exact h1|]; destruct (s_ty s); try discriminate; reflexivity.
Qed.
Definition no_initial (a : addr) (t : trace) : Prop := forall s, In (a, s) (all_out t) -> s_ty s <> TInitial.
Lemma tx_one a o n b ss : tx a [(o, OutSent (Ok (n, b, ss)))] = if aeqb b a then sum_sent ss else 0.
Proof.
  unfold tx, all_out. cbn [flat_map packets_out snd]. rewrite app_nil_r. induction ss as [|s ss ih]; cbn [map sum_of fst snd sum_sent fold_right] in *; [destruct (aeqb b a); reflexivity|].
  rewrite ih. fold (sum_sent ss). destruct (aeqb b a); lia.
Qed.
Lemma datagrams_plain a : forall ops c t c', run ops c = (t, c') -> no_initial a t -> tx_datagrams a t = tx a t.
Proof.
  induction ops as [|o ops ih]; intros c t c' h hn; cbn [run] in h; [injection h as <- <-; reflexivity|].
  destruct (step o c) as [y c1] eqn:e1. destruct (run ops c1) as [t2 c2] eqn:e2. injection h as <- <-.
  assert (h2 : tx_datagrams a t2 = tx a t2).
  { apply (ih _ _ _ e2). intros s hs. apply hn. unfold all_out in *. cbn [flat_map]. apply in_or_app. right. exact hs. }
  change ((o, y) :: t2) with ([(o, y)] ++ t2) at 2. rewrite tx_app. unfold tx_datagrams in *. cbn [sum_of snd]. rewrite h2. f_equal.
  destruct y as [r|r|r|e]; try reflexivity. destruct r as [[[n b] ss]|e|]; try reflexivity. rewrite tx_one. destruct (aeqb b a) eqn:eb; [|reflexivity]. apply aeqb_eq in eb. subst b.
  destruct o; cbn [step] in e1; try (match type of e1 with context[let '(_, _) := ?x in _] => destruct x end; discriminate); try discriminate.
  - destruct (send now from to max h os c) as [r c3] eqn:es. injection e1 as -> <-. destruct (send_datagram _ _ _ _ _ _ _ _ _ _ _ es) as [->|(_ & s & h3 & h4)]; [reflexivity|].
    exfalso. apply (hn s); [|exact h4]. unfold all_out. cbn [flat_map packets_out snd]. apply in_or_app. left. apply in_map. exact h3.
  - destruct (x_events c); discriminate.
Qed.
(** Whole datagrams are within the limit to an address that no Initial packet goes to. *)
Theorem C41_datagrams_partial g h a0 retry ops t c a : g_server g = true -> 0 <= g_factor g -> sane ops -> retry = false \/ a <> a0 ->
  run ops (conn_new g h a0 retry) = (t, c) -> unproven t a -> no_initial a t -> tx_datagrams a t <= g_factor g * (rx a t + rx_zero a t).
Proof. intros h1 h2 h3 h4 h5 h6 h7. rewrite (datagrams_plain a _ _ _ _ h5 h7). exact (C41_packets_partial g h a0 retry ops t c a h1 h2 h3 h4 h5 h6). Qed.
Print Assumptions C41_datagrams_partial.

(** A connection to try things on: server, factor 3, four paths, queues of 3 *)
Definition g1 : cfg := mkG true 3 4 3 30000 false.
Definition g2 : cfg := mkG false 3 4 3 30000 false.
Definition h0 : hs := mkH false false false LInitial false true 0.
Definition hz1 : hs := mkH false false true LHandshake true true 20000.
Definition hd1 : hs := mkH true true false LOne true true 20000.
Definition A : addr := (1, 2).
Definition B : addr := (1, 3).
Definition pk (t : pty) (len pn : Z) (fs : list frame) : packet := mkK t len false true (IOk true pn false fs).
Definition po (pend : option pty) (data size : Z) : pout := mkO true pend true None 1000 data 0 20 true true size false.
Definition run1 := run [ORecv 0 A [pk TInitial 1200 0 [FCrypto (HOk h0)]]; OSend 1 None None 1350 (HOk h0) [po (Some TInitial) 0 1000]; OSend 2 None None 1350 (HOk h0) [po (Some TInitial) 0 1300]] (conn_new g1 h0 A false).
Ltac known f X := let l := eval vm_compute in (f X) in let e := fresh "e" in assert (e : f X = l) by (vm_compute; reflexivity); rewrite ?e; rewrite ?e in *; clear e.
Ltac search hin := cbn [In] in hin; repeat (destruct hin as [hin|hin]; [first [discriminate|injection hin; intros; subst; try discriminate]|]); try (destruct hin).
Ltac none_proven X := split; [intros ? ? hin; known all_in X; search hin | intros ? ? (? & hin & hs & _); known all_out X; search hin].
Ltac none_heard X := split; [intros ? ? hin; known all_in X; search hin | intros ? ? _ (? & ? & hin & _ & hs); known all_in X; search hin; cbn in hs; search hs].
Ltac none_initial X := intros ? hin; known all_out X; search hin.
Example C41_witness : unproven (fst run1) A /\ tx A (fst run1) = 2300 /\ rx A (fst run1) = 1200 /\ rx_zero A (fst run1) = 0.
Proof. split; [none_proven (fst run1)|]. vm_compute. auto. Qed.
Definition run1n := run [ORecv 0 A [pk TShort 50 0 [FCrypto (HOk hd1); FNewCid 1]]; ORecv 1 B [pk TShort 60 1 [FChallenge 5]]; OSend 2 (Some 1) (Some 3) 1350 (HOk hd1) [po None 77 170]; OSend 3 (Some 1) (Some 3) 1350 (HOk hd1) [po None 78 10]; OSend 3 (Some 1) (Some 3) 1350 (HOk hd1) [po None 78 11]] (conn_new g1 h0 A false).
Example C41_new_path_witness : unproven (fst run1n) B /\ no_initial B (fst run1n) /\ tx_datagrams B (fst run1n) = 180 /\ rx B (fst run1n) = 60.
Proof.
  split; [none_heard (fst run1n)|]. split; [none_initial (fst run1n)|]. vm_compute. auto.
Qed.

(** The whole claim does not hold: the padding of a datagram with an Initial packet is
    never taken from the limit, so that four such datagrams pass three times the 1200
    bytes received. *)
Theorem C41_padding_refuted : ~ amplification_limited.
Proof.
  intros h. set (ops := ORecv 0 A [pk TInitial 1200 0 [FCrypto (HOk h0)]] :: repeat (OSend 1 None None 1350 (HOk h0) [po (Some TInitial) 0 100]) 4).
  assert (hsn : sane ops) by (repeat constructor; cbn; lia). assert (hu : unproven (fst (run ops (conn_new g1 h0 A false))) A) by none_proven (fst (run ops (conn_new g1 h0 A false))).
  pose proof (h g1 h0 A false ops _ _ A eq_refl ltac:(cbn; lia) hsn (or_introl eq_refl) (surjective_pairing _) hu) as hl.
  assert (e1 : tx_datagrams A (fst (run ops (conn_new g1 h0 A false))) = 4800) by (vm_compute; reflexivity). assert (e2 : g_factor g1 * rx A (fst (run ops (conn_new g1 h0 A false))) = 3600) by (vm_compute; reflexivity). lia.
Qed.
(** Nor without padding: a 0-RTT packet that waits for its key is counted when it arrives
    and again when it is read. *)
Theorem C41_replay_refuted : exists ops, sane ops /\ let t := fst (run ops (conn_new g1 h0 A false)) in unproven t A /\ no_initial A t /\ g_factor g1 * rx A t < tx_datagrams A t.
Proof.
  set (ops := [ORecv 0 A [pk TInitial 200 0 [FCrypto (HOk h0)]]; ORecv 0 A [pk TZero 1000 0 [FOther false]]; ORecv 1 A [pk TInitial 200 1 [FCrypto (HOk hz1)]]] ++ repeat (OSend 2 None None 1350 (HOk hz1) [po (Some THandshake) 0 1200]) 5).
  exists ops. split; [repeat constructor; cbn; lia|]. cbv zeta. split; [none_proven (fst (run ops (conn_new g1 h0 A false)))|]. split; [none_initial (fst (run ops (conn_new g1 h0 A false)))|]. vm_compute. reflexivity.
Qed.

(** ** C42: how a connection ends *)
(** Closed is for ever, and silent. *)
Theorem C42_closed g h a0 retry ops1 t1 c ops2 t2 c' : run ops1 (conn_new g h a0 retry) = (t1, c) -> is_closed c = true -> run ops2 c = (t2, c') ->
  is_closed c' = true /\ all_out t2 = [].
Proof. intros h1 h2 h3. exact (run_closed _ _ _ _ h3 (run_zheld _ _ _ _ h1 (new_zheld _ _ _ _)) h2). Qed.
Print Assumptions C42_closed.
(** Draining is for ever and silent, and its end is fixed. *)
Theorem C42_draining g h a0 retry ops1 t1 c ops2 t2 c' x : run ops1 (conn_new g h a0 retry) = (t1, c) -> l_drain (x_life c) = Some x -> run ops2 c = (t2, c') ->
  l_drain (x_life c') = Some x /\ all_out t2 = [].
Proof. intros h1 h2 h3. exact (run_drain _ _ _ _ _ h3 (run_zheld _ _ _ _ h1 (new_zheld _ _ _ _)) h2). Qed.
Print Assumptions C42_draining.
(** When the end comes on_timeout closes the connection, and not before. *)
Theorem C42_drained c x now timers : is_closed c = false -> l_drain (x_life c) = Some x -> timeout_instant c = Some x /\ is_closed (on_timeout now timers c) = (x <=? now).
Proof. intros h1 h2. unfold timeout_instant, on_timeout, is_closed in *. rewrite h1, h2. split; [reflexivity|]. destruct (x <=? now); [reflexivity|exact h1]. Qed.
Print Assumptions C42_drained.
(** A connection that is closed, draining, or has an error of its own to report reads no
    packets: all that may change is that it is closed by a stateless reset, and what an
    address not validated may be sent. *)
Theorem C42_deaf now a ks c r c' : is_closed c = true \/ is_draining c = true \/ l_err (x_life c) <> None -> recv now a ks c = (r, c') ->
  (r = Ok tt \/ r = Err BufferTooShort) /\ untouched c c'.
Proof.
  intros h hr. refine (halted_recv _ _ _ _ _ _ _ hr). unfold halted. destruct h as [-> |[-> |h]]; [reflexivity|rewrite orb_true_r; reflexivity|]. destruct (l_err (x_life c)); [apply orb_true_r|congruence].
Qed.
Print Assumptions C42_deaf.
(** The first error of our own is kept. *)
Theorem C42_error g h a0 retry ops1 t1 c ops2 t2 c' e : run ops1 (conn_new g h a0 retry) = (t1, c) -> l_err (x_life c) = Some e -> run ops2 c = (t2, c') -> l_err (x_life c') = Some e.
Proof. intros h1 h2 h3. exact (run_err _ _ _ _ _ h3 (run_zheld _ _ _ _ h1 (new_zheld _ _ _ _)) h2). Qed.
Print Assumptions C42_error.
(** It is what the one close frame says, if any is sent. *)
Theorem C42_once g h a0 retry ops t c : run ops (conn_new g h a0 retry) = (t, c) ->
  closes t = [] \/ exists e, closes t = [e] /\ l_err (x_life c) = Some e /\ is_draining c = true.
Proof. intros h1. exact (run_closes _ _ _ _ h1 (new_zheld _ _ _ _)). Qed.
Print Assumptions C42_once.
(** An error from recv ends the connection, unless there was nothing to receive. *)
Theorem C42_fatal now a ks c e c' : recv now a ks c = (Err e, c') ->
  total ks = 0 /\ e = BufferTooShort /\ c' = c \/ is_closed c' = true \/ is_draining c' = true \/ l_err (x_life c') <> None.
Proof.
  intros h. destruct (recv_err _ _ _ _ _ _ h) as [h1|h1]; [auto|]. right. unfold halted in h1. destruct (is_closed c'); [auto|]. destruct (is_draining c'); [auto|]. right. right. destruct (l_err (x_life c')); [discriminate|discriminate].
Qed.
Print Assumptions C42_fatal.
(** The error is in the first packet on the active path with room for it; an
    application's error only goes into 1-RTT packets. *)
Theorem C42_reported now i avail o c s c' p e : send_single now i avail o c = (Ok s, c') -> nth_error (x_paths c) i = Some p -> active p = true ->
  l_err (x_life c) = Some e -> (fst (fst e) = true -> s_ty s = TShort) -> 9 * zlen (p_queue p) + 9 + o_mid o + o_clen o <= o_room o ->
  s_close s = Some e /\ l_drain (x_life c') = Some (now + p_pto p * 3).
Proof. exact (close_sent now i avail o c s c' p e). Qed.
Print Assumptions C42_reported.
(** Nothing panics. *)
Theorem C42_no_panic g h a0 retry ops t c : run ops (conn_new g h a0 retry) = (t, c) ->
  Forall (fun x => snd x <> OutUnit Panic /\ snd x <> OutSeq Panic /\ snd x <> OutSent Panic) t.
Proof.
  intros hr. pose proof (new_zheld g h a0 retry) as hz. revert hr hz. generalize (conn_new g h a0 retry). revert t c.
  induction ops as [|o ops ih]; intros t c c0 hr hz; cbn [run] in hr; [injection hr as <- _; constructor|].
  destruct (step o c0) as [y c1] eqn:e1. destruct (run ops c1) as [t2 c2] eqn:e2. injection hr as <- <-.
  constructor; [|exact (ih _ _ _ e2 (step_zheld _ _ _ _ e1 hz))]. destruct (step_via _ _ _ _ e1 hz) as (hp & _). unfold out_panics in hp. cbn [snd]. tauto.
Qed.
Print Assumptions C42_no_panic.
Definition c_open := snd (run [ORecv 0 A [pk TShort 50 0 [FCrypto (HOk hd1)]]; ORecovery 0 (Some 500) 10 3] (conn_new g1 h0 A false)).
Example C42_witness : is_closed c_open = false /\
  let c1 := snd (step (OClose true 7 [1; 2]) c_open) in l_err (x_life c1) = Some (true, 7, [1; 2]) /\
  let '(t, c2) := run [OSend 100 None None 1350 (HOk hd1) [po None 0 60]; OClose false 9 []; ORecv 110 A [pk TShort 40 3 [FOther false]]; OSend 120 None None 1350 (HOk hd1) [po None 0 60]] c1 in
  closes t = [(true, 7, [1; 2])] /\ l_drain (x_life c2) = Some 130 /\ length (all_out t) = 1%nat /\ is_closed (on_timeout 129 [] c2) = false /\ is_closed (on_timeout 130 [] c2) = true.
Proof. vm_compute. auto 10. Qed.
(** A client that closes with an error of its application while in early data tells no
    one: its 0-RTT packets have room but no close frame in them, and since it no longer
    reads packets it will have no others. *)
Theorem C42_early_close_refuted : exists ops c t c', run ops (conn_new g2 (mkH false false true LInitial false true 0) A false) = (t, c') /\ c = snd (run (removelast ops) (conn_new g2 (mkH false false true LInitial false true 0) A false)) /\
  l_err (x_life c) = Some (true, 7, []) /\ is_draining c = false /\ (exists n s, last t (OEvent, OutEvent None) = (OSend 3 None None 1350 (HOk hd1) [mkO true None true None 1000 0 0 20 true true 60 false], OutSent (Ok (n, A, [s]))) /\ s_ty s = TZero) /\ closes t = [] /\
  forall now a ks, is_draining (snd (recv now a ks c')) = false /\ x_hs (snd (recv now a ks c')) = x_hs c'.
Proof.
  exists [ORecv 0 A [pk TInitial 100 0 [FOther false]]; OClose true 7 []; OSend 3 None None 1350 (HOk hd1) [mkO true None true None 1000 0 0 20 true true 60 false]].
  eexists. eexists. eexists. split; [vm_compute; reflexivity|]. split; [reflexivity|]. split; [vm_compute; reflexivity|]. split; [vm_compute; reflexivity|].
  split; [eexists; eexists; split; [vm_compute; reflexivity|reflexivity]|]. split; [reflexivity|].
  intros now a ks. match goal with |- context[recv now a ks ?c] => set (c0 := c); destruct (recv now a ks c0) as [r c'] eqn:e; destruct (C42_deaf now a ks c0 r c') as (_ & h); [right; right; subst c0; discriminate|exact e|] end.
  destruct h as (_ & h1 & _ & _ & _ & _ & _ & h2 & _). cbn [snd]. split; [unfold is_draining; rewrite h2; reflexivity|exact h1].
Qed.

(** ** C46: path challenges are answered once, with their data *)
Theorem C46_once g h a0 retry ops t c d : run ops (conn_new g h a0 retry) = (t, c) -> responses_to d t <= challenges d t.
Proof.
  intros hr. pose proof (run46 d _ _ _ _ hr (new_zheld _ _ _ _)) as h1. pose proof (psi_nonneg (fun _ => true) d c) as h2.
  assert (h3 : psi (fun _ => true) d (conn_new g h a0 retry) = 0) by reflexivity. lia.
Qed.
Print Assumptions C46_once.
(** Where it came from, if no 0-RTT packet carries it *)
Theorem C46_there g h a0 retry ops t c d a : run ops (conn_new g h a0 retry) = (t, c) -> no_zero_challenge d t -> responses_sent_to a d t <= challenges_from a d t.
Proof.
  intros hr hn. pose proof (run46_at a d _ _ _ _ hr (new_zheld _ _ _ _) ltac:(intros x []) hn) as h1. pose proof (psi_nonneg (fun b => aeqb b a) d c) as h2.
  assert (h3 : psi (fun b => aeqb b a) d (conn_new g h a0 retry) = 0) by (unfold psi, wq; cbn; destruct (aeqb _ _); reflexivity). lia.
Qed.
Print Assumptions C46_there.
(** The challenges that wait are never more than the configuration allows. *)
Theorem C46_bounded g h a0 retry ops t c p : 0 <= g_qlen g -> run ops (conn_new g h a0 retry) = (t, c) -> In p (x_paths c) -> zlen (p_queue p) <= g_qlen g.
Proof.
  intros h0 hr hp. assert (hgen : forall ops c t c', run ops c = (t, c') -> zheld c -> x_cfg c = g -> qok (g_qlen g) c -> qok (g_qlen g) c').
  { induction ops0 as [|o ops0 ih]; intros c1 t1 c1' h1 hz hc hq; cbn [run] in h1; [injection h1 as <- <-; exact hq|].
    destruct (step o c1) as [y c2] eqn:e1. destruct (run ops0 c2) as [t3 c3] eqn:e2. injection h1 as <- <-.
    apply (ih _ _ _ e2 (step_zheld _ _ _ _ e1 hz)); [rewrite (step_cfg _ _ _ _ e1 hz); exact hc|]. destruct (step_via _ _ _ _ e1 hz) as (_ & l & hv & _). clear - hv hc hq h0.
    induction hv as [|g9 l c c' hg hv ih]; [exact hq|]. apply ih; [rewrite tapply_cfg; exact hc|]. apply qok_tag; auto. rewrite hc. reflexivity. }
  apply In_nth_error in hp as (i & hp). refine (hgen _ _ _ _ hr (new_zheld _ _ _ _) eq_refl _ i p hp). intros j q hq. destruct j as [|[|j]]; cbn in hq; [injection hq as <-; cbn; exact h0|discriminate|discriminate].
Qed.
Print Assumptions C46_bounded.
(** A 1-RTT packet with room for them answers all the challenges that wait on its path,
    in order. *)
Lemma responses_all : forall q room, 9 * zlen q <= room -> exists r, responses room q = (q, [], r).
Proof.
  induction q as [|d q ih]; intros room h; cbn [responses]; [eauto|]. rewrite zlen_cons9 in h. pose proof (zlen_nonneg q). destruct (Z.leb_spec 9 room); [|lia].
  destruct (ih (room - 9) ltac:(lia)) as (r & ->). eauto.
Qed.
Theorem C46_answered now i avail o c s c' p : send_single now i avail o c = (Ok s, c') -> nth_error (x_paths c) i = Some p -> s_ty s = TShort -> 9 * zlen (p_queue p) <= o_room o ->
  s_resp s = p_queue p /\ exists p', nth_error (x_paths c') i = Some p' /\ p_queue p' = [].
Proof.
  intros h hp ht hroom. unfold send_single in h. destruct (avail <=? 0); [discriminate|]. destruct (is_draining c); [discriminate|]. rewrite hp in h.
  destruct (pkt_type o p c) as [t| |]; try discriminate. destruct (negb _); [discriminate|]. destruct (_ || _) in h; [discriminate|]. destruct (o_fail o); [discriminate|].
  destruct (responses_all _ _ hroom) as (r & er).
  assert (et : t = TShort).
  { destruct (if match t with TShort => true | _ => false end then responses (o_room o) (p_queue p) else ([], p_queue p, o_room o)) as [[rs q] room].
    cbv zeta in h. match type of h with (if ?b then _ else _) = _ => destruct b end; [discriminate|]. injection h as <- _. exact ht. }
  subst t. rewrite er in h. cbv zeta in h.
  set (c1 := up i (set_queue []) c) in h. assert (h1 : exists p', nth_error (x_paths c1) i = Some p' /\ p_queue p' = []) by (exists (set_queue [] p); split; [apply upd_same; exact hp|reflexivity]).
  clearbody c1. set (ch := if _ && _ && _ then Some (o_data o) else None) in h. clearbody ch. set (cl := if active p || _ then _ else None) in h. clearbody cl.
  set (c2 := if is_some cl then _ else c1) in h. assert (h2 : exists p', nth_error (x_paths c2) i = Some p' /\ p_queue p' = []) by (subst c2; destruct (is_some cl); exact h1). clearbody c2.
  match type of h with (if ?b then _ else _) = _ => destruct b end; [discriminate|].
  set (c3 := match ch with Some d => _ | None => c2 end) in h.
  assert (h3 : exists p', nth_error (x_paths c3) i = Some p' /\ p_queue p' = []).
  { subst c3. destruct ch; [|exact h2]. destruct h2 as (p' & e1 & e2). eexists. split; [apply upd_same; exact e1|]. unfold add_challenge, promote_to. destruct (_ <? _); exact e2. }
  clearbody c3. destruct h3 as (p3 & e1 & e2). injection h as <- <-. cbn [s_resp]. split; [reflexivity|]. exists (set_budget (sat_sub (p_budget p3) (o_size o)) p3). split; [|exact e2].
  assert (hr : forall n c9, x_paths (restart_idle n c9) = x_paths c9) by (intros n c9; unfold restart_idle; destruct (idle_timeout c9); reflexivity).
  match goal with |- nth_error (x_paths ?x) i = _ => assert (e : x_paths x = x_paths (up i (fun p => set_budget (sat_sub (p_budget p) (o_size o)) p) c3)) end.
  { repeat match goal with |- context[if ?b then _ else _] => destruct b end; cbn [w_aes x_paths]; rewrite ?hr; reflexivity. }
  rewrite e. exact (upd_same (fun p => set_budget (sat_sub (p_budget p) (o_size o)) p) _ _ _ e1).
Qed.
Print Assumptions C46_answered.
Definition run46w := run [ORecv 0 A [pk TShort 50 0 [FCrypto (HOk hd1); FChallenge 5; FChallenge 6]]; OSend 2 None None 1350 (HOk hd1) [po None 77 60]; OSend 3 None None 1350 (HOk hd1) [po None 77 60]] (conn_new g1 h0 A false).
Example C46_witness : all_out (fst run46w) = [(A, mkS TShort 60 [5; 6] None None); (A, mkS TShort 60 [] None None)].
Proof. vm_compute. auto. Qed.
(** A challenge that does not fit into the packet being sent is not answered at all: it
    has left the queue when that is found out. *)
Theorem C46_lost_refuted : exists ops t c d, run ops (conn_new g1 h0 A false) = (t, c) /\ challenges d t = 1 /\ responses_to d t = 0 /\ all_out t <> [] /\ Forall (fun p => p_queue p = []) (x_paths c).
Proof.
  exists [ORecv 0 A [pk TShort 50 0 [FCrypto (HOk hd1); FChallenge 5]]; OSend 2 None None 1350 (HOk hd1) [mkO true None false None 8 0 0 20 true true 60 false]].
  eexists. eexists. exists 5. split; [vm_compute; reflexivity|]. repeat split; try reflexivity; [discriminate|repeat constructor].
Qed.
