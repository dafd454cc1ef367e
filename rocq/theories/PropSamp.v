(** C90: the bandwidth samples that drive BBR2, over every history. *)
Require Import Verif.Base Verif.BwModel Verif.SampModel Verif.SampSpec Verif.SampProofs Verif.SampOrder Verif.SampBytes Verif.SampRest Verif.SampPoints.

(** C90: the counters are what was sent, acknowledged while outstanding, reported
    lost, and forgotten; and no more is acknowledged and forgotten than was sent:
    no packet counts twice. *)
Theorem C90_totals c t0 h s : (forall x, x <= sc_scale c x) -> instant t0 -> sensible h -> sp_after_all c t0 h = Ok s ->
  sp_sent s = sent_total h /\ sp_acked s = acked_total h /\ sp_lost s = lost_total h /\ sp_neut s = neut_total h /\
  acked_total h + neut_total h <= sent_total h.
Proof.
  intros hsc ht hs e. pose proof (all_J c t0 h hsc ht hs) as k. rewrite e in k. pose proof (acked_le_sent h hs). destruct k. repeat split; auto; lia.
Qed.
Print Assumptions C90_totals.

(** C90: nothing panics, unless a rate does not fit in 64 bits, which takes more
    than 2.3 gigabytes. *)
Theorem C90_no_panic c t0 h : (forall x, x <= sc_scale c x) -> instant t0 -> sensible h ->
  sp_after_all c t0 h <> Panic /\ (8 * sent_total h * 1000000000 <= u64_max -> exists s, sp_after_all c t0 h = Ok s).
Proof.
  intros hsc ht hs. pose proof (all_J c t0 h hsc ht hs) as k. pose proof (acked_le_sent h hs). unfold huge in k.
  destruct (sp_after_all c t0 h) as [s| |]; [split; [discriminate|eauto]| |destruct k]. split; [discriminate|]. intros hl. exfalso. lia.
Qed.
Print Assumptions C90_no_panic.

(** C90: with the default settings, the sample an acknowledgment gives is the
    smaller of two rates: the bytes acknowledged since the packet was sent, over
    the time since the last news before that (its own sending, if nothing was in
    flight); and the bytes sent since the packet that was then acknowledged last,
    over the time between the two sendings.  There is none for a packet not
    outstanding, nor when no time has passed. *)
Theorem C90_sample c t0 h s now n s' r : (forall x, x <= sc_scale c x) -> instant t0 -> sensible (SAcked now n :: h) -> sc_avoid c = false ->
  sp_after_all c t0 h = Ok s -> sp_on_acked c now n s = Ok (s', r) ->
  match open_ n h with
  | None => r = None
  | Some q =>
      let ack := rate_of (acked_total (SAcked now n :: h) - acked_total q) (now - news t0 q) in
      let send := rate_of (sent_total q - snd (flagged t0 q)) (head_time q - fst (flagged t0 q)) in
      match r with
      | None => now <= news t0 q
      | Some r => news t0 q < now /\ bs_ack r = ack /\ bs_rtt r = Z.max 0 (now - head_time q) /\ bs_state r = describe t0 q /\
          (if fst (flagged t0 q) <? head_time q then bs_bw r = Z.min send ack /\ bs_send r = Some send else bs_bw r = ack /\ bs_send r = None)
      end
  end.
Proof.
  intros hsc ht hs hav e er. pose proof (all_J c t0 h hsc ht (sensible_tl _ _ hs)) as k. rewrite e in k. pose proof (acked_J c t0 h s now n k ht hs) as ka. rewrite er in ka.
  destruct ka as (_ & ka). destruct (open_ n h) as [q|]; [|exact ka]. destruct ka as (_ & ka). unfold start_point in ka. rewrite hav in ka. cbn [ap_time ap_bytes] in ka. subst r.
  destruct (now <=? news t0 q) eqn:E1; [lia|]. cbn [bs_ack bs_rtt bs_state bs_bw bs_send]. split; [lia|]. split; [reflexivity|]. split; [unfold sat_sub; lia|]. split; [reflexivity|].
  unfold send_rate_of. destruct (_ <? _); auto.
Qed.
Print Assumptions C90_sample.

(** C90: with avoidance of overestimates, the acknowledgment rate is the slope from
    a point at which that much had been acknowledged; with the fix to its choice,
    and acknowledgments in order, that much was acknowledged before the packet was
    sent. *)
Theorem C90_sample_avoidance c t0 h s now n s' r q : (forall x, x <= sc_scale c x) -> instant t0 -> sensible (SAcked now n :: h) -> sc_avoid c = true ->
  sp_after_all c t0 h = Ok s -> sp_on_acked c now n s = Ok (s', Some r) -> open_ n h = Some q ->
  exists a, (In a (ack_line h) \/ a = mkAp (news t0 q) (acked_total q)) /\ ap_time a < now /\ ap_bytes a <= acked_total (SAcked now n :: h) /\
    bs_ack r = rate_of (acked_total (SAcked now n :: h) - ap_bytes a) (now - ap_time a) /\ bs_bw r <= bs_ack r /\
    (forall x, bs_send r = Some x -> bs_bw r <= x) /\
    (sc_fix c = true -> in_order (SAcked now n :: h) -> ap_bytes a <= acked_total q).
Proof.
  intros hsc ht hs hav e er eq. pose proof (sensible_tl _ _ hs) as h1. pose proof (all_J c t0 h hsc ht h1) as k. rewrite e in k.
  pose proof (acked_J c t0 h s now n k ht hs) as ka. rewrite er, eq in ka. destruct ka as (_ & kb & ka). exists (start_point t0 c s q).
  split; [|split; [|split; [exact kb|]]].
  - unfold start_point. rewrite hav. destruct (choose_a0 _ _ _) as (a & l) eqn:Ec. destruct (choose_in _ _ _ _ _ Ec) as (_ & c2 & _). cbn [fst].
    destruct a as [a|]; [left; apply (jcands _ _ _ _ k hav); auto|auto].
  - destruct (now <=? _) eqn:E; [discriminate|lia].
  - destruct (now <=? _) eqn:E; [discriminate|]. injection ka as ->. cbn [bs_ack bs_bw bs_send]. split; [reflexivity|]. split; [destruct (send_rate_of t0 q); lia|].
    split; [intros x ex; rewrite ex; lia|]. intros hfx ho. pose proof (all_K c t0 h s hsc ht hav hfx h1 (in_order_tl _ _ ho) e) as kk. destruct ho as (o1 & _).
    pose proof (k_le _ _ kk n q eq o1) as hle. unfold start_point. rewrite hav, hfx. destruct (choose_a0 _ _ _) as (a & l) eqn:Ec.
    destruct (choose_fix _ _ _ _ hle Ec) as (_ & x & -> & hx). exact hx.
Qed.
Print Assumptions C90_sample_avoidance.

(** C90: a congestion event counts its losses and acknowledgments in that order,
    and reports the largest of its samples, whether that one was limited by the
    application, and the shortest round trip. *)
Theorem C90_event c t0 h s now acked lost max_bw bound s' e : sp_after_all c t0 h = Ok s -> acked <> [] ->
  sp_event c now acked lost max_bw bound s = Ok (s', e) ->
  exists s1 s2 rs bw, sp_after_all c t0 (event_history now [] lost h) = Ok s1 /\ samples c now acked s1 = Ok (s2, rs) /\
    sp_after_all c t0 (event_history now acked lost h) = Ok s2 /\ sp_after_all c t0 (SEnd bw :: event_history now acked lost h) = Ok s' /\
    bw <= bound /\
    match es_bw e with
    | None => rs = [] /\ es_rtt e = None
    | Some b => (forall r, In r rs -> bs_bw r <= b) /\ (exists r, In r rs /\ bs_bw r = b /\ es_app e = bp_app (bs_state r)) /\
        exists m, es_rtt e = Some m /\ (forall r, In r rs -> m <= bs_rtt r) /\ (exists r, In r rs /\ bs_rtt r = m) /\ Z.min b bound <= bw
    end.
Proof.
  intros e0 hne e1. unfold sp_event in e1. destruct (sp_losses lost None s) as (s1 & l) eqn:El. destruct acked as [|n acked]; [congruence|]. set (ack := n :: acked) in *.
  pose proof (losses_hist c t0 h s lost None s1 l e0 El) as h1. destruct (sp_acks c now ack None es_none s1) as [((s2, a), e2)| |] eqn:Ea; cbn [bind] in e1; try discriminate.
  destruct (acks_reports _ _ _ _ _ _ _ _ _ Ea) as (rs & er & hr). pose proof (samples_hist c t0 _ s1 now ack s2 rs h1 er) as h2.
  set (bw := match omax (es_bw e2) max_bw with Some b => Z.min b bound | None => bound end) in *.
  destruct (sp_on_end c bw s2) as [(s3, x)| |] eqn:Ee; cbn [bind] in e1; try discriminate. injection e1 as <- <-. cbn [es_bw es_app es_rtt].
  exists s1, s2, rs, bw. split; [exact h1|]. split; [exact er|]. split; [exact h2|]. split; [cbn [sp_after_all]; unfold event_history; rewrite h2; cbn [bind sp_step]; rewrite Ee; reflexivity|].
  split; [unfold bw; destruct (omax _ _); lia|].
  destruct hr as (a1 & a2 & a3 & a4 & a5 & a6). cbn [es_none es_bw es_app es_rtt] in *. destruct (es_bw e2) as [b|] eqn:Eb.
  - split; [intros r hin; specialize (a1 r hin); cbn in a1; lia|]. destruct a3 as [(? & _)|(r & hin & e3 & e4)]; [discriminate|]. injection e3 as e3. split; [exists r; auto|].
    destruct (a4 r hin) as (m & em & hm). exists m. split; auto. split; [intros r' hin'; destruct (a4 r' hin') as (m' & em' & hm'); congruence|]. split.
    + destruct a6 as [a6|(r' & hin' & a6)]; [congruence|]. exists r'. split; auto. congruence.
    + unfold bw, omax. destruct max_bw as [mb|]; cbn [olt]; [destruct (b <? mb) eqn:E9; lia|lia].
  - assert (rs = []) as ->; [|split; auto; destruct a6 as [a6|(r' & [] & _)]; auto]. destruct rs as [|r rs]; auto. specialize (a1 r (or_introl eq_refl)). cbn in a1. discriminate.
Qed.
Print Assumptions C90_event.

(** C90: it also reports the largest rates of sending and of acknowledgment, the
    most that was acknowledged between the sending and the acknowledgment of one of
    its packets, and the state at sending of the last packet it lost or, if that has
    a larger number, of the last packet that gave a sample. *)
Theorem C90_event_rest c t0 h s now acked lost max_bw bound s' e : (forall x, x <= sc_scale c x) -> instant t0 -> instant now -> sensible h ->
  sp_after_all c t0 h = Ok s -> acked <> [] -> sp_event c now acked lost max_bw bound s = Ok (s', e) ->
  exists s1, sp_after_all c t0 (event_history now [] lost h) = Ok s1 /\
    let tr := traced c now acked (event_history now [] lost h) s1 in
    (exists s2, samples c now acked s1 = Ok (s2, map (fun x => snd (fst x)) tr)) /\
    largest (map (fun x => bs_send (snd (fst x))) tr) (es_send e) /\ largest (map (fun x => Some (bs_ack (snd (fst x)))) tr) (es_ack e) /\
    In (es_inflight e) (0 :: map inflight tr) /\ (forall w, In w (0 :: map inflight tr) -> w <= es_inflight e) /\
    es_last e = match last_of (lost_states t0 lost h) None, last_of tr None with
      | None, None => None
      | Some (_, p), None => Some p
      | None, Some (_, r, _) => Some (bs_state r)
      | Some (i, p), Some (j, r, _) => Some (if i <? j then bs_state r else p)
      end.
Proof.
  intros hsc ht hnow hs e0 hne e1. pose proof (all_J c t0 h hsc ht hs) as k. rewrite e0 in k. unfold sp_event in e1. destruct (sp_losses lost None s) as (s1 & l) eqn:El.
  destruct acked as [|n acked]; [congruence|]. set (ack := n :: acked) in *.
  pose proof (losses_hist c t0 h s lost None s1 l e0 El) as h1. pose proof (losses_rest c t0 lost h None s s1 l k El) as hl.
  change (rev (map (fun x => SLost (fst x) (snd x)) lost) ++ h) with (event_history now [] lost h) in h1.
  assert (hs1 : sensible (event_history now [] lost h)).
  { unfold event_history. cbn [map rev app]. clear - hs. revert h hs. induction lost as [|(a, b) lost IH]; intros h hs; cbn [map rev app]; auto. rewrite <- app_assoc. apply IH. exact hs. }
  pose proof (all_J c t0 _ hsc ht hs1) as k1. rewrite h1 in k1. exists s1. split; [exact h1|]. cbv zeta.
  destruct (sp_acks c now ack None es_none s1) as [((s2, a), e2)| |] eqn:Ea; cbn [bind] in e1; try discriminate.
  destruct (acks_reports _ _ _ _ _ _ _ _ _ Ea) as (rs & er & _).
  destruct (acks_rest c t0 now ack ht hnow _ _ _ _ _ _ _ k1 hs1 Ea) as (i1 & i2 & (i3 & i3') & i4 & i5).
  destruct (sp_on_end c _ s2) as [(s3, x)| |] eqn:Ee; cbn [bind] in e1; try discriminate. injection e1 as <- <-. cbn [es_send es_ack es_inflight es_last es_none] in *.
  split; [exists s2; rewrite er; rewrite (i5 _ _ er); reflexivity|]. split; [apply largest_none; exact i1|]. split; [apply largest_none; exact i2|]. split; [exact i3|]. split; [exact i3'|].
  set (tr := traced c now ack (event_history now [] lost h) s1) in *.
  assert (ea : a = option_map (fun x => (fst (fst x), bs_state (snd (fst x)))) (last_of tr None)).
  { rewrite i4. clear. change (@None (Z * bpkt)) with (option_map (fun x : Z * bsample * Z => (fst (fst x), bs_state (snd (fst x)))) None) at 1. generalize (@None (Z * bsample * Z)).
    induction tr as [|x tr IH]; intros o; [reflexivity|]. exact (IH (Some x)). }
  rewrite hl, ea. destruct (last_of (lost_states t0 lost h) None) as [(i, p)|]; destruct (last_of tr None) as [((j, r), z)|]; cbn [option_map fst snd]; auto. destruct (i <? j); auto.
Qed.
Print Assumptions C90_event_rest.

(** C90: the extra bytes acknowledged that it reports are those acknowledged in the
    current aggregation epoch beyond what the bandwidth allows, or none. *)
Theorem C90_extra c t0 h s bw s' x : (forall y, y <= sc_scale c y) -> instant t0 -> sensible h -> sp_after_all c t0 h = Ok s -> sp_on_end c bw s = Ok (s', x) ->
  0 <= x /\ (x <> 0 -> exists t, tk_start s' = Some t /\ tk_start s = Some t /\ sp_last_acked s <= tk_before s /\
    tk_bytes s' = tk_bytes s + (sp_acked s - sp_after s) /\ sc_scale c (bw_to_bytes bw (Z.max 0 (sp_ack_time s - t))) < tk_bytes s /\
    x = tk_bytes s' - bw_to_bytes bw (Z.max 0 (sp_ack_time s - t))) /\
  (x = 0 -> sp_after s < sp_acked s -> tk_start s' = Some (sp_ack_time s) /\ tk_bytes s' = sp_acked s - sp_after s /\ tk_before s' = sp_last_sent s) /\ sp_after s' = sp_acked s.
Proof.
  intros hsc ht hs e0 e1. unfold sp_on_end in e1. destruct (sp_acked s <? sp_after s) eqn:E1; [discriminate|]. destruct (sp_acked s - sp_after s =? 0) eqn:E2.
  { injection e1 as <- <-. split; [lia|]. split; [intros k; exfalso; lia|]. split; [intros _ k; exfalso; lia|]. lia. }
  unfold tk_update in e1. cbv zeta in e1. cbn [tk_start tk_before sp_last_acked sp_ack_time tk_bytes sp_last_sent] in e1.
  assert (main : forall s2 y, (tk_start s2 = Some (sp_ack_time s) /\ tk_bytes s2 = sp_acked s - sp_after s /\ tk_before s2 = sp_last_sent s) /\ y = 0 \/
     (y <> 0 /\ 0 <= y /\ exists t, tk_start s2 = Some t /\ tk_start s = Some t /\ sp_last_acked s <= tk_before s /\
    tk_bytes s2 = tk_bytes s + (sp_acked s - sp_after s) /\ sc_scale c (bw_to_bytes bw (Z.max 0 (sp_ack_time s - t))) < tk_bytes s /\
    y = tk_bytes s2 - bw_to_bytes bw (Z.max 0 (sp_ack_time s - t))) -> sp_after s2 = sp_acked s ->
    (if sc_avoid c && (y =? 0) then match less_recent (sc_fix c) (sp_p0 s2) (sp_p1 s2) with None => Panic | Some a =>
          Ok (mkSp (sp_sent s2) (sp_acked s2) (sp_lost s2) (sp_neut s2) (sp_last_sent s2) (sp_last_acked s2)
                (sp_app s2) (sp_ack_time s2) (sp_sent_at s2) (sp_sent_time s2)
                (sp_p0 s2) (sp_p1 s2) (sp_cands s2 ++ [a]) (sp_map s2) (sp_eoal s2) (sp_after s2) (tk_start s2) (tk_bytes s2) (tk_before s2), y) end else Ok (s2, y)) = (Ok (s', x) : res unit (sampler * Z)) ->
    0 <= x /\ (x <> 0 -> exists t, tk_start s' = Some t /\ tk_start s = Some t /\ sp_last_acked s <= tk_before s /\
    tk_bytes s' = tk_bytes s + (sp_acked s - sp_after s) /\ sc_scale c (bw_to_bytes bw (Z.max 0 (sp_ack_time s - t))) < tk_bytes s /\
    x = tk_bytes s' - bw_to_bytes bw (Z.max 0 (sp_ack_time s - t))) /\
    (x = 0 -> sp_after s < sp_acked s -> tk_start s' = Some (sp_ack_time s) /\ tk_bytes s' = sp_acked s - sp_after s /\ tk_before s' = sp_last_sent s) /\ sp_after s' = sp_acked s).
  { intros s2 y hy hsa he. assert (q : x = y /\ tk_start s' = tk_start s2 /\ tk_bytes s' = tk_bytes s2 /\ tk_before s' = tk_before s2 /\ sp_after s' = sp_after s2).
    { destruct (sc_avoid c && (y =? 0)); [destruct (less_recent _ _ _); [|discriminate]|]; injection he as <- <-; auto. }
    destruct q as (-> & -> & -> & -> & ->). destruct hy as [(hy & ->)|(h2 & h3 & h4)].
    - split; [lia|]. split; [intros k; congruence|]. split; auto.
    - split; [auto|]. split; [auto|]. split; [intros k; congruence|auto]. }
  destruct (tk_start s) as [t|] eqn:Et; [|cbn [bind] in e1; eapply main; [left|..|exact e1]; repeat split].
  destruct (tk_before s <? sp_last_acked s) eqn:E3; [cbn [bind] in e1; eapply main; [left|..|exact e1]; repeat split|].
  change (sat_sub (sp_ack_time s) t) with (sat_sub (sp_ack_time s) t) in e1. assert (es : sat_sub (sp_ack_time s) t = Z.max 0 (sp_ack_time s - t)) by (unfold sat_sub; lia). rewrite es in e1.
  set (ex := bw_to_bytes bw (Z.max 0 (sp_ack_time s - t))) in *.
  destruct (tk_bytes s <=? sc_scale c ex) eqn:E4; [cbn [bind] in e1; eapply main; [left|..|exact e1]; repeat split|].
  destruct (_ <? ex) eqn:E5; [discriminate|]. cbn [bind] in e1. specialize (hsc ex). eapply main; [right|..|exact e1]; [|reflexivity]. cbn [tk_start tk_bytes]. split; [lia|]. split; [lia|].
  exists t. fold ex. split; [reflexivity|]. split; [reflexivity|]. split; [lia|]. split; [lia|]. split; lia.
Qed.
Print Assumptions C90_extra.

(** C90: with avoidance, an event that starts a new aggregation epoch adds one
    start for later samples: the point of the acknowledgment line before the newest. *)
Theorem C90_candidates c t0 h s bw s' x : (forall y, y <= sc_scale c y) -> instant t0 -> sensible h -> sc_avoid c = true -> sp_after_all c t0 h = Ok s ->
  sp_on_end c bw s = Ok (s', x) ->
  if (x =? 0) && (sp_after s <? sp_acked s) then exists a, point_before (sc_fix c) (burst_line h) = Some a /\ sp_cands s' = sp_cands s ++ [a] else sp_cands s' = sp_cands s.
Proof.
  intros hsc ht hs hav e he. destruct (all_P c t0 hsc ht hav h s hs e) as (k1 & k0). unfold sp_on_end in he. destruct (sp_acked s <? sp_after s) eqn:E0; [discriminate|].
  destruct (_ =? 0) eqn:E1; [injection he as <- <-; replace (sp_after s <? sp_acked s) with false by lia; reflexivity|]. replace (sp_after s <? sp_acked s) with true by lia. rewrite Bool.andb_true_r.
  destruct (tk_update _ _ _ _) as [(s2, y)| |] eqn:Et; cbn [bind] in he; try discriminate. pose proof (tk_cands _ _ _ _ _ _ Et) as q. apply tk_points in Et. cbn [sp_p0 sp_p1 sp_cands] in *. destruct Et as (q0 & q1).
  rewrite hav in he. cbn [andb] in he. rewrite q0, q1, k0, k1 in he. pose proof (less_before (sc_fix c) (burst_line h)) as hl.
  destruct (y =? 0) eqn:Ey; [|injection he as <- <-; rewrite Ey; exact q]. destruct (less_recent _ _ _) as [a|]; [|discriminate]. injection he as <- <-. rewrite Ey. exists a. split; [exact hl|]. cbn [sp_cands]. rewrite q. reflexivity.
Qed.
Print Assumptions C90_candidates.

(** Not vacuous: four packets, the first with nothing in flight; the application
    pauses; they are acknowledged in two events and one is lost. *)
Definition C90_cfg (avoid fix_ : bool) : scfg := mkSc avoid fix_ (fun x => if x <? 0 then 0 else 2 * x).
Lemma C90_scale a f x : x <= sc_scale (C90_cfg a f) x.
Proof. cbn [C90_cfg sc_scale]. destruct (x <? 0) eqn:E; lia. Qed.
Definition C90_hist : list sev :=
  [SApp; SLost 2 1000; SEnd 8000; SAcked 1000000000 1; SSent 250000000 4 1000 3000 true; SSent 200000000 3 1000 2000 true; SSent 100000000 2 1000 1000 true; SSent 0 1 1000 0 true].
Definition C90_state (a f : bool) : sampler := match sp_after_all (C90_cfg a f) 0 C90_hist with Ok s => s | _ => sp_new 0 end.
Example C90_witness : sensible (SAcked 1500000000 3 :: C90_hist) /\ in_order (SAcked 1500000000 3 :: C90_hist) /\
  (forall a f, sp_after_all (C90_cfg a f) 0 C90_hist = Ok (C90_state a f)) /\
  sp_acked (C90_state false false) = 1000 /\ sp_lost (C90_state false false) = 1000 /\ open_ 2 C90_hist = None /\
  (exists s r, sp_on_acked (C90_cfg false false) 1500000000 3 (C90_state false false) = Ok (s, Some r) /\ bs_ack r = 10666 /\ bs_send r = Some 80000 /\ bs_bw r = 10666 /\ bs_rtt r = 1300000000) /\
  (exists s e, sp_event (C90_cfg true true) 1500000000 [3; 4] [] None 1000000 (C90_state true true) = Ok (s, e) /\ es_bw e = Some 16000 /\ es_rtt e = Some 1250000000).
Proof.
  split; [cbn; unfold instant, u64_max; repeat split; try lia; intros; repeat match goal with h : _ \/ _ |- _ => destruct h as [h|h] end; try discriminate; try contradiction; match goal with h : SSent _ _ _ _ _ = _ |- _ => injection h; intros; lia end|].
  split; [cbn; repeat split; try discriminate; try (intros; exists 0, 1, 1000; tauto); intros; repeat match goal with h : _ \/ _ |- _ => destruct h as [h|h] end; try discriminate; try contradiction; match goal with h : SAcked _ _ = _ |- _ => injection h; intros; lia end|].
  split; [intros [] []; vm_compute; reflexivity|]. split; [reflexivity|]. split; [reflexivity|]. split; [reflexivity|].
  split; [eexists _, _; split; [vm_compute; reflexivity|vm_compute; auto]|eexists _, _; split; [vm_compute; reflexivity|vm_compute; auto]].
Qed.

Definition C90_hist2 : list sev :=
  [SEnd 8000; SAcked 1500000000 2; SEnd 8000; SAcked 1000000000 1; SSent 0 3 1000 2000 true; SSent 0 2 1000 1000 true; SSent 0 1 1000 0 true].
Lemma C90_hist2_fits : sensible (SAcked 1500000010 3 :: C90_hist2) /\ in_order (SAcked 1500000010 3 :: C90_hist2).
Proof.
  split.
  - cbn; unfold instant, u64_max; repeat split; try lia; intros; repeat match goal with h : _ \/ _ |- _ => destruct h as [h|h] end; try discriminate; try contradiction; match goal with h : SSent _ _ _ _ _ = _ |- _ => injection h; intros; lia end.
  - cbn; repeat split; try discriminate; try (intros; exists 0, 1, 1000; tauto); intros; repeat match goal with h : _ \/ _ |- _ => destruct h as [h|h] end; try discriminate; try contradiction; match goal with h : SAcked _ _ = _ |- _ => injection h; intros; lia end.
Qed.

(** Finding: with avoidance of overestimates but not the fix (the fix is a separate
    setting), a sample can start after its packet was sent and exceed the rate at
    which acknowledgments came over the packet's own flight: here three packets
    sent together are acknowledged at 1 s, 1.5 s and 1.5 s, 16 kbit/s in all, and
    the last sample is 31999 bit/s. *)
Theorem C90_no_fix_refuted :
  ~ (forall h s now n s' r q, sensible (SAcked now n :: h) -> in_order (SAcked now n :: h) -> sp_after_all (C90_cfg true false) 0 h = Ok s ->
       sp_on_acked (C90_cfg true false) now n s = Ok (s', Some r) -> open_ n h = Some q ->
       bs_bw r <= 2 * rate_of (acked_total (SAcked now n :: h) - acked_total q) (now - head_time q) - 100).
Proof.
  intros h0. set (h := C90_hist2).
  assert (e : exists s, sp_after_all (C90_cfg true false) 0 h = Ok s) by (eexists; vm_compute; reflexivity). destruct e as (s & e).
  assert (e2 : exists s' r, sp_on_acked (C90_cfg true false) 1500000010 3 s = Ok (s', Some r) /\ bs_bw r = 31999)
    by (vm_compute in e; injection e as <-; eexists _, _; split; [vm_compute; reflexivity|vm_compute; reflexivity]).
  destruct e2 as (s' & r & e2 & e3). specialize (h0 h s 1500000010 3 s' r (skipn 4 h)). rewrite e3 in h0.
  assert (k : 31999 <= 2 * rate_of (acked_total (SAcked 1500000010 3 :: h) - acked_total (skipn 4 h)) (1500000010 - head_time (skipn 4 h)) - 100); [apply h0; auto; apply C90_hist2_fits|vm_compute in k; apply k; reflexivity].
Qed.
Print Assumptions C90_no_fix_refuted.

(** Finding: the bytes lost are not among the bytes sent: a packet in flight that
    carries no stream data is not counted when it is sent, and is counted when it is
    lost. *)
Theorem C90_lost_within_sent_refuted :
  ~ (forall c h s, (forall x, x <= sc_scale c x) -> sensible h -> (forall n b, In (SLost n b) h -> exists t f r, In (SSent t n b f r) h) ->
       sp_after_all c 0 h = Ok s -> sp_lost s <= sp_sent s).
Proof.
  intros h0. specialize (h0 (C90_cfg false false) [SLost 1 1000; SSent 0 1 1000 0 false]
    (mkSp 0 0 1000 0 1 0 true 0 0 0 None None [] [] None 0 None 0 0) (C90_scale false false)). cbn [sp_lost sp_sent] in h0.
  assert (1000 <= 0); [|lia]. apply h0; [|intros n b [e|[e|[]]]; [injection e as <- <-; exists 0, 0, false; right; left; reflexivity|discriminate]|reflexivity].
  cbn. unfold instant, u64_max. repeat split; try lia.
Qed.
Print Assumptions C90_lost_within_sent_refuted.

(** C90: the start an event adds is meant to be the last acknowledgment of the epoch
    before, and the two points kept are meant to be at distinct times.  But when one
    event acknowledges several packets, the points are of that same event: the start
    added is at the time of the acknowledgment that starts the new epoch, not before. *)
Theorem C90_start_before_epoch_refuted : ~ (forall c t0 h s bw s' x a b, (forall y, y <= sc_scale c y) -> instant t0 -> sensible h -> sc_avoid c = true -> sc_fix c = true ->
  sp_after_all c t0 h = Ok s -> sp_on_end c bw s = Ok (s', x) -> sp_cands s' = sp_cands s ++ [a] ->
  In b (burst_line h) -> ap_time b < sp_ack_time s -> 0 < ap_bytes b -> ap_time a < sp_ack_time s).
Proof.
  intros k. set (h := [SAcked 500 3; SAcked 500 2; SEnd 1000000000000; SAcked 300 1; SSent 120 3 1000 2000 true; SSent 110 2 1000 1000 true; SSent 100 1 1000 0 true]).
  assert (hs : sensible h).
  { cbn. unfold instant, u64_max. repeat split; try lia; intros; repeat match goal with h : _ \/ _ |- _ => destruct h as [h|h] end; try discriminate; try contradiction; match goal with h : SSent _ _ _ _ _ = _ |- _ => injection h; intros; lia end. }
  assert (e : exists s s' x, sp_after_all (C90_cfg true true) 0 h = Ok s /\ sp_on_end (C90_cfg true true) 1000000000000 s = Ok (s', x) /\ sp_cands s' = sp_cands s ++ [mkAp 500 2000] /\ sp_ack_time s = 500).
  { eexists _, _, _. split; [vm_compute; reflexivity|]. split; [vm_compute; reflexivity|]. split; vm_compute; reflexivity. }
  destruct e as (s & s' & x & e1 & e2 & e3 & e4). specialize (k (C90_cfg true true) 0 h s 1000000000000 s' x (mkAp 500 2000) (mkAp 300 1000)). rewrite e4 in k. cbn [ap_time ap_bytes] in k.
  enough (500 < 500) by lia. apply k; auto; try reflexivity; try lia; [apply C90_scale|unfold instant, u64_max; lia|vm_compute; auto].
Qed.
Print Assumptions C90_start_before_epoch_refuted.
