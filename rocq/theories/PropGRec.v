(** Loss detection of one path that uses BBR2 (C89). *)
Require Import Verif.Base Verif.Errors Verif.RttModel Verif.RecoveryModel Verif.RecoverySpec Verif.GRecModel Verif.GRecSpec.
Require Import Verif.RecoveryProofs Verif.RecoveryInv Verif.RecoveryMain Verif.RecoverySteps Verif.RecoveryRun Verif.RecoveryTimer Verif.RecoveryThms.
Require Import Verif.GRecProofs Verif.GRecRun Verif.GRecStat.

(** A history of calls fails, with OptimisticAckDetected, exactly if some ACK frame
    covers the packet number the connection skipped; otherwise it succeeds.  It
    never panics. *)
Theorem C89_errors : forall fl t irtt mad mds rel ops, valid_ops [] ops ->
  let run := grec_run fl ops (grec_new t irtt mad mds rel) in
  let skipped_acked := exists e rs d hs now n, In (RAck e rs d hs now (Some n)) ops /\ covered rs n = true in
  (skipped_acked -> run = Err OptimisticAckDetected) /\ (~ skipped_acked -> exists v xs, run = Ok (v, xs)).
Proof.
  intros fl t irtt mad mds rel ops hv. cbv zeta. destruct (ghistory_ok fl t irtt mad mds rel ops hv) as [h1 h2]. split.
  - intros hs. apply h1. apply hits_in. exact hs.
  - intros hs. destruct (existsb hits ops) eqn:e; [destruct hs; apply hits_in; exact e|]. destruct (h2 eq_refl) as (v & xs & led & hr & _). eauto.
Qed.
Print Assumptions C89_errors.

Lemma grun_led fl t irtt mad mds rel ops v xs : valid_ops [] ops -> grec_run fl ops (grec_new t irtt mad mds rel) = Ok (v, xs) ->
  exists led, gexplains fl ops (grec_new t irtt mad mds rel) [] v led /\ ginv v led /\ gv_bytes_lost v = 0 /\ frame_facts (viewr v) led ops xs.
Proof.
  intros hv hr. destruct (ghistory_ok fl t irtt mad mds rel ops hv) as [h1 h2]. cbv zeta in *.
  destruct (existsb hits ops); [rewrite (h1 eq_refl) in hr; discriminate hr|]. destruct (h2 eq_refl) as (v' & xs' & led & hr' & q). rewrite hr in hr'. injection hr' as <- <-.
  exists led. exact q.
Qed.

(** Every history is explained by a ledger of the packets sent ([gexplains]): a
    packet is given up only as [gmay_give_up] allows, and after each
    acknowledgement and change of path none that is due is kept ([gtimely]).  The
    bytes in flight are the sizes of the in-flight packets that were neither
    acknowledged, nor given up, nor discarded. *)
Theorem C89_bytes_in_flight : forall fl t irtt mad mds rel ops v xs, valid_ops [] ops ->
  grec_run fl ops (grec_new t irtt mad mds rel) = Ok (v, xs) ->
  exists led, gexplains fl ops (grec_new t irtt mad mds rel) [] v led /\ bf_n (gv_bif v) = total in_flight led.
Proof. intros fl t irtt mad mds rel ops v xs hv hr. destruct (grun_led _ _ _ _ _ _ _ _ _ hv hr) as (led & h1 & h2 & _). exists led. split; [exact h1|apply h2]. Qed.
Print Assumptions C89_bytes_in_flight.

(** No frame is reported acknowledged twice; frames reported acknowledged belong to
    acknowledged packets; once next_acked_frame returns nothing all frames of
    acknowledged packets were reported, and once next_lost_frame returns nothing so
    were all frames of packets given up, unless the space was discarded; a frame
    reported lost belongs to a packet given up or a timeout occurred; it is reported
    lost at most once plus once per timeout; and without timeouts no frame is
    reported both acknowledged and lost. *)
Theorem C89_frames_reported_once : forall fl t irtt mad mds rel ops v xs, valid_ops [] ops ->
  grec_run fl ops (grec_new t irtt mad mds rel) = Ok (v, xs) ->
  exists led, gexplains fl ops (grec_new t irtt mad mds rel) [] v led /\
  forall e,
    (NoDup (frames_sent e ops) -> NoDup (reported_acked e ops xs)) /\
    (forall f, In f (reported_acked e ops xs) -> exists x, In x led /\ en_e x = e /\ en_fate x = Acked /\ In f (p_frames (en_p x))) /\
    (forall x f v', discarded e ops = false -> grec_step fl (RNextAcked e) v = Ok (v', OFrame None) ->
       In x led -> en_e x = e -> en_fate x = Acked -> In f (p_frames (en_p x)) -> In f (reported_acked e ops xs)) /\
    (forall x f v', discarded e ops = false -> grec_step fl (RNextLost e) v = Ok (v', OFrame None) ->
       In x led -> en_e x = e -> en_fate x = Lost -> In f (p_frames (en_p x)) -> In f (reported_lost e ops xs)) /\
    (forall f, In f (reported_lost e ops xs) ->
       (exists x, In x led /\ en_e x = e /\ en_fate x = Lost /\ In f (p_frames (en_p x))) \/
       (0 < timeouts ops /\ In f (frames_sent e ops))) /\
    (NoDup (frames_sent e ops) -> forall f, Z.of_nat (times f (reported_lost e ops xs)) <= 1 + timeouts ops) /\
    (NoDup (frames_sent e ops) -> timeouts ops = 0 -> forall f, In f (reported_acked e ops xs) -> ~ In f (reported_lost e ops xs)).
Proof.
  intros fl t irtt mad mds rel ops v xs hv hr. destruct (grun_led _ _ _ _ _ _ _ _ _ hv hr) as (led & h1 & h2 & _ & h3). exists led. split; [exact h1|]. intros e.
  split; [apply (acked_nodup (viewr v) led); exact h3|].
  split; [intros f; apply (acked_only (viewr v) led); exact h3|].
  split; [|split].
  - intros x f v' hd hs q3 q4 q5 q6. cbn [grec_step] in hs. unfold grec_next_acked in hs.
    destruct (gs_facked (gget e v)) as [|y l] eqn:ef; [|discriminate hs].
    destruct (h3 e f) as [_ q _ _ _ _]. cbn [gh_ack gh_disc] in q. specialize (q hd). rewrite get_view in q. unfold view in q. cbn [s_facked] in q. rewrite ef in q.
    assert (0 < esum (gfr f) acked_fate (of_e e led)).
    { apply (in_esum_pos f acked_fate (of_e e led) x); auto; [apply of_e_in; auto|unfold acked_fate; rewrite q5; reflexivity]. }
    change (cntf f []) with 0 in q. apply (count_occ_In Z.eq_dec). rewrite cntf_times in q. unfold times in q. lia.
  - intros x f v' hd hs q3 q4 q5 q6. cbn [grec_step] in hs. unfold grec_next_lost in hs.
    destruct (gs_flost (gget e v)) as [|y l] eqn:ef; [|discriminate hs].
    destruct (h3 e f) as [_ _ _ q _ _]. cbn [gh_lost gh_disc] in q. specialize (q hd). rewrite get_view in q. unfold view in q. cbn [s_flost] in q. rewrite ef in q.
    assert (0 < esum (gfr f) lost_fate (of_e e led)).
    { apply (in_esum_pos f lost_fate (of_e e led) x); auto; [apply of_e_in; auto|unfold lost_fate; rewrite q5; reflexivity]. }
    change (cntf f []) with 0 in q. apply (count_occ_In Z.eq_dec). rewrite cntf_times in q. unfold times in q. lia.
  - split; [intros f; apply (lost_only (viewr v) led); exact h3|].
    split; [intros hn f; apply (lost_times (viewr v) led); assumption|].
    intros hn ht f q1 q2. exact (not_both (viewr v) led ops xs e f h3 hn ht q1 q2).
Qed.
Print Assumptions C89_frames_reported_once.

(** How patient loss detection is: until a loss turns out spurious the thresholds
    are 3 packets and 9/8 of the round-trip time.  By default the packet threshold
    stays between 3 and 20 and the time threshold is 9/8 or 10/8; with the relaxed
    threshold the packet threshold is dropped and the time threshold is between 9/8
    and 2.  As the connection goes on neither threshold ever falls. *)
Theorem C89_thresholds : forall fl t irtt mad mds rel ops1 ops2 v1 xs1 v2 xs2,
  grec_run fl ops1 (grec_new t irtt mad mds rel) = Ok (v1, xs1) -> grec_run fl ops2 v1 = Ok (v2, xs2) ->
  (gv_spur v1 = 0 -> gv_thresh v1 = Some 3 /\ gv_time8 v1 = 9) /\
  (rel = false -> (exists p, gv_thresh v1 = Some p /\ 3 <= p <= 20) /\ (gv_time8 v1 = 9 \/ gv_time8 v1 = 10)) /\
  (rel = true -> (gv_thresh v1 = None \/ gv_thresh v1 = Some 3) /\ 9 <= gv_time8 v1 <= 16) /\
  gv_time8 v1 <= gv_time8 v2 /\ (forall p2, gv_thresh v2 = Some p2 -> exists p1, gv_thresh v1 = Some p1 /\ p1 <= p2).
Proof.
  intros fl t irtt mad mds rel ops1 ops2 v1 xs1 v2 xs2 h1 h2.
  destruct (grun_stat fl rel ops1 _ _ _ h1 (tinv_new t irtt mad mds rel)) as ((a0 & a1 & a2 & a3) & _).
  destruct (grun_stat fl rel ops2 _ _ _ h2 (conj a0 (conj a1 (conj a2 a3)))) as (_ & (b1 & b2 & b3) & _).
  split; [exact a2|]. destruct (gv_over8 v1) as [o|]; cbn [is_some] in a1; subst rel.
  - split; [discriminate|]. split; [intros _; split; [apply a3|lia]|]. split; [exact b2|exact b3].
  - split; [intros _; exact a3|]. split; [discriminate|]. split; [exact b2|exact b3].
Qed.
Print Assumptions C89_thresholds.

(** The counters: lost packets are those reported by acknowledgements and timeouts,
    spurious losses those reported by acknowledgements, and bytes sent the sizes of
    all packets. *)
Theorem C89_counters : forall fl t irtt mad mds rel ops v xs,
  grec_run fl ops (grec_new t irtt mad mds rel) = Ok (v, xs) ->
  gv_lost v = lost_sum ops xs /\ gv_spur v = sum_of spur_of xs /\ gv_bytes_sent v = sum_of sent_of ops.
Proof.
  intros fl t irtt mad mds rel ops v xs h. destruct (grun_stat fl rel ops _ _ _ h (tinv_new t irtt mad mds rel)) as (_ & _ & a & b & c). auto.
Qed.
Print Assumptions C89_counters.

Lemma gpto_step fl o v v' x : grec_step fl o v = Ok (v', x) -> 0 <= gv_pto v -> 0 <= gv_pto v'.
Proof.
  intros h hp.
  assert (hslt : forall hs now w, gv_pto (gset_loss_timer hs now w) = gv_pto w).
  { intros hs now w. unfold gset_loss_timer. destruct (fst (gloss_time_and_space w)); [|destruct ((bf_n (gv_bif w) =? 0) && hs_verified hs)]; reflexivity. }
  assert (hset : forall e s w, gv_pto (gset e s w) = gv_pto w) by (intros [] s w; reflexivity).
  assert (hl : forall e now w w' nb, grec_lose fl e now w = Ok (w', nb) -> gv_pto w' = gv_pto w).
  { intros e now w w' nb hh. unfold grec_lose in hh. destruct (gspace_lose (gdelay fl w) (gv_thresh w) now (gget e w)) as [[s a]| |]; cbn [bind] in hh; try discriminate hh. injection hh as <- _. destruct e; reflexivity. }
  destruct o; cbn [grec_step] in h.
  - unfold grec_sent in h. cbv zeta in h. destruct (match gs_q (gget e v) with [] => false | _ => p_num p <=? fst (last (gs_q (gget e v)) (0, GAcked)) end); cbn [bind] in h; [discriminate h|].
    injection h as <- <-. destruct (p_inf p); [rewrite hslt|]; destruct e; exact hp.
  - destruct (grec_ack fl e rs delay hs now skip v) as [[v2 o2]| |] eqn:ea; cbn [bind] in h; try discriminate h. injection h as <- <-.
    unfold grec_ack in ea. destruct (gspace_ack rs skip (gget e v)) as [[s a]| |] eqn:es; cbn [bind] in ea; try discriminate ea.
    match type of ea with bind ?m _ = _ => destruct m as [w| |] eqn:ew end; cbn [bind] in ea; try discriminate ea.
    destruct (ga_new a).
    + injection ea as <- <-. replace (gv_pto w) with (gv_pto v); [exact hp|]. clear -ew hset. destruct (ga_thresh a).
      * unfold gspurious in ew. destruct (gv_over8 (gset e s v)); [destruct (is_some (gv_thresh (gset e s v)))|destruct (gv_thresh (gset e s v)); [|discriminate ew]]; apply okinj in ew; subst w; destruct e; reflexivity.
      * apply okinj in ew; subst w; destruct e; reflexivity.
    + cbv zeta in ea. match type of ea with bind (grec_lose fl e now ?z) _ = _ => destruct (grec_lose fl e now z) as [[w2 nb]| |] end; cbn [bind] in ea; try discriminate ea.
      injection ea as <- <-. rewrite hslt. apply Z.le_refl.
  - destruct (grec_timeout fl hs now v) as [[v2 o2]| |] eqn:ea; cbn [bind] in h; try discriminate h. injection h as <- <-. unfold grec_timeout in ea.
    destruct (gloss_time_and_space v) as [[d|] e0].
    + destruct (grec_lose fl e0 now v) as [[w nb]| |] eqn:el; cbn [bind] in ea; try discriminate ea. injection ea as <- <-. rewrite hslt. cbn [gv_pto gset_lost]. rewrite (hl _ _ _ _ _ el). exact hp.
    + cbv zeta in ea. injection ea as <- <-. rewrite hslt, hset. cbn [gv_pto gset_pto]. lia.
  - injection h as <- <-. unfold grec_discard. rewrite hslt. destruct e; exact hp.
  - destruct (grec_lose fl e now v) as [[w nb]| |] eqn:el; cbn [bind] in h; try discriminate h. injection h as <- <-. rewrite (hl _ _ _ _ _ el). exact hp.
  - unfold grec_next_acked in h. destruct (qpop (gs_facked (gget e v))) as [[y l]|]; injection h as <- <-; rewrite ?hset; exact hp.
  - unfold grec_next_lost in h. destruct (qpop (gs_flost (gget e v))) as [[y l]|]; [|destruct (qpop (gs_fpto (gget e v))) as [[y l]|]]; injection h as <- <-; rewrite ?hset; exact hp.
  - injection h as <- <-. rewrite hset. exact hp.
  - injection h as <- <-. exact hp.
  - injection h as <- <-. exact hp.
  - injection h as <- <-. exact hp.
  - injection h as <- <-. exact hp.
Qed.
Lemma gpto_nonneg fl ops : forall v v' xs, grec_run fl ops v = Ok (v', xs) -> 0 <= gv_pto v -> 0 <= gv_pto v'.
Proof.
  induction ops as [|o ops IH]; intros v v' xs h hp; cbn [grec_run] in h; [injection h as <- _; exact hp|].
  destruct (grec_step fl o v) as [[v1 x]| |] eqn:es; cbn [bind] in h; try discriminate h.
  destruct (grec_run fl ops v1) as [[v2 xs']| |] eqn:er; cbn [bind] in h; try discriminate h. injection h as <- _. exact (IH _ _ _ er (gpto_step _ _ _ _ _ es hp)).
Qed.

Lemma gslt_pto hs now w : gv_pto (gset_loss_timer hs now w) = gv_pto w.
Proof. unfold gset_loss_timer. destruct (fst (gloss_time_and_space w)); [|destruct ((bf_n (gv_bif w) =? 0) && hs_verified hs)]; reflexivity. Qed.
Lemma gset_pto_eq e s w : gv_pto (gset e s w) = gv_pto w. Proof. destruct e; reflexivity. Qed.
Lemma gset_bif_eq e s w : gv_bif (gset e s w) = gv_bif w. Proof. destruct e; reflexivity. Qed.

(** The outstanding packets that carry CRYPTO or STREAM data, oldest first. *)
Definition outstanding_data (l : list (Z * gstat)) : list pkt :=
  flat_map (fun x => match snd x with GSent p => if p_data p then [p] else [] | _ => [] end) l.
Lemma gpto_frames_spec fl : forall l n, gpto_frames fl n l = filter (fun f => negb (gp_dgram fl f)) (flat_map p_frames (firstn n (outstanding_data l))).
Proof.
  induction l as [|(k, x) l IH]; intros [|n]; cbn [gpto_frames]; try reflexivity. unfold outstanding_data in *. cbn [flat_map snd].
  destruct x as [p| |]; cbn [app]; [|apply IH|apply IH]. destruct (p_data p); cbn [app]; [|apply IH]. cbn [firstn flat_map]. rewrite filter_app, IH. reflexivity.
Qed.

(** A timeout without a loss deadline in the application space declares nothing
    lost, leaves the bytes in flight alone, and allows one or two packets to be
    sent whatever the congestion window; the count of timeouts in a row, which
    doubles the next timeout, grows by one.  The frames to send again, unless some
    are still waiting from the last timeout, are those of that many of the oldest
    packets with data that are outstanding, but for datagrams. *)
Theorem C89_probe : forall fl t irtt mad mds rel ops v xs hs now v' x,
  grec_run fl ops (grec_new t irtt mad mds rel) = Ok (v, xs) ->
  gs_loss_time (gv_app v) = None -> grec_step fl (RTimeout hs now) v = Ok (v', x) ->
  x = OLost 0 0 /\ gv_pto v' = gv_pto v + 1 /\ bf_n (gv_bif v') = bf_n (gv_bif v) /\
  exists e, 1 <= gs_probes (gget e v') <= 2 /\ gs_flost (gget e v') = gs_flost (gget e v) /\ gs_q (gget e v') = gs_q (gget e v) /\
    gs_fpto (gget e v') = match gs_fpto (gget e v) with
      | [] => filter (fun f => negb (gp_dgram fl f)) (flat_map p_frames (firstn (Z.to_nat (gs_probes (gget e v'))) (outstanding_data (gs_q (gget e v)))))
      | l => l
      end.
Proof.
  intros fl t irtt mad mds rel ops v xs hs now v' x hr hl h. pose proof (gpto_nonneg _ _ _ _ _ hr (Z.le_refl 0)) as hp.
  cbn [grec_step] in h. unfold grec_timeout in h.
  assert (hg : exists e0, gloss_time_and_space v = (None, e0)) by (unfold gloss_time_and_space; rewrite hl; destruct (pick (gs_loss_time (gv_hs v), EHandshake) (gs_loss_time (gv_ini v), EInitial)) as [[z|] e1]; cbn; eauto).
  destruct hg as (e0 & hg). rewrite hg in h. cbv zeta in h. cbn [bind fst snd] in h. apply okinj in h; apply pair_equal_spec in h; destruct h as [<- <-]. split; [reflexivity|].
  rewrite gslt_pto, gset_pto_eq. rewrite (proj1 (gslt_other _ _ _)), gset_bif_eq. split; [reflexivity|]. split; [reflexivity|].
  match goal with |- context [gset ?a _ _] => exists a; generalize a; intros a' end. rewrite gslt_get, gget_set.
  replace (gget a' (gset_pto (gv_pto v + 1) v)) with (gget a' v) by (destruct a'; reflexivity).
  match goal with |- context [match gs_fpto (gset_probes ?b ?s) with _ => _ end] => change (gs_fpto (gset_probes b s)) with (gs_fpto s) end.
  destruct (gs_fpto (gget a' v)) eqn:ef; cbn [gs_probes gs_flost gs_fpto gs_q gset_frames gset_probes gv_pto gset_pto]; rewrite ?gpto_frames_spec; change MAX_PROBES with 2; repeat split; auto; lia.
Qed.
Print Assumptions C89_probe.

(** After a call that sets the timer, if the application space has a loss deadline
    and either the Handshake space has one or the Initial space has none, the timer
    is the earliest deadline of the three spaces.  (The other cases are refuted
    below.) *)
Theorem C89_earliest_deadline_partial : forall fl v0 o v x hs now,
  grec_step fl o v0 = Ok (v, x) -> arms o x = Some (hs, now) ->
  gs_loss_time (gv_app v) <> None -> gs_loss_time (gv_hs v) <> None \/ gs_loss_time (gv_ini v) = None ->
  gv_timer v = earlier (gs_loss_time (gv_ini v)) (earlier (gs_loss_time (gv_hs v)) (gs_loss_time (gv_app v))).
Proof.
  intros fl v0 o v x hs now h ha. destruct (garms _ _ _ _ _ _ _ h ha) as (w & t & ->).
  pose proof (gslt_get hs t w EApp) as e1. pose proof (gslt_get hs t w EHandshake) as e2. pose proof (gslt_get hs t w EInitial) as e3. cbn [gget] in e1, e2, e3. rewrite e1, e2, e3.
  intros h1 h2. unfold gset_loss_timer.
  assert (hg : fst (gloss_time_and_space w) = earlier (gs_loss_time (gv_ini w)) (earlier (gs_loss_time (gv_hs w)) (gs_loss_time (gv_app w)))).
  { unfold gloss_time_and_space. clear -h1 h2. destruct (gs_loss_time (gv_app w)) as [a|], (gs_loss_time (gv_hs w)) as [b|], (gs_loss_time (gv_ini w)) as [c|]; try congruence;
      try (destruct h2; congruence); unfold pick, earlier, olt; cbn [fst is_some negb orb];
      repeat match goal with |- context [?u <? ?q] => destruct (Z.ltb_spec u q); cbn [fst is_some negb orb] end; try reflexivity; f_equal; lia. }
  rewrite hg. destruct (gs_loss_time (gv_app w)) as [a|]; [|congruence]. destruct (gs_loss_time (gv_hs w)), (gs_loss_time (gv_ini w)); reflexivity.
Qed.
Print Assumptions C89_earliest_deadline_partial.

(** ** A concrete history *)
Definition gflx : gpar := mkGp (fun k d => d * k / 8) (fun _ => false).
Definition ghsx : hstatus := mkHs true true true.
Definition gpkt (n : Z) : pkt := mkPkt n [100 + n] n None None 1200 true true true false.
Definition gpmtu (n : Z) : pkt := mkPkt n [100 + n] n None None 1200 true true true true.
Definition g0 (rel : bool) : grec := grec_new 0 333000000 25000000 1200 rel.
(** Five packets; the last is acknowledged, which loses the first two; one of the
    two turns out to have arrived, and reports are collected. *)
Definition ghist : list rop :=
  [RSent EApp (gpkt 0) ghsx 0; RSent EApp (gpkt 1) ghsx 1; RSent EApp (gpkt 2) ghsx 2; RSent EApp (gpkt 3) ghsx 3;
   RSent EApp (gpkt 4) ghsx 4; RAck EApp [(4, 5)] 0 ghsx 50000000 None; RNextAcked EApp; RNextAcked EApp;
   RNextLost EApp; RNextLost EApp; RNextLost EApp; RAck EApp [(1, 2); (3, 5)] 0 ghsx 50000001 (Some 9); RNextAcked EApp].
Definition gend : grec * list rout := Eval vm_compute in match grec_run gflx ghist (g0 false) with Ok x => x | _ => (g0 false, []) end.

Ltac gvops := repeat match goal with h : grec_run _ _ _ = _ |- _ => clear h | h : grec_step _ _ _ = _ |- _ => clear h end; cbn [app valid_ops valid_ranges]; unfold fresh, gpkt, gpmtu; cbn [p_num p_frames p_acked p_lost p_size p_probe p_inf];
  repeat match goal with |- _ /\ _ => split | |- True => exact I end; try reflexivity; try (intros _; reflexivity); try lia;
  intros n hn; repeat (destruct hn as [hn|hn]; [injection hn as <-; lia|]); destruct hn.

Lemma ghist_valid : valid_ops [] ghist.
Proof. unfold ghist. gvops. Qed.
Lemma ghist_run : grec_run gflx ghist (g0 false) = Ok gend.
Proof. vm_compute. reflexivity. Qed.

Example C89_witness : valid_ops [] ghist /\ grec_run gflx ghist (g0 false) = Ok gend /\
  bf_n (gv_bif (fst gend)) = 1200 /\ NoDup (frames_sent EApp ghist) /\
  reported_acked EApp ghist (snd gend) = [104; 103] /\ reported_lost EApp ghist (snd gend) = [100; 101] /\
  gv_lost (fst gend) = 2 /\ gv_spur (fst gend) = 1 /\ gv_bytes_sent (fst gend) = 6000 /\
  gv_thresh (fst gend) = Some 4 /\ gv_time8 (fst gend) = 10 /\
  gs_loss_time (gv_app (fst gend)) = Some 62499997 /\ gv_timer (fst gend) = Some 62499997.
Proof.
  split; [apply ghist_valid|]. split; [apply ghist_run|]. repeat split; try reflexivity. cbn. repeat constructor; cbn; lia.
Qed.
Example C89_error_witness : grec_run gflx [RSent EApp (gpkt 0) ghsx 0; RAck EApp [(0, 3)] 0 ghsx 5 (Some 1)] (g0 false) = Err OptimisticAckDetected.
Proof. vm_compute. reflexivity. Qed.
Example C89_probe_witness :
  match grec_run gflx [RSent EApp (gpkt 0) ghsx 0; RTimeout ghsx 1000000000; RTimeout ghsx 3000000000; RTimeout ghsx 7000000000] (g0 true) with
  | Ok (v, xs) => gv_pto v = 3 /\ gs_probes (gv_app v) = 2 /\ bf_n (gv_bif v) = 1200 /\ gs_fpto (gv_app v) = [100]
  | _ => False
  end.
Proof. vm_compute. repeat split; reflexivity. Qed.

(** The number of lost bytes should be the sum of the sizes of the packets given
    up.  This fails: the counter is never updated and always 0. *)
Theorem C89_lost_bytes_refuted :
  ~ (forall fl t irtt mad mds rel ops v xs, valid_ops [] ops ->
     grec_run fl ops (grec_new t irtt mad mds rel) = Ok (v, xs) -> In (OAck (2, 2400, 1200, 0)) xs -> 2400 <= gv_bytes_lost v).
Proof.
  intros h. specialize (h gflx 0 333000000 25000000 1200 false ghist _ _ ghist_valid ghist_run).
  assert (2400 <= gv_bytes_lost (fst gend)); [|vm_compute in H; congruence]. apply h. vm_compute. intuition.
Qed.
Print Assumptions C89_lost_bytes_refuted.

(** Every packet given up should be counted as lost.  This fails for packets given
    up because the path changed: on_path_change, unlike the other implementation,
    does not add them to the count. *)
Theorem C89_lost_count_refuted :
  ~ (forall fl t irtt mad mds rel ops v xs n b, valid_ops [] ops ->
     grec_run fl ops (grec_new t irtt mad mds rel) = Ok (v, xs) -> In (OLost n b) xs -> n <= gv_lost v).
Proof.
  intros h. set (ops := [RSent EApp (gpkt 0) ghsx 0; RPathChange EApp 1000000000]).
  destruct (grec_run gflx ops (g0 false)) as [[v xs]| |] eqn:e; [|vm_compute in e; discriminate e|vm_compute in e; discriminate e].
  assert (hx : xs = [ONone; OLost 1 1200] /\ gv_lost v = 0) by (vm_compute in e; injection e as <- <-; split; reflexivity).
  destruct hx as [hx hl]. assert (hv : valid_ops [] ops) by (unfold ops; gvops).
  specialize (h gflx 0 333000000 25000000 1200 false ops v xs 1 1200 hv e). rewrite hl in h. subst xs.
  assert (1 <= 0) by (apply h; right; left; reflexivity). lia.
Qed.
Print Assumptions C89_lost_count_refuted.

(** There should be no more spurious losses than losses.  This fails: a probe of the
    path MTU that is given up is not counted as lost, but if it is acknowledged
    after all the loss is counted as spurious, and raises the thresholds. *)
Theorem C89_spurious_at_most_lost_refuted :
  ~ (forall fl t irtt mad mds rel ops v xs, valid_ops [] ops ->
     grec_run fl ops (grec_new t irtt mad mds rel) = Ok (v, xs) -> gv_spur v <= gv_lost v).
Proof.
  intros h. set (ops := [RSent EApp (gpmtu 0) ghsx 0; RSent EApp (gpkt 1) ghsx 1; RSent EApp (gpkt 2) ghsx 2; RSent EApp (gpkt 3) ghsx 3;
    RAck EApp [(3, 4)] 0 ghsx 50000000 None; RAck EApp [(0, 1); (3, 4)] 0 ghsx 50000001 None]).
  destruct (grec_run gflx ops (g0 false)) as [[v xs]| |] eqn:e; [|vm_compute in e; discriminate e|vm_compute in e; discriminate e].
  assert (hx : gv_lost v = 0 /\ gv_spur v = 1) by (vm_compute in e; injection e as <- <-; split; reflexivity).
  assert (hv : valid_ops [] ops) by (unfold ops; gvops).
  specialize (h gflx 0 333000000 25000000 1200 false ops v xs hv e). lia.
Qed.
Print Assumptions C89_spurious_at_most_lost_refuted.

(** A packet should be given up only if a packet sent after it was acknowledged.
    This fails for packet number 0, as in C51: with nothing acknowledged the largest
    acknowledged packet is taken to be 0. *)
Theorem C89_lost_without_ack_refuted :
  ~ (forall fl t irtt mad mds rel ops v xs n b, valid_ops [] ops ->
     grec_run fl ops (grec_new t irtt mad mds rel) = Ok (v, xs) -> In (OLost n b) xs -> 0 < n ->
     exists e rs d hs now k, In (RAck e rs d hs now k) ops).
Proof.
  intros h. set (ops := [RSent EApp (gpkt 0) ghsx 0; RPathChange EApp 1000000000]).
  destruct (grec_run gflx ops (g0 false)) as [[v xs]| |] eqn:e; [|vm_compute in e; discriminate e|vm_compute in e; discriminate e].
  assert (hx : xs = [ONone; OLost 1 1200]) by (vm_compute in e; injection e as <- <-; reflexivity).
  assert (hv : valid_ops [] ops) by (unfold ops; gvops).
  destruct (h gflx 0 333000000 25000000 1200 false ops v xs 1 1200 hv e) as (e0 & rs & d & hs & now & k & hin); [subst xs; right; left; reflexivity|lia|].
  destruct hin as [q|[q|[]]]; discriminate q.
Qed.
Print Assumptions C89_lost_without_ack_refuted.

(** A frame should not be reported lost once it was reported acknowledged.  This
    fails after a probe timeout, as in C51: the copies it queues stay queued when
    the original packet is acknowledged. *)
Theorem C89_lost_after_acked_refuted :
  ~ (forall fl t irtt mad mds rel ops v xs e f, valid_ops [] ops -> NoDup (frames_sent e ops) ->
     grec_run fl ops (grec_new t irtt mad mds rel) = Ok (v, xs) ->
     In f (reported_acked e ops xs) -> ~ In f (reported_lost e ops xs)).
Proof.
  intros h. set (ops := [RSent EApp (gpkt 0) ghsx 0; RTimeout ghsx 1000000000; RAck EApp [(0, 1)] 0 ghsx 1000000001 None; RNextAcked EApp; RNextLost EApp]).
  destruct (grec_run gflx ops (g0 false)) as [[v xs]| |] eqn:e; [|vm_compute in e; discriminate e|vm_compute in e; discriminate e].
  assert (hx : xs = [ONone; OLost 0 0; OAck (0, 0, 1200, 0); OFrame (Some 100); OFrame (Some 100)]) by (vm_compute in e; injection e as <- <-; reflexivity).
  assert (hv : valid_ops [] ops) by (unfold ops; gvops).
  apply (h gflx 0 333000000 25000000 1200 false ops v xs EApp 100 hv); [repeat constructor; cbn; lia|exact e|subst xs; left; reflexivity|subst xs; left; reflexivity].
Qed.
Print Assumptions C89_lost_after_acked_refuted.

(** The timer should never be later than the earliest loss deadline.  This fails as
    in C52: a space without a deadline hides the deadlines of earlier spaces. *)
Theorem C89_earliest_deadline_refuted :
  ~ (forall fl t irtt mad mds rel ops v xs d, valid_ops [] ops ->
     grec_run fl ops (grec_new t irtt mad mds rel) = Ok (v, xs) ->
     gs_loss_time (gv_hs v) = Some d -> exists t', gv_timer v = Some t' /\ t' <= d).
Proof.
  intros h.
  set (ops := [RSent EHandshake (gpkt 0) ghsx 0; RSent EHandshake (gpkt 1) ghsx 1000000; RAck EHandshake [(1, 2)] 0 ghsx 50000000 None]).
  destruct (grec_run gflx ops (g0 false)) as [[v xs]| |] eqn:e; [|vm_compute in e; discriminate e|vm_compute in e; discriminate e].
  assert (hx : gv_timer v = Some 149999996 /\ gs_loss_time (gv_hs v) = Some 56249998) by (vm_compute in e; injection e as <- <-; split; reflexivity).
  destruct hx as (ht & hd). assert (hv : valid_ops [] ops) by (unfold ops; gvops).
  destruct (h gflx 0 333000000 25000000 1200 false ops v xs 56249998 hv e hd) as (t' & q1 & q2). rewrite ht in q1. injection q1 as <-. lia.
Qed.
Print Assumptions C89_earliest_deadline_refuted.
