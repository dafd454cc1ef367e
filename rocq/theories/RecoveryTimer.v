(** The loss detection timer. *)
Require Import Verif.Base Verif.Errors Verif.RttModel Verif.RecoveryModel Verif.RecoverySpec Verif.RecoveryProofs Verif.RecoveryInv Verif.RecoveryMain Verif.RecoverySteps Verif.RecoveryRun Verif.RecoveryCC Verif.RecoveryWin.

Definition timer_of (hs : hstatus) (now : Z) (v : rec) : option Z := v_timer (set_loss_timer hs now v).

Definition same_timing (v w : rec) : Prop :=
  (forall e, s_loss_time (get_s e v) = s_loss_time (get_s e w) /\ s_inf (get_s e v) = s_inf (get_s e w) /\ s_last_el (get_s e v) = s_last_el (get_s e w)) /\
  v_bif v = v_bif w /\ v_rtt v = v_rtt w /\ v_pto_count v = v_pto_count w.

Lemma timer_ext hs now v w : same_timing v w -> timer_of hs now v = timer_of hs now w.
Proof.
  intros (h & h2 & h3 & h4). destruct (h EInitial) as (a1 & a2 & a3). destruct (h EHandshake) as (b1 & b2 & b3). destruct (h EApp) as (c1 & c2 & c3).
  cbn [get_s] in *. unfold timer_of, set_loss_timer.
  assert (e1 : loss_time_and_space v = loss_time_and_space w) by (unfold loss_time_and_space; rewrite a1, b1, c1; reflexivity).
  rewrite e1, h2. destruct (fst (loss_time_and_space w)); [reflexivity|].
  destruct ((bf_n (v_bif w) =? 0) && hs_verified hs); [reflexivity|]. cbn [v_timer set_timer]. unfold pto_time_and_space.
  cbn [get_s]. rewrite h2, h3, h4, a2, b2, c2, a3, b3, c3. reflexivity.
Qed.

Lemma slt_timing hs now v : same_timing (set_loss_timer hs now v) v.
Proof.
  unfold same_timing. split; [intros e; rewrite slt_get; auto|]. split; [apply slt_bif|]. split; [apply slt_rtt|].
  unfold set_loss_timer. destruct (fst (loss_time_and_space v)); [|destruct ((bf_n (v_bif v) =? 0) && hs_verified hs)]; reflexivity.
Qed.

Lemma arm_eq fl o v v' x hs now : rec_step fl o v = Ok (v', x) -> arms o x = Some (hs, now) -> v_timer v' = timer_of hs now v'.
Proof.
  intros h ha. destruct o; cbn [arms] in ha; try discriminate ha.
  - destruct (p_inf p) eqn:ei; [|discriminate ha]. injection ha as -> ->. cbn [rec_step] in h. injection h as <- <-.
    unfold rec_sent. cbv zeta. cbn [p_inf]. rewrite ei.
    match goal with |- context [set_loss_timer hs now ?w] => set (w0 := w) end.
    match goal with |- v_timer (set_s ?e ?s ?w) = _ => set (s1 := s); set (w1 := w) end.
    transitivity (timer_of hs now w0); [destruct e; reflexivity|]. symmetry. apply timer_ext.
    destruct (slt_timing hs now w0) as (q1 & q2 & q3 & q4).
    assert (g1 : forall e', get_s e' w1 = get_s e' (set_loss_timer hs now w0)) by (intros []; reflexivity).
    split; [|destruct e; split; auto].
    intros e'. specialize (q1 e'). destruct (epoch_dec e' e) as [->|hne]; [rewrite get_set|rewrite get_set_other by exact hne]; [unfold s1; rewrite g1|rewrite g1]; exact q1.
  - destruct x as [| |[[[n b] k] sp]|]; try discriminate ha. destruct (Z.ltb_spec 0 k); [|discriminate ha]. injection ha as -> ->.
    cbn [rec_step] in h. destruct (rec_ack fl e rs delay hs now skip v) as [[v1 o1]| |] eqn:er; cbn [bind] in h; try discriminate h. injection h as -> ->.
    unfold rec_ack in er. destruct (space_ack _ _ _ _ _) as [[s a]| |]; cbn [bind] in er; try discriminate er. cbv zeta in er.
    destruct (a_new a); [injection er as _ _ _ ek _; lia|].
    match type of er with context [rec_lose fl e now ?w] => destruct (rec_lose fl e now w) as [[v5 [n5 m5]]| |]; cbn [bind fst snd] in er; try discriminate er end.
    apply (f_equal (fun r => match r with Ok a => a | _ => (v, (n, b, k, sp)) end)) in er. cbv beta iota in er.
    apply pair_equal_spec in er. destruct er as [<- _].
    match goal with |- context [set_loss_timer hs now ?w] => set (w0 := w) end.
    match goal with |- v_timer (set_s ?e ?s ?w) = _ => set (s1 := s) end.
    transitivity (timer_of hs now w0); [destruct e; reflexivity|]. symmetry. apply timer_ext.
    destruct (slt_timing hs now w0) as (q1 & q2 & q3 & q4).
    split; [|destruct e; split; auto].
    intros e'. specialize (q1 e'). destruct (epoch_dec e' e) as [->|hne]; [rewrite get_set; unfold s1|rewrite get_set_other by exact hne]; exact q1.
  - injection ha as -> ->. cbn [rec_step] in h. destruct (rec_timeout fl hs now v) as [[v1 [n b]]| |] eqn:er; cbn [bind] in h; try discriminate h. injection h as <- _.
    unfold rec_timeout in er. destruct (loss_time_and_space v) as [[t|] e0].
    + destruct (rec_lose fl e0 now v) as [[v5 [n5 m5]]| |]; cbn [bind] in er; try discriminate er.
      apply (f_equal (fun r => match r with Ok a => a | _ => (v, (n, b)) end)) in er. cbv beta iota in er. apply pair_equal_spec in er. destruct er as [<- _].
      symmetry. apply timer_ext. apply slt_timing.
    + apply (f_equal (fun r => match r with Ok a => a | _ => (v, (n, b)) end)) in er. cbv beta iota zeta in er. apply pair_equal_spec in er. destruct er as [<- _].
      symmetry. apply timer_ext. apply slt_timing.
  - injection ha as -> ->. cbn [rec_step] in h. injection h as <- <-. unfold rec_discard. cbv zeta. symmetry. apply timer_ext. apply slt_timing.
Qed.

(** * Deadlines *)
Lemma lts_spec v : (s_loss_time (v_app v) <> None) -> (s_loss_time (v_hs v) <> None \/ s_loss_time (v_ini v) = None) ->
  fst (loss_time_and_space v) = earlier (s_loss_time (v_ini v)) (earlier (s_loss_time (v_hs v)) (s_loss_time (v_app v))).
Proof.
  intros h1 h2. unfold loss_time_and_space, pick. destruct (s_loss_time (v_app v)) as [a|]; [|congruence].
  destruct (s_loss_time (v_hs v)) as [h|]; destruct (s_loss_time (v_ini v)) as [i|]; cbn [fst is_some negb orb olt earlier].
  - destruct (Z.ltb_spec h i); cbn [fst is_some negb orb olt]; [destruct (Z.ltb_spec a h)|destruct (Z.ltb_spec a i)]; cbn [fst]; f_equal; lia.
  - destruct (Z.ltb_spec a h); cbn [fst]; f_equal; lia.
  - destruct h2 as [h2|h2]; congruence.
  - reflexivity.
Qed.
Lemma lts_none v : s_loss_time (v_app v) = None -> fst (loss_time_and_space v) = None.
Proof.
  intros h. unfold loss_time_and_space. rewrite h. unfold pick at 1. cbn [fst]. destruct (is_some _) eqn:e; cbn [negb orb]; [|reflexivity].
  destruct (fst (pick _ _)) eqn:e2; [reflexivity|discriminate e].
Qed.

Lemma timer_loss hs now v : (s_loss_time (v_app v) <> None) -> (s_loss_time (v_hs v) <> None \/ s_loss_time (v_ini v) = None) ->
  timer_of hs now v = earlier (s_loss_time (v_ini v)) (earlier (s_loss_time (v_hs v)) (s_loss_time (v_app v))).
Proof.
  intros h1 h2. unfold timer_of, set_loss_timer. rewrite (lts_spec v h1 h2).
  destruct (s_loss_time (v_app v)) as [a|]; [|congruence].
  destruct (s_loss_time (v_hs v)); destruct (s_loss_time (v_ini v)); reflexivity.
Qed.

(** * Probe timeouts *)
Lemma pick_some a e cur : fst (pick (Some a, e) cur) = earlier (fst cur) (Some a).
Proof.
  destruct cur as [[c|] e']; unfold pick; cbn [fst is_some negb orb olt earlier]; [|reflexivity].
  destruct (Z.ltb_spec a c); cbn [fst]; f_equal; lia.
Qed.

Definition pto_m (e : epoch) (v : rec) : option Z :=
  if s_inf (get_s e v) =? 0 then None
  else option_map (fun t => t + (rtt_pto (v_rtt v) + match e with EApp => r_max_ack_delay (v_rtt v) | _ => 0 end) * backoff (v_pto_count v)) (s_last_el (get_s e v)).

Lemma earlier_none o : earlier o None = o. Proof. destruct o; reflexivity. Qed.

Lemma pto_spec hs now v : bf_n (v_bif v) <> 0 -> hs_done hs = true -> (forall e, s_inf (get_s e v) <> 0 -> s_last_el (get_s e v) <> None) ->
  fst (pto_time_and_space hs now v) = earlier (pto_m EInitial v) (earlier (pto_m EHandshake v) (pto_m EApp v)).
Proof.
  intros hb hd hl. unfold pto_time_and_space. rewrite (proj2 (Z.eqb_neq _ _) hb), hd. cbn [negb].
  pose proof (hl EInitial) as h1. pose proof (hl EHandshake) as h2. pose proof (hl EApp) as h3. cbn [get_s] in *.
  unfold pto_m. cbn [get_s]. cbv zeta.
  set (d := rtt_pto (v_rtt v)) in *. set (k := backoff (v_pto_count v)) in *. set (m := r_max_ack_delay (v_rtt v)) in *.
  assert (ha : forall A (b : bool) (x y : A), (if b then x else if b then x else y) = if b then x else y) by (intros ? []; reflexivity).
  rewrite ha. clear ha.
  replace (fst (if s_inf (v_app v) =? 0 then if s_inf (v_hs v) =? 0 then if s_inf (v_ini v) =? 0 then (None, EInitial) else pick (oadd (s_last_el (v_ini v)) (d * k), EInitial) (None, EInitial) else pick (oadd (s_last_el (v_hs v)) (d * k), EHandshake) (if s_inf (v_ini v) =? 0 then (None, EInitial) else pick (oadd (s_last_el (v_ini v)) (d * k), EInitial) (None, EInitial)) else
     pick (oadd (s_last_el (v_app v)) (d * k + m * k), EApp) (if s_inf (v_hs v) =? 0 then if s_inf (v_ini v) =? 0 then (None, EInitial) else pick (oadd (s_last_el (v_ini v)) (d * k), EInitial) (None, EInitial) else pick (oadd (s_last_el (v_hs v)) (d * k), EHandshake) (if s_inf (v_ini v) =? 0 then (None, EInitial) else pick (oadd (s_last_el (v_ini v)) (d * k), EInitial) (None, EInitial)))))
  with (earlier (earlier (if s_inf (v_ini v) =? 0 then None else oadd (s_last_el (v_ini v)) (d * k)) (if s_inf (v_hs v) =? 0 then None else oadd (s_last_el (v_hs v)) (d * k)))
          (if s_inf (v_app v) =? 0 then None else oadd (s_last_el (v_app v)) (d * k + m * k))).
  2:{ destruct (Z.eqb_spec (s_inf (v_ini v)) 0), (Z.eqb_spec (s_inf (v_hs v)) 0), (Z.eqb_spec (s_inf (v_app v)) 0);
      repeat match goal with
      | h : ?a <> 0 -> _, n : ?a <> 0 |- _ => specialize (h n)
      end;
      destruct (s_last_el (v_ini v)), (s_last_el (v_hs v)), (s_last_el (v_app v)); try congruence; cbn [oadd option_map]; rewrite ?pick_some; reflexivity. }
  unfold oadd.
  destruct (s_inf (v_ini v) =? 0), (s_inf (v_hs v) =? 0), (s_inf (v_app v) =? 0);
  destruct (s_last_el (v_ini v)), (s_last_el (v_hs v)), (s_last_el (v_app v)); cbn [option_map earlier]; try reflexivity; f_equal; lia.
Qed.

Lemma timer_pto hs now v : s_loss_time (v_app v) = None -> bf_n (v_bif v) <> 0 -> hs_done hs = true ->
  (forall e, s_inf (get_s e v) <> 0 -> s_last_el (get_s e v) <> None) ->
  timer_of hs now v = earlier (pto_m EInitial v) (earlier (pto_m EHandshake v) (pto_m EApp v)).
Proof.
  intros h0 hb hd hl. unfold timer_of, set_loss_timer. rewrite (lts_none v h0), (proj2 (Z.eqb_neq _ _) hb). cbn [andb v_timer set_timer].
  apply pto_spec; assumption.
Qed.

(** * When ack-eliciting packets were last sent *)
Lemma space_lose_last d t now s s' a : space_lose d t now s = Ok (s', a) -> s_last_el s' = s_last_el s.
Proof.
  unfold space_lose. intros h. destruct (lose _ _ _ _ _ _) as [[l b]| |]; cbn [bind] in h; try discriminate h. injection h as <- _. reflexivity.
Qed.
Lemma rec_lose_last fl e now v v' nb : rec_lose fl e now v = Ok (v', nb) -> forall e', s_last_el (get_s e' v') = s_last_el (get_s e' v).
Proof.
  unfold rec_lose. intros h e'. destruct (space_lose _ _ _ _) as [[s a]| |] eqn:es; cbn [bind] in h; try discriminate h.
  apply space_lose_last in es. injection h as <- _.
  destruct (l_last a), e, e'; first [exact es | reflexivity].
Qed.
Lemma space_ack_last now r rs skip s s' a : space_ack now r rs skip s = Ok (s', a) -> s_last_el s' = s_last_el s.
Proof.
  unfold space_ack. intros h. destruct (ranges_last rs); [|discriminate h]. destruct (ack_ranges _ _ _ _ _ _) as [[l b]| |]; cbn [bind] in h; try discriminate h. injection h as <- _. reflexivity.
Qed.

Lemma last_step fl o v v' x : rec_step fl o v = Ok (v', x) -> forall e, s_last_el (get_s e v') = last_el_step e (s_last_el (get_s e v)) o.
Proof.
  intros h e0. destruct o; cbn [rec_step last_el_step] in *.
  - injection h as <- <-. rewrite rec_sent_space. destruct (epoch_dec e0 e) as [->|hne].
    + rewrite epoch_eqb_refl. cbn [s_last_el andb]. reflexivity.
    + rewrite epoch_eqb_neq by exact hne. reflexivity.
  - destruct (rec_ack fl e rs delay hs now skip v) as [[v1 o1]| |] eqn:er; cbn [bind] in h; try discriminate h. injection h as -> <-.
    unfold rec_ack in er. destruct (space_ack _ _ _ _ _) as [[s a]| |] eqn:es; cbn [bind] in er; try discriminate er. cbv zeta in er.
    apply space_ack_last in es.
    match type of er with context [if a_infspur a then set_cc (alg_rollback (v_cc ?w)) ?w else ?w] => set (w1 := w) in er; set (w2 := if a_infspur a then set_cc (alg_rollback (v_cc w1)) w1 else w1) in er end.
    assert (gw2 : forall e', s_last_el (get_s e' w2) = s_last_el (get_s e' v)).
    { intros e'. transitivity (s_last_el (get_s e' (set_s e s v))).
      - unfold w2, w1. destruct (a_infspur a), (a_thresh a), e'; reflexivity.
      - destruct (epoch_dec e' e) as [->|hne]; [rewrite get_set; exact es|rewrite get_set_other by exact hne; reflexivity]. }
    destruct (a_new a); [injection er as <- _; apply gw2|].
    match type of er with context [rec_lose fl e now ?w] => set (w4 := w) in er; destruct (rec_lose fl e now w4) as [[v5 [n5 m5]]| |] eqn:el; cbn [bind fst snd] in er; try discriminate er end.
    assert (gw4 : forall e', s_last_el (get_s e' w4) = s_last_el (get_s e' v)).
    { intros e'. rewrite <- gw2. unfold w4. match goal with |- context [if ?b then _ else _] => destruct b end;
      destruct (epoch_dec e' e) as [->|hne]; destruct e; try destruct e'; try congruence; reflexivity. }
    pose proof (rec_lose_last _ _ _ _ _ _ el) as gl.
    apply (f_equal (fun r => match r with Ok a => a | _ => (v, o1) end)) in er. cbv beta iota in er.
    apply pair_equal_spec in er. destruct er as [<- _].
    destruct (epoch_dec e0 e) as [->|hne]; [rewrite get_set; cbn [s_last_el set_s_sent]|rewrite get_set_other by exact hne]; rewrite slt_get.
    + transitivity (s_last_el (get_s e v5)); [destruct e; reflexivity|]. rewrite gl. apply gw4.
    + transitivity (s_last_el (get_s e0 v5)); [destruct e0; reflexivity|]. rewrite gl. apply gw4.
  - destruct (rec_timeout fl hs now v) as [[v1 [n b]]| |] eqn:er; cbn [bind] in h; try discriminate h. injection h as <- _.
    unfold rec_timeout in er. destruct (loss_time_and_space v) as [[t|] e1].
    + destruct (rec_lose fl e1 now v) as [[v5 [n5 m5]]| |] eqn:el; cbn [bind] in er; try discriminate er.
      apply (f_equal (fun r => match r with Ok a => a | _ => (v, (n, b)) end)) in er. cbv beta iota in er. apply pair_equal_spec in er. destruct er as [<- _].
      rewrite slt_get. apply (rec_lose_last _ _ _ _ _ _ el).
    + apply (f_equal (fun r => match r with Ok a => a | _ => (v, (n, b)) end)) in er. cbv beta iota zeta in er. apply pair_equal_spec in er. destruct er as [<- _].
      rewrite slt_get. match goal with |- context [set_s ?e ?s ?w] => destruct (epoch_dec e0 e) as [->|hne]; [rewrite get_set|rewrite get_set_other by exact hne; destruct e0; reflexivity];
        destruct (s_fpto (set_s_probes (Z.min (v_pto_count (set_pto_count (v_pto_count v + 1) v)) MAX_PROBES) (get_s e (set_pto_count (v_pto_count v + 1) v)))); destruct e; reflexivity end.
  - injection h as <- <-. unfold rec_discard. cbv zeta. rewrite slt_get. destruct (epoch_dec e0 e) as [->|hne].
    + rewrite get_set, epoch_eqb_refl. reflexivity.
    + rewrite get_set_other, epoch_eqb_neq by exact hne. destruct e0; reflexivity.
  - destruct (rec_lose fl e now v) as [[v5 [n5 m5]]| |] eqn:el; cbn [bind] in h; try discriminate h. injection h as <- _. apply (rec_lose_last _ _ _ _ _ _ el).
  - unfold rec_next_acked in h. destruct (vpop _) as [[f l]|]; injection h as <- <-; [destruct e, e0|]; reflexivity.
  - unfold rec_next_lost in h. destruct (vpop (s_flost _)) as [[f l]|]; [|destruct (vpop (s_fpto _)) as [[f l]|]]; injection h as <- <-; try (destruct e, e0); reflexivity.
  - injection h as <- <-. destruct e, e0; reflexivity.
  - injection h as <- <-. unfold rec_pmtud_mds. destruct (_ =? _), e0; reflexivity.
  - injection h as <- <-. unfold rec_update_mds, rec_pmtud_mds. destruct (_ =? _), e0; reflexivity.
  - injection h as <- <-. destruct e0; reflexivity.
  - injection h as <- <-. destruct e0; reflexivity.
Qed.

Lemma last_run fl ops : forall v v' xs, rec_run fl ops v = Ok (v', xs) -> forall e, s_last_el (get_s e v') = fold_left (last_el_step e) ops (s_last_el (get_s e v)).
Proof.
  induction ops as [|o ops IH]; intros v v' xs h e; cbn [rec_run fold_left] in *; [injection h as <- _; reflexivity|].
  destruct (rec_step fl o v) as [[v1 x]| |] eqn:es; cbn [bind] in h; try discriminate h.
  destruct (rec_run fl ops v1) as [[v2 xs']| |] eqn:er; cbn [bind] in h; try discriminate h. injection h as <- _.
  rewrite (IH _ _ _ er). f_equal. apply (last_step _ _ _ _ _ es).
Qed.

(** * The timer is armed while something is in flight *)
Lemma inf_number e led : number in_flight (of_e e led) = number (fun x => epoch_eqb e (en_e x) && in_flight x) led.
Proof. symmetry. apply (esum_onlye (fun _ => 1) e in_flight). Qed.

Lemma give_up_inf d t now e0 led led' e : give_up_some d t now e0 led led' ->
  number (fun x => epoch_eqb e (en_e x) && in_flight x) led' <= number (fun x => epoch_eqb e (en_e x) && in_flight x) led.
Proof.
  unfold give_up_some. generalize led at 1. intros l0 h. change (number ?f ?x) with (esum (fun _ => 1) f x).
  induction h as [|x y l l' hx h IH]; [reflexivity|]. rewrite !esum_cons.
  destruct hx as [-> |(h1 & _ & -> & _)]; [lia|]. unfold in_flight at 1 3, is_out. rewrite h1. cbn [en_e set_fate en_fate andb en_p].
  rewrite Bool.andb_false_r. destruct (epoch_eqb e (en_e x) && p_inf (en_p x)); lia.
Qed.
Lemma map_inf (u : entry -> entry) led e : (forall x, u x = x \/ exists F, F <> Out /\ u x = set_fate F x) ->
  number (fun x => epoch_eqb e (en_e x) && in_flight x) (map u led) <= number (fun x => epoch_eqb e (en_e x) && in_flight x) led.
Proof.
  intros h. change (number ?f ?x) with (esum (fun _ => 1) f x). induction led as [|x l IH]; [reflexivity|]. cbn [map]. rewrite !esum_cons.
  destruct (h x) as [-> |(F & hF & ->)]; [lia|]. unfold in_flight at 1, is_out. cbn [en_fate set_fate]. destruct F; [congruence|..];
  cbn [andb]; rewrite Bool.andb_false_r; destruct (epoch_eqb e (en_e x) && in_flight x); lia.
Qed.

Definition el_ok (v : rec) (led : ledger) : Prop := forall e, s_last_el (get_s e v) = None -> number in_flight (of_e e led) = 0.

Lemma el_step fl o v led v' x led' : (match o with RSent _ p _ _ => p_inf p = true -> p_el p = true | _ => True end) ->
  inv v led -> inv v' led' -> rec_step fl o v = Ok (v', x) -> ledger_step fl v' o x led led' -> el_ok v led -> el_ok v' led'.
Proof.
  intros ho hi hi' hs hl hel e hn. rewrite (last_step _ _ _ _ _ hs) in hn. specialize (hel e). rewrite inf_number in *.
  assert (hnn := number_nonneg (fun x => epoch_eqb e (en_e x) && in_flight x) led').
  destruct o; cbn [last_el_step ledger_step] in *; try (specialize (hel hn); subst led'; exact hel).
  - subst led'. change (number ?f ?x) with (esum (fun _ => 1) f x) in *. rewrite esum_app, esum_cons in *. change (esum _ _ []) with 0. cbn [en_e].
    unfold in_flight at 2, is_out. cbn [en_fate en_p andb].
    destruct (epoch_eqb e e0); cbn [andb] in *; [|rewrite hel by exact hn; lia].
    destruct (p_inf p); [rewrite ho in hn by reflexivity; discriminate hn|]. cbn [andb] in *. rewrite hel by exact hn. lia.
  - cbv zeta in hl. destruct hl as (n & b & sp & _ & hl & _). apply (give_up_inf _ _ _ _ _ _ e) in hl. specialize (hel hn).
    pose proof (map_inf (ack_entry e0 rs) led e) as hm. assert (forall x : entry, ack_entry e0 rs x = x \/ (exists F : fate, F <> Out /\ ack_entry e0 rs x = set_fate F x)).
    { intros y. unfold ack_entry. destruct (acks e0 rs y); [right; exists Acked; split; [discriminate|reflexivity]|left; reflexivity]. }
    specialize (hm H). lia.
  - destruct hl as (e1 & n & b & _ & hl & _). apply (give_up_inf _ _ _ _ _ _ e) in hl. specialize (hel hn). lia.
  - destruct (epoch_eqb e e0) eqn:ee.
    + apply epoch_eqb_eq in ee. subst e0 led'. change (number ?f ?x) with (esum (fun _ => 1) f x). apply esum_none. rewrite Forall_map. apply Forall_forall. intros y _.
      destruct (epoch_eqb e (en_e y)) eqn:e1; cbn [andb]; [|rewrite e1; reflexivity].
      destruct (is_out y) eqn:e2; cbn [set_fate en_e]; rewrite e1; unfold in_flight; [reflexivity|rewrite e2; reflexivity].
    + specialize (hel hn). subst led'. pose proof (map_inf (fun y => if epoch_eqb e0 (en_e y) && is_out y then set_fate Gone y else y) led e) as hm.
      assert (forall x : entry, (if epoch_eqb e0 (en_e x) && is_out x then set_fate Gone x else x) = x \/ (exists F : fate, F <> Out /\ (if epoch_eqb e0 (en_e x) && is_out x then set_fate Gone x else x) = set_fate F x)).
      { intros y. destruct (epoch_eqb e0 (en_e y) && is_out y); [right; exists Gone; split; [discriminate|reflexivity]|left; reflexivity]. }
      specialize (hm H). lia.
  - destruct hl as (n & b & _ & hl & _). apply (give_up_inf _ _ _ _ _ _ e) in hl. specialize (hel hn). lia.
Qed.
