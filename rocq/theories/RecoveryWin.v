(** The congestion window and the counters over whole histories. *)
Require Import Verif.Base Verif.Errors Verif.RttModel Verif.RecoveryModel Verif.RecoverySpec Verif.RecoveryProofs Verif.RecoveryInv Verif.RecoveryMain Verif.RecoverySteps Verif.RecoveryRun Verif.RecoveryCC.

Definition maybe_event (pipe : Z) (op : option pkt) (now : Z) (c : cc) : cc :=
  match op with Some p => cc_event pipe p now c | None => c end.

Lemma set_s_cc e s v : v_cc (set_s e s v) = v_cc v /\ v_mds (set_s e s v) = v_mds v /\ v_bytes_sent (set_s e s v) = v_bytes_sent v /\
  v_bytes_lost (set_s e s v) = v_bytes_lost v.
Proof. destruct e; repeat split; reflexivity. Qed.
Lemma slt_cc hs now v : v_cc (set_loss_timer hs now v) = v_cc v /\ v_mds (set_loss_timer hs now v) = v_mds v /\
  v_bytes_sent (set_loss_timer hs now v) = v_bytes_sent v /\ v_bytes_lost (set_loss_timer hs now v) = v_bytes_lost v.
Proof. unfold set_loss_timer. destruct (fst (loss_time_and_space v)); [|destruct ((bf_n (v_bif v) =? 0) && hs_verified hs)]; repeat split; reflexivity. Qed.

Lemma rec_lose_cc fl e now v v' n b : rec_lose fl e now v = Ok (v', (n, b)) ->
  (exists op, v_cc v' = set_c_lost (c_lost (v_cc v) + n) (maybe_event (bf_n (v_bif v)) op now (v_cc v))) /\
  v_mds v' = v_mds v /\ v_bytes_sent v' = v_bytes_sent v /\ v_bytes_lost v' = v_bytes_lost v.
Proof.
  unfold rec_lose. intros h. destruct (space_lose _ _ _ _) as [[s a]| |]; cbn [bind] in h; try discriminate h.
  apply (f_equal (fun r => match r with Ok a => a | _ => (v, (n, b)) end)) in h. cbv beta iota zeta in h.
  apply pair_equal_spec in h. destruct h as [<- h]. injection h as <- <-.
  destruct (l_last a) as [p|].
  - split; [exists (Some p)|]; destruct e; cbn -[cc_event]; try (repeat split; reflexivity);
      f_equal; f_equal; apply (cc_event_other (bf_n (v_bif v)) p now (v_cc v)).
  - split; [exists None|]; destruct e; repeat split; reflexivity.
Qed.

Lemma rec_ack_cc fl e rs d hs now skip v v' n b k sp : rec_ack fl e rs d hs now skip v = Ok (v', (n, b, k, sp)) ->
  exists s a c1, space_ack now (r_srtt (v_rtt v)) rs skip (get_s e v) = Ok (s, a) /\ (c1 = v_cc v \/ c1 = alg_rollback (v_cc v)) /\
  ((a_new a = [] /\ v_cc v' = c1 /\ n = 0) \/
   (exists op pipe latest, v_cc v' = cc_acked fl pipe (a_new a) latest now (set_c_lost (c_lost c1 + n) (maybe_event (bf_n (v_bif v)) op now c1)))) /\
  v_mds v' = v_mds v /\ v_bytes_sent v' = v_bytes_sent v /\ v_bytes_lost v' = v_bytes_lost v.
Proof.
  unfold rec_ack. intros h. destruct (space_ack _ _ _ _ _) as [[s a]| |] eqn:es; cbn [bind] in h; try discriminate h.
  cbv zeta in h.
  match type of h with context [if a_infspur a then set_cc (alg_rollback (v_cc ?w)) ?w else ?w] => set (w1 := w) in h; set (w2 := if a_infspur a then set_cc (alg_rollback (v_cc w1)) w1 else w1) in h end.
  assert (hw1 : v_cc w1 = v_cc v /\ v_mds w1 = v_mds v /\ v_bytes_sent w1 = v_bytes_sent v /\ v_bytes_lost w1 = v_bytes_lost v /\ v_bif w1 = v_bif v)
    by (unfold w1; destruct (a_thresh a), e; repeat split; reflexivity).
  destruct hw1 as (b1 & b2 & b3 & b4 & b5).
  assert (hw2 : (v_cc w2 = v_cc v \/ v_cc w2 = alg_rollback (v_cc v)) /\ v_mds w2 = v_mds v /\ v_bytes_sent w2 = v_bytes_sent v /\ v_bytes_lost w2 = v_bytes_lost v /\ v_bif w2 = v_bif v).
  { unfold w2. destruct (a_infspur a); [cbn [v_cc set_cc v_mds v_bytes_sent v_bytes_lost v_bif]; rewrite b1; auto|auto]. }
  destruct hw2 as (d1 & d2 & d3 & d4 & d5).
  exists s, a, (v_cc w2). split; [reflexivity|]. split; [exact d1|].
  destruct (a_new a) as [|p new] eqn:en.
  - injection h as <- <- <- <- <-. auto.
  - rewrite <- en in *. 
    match type of h with context [rec_lose fl e now ?w] => set (w4 := w) in h end.
    assert (hw4 : v_cc w4 = v_cc w2 /\ v_mds w4 = v_mds v /\ v_bytes_sent w4 = v_bytes_sent v /\ v_bytes_lost w4 = v_bytes_lost v /\ v_bif w4 = v_bif v).
    { unfold w4. match goal with |- context [if ?b then _ else _] => destruct b end; destruct e; cbn [set_s set_rtt v_cc v_mds v_bytes_sent v_bytes_lost v_bif]; auto. }
    destruct hw4 as (f1 & f2 & f3 & f4 & f5).
    destruct (rec_lose fl e now w4) as [[v5 [n5 m5]]| |] eqn:el; cbn [bind fst snd] in h; try discriminate h.
    destruct (rec_lose_cc _ _ _ _ _ _ _ el) as ((op & g1) & g2 & g3 & g4).
    apply (f_equal (fun r => match r with Ok a => a | _ => (v, (n, b, k, sp)) end)) in h. cbv beta iota in h.
    apply pair_equal_spec in h. destruct h as [<- h]. injection h as <- <- <- <-.
    match goal with |- context [set_s e ?x (set_loss_timer hs now ?w)] => destruct (set_s_cc e x (set_loss_timer hs now w)) as (i1 & i2 & i3 & i4); destruct (slt_cc hs now w) as (j1 & j2 & j3 & j4);
      set (vv := set_s e x (set_loss_timer hs now w)) in * end.
    split; [|split; [|split]].
    + right. exists op, (bf_n (v_bif v5)), (r_latest (v_rtt v5)). rewrite i1, j1. cbn [v_cc set_pto_count set_bif set_cc].
      rewrite g1, f1, f5. reflexivity.
    + rewrite i2, j2. cbn [v_mds set_pto_count set_bif set_cc]. congruence.
    + rewrite i3, j3. cbn [v_bytes_sent set_pto_count set_bif set_cc]. congruence.
    + rewrite i4, j4. cbn [v_bytes_lost set_pto_count set_bif set_cc]. congruence.
Qed.

(** * Windows *)
Record wrec (lo M mds icwp : Z) (v : rec) (led : ledger) : Prop := mkWrec {
  wr_w : wok lo (icwp * M + mds * number acked_fate led) mds icwp (v_cc v);
  wr_m : lo <= v_mds v <= M }.

Lemma number_nonneg f L : 0 <= number f L.
Proof. apply (esum_nonneg (fun _ => 1)). intros; lia. Qed.

Lemma give_up_acked d t now e led led' : give_up_some d t now e led led' -> number acked_fate led' = number acked_fate led.
Proof.
  unfold give_up_some. generalize led at 1. intros l0 h. change (number ?f ?x) with (esum (fun _ => 1) f x).
  induction h as [|x y l l' hx h IH]; [reflexivity|]. rewrite !esum_cons, IH.
  destruct hx as [-> |(h1 & _ & -> & _)]; [reflexivity|]. unfold acked_fate at 1 3. rewrite h1. reflexivity.
Qed.

Lemma set_c_lost_ok lo hi mds icwp k c : wok lo hi mds icwp c -> wok lo hi mds icwp (set_c_lost k c).
Proof. intros [a b d e f]. split; assumption. Qed.

Lemma maybe_event_ok lo hi mds icwp pipe op now c : 0 <= lo -> lo <= mds -> 2 * mds <= hi ->
  wok lo hi mds icwp c -> wok lo hi mds icwp (maybe_event pipe op now c).
Proof.
  intros h0 h1 h2 hw. destruct op as [p|]; [|exact hw]. cbn [maybe_event]. apply cc_event_ok; auto. destruct hw. lia.
Qed.

Lemma psum_length (l : list pkt) : psum (fun _ => 1) l = Z.of_nat (length l).
Proof. induction l; cbn [psum length]; lia. Qed.

Lemma alg_sent_ok lo hi mds icwp a b now c : wok lo hi mds icwp c -> wok lo hi mds icwp (alg_sent a b now c).
Proof.
  intros [h1 h2 h3 h4 h5]. unfold alg_sent. destruct (c_alg c); [split; assumption|]. destruct ((a =? 0) && c_fix c); [split; assumption|]. cbv zeta.
  destruct (b =? 0); [|split; assumption]. destruct (c_start c); [|split; assumption].
  match goal with |- context [match ?o with Some _ => _ | None => _ end] => destruct o as [i|] end; [destruct (i <? now)|]; split; assumption.
Qed.
Lemma cc_sent_ok lo hi mds icwp a b now pn i c : wok lo hi mds icwp c -> wok lo hi mds icwp (cc_sent a b now pn i c).
Proof.
  intros h. unfold cc_sent. destruct i; [|exact h]. cbv zeta.
  assert (h1 : wok lo hi mds icwp (alg_sent b a now (set_c_app (a + b <? c_cwnd c) c))).
  { apply alg_sent_ok. destruct h as [h1 h2 h3 h4 h5]. split; assumption. }
  match goal with |- context [if ?x then _ else _] => destruct x end; destruct h1 as [q1 q2 q3 q4 q5]; split; assumption.
Qed.

Lemma rec_sent_cc e p hs now v : let v' := rec_sent e p hs now v in
  v_cc v' = cc_sent (bf_n (v_bif v)) (p_size p) now (p_num p) (p_inf p) (v_cc v) /\ v_mds v' = v_mds v /\
  v_bytes_sent v' = v_bytes_sent v + p_size p /\ v_bytes_lost v' = v_bytes_lost v.
Proof.
  cbv zeta. unfold rec_sent. cbv zeta.
  match goal with |- context [set_s e ?x (set_sent_counts ?y ?z ?w)] => destruct (set_s_cc e x (set_sent_counts y z w)) as (-> & -> & -> & ->) end.
  cbn [v_cc v_mds v_bytes_sent v_bytes_lost set_sent_counts].
  set (w1 := if p_inf p && p_el p then _ else _).
  assert (hw : v_cc w1 = v_cc v /\ v_mds w1 = v_mds v /\ v_bytes_sent w1 = v_bytes_sent v /\ v_bytes_lost w1 = v_bytes_lost v /\ v_bif w1 = v_bif v).
  { unfold w1. destruct (p_inf p && p_el p); [destruct e|]; repeat split; reflexivity. }
  destruct hw as (b1 & b2 & b3 & b4 & b5). cbn [p_inf p_size].
  destruct (p_inf p).
  - match goal with |- context [set_loss_timer hs now ?w] => destruct (slt_cc hs now w) as (-> & -> & -> & ->) end.
    cbn [v_cc v_mds v_bytes_sent v_bytes_lost set_bif].
    match goal with |- context [set_s e ?x ?w] => destruct (set_s_cc e x w) as (-> & -> & -> & ->) end.
    cbn [v_cc v_mds v_bytes_sent v_bytes_lost set_cc]. rewrite b1, b2, b3, b4, b5. auto.
  - cbn [v_cc v_mds v_bytes_sent v_bytes_lost set_cc]. rewrite b1, b2, b3, b4, b5. auto.
Qed.

Lemma wrec_keep lo M mds icwp v v' led led' : v_cc v' = v_cc v -> v_mds v' = v_mds v -> number acked_fate led' = number acked_fate led ->
  wrec lo M mds icwp v led -> wrec lo M mds icwp v' led'.
Proof. intros h1 h2 h3 [a b]. split; rewrite ?h1, ?h2, ?h3; assumption. Qed.

Lemma win_step fl o v led v' x led' lo M mds icwp : inv v led -> op_valid o (keys led) ->
  rec_step fl o v = Ok (v', x) -> ledger_step fl v' o x led led' ->
  0 <= lo -> lo <= mds <= M -> 2 <= icwp -> (forall n, In n (sizes [o]) -> lo <= n <= M) ->
  wrec lo M mds icwp v led -> wrec lo M mds icwp v' led'.
Proof.
  intros hi hov hs hl h0 h1 h2 hsz hw.
  assert (hH : 2 * mds <= icwp * M + mds * number acked_fate led).
  { pose proof (number_nonneg acked_fate led). assert (0 <= mds * number acked_fate led) by nia. nia. }
  destruct o; cbn [rec_step] in hs.
  - injection hs as <- <-. cbn [ledger_step] in hl. subst led'. destruct (rec_sent_cc e p hs0 now v) as (a & b & _). destruct hw as [w1 w2].
    split; rewrite ?a, ?b; [|exact w2]. apply cc_sent_ok. 
    replace (number acked_fate (led ++ [mkEn e p now Out])) with (number acked_fate led); [exact w1|].
    change (number ?f ?x) with (esum (fun _ => 1) f x). rewrite esum_app. change (esum _ acked_fate [_]) with 0. lia.
  - destruct (rec_ack fl e rs delay hs0 now skip v) as [[v1 [[[n b] k] sp]]| |] eqn:ea; cbn [bind] in hs; try discriminate hs. injection hs as <- <-.
    destruct (rec_ack_cc _ _ _ _ _ _ _ _ _ _ _ _ _ ea) as (s & a & c1 & q1 & q2 & q3 & q4 & _).
    cbn [ledger_step] in hl. cbv zeta in hl. destruct hl as (n1 & b1 & s1 & _ & hl & _).
    assert (hc : number acked_fate led' = number acked_fate led + Z.of_nat (length (a_new a))).
    { rewrite (give_up_acked _ _ _ _ _ _ hl), <- settle_ack.
      change (esum (fun _ => 1) acked_fate (settle (onlye e (tack rs)) Acked led) = esum (fun _ => 1) acked_fate led + Z.of_nat (length (a_new a))).
      rewrite (settle_fate (fun _ => 1) acked_fate).
      - f_equal. rewrite esum_onlye. destruct (space_ack_ok now (r_srtt (v_rtt v)) rs skip (get_s e v) (of_e e led) (i_core v led hi e) hov) as [_ hok].
        destruct (hok s a q1) as (_ & _ & _ & _ & _ & _ & _ & _ & _ & k10 & _). rewrite <- (k10 (fun _ => 1) (fun _ _ _ _ => eq_refl)). apply psum_length.
      - intros y hy. apply out_not_acked. apply Bool.andb_true_iff in hy. destruct hy as [_ hy]. apply Bool.andb_true_iff in hy. apply hy.
      - reflexivity. }
    destruct hw as [w1 w2]. split; [|rewrite q4; exact w2]. rewrite hc, Z.mul_add_distr_l, Z.add_assoc.
    assert (hc1 : wok lo (icwp * M + mds * number acked_fate led) mds icwp c1).
    { destruct q2 as [-> | ->]; [exact w1|apply alg_rollback_ok; exact w1]. }
    destruct q3 as [(e1 & -> & _)|(op & pipe & latest & ->)].
    + rewrite e1. cbn [length]. eapply wok_weaken; [|exact hc1]. lia.
    + apply cc_acked_ok; [lia|]. apply set_c_lost_ok, maybe_event_ok; auto; lia.
  - destruct (rec_timeout fl hs0 now v) as [[v1 [n b]]| |] eqn:et; cbn [bind fst snd] in hs; try discriminate hs. injection hs as <- <-.
    cbn [ledger_step] in hl. destruct hl as (e & n1 & b1 & _ & hl & _). apply give_up_acked in hl.
    unfold rec_timeout in et. destruct (loss_time_and_space v) as [[t|] e0].
    + destruct (rec_lose fl e0 now v) as [[v2 [n2 b2]]| |] eqn:el; cbn [bind] in et; try discriminate et. 
      apply (f_equal (fun r => match r with Ok a => a | _ => (v, (n, b)) end)) in et. cbv beta iota in et. apply pair_equal_spec in et. destruct et as [<- _].
      destruct (rec_lose_cc _ _ _ _ _ _ _ el) as ((op & g1) & g2 & _). destruct (slt_cc hs0 now v2) as (j1 & j2 & _).
      destruct hw as [w1 w2]. split; rewrite ?j1, ?j2, ?g1, ?g2, ?hl; [|exact w2]. apply set_c_lost_ok, maybe_event_ok; auto; lia.
    + apply (f_equal (fun r => match r with Ok a => a | _ => (v, (n, b)) end)) in et. cbv beta iota zeta in et. apply pair_equal_spec in et. destruct et as [<- _].
      eapply wrec_keep; [..|exact hw]; auto.
      * match goal with |- v_cc (set_loss_timer ?a ?b ?c) = _ => destruct (slt_cc a b c) as (-> & _) end.
        match goal with |- v_cc (set_s ?a ?b ?c) = _ => destruct (set_s_cc a b c) as (-> & _) end. reflexivity.
      * match goal with |- v_mds (set_loss_timer ?a ?b ?c) = _ => destruct (slt_cc a b c) as (_ & -> & _) end.
        match goal with |- v_mds (set_s ?a ?b ?c) = _ => destruct (set_s_cc a b c) as (_ & -> & _) end. reflexivity.
  - injection hs as <- <-. cbn [ledger_step] in hl. eapply wrec_keep; [..|exact hw].
    + unfold rec_discard. cbv zeta. match goal with |- v_cc (set_loss_timer ?a ?b ?c) = _ => destruct (slt_cc a b c) as (-> & _) end.
      match goal with |- v_cc (set_s ?a ?b ?c) = _ => destruct (set_s_cc a b c) as (-> & _) end. reflexivity.
    + unfold rec_discard. cbv zeta. match goal with |- v_mds (set_loss_timer ?a ?b ?c) = _ => destruct (slt_cc a b c) as (_ & -> & _) end.
      match goal with |- v_mds (set_s ?a ?b ?c) = _ => destruct (set_s_cc a b c) as (_ & -> & _) end. reflexivity.
    + rewrite hl. change (esum (fun _ => 1) acked_fate (settle (onlye e is_out) Gone led) = esum (fun _ => 1) acked_fate led).
      apply settle_unfate; [|reflexivity]. intros y hy. apply out_not_acked. apply Bool.andb_true_iff in hy. apply hy.
  - destruct (rec_lose fl e now v) as [[v2 [n2 b2]]| |] eqn:el; cbn [bind] in hs; try discriminate hs. injection hs as <- <-.
    cbn [ledger_step] in hl. destruct hl as (n1 & b1 & _ & hl & _). apply give_up_acked in hl.
    destruct (rec_lose_cc _ _ _ _ _ _ _ el) as ((op & g1) & g2 & _).
    destruct hw as [w1 w2]. split; rewrite ?g1, ?g2, ?hl; [|exact w2]. apply set_c_lost_ok, maybe_event_ok; auto; lia.
  - cbn [ledger_step] in hl. subst led'. unfold rec_next_acked in hs. destruct (vpop (s_facked (get_s e v))) as [[f l]|]; injection hs as <- <-; [|exact hw].
    eapply wrec_keep; [..|exact hw]; auto; apply (set_s_cc e).
  - cbn [ledger_step] in hl. subst led'. unfold rec_next_lost in hs. destruct (vpop (s_flost (get_s e v))) as [[f l]|]; [|destruct (vpop (s_fpto (get_s e v))) as [[f l]|]]; injection hs as <- <-; [| |exact hw];
    (eapply wrec_keep; [..|exact hw]; auto; apply (set_s_cc e)).
  - cbn [ledger_step] in hl. subst led'. injection hs as <- <-. eapply wrec_keep; [..|exact hw]; auto; apply (set_s_cc e).
  - cbn [ledger_step] in hl. subst led'. injection hs as <- <-. specialize (hsz n (or_introl eq_refl)). destruct hw as [[a b c d f] w2].
    pose proof (number_nonneg acked_fate led). assert (0 <= mds * number acked_fate led) by nia.
    unfold rec_pmtud_mds. destruct (c_cwnd (v_cc v) =? v_mds v * c_icwp (v_cc v)); (split; [|exact hsz]); [|split; assumption].
    split; cbn [v_cc set_mds set_cc c_cwnd set_c_cwnd c_cu c_mds c_icwp]; auto; rewrite ?f; nia.
  - cbn [ledger_step] in hl. subst led'. injection hs as <- <-. specialize (hsz n (or_introl eq_refl)). destruct hw as [[a b c d f] w2].
    pose proof (number_nonneg acked_fate led). assert (0 <= mds * number acked_fate led) by nia.
    unfold rec_update_mds, rec_pmtud_mds. destruct (c_cwnd (v_cc v) =? v_mds v * c_icwp (v_cc v)); (split; [|cbn [v_mds set_mds]; lia]); [|split; assumption].
    assert (lo <= Z.min (v_mds v) n <= M) by lia.
    split; cbn [v_cc set_mds set_cc c_cwnd set_c_cwnd c_cu c_mds c_icwp]; auto; rewrite ?f; nia.
  - cbn [ledger_step] in hl. subst led'. injection hs as <- <-. eapply wrec_keep; [..|exact hw]; reflexivity.
  - cbn [ledger_step] in hl. subst led'. injection hs as <- <-. destruct hw as [[q1 q2 q3 q4 q5] w2]. split; [split; assumption|exact w2].
Qed.

(** * Counters *)
Record crec (v : rec) (led : ledger) : Prop := mkCrec {
  cr_lost : c_lost (v_cc v) = number counted led;
  cr_sent : v_bytes_sent v = total (fun _ => true) led;
  cr_bytes : v_bytes_lost v = 0 }.

Lemma hy_step_lost p l n c : c_lost (hy_step p l n c) = c_lost c.
Proof. unfold hy_step. destruct (hy_acked (p_num p) l n (c_hy c)) as [h []]; reflexivity. Qed.
Lemma rollback_lost c : c_lost (fst (cubic_rollback c)) = c_lost c.
Proof. unfold cubic_rollback. destruct (pi_cwnd (cu_prior (c_cu c)) <? _); [reflexivity|]. destruct (pi_cwnd (cu_prior (c_cu c)) <=? _); reflexivity. Qed.
Lemma cc_acked_lost fl pipe l latest now c : c_lost (cc_acked fl pipe l latest now c) = c_lost c.
Proof.
  unfold cc_acked. destruct (c_alg c).
  - revert c. induction l as [|p l IH]; intros c; [reflexivity|]. cbn [fold_left]. rewrite IH. unfold reno_acked.
    destruct (cc_in_recovery (p_sent p) c); [reflexivity|]. destruct (c_app c); [reflexivity|].
    destruct (c_cwnd c <? c_ssthresh c); [cbv zeta; rewrite hy_step_lost; reflexivity|]. cbv zeta. match goal with |- context [if ?b then _ else _] => destruct b end; reflexivity.
  - cbv zeta. set (c0 := set_c_cu _ c). change (c_lost c) with (c_lost c0). generalize c0. clear c0.
    induction l as [|p l IH]; intros c0; [reflexivity|]. cbn [fold_left]. rewrite IH. unfold cubic_acked.
    destruct (cc_in_recovery (p_sent p) c0); [reflexivity|]. destruct (c_app c0); [reflexivity|].
    match goal with |- c_lost (let '(c, rolled) := ?x in _) = _ => set (r := x) end.
    assert (hr : c_lost (fst r) = c_lost c0).
    { unfold r. destruct (is_some (c_start c0)); [|reflexivity]. cbv zeta.
      match goal with |- context [if ?b then _ else _] => destruct b end; [apply rollback_lost|reflexivity]. }
    destruct r as [c1 rolled]. cbn [fst] in hr. rewrite <- hr. destruct rolled; [reflexivity|].
    destruct (c_cwnd c1 <? c_ssthresh c1).
    + cbv zeta. rewrite hy_step_lost. match goal with |- context [if ?b then _ else _] => destruct b end; reflexivity.
    + unfold cubic_avoid. cbv zeta. match goal with |- context [if ?b then (_, _) else _] => destruct b end;
      (destruct (hy_in_css (c_hy c1)); [reflexivity|]; destruct (c_start c1); reflexivity).
Qed.
Lemma maybe_event_lost pipe op now c : c_lost (maybe_event pipe op now c) = c_lost c.
Proof. destruct op; [apply cc_event_other|reflexivity]. Qed.

Lemma total_true_settle T F led : total (fun _ => true) (settle T F led) = total (fun _ => true) led.
Proof. apply (settle_all p_size). Qed.
Lemma give_up_total d t now e led led' : give_up_some d t now e led led' -> total (fun _ => true) led' = total (fun _ => true) led.
Proof.
  unfold give_up_some. generalize led at 1. intros l0 h. change (total ?f ?x) with (esum p_size f x).
  induction h as [|x y l l' hx h IH]; [reflexivity|]. rewrite !esum_cons, IH.
  destruct hx as [-> |(h1 & _ & -> & _)]; reflexivity.
Qed.
Lemma counted_unfate T F led : F <> Lost -> (forall x, T x = true -> is_out x = true) -> number counted (settle T F led) = number counted led.
Proof.
  intros hF hT. apply (settle_unfate (fun _ => 1)).
  - intros x hx. unfold counted. rewrite (out_not_lost x (hT x hx)). reflexivity.
  - intros x. unfold counted, lost_fate. cbn [set_fate en_fate]. destruct F; (congruence || reflexivity).
Qed.

Lemma crec_keep v v' led led' : c_lost (v_cc v') = c_lost (v_cc v) -> v_bytes_sent v' = v_bytes_sent v -> v_bytes_lost v' = v_bytes_lost v ->
  number counted led' = number counted led -> total (fun _ => true) led' = total (fun _ => true) led -> crec v led -> crec v' led'.
Proof. intros h1 h2 h3 h4 h5 [a b c]. split; congruence. Qed.

Lemma cnt_step fl o v led v' x led' : rec_step fl o v = Ok (v', x) -> ledger_step fl v' o x led led' -> crec v led -> crec v' led'.
Proof.
  intros hs hl hw.
  destruct o; cbn [rec_step] in hs.
  - injection hs as <- <-. cbn [ledger_step] in hl. subst led'. destruct (rec_sent_cc e p hs0 now v) as (a & _ & b & c). destruct hw as [w1 w2 w3].
    split.
    + rewrite a. transitivity (c_lost (v_cc v)).
      { unfold cc_sent. destruct (p_inf p); [|reflexivity]. cbv zeta.
        assert (q : forall s b t c, c_lost (alg_sent s b t c) = c_lost c).
        { clear. intros s b t c. unfold alg_sent. destruct (c_alg c); [reflexivity|]. destruct ((s =? 0) && c_fix c); [reflexivity|]. cbv zeta.
          destruct (b =? 0); [|reflexivity]. destruct (c_start c); [|reflexivity].
          match goal with |- context [match ?o with Some _ => _ | None => _ end] => destruct o as [i|] end; [destruct (i <? t)|]; reflexivity. }
        match goal with |- context [if ?b then _ else _] => destruct b end; cbn [c_lost set_c_hy set_c_prr]; rewrite q; reflexivity. }
      rewrite w1. change (number ?f ?x) with (esum (fun _ => 1) f x). rewrite esum_app. change (esum _ counted [_]) with 0. lia.
    + rewrite b, w2. change (total ?f ?x) with (esum p_size f x). rewrite esum_app, esum_cons. change (esum _ _ []) with 0. cbn [en_p]. lia.
    + congruence.
  - destruct (rec_ack fl e rs delay hs0 now skip v) as [[v1 [[[n b] k] sp]]| |] eqn:ea; cbn [bind] in hs; try discriminate hs. injection hs as <- <-.
    destruct (rec_ack_cc _ _ _ _ _ _ _ _ _ _ _ _ _ ea) as (s & a & c1 & q1 & q2 & q3 & q4 & q5 & q6).
    cbn [ledger_step] in hl. cbv zeta in hl. destruct hl as (n1 & b1 & s1 & eo & hl & hrep & _). injection eo as e1 e2 e3 e4. rewrite <- e1 in hrep.
    pose proof (give_up_total _ _ _ _ _ _ hl) as ht. rewrite <- settle_ack, total_true_settle in ht. rewrite <- settle_ack, counted_unfate in hrep.
    2:{ discriminate. }
    2:{ intros y hy. apply Bool.andb_true_iff in hy. destruct hy as [_ hy]. apply Bool.andb_true_iff in hy. apply hy. }
    destruct hw as [w1 w2 w3].
    assert (hc1 : c_lost c1 = c_lost (v_cc v)). { destruct q2 as [-> | ->]; [reflexivity|]. unfold alg_rollback. destruct (c_alg (v_cc v)); [reflexivity|apply rollback_lost]. }
    split; [|congruence|congruence].
    destruct q3 as [(_ & -> & en)|(op & pipe & latest & ->)].
    + lia.
    + rewrite cc_acked_lost. cbn [c_lost set_c_lost]. lia.
  - destruct (rec_timeout fl hs0 now v) as [[v1 [n b]]| |] eqn:et; cbn [bind fst snd] in hs; try discriminate hs. injection hs as <- <-.
    cbn [ledger_step] in hl. destruct hl as (e & n1 & b1 & eo & hl & hrep & _). injection eo as e1 e2. rewrite <- e1 in hrep. apply give_up_total in hl.
    unfold rec_timeout in et. destruct (loss_time_and_space v) as [[t|] e0].
    + destruct (rec_lose fl e0 now v) as [[v2 [n2 b2]]| |] eqn:el; cbn [bind] in et; try discriminate et. 
      apply (f_equal (fun r => match r with Ok a => a | _ => (v, (n, b)) end)) in et. cbv beta iota in et. apply pair_equal_spec in et. destruct et as [<- et].
      injection et as f1 f2.
      destruct (rec_lose_cc _ _ _ _ _ _ _ el) as ((op & g1) & g2 & g3 & g4). destruct (slt_cc hs0 now v2) as (j1 & j2 & j3 & j4).
      destruct hw as [w1 w2 w3]. split; [|congruence|congruence]. rewrite j1, g1. cbn [c_lost set_c_lost]. lia.
    + apply (f_equal (fun r => match r with Ok a => a | _ => (v, (n, b)) end)) in et. cbv beta iota zeta in et. apply pair_equal_spec in et. destruct et as [<- et].
      injection et as f1 f2.
      match goal with |- crec (set_loss_timer ?a ?b (set_s ?x ?y ?z)) _ => destruct (slt_cc a b (set_s x y z)) as (j1 & j2 & j3 & j4); destruct (set_s_cc x y z) as (k1 & k2 & k3 & k4); set (w := set_loss_timer a b (set_s x y z)) in * end.
      destruct hw as [w1 w2 w3]. split.
      * rewrite j1, k1. cbn [v_cc set_pto_count]. lia.
      * rewrite j3, k3. cbn [v_bytes_sent set_pto_count]. congruence.
      * rewrite j4, k4. exact w3.
  - injection hs as <- <-. cbn [ledger_step] in hl.
    assert (hT : forall x, onlye e is_out x = true -> is_out x = true) by (intros x hx; apply Bool.andb_true_iff in hx; apply hx).
    change (led' = settle (onlye e is_out) Gone led) in hl. subst led'.
    unfold rec_discard. cbv zeta.
    match goal with |- crec (set_loss_timer ?a ?b (set_s ?x ?y ?z)) _ => destruct (slt_cc a b (set_s x y z)) as (j1 & j2 & j3 & j4); destruct (set_s_cc x y z) as (k1 & k2 & k3 & k4); set (w := set_loss_timer a b (set_s x y z)) in * end.
    eapply crec_keep; [..|exact hw].
    + rewrite j1, k1. reflexivity.
    + rewrite j3, k3. reflexivity.
    + rewrite j4, k4. reflexivity.
    + apply counted_unfate; [discriminate|exact hT].
    + apply total_true_settle.
  - destruct (rec_lose fl e now v) as [[v2 [n2 b2]]| |] eqn:el; cbn [bind fst snd] in hs; try discriminate hs. injection hs as <- <-.
    cbn [ledger_step] in hl. destruct hl as (n1 & b1 & eo & hl & hrep & _). injection eo as e1 e2. apply give_up_total in hl.
    destruct (rec_lose_cc _ _ _ _ _ _ _ el) as ((op & g1) & g2 & g3 & g4).
    destruct hw as [w1 w2 w3]. split; [|congruence|congruence]. rewrite g1. cbn [c_lost set_c_lost]. lia.
  - cbn [ledger_step] in hl. subst led'. unfold rec_next_acked in hs. destruct (vpop (s_facked (get_s e v))) as [[f l]|]; injection hs as <- <-; [|exact hw].
    destruct e; eapply crec_keep; [..|exact hw| | | | | |exact hw| | | | | |exact hw]; reflexivity.
  - cbn [ledger_step] in hl. subst led'. unfold rec_next_lost in hs. destruct (vpop (s_flost (get_s e v))) as [[f l]|]; [|destruct (vpop (s_fpto (get_s e v))) as [[f l]|]]; injection hs as <- <-; [| |exact hw];
    (destruct e; eapply crec_keep; [..|exact hw| | | | | |exact hw| | | | | |exact hw]; reflexivity).
  - cbn [ledger_step] in hl. subst led'. injection hs as <- <-. destruct e; eapply crec_keep; [..|exact hw| | | | | |exact hw| | | | | |exact hw]; reflexivity.
  - cbn [ledger_step] in hl. subst led'. injection hs as <- <-. unfold rec_pmtud_mds.
    destruct (c_cwnd (v_cc v) =? v_mds v * c_icwp (v_cc v)); destruct hw as [w1 w2 w3]; split; assumption.
  - cbn [ledger_step] in hl. subst led'. injection hs as <- <-. unfold rec_update_mds, rec_pmtud_mds.
    destruct (c_cwnd (v_cc v) =? v_mds v * c_icwp (v_cc v)); destruct hw as [w1 w2 w3]; split; assumption.
  - cbn [ledger_step] in hl. subst led'. injection hs as <- <-. destruct hw as [w1 w2 w3]; split; assumption.
  - cbn [ledger_step] in hl. subst led'. injection hs as <- <-. destruct hw as [w1 w2 w3]; split; assumption.
Qed.
