(** The congestion window, proportional rate reduction and the time in flight. *)
Require Import Verif.Base Verif.Errors Verif.RttModel Verif.RecoveryModel Verif.RecoverySpec.

(** * Scaling by 0.7 *)
Lemma round53_err p : 0 <= p -> - p <= (round53 p - p) * 2 ^ 53 <= p.
Proof.
  intros hp. unfold round53. set (e := Z.max 0 (Z.log2 p - 52)).
  destruct (Z.leb_spec (Z.log2 p) 52) as [h|h].
  - assert (he : e = 0) by lia. rewrite he. change (2 ^ 0) with 1. rewrite Z.div_1_r, Z.mod_1_r.
    assert (hx : (1 <? 2 * 0) || ((1 =? 2 * 0) && Z.odd p) = false) by reflexivity. rewrite hx. lia.
  - assert (he : e = Z.log2 p - 52) by lia.
    assert (hp1 : 0 < p). { destruct (Z.eq_dec p 0) as [->|]; [cbn in h; lia|lia]. }
    assert (he2 : 2 ^ e * 2 ^ 52 <= p).
    { rewrite <- Z.pow_add_r by lia. replace (e + 52) with (Z.log2 p) by lia. apply Z.log2_spec. exact hp1. }
    assert (hpos : 0 < 2 ^ e) by (apply Z.pow_pos_nonneg; lia).
    pose proof (Z.div_mod p (2 ^ e) ltac:(lia)) as hdm. pose proof (Z.mod_pos_bound p (2 ^ e) hpos) as hr.
    set (q := p / 2 ^ e) in *. set (r := p mod 2 ^ e) in *. set (w := 2 ^ e) in *.
    change (2 ^ 52) with 4503599627370496 in he2. change (2 ^ 53) with 9007199254740992.
    destruct ((w <? 2 * r) || ((w =? 2 * r) && Z.odd q)) eqn:eu.
    + assert (w <= 2 * r).
      { apply Bool.orb_true_iff in eu. destruct eu as [eu|eu]; [lia|]. apply Bool.andb_true_iff in eu. lia. }
      nia.
    + assert (2 * r <= w) by (apply Bool.orb_false_iff in eu; lia). nia.
Qed.

(** 0.7 x, rounded down, up to one *)
Lemma mul_beta_bounds x : 0 <= x < 2 ^ 51 -> 7 * x / 10 - 1 <= mul_beta x <= 7 * x / 10.
Proof.
  intros hx. unfold mul_beta. pose proof (round53_err (x * 6305039478318694) ltac:(lia)) as h.
  set (r := round53 (x * 6305039478318694)) in *. change (2 ^ 53) with 9007199254740992 in *. change (2 ^ 51) with 2251799813685248 in hx.
  pose proof (Z.div_mod r 9007199254740992 ltac:(lia)). pose proof (Z.mod_pos_bound r 9007199254740992 ltac:(lia)).
  pose proof (Z.div_mod (7 * x) 10 ltac:(lia)). pose proof (Z.mod_pos_bound (7 * x) 10 ltac:(lia)).
  lia.
Qed.
Lemma mul_beta_le x : 0 <= x -> mul_beta x <= x.
Proof.
  intros hx. unfold mul_beta. pose proof (round53_err (x * 6305039478318694) ltac:(lia)) as h.
  set (r := round53 (x * 6305039478318694)) in *. change (2 ^ 53) with 9007199254740992 in *.
  pose proof (Z.div_mod r 9007199254740992 ltac:(lia)). pose proof (Z.mod_pos_bound r 9007199254740992 ltac:(lia)).
  lia.
Qed.
Lemma mul_beta_nonneg x : 0 <= x < 2 ^ 51 -> 0 <= mul_beta x.
Proof.
  intros hx. unfold mul_beta. pose proof (round53_err (x * 6305039478318694) ltac:(lia)) as h. apply Z.div_pos; [|lia].
  change (2 ^ 53) with 9007199254740992 in *. lia.
Qed.

(** * Growth *)
Lemma hy_step_cwnd p latest now c : let c' := hy_step p latest now c in
  c_cwnd c' = c_cwnd c /\ c_mds c' = c_mds c /\ c_icwp c' = c_icwp c /\ c_cu c' = c_cu c /\ c_alg c' = c_alg c.
Proof.
  cbv zeta. unfold hy_step. destruct (hy_acked (p_num p) latest now (c_hy c)) as [h l]. destruct l; repeat split; reflexivity.
Qed.

Lemma ss_inc_bounds c : 0 <= c_mds c -> 0 <= ss_inc c <= c_mds c.
Proof. intros h. unfold ss_inc. destruct (hy_in_css (c_hy c)); [|lia]. pose proof (Z.div_mod (c_mds c) 4 ltac:(lia)). pose proof (Z.mod_pos_bound (c_mds c) 4 ltac:(lia)). lia. Qed.

(** [lo] below every datagram size, [hi] the most the window can have grown to *)
Record wok (lo hi mds icwp : Z) (c : cc) : Prop := mkWok {
  w_lo : 2 * lo <= c_cwnd c;
  w_hi : c_cwnd c <= hi;
  w_pr : pi_cwnd (cu_prior (c_cu c)) <= hi;
  w_mds : c_mds c = mds;
  w_icwp : c_icwp c = icwp }.

Lemma wok_weaken lo hi hi' mds icwp c : hi <= hi' -> wok lo hi mds icwp c -> wok lo hi' mds icwp c.
Proof. intros h [a b d e f]. split; auto; lia. Qed.

Lemma reno_acked_ok lo hi mds icwp p latest now c : 0 <= mds -> wok lo hi mds icwp c -> wok lo (hi + mds) mds icwp (reno_acked p latest now c).
Proof.
  intros hm hw. unfold reno_acked. destruct (cc_in_recovery (p_sent p) c); [eapply wok_weaken; [|exact hw]; lia|].
  destruct (c_app c); [eapply wok_weaken; [|exact hw]; lia|]. destruct hw as [a b d e f].
  destruct (c_cwnd c <? c_ssthresh c).
  - match goal with |- wok _ _ _ _ (hy_step ?p ?l ?n ?x) => destruct (hy_step_cwnd p l n x) as (q1 & q2 & q3 & q4 & q5); cbv zeta in q1, q2, q3, q4; set (y := hy_step p l n x) in * end.
    pose proof (ss_inc_bounds (set_c_sl (c_sl c + p_size p) c) ltac:(cbn; lia)) as hb. cbn [c_mds set_c_sl] in hb.
    split; rewrite ?q1, ?q2, ?q3, ?q4; cbn [c_cwnd set_c_cwnd set_c_sl c_cu c_mds c_icwp]; lia.
  - cbv zeta. match goal with |- context [if ?b then _ else _] => destruct b end; split; cbn [c_cwnd set_c_cwnd set_c_sl set_c_ca set_c_cu set_c_prr set_c_start cc_ssthresh c_cu c_mds c_icwp cu_prior pi_cwnd fst]; try assumption; lia.
Qed.

Lemma rollback_ok lo hi mds icwp c : wok lo hi mds icwp c -> wok lo hi mds icwp (fst (cubic_rollback c)).
Proof.
  intros [a b d e f]. unfold cubic_rollback. destruct (pi_cwnd (cu_prior (c_cu c)) <? pi_ssthresh (cu_prior (c_cu c))); [split; assumption|].
  destruct (Z.leb_spec (pi_cwnd (cu_prior (c_cu c))) (c_cwnd c)); [split; assumption|]. split; cbn [c_cwnd set_c_cwnd set_c_sl set_c_ca set_c_cu set_c_prr set_c_start cc_ssthresh c_cu c_mds c_icwp cu_prior pi_cwnd fst]; try assumption; lia.
Qed.
Lemma alg_rollback_ok lo hi mds icwp c : wok lo hi mds icwp c -> wok lo hi mds icwp (alg_rollback c).
Proof. intros h. unfold alg_rollback. destruct (c_alg c); [exact h|apply rollback_ok; exact h]. Qed.

Lemma cubic_avoid_ok fl lo hi mds icwp p now c : 0 <= mds -> wok lo hi mds icwp c -> wok lo (hi + mds) mds icwp (cubic_avoid fl p now c).
Proof.
  intros hm hw. unfold cubic_avoid. cbv zeta.
  set (c1 := if hy_in_css (c_hy c) then c else match c_start c with Some _ => c | None => set_c_start (Some now) c end).
  assert (h1 : wok lo hi mds icwp c1).
  { unfold c1. destruct (hy_in_css (c_hy c)); [exact hw|]. destruct (c_start c); [exact hw|]. destruct hw as [a b d e f]. split; assumption. }
  destruct h1 as [a b d e f].
  match goal with |- context [if ?b then (_, _) else _] => destruct b end; split; cbn [c_cwnd set_c_cwnd set_c_sl set_c_ca set_c_cu set_c_prr set_c_start cc_ssthresh c_cu c_mds c_icwp cu_prior pi_cwnd fst]; try assumption; lia.
Qed.

Lemma cubic_acked_ok fl lo hi mds icwp pipe p latest now c : 0 <= mds -> wok lo hi mds icwp c ->
  wok lo (hi + mds) mds icwp (cubic_acked fl pipe p latest now c).
Proof.
  intros hm hw. unfold cubic_acked. destruct (cc_in_recovery (p_sent p) c).
  { destruct hw as [a b d e f]. split; cbn [c_cwnd set_c_cwnd set_c_sl set_c_ca set_c_cu set_c_prr set_c_start cc_ssthresh c_cu c_mds c_icwp cu_prior pi_cwnd fst]; try assumption; lia. }
  destruct (c_app c); [eapply wok_weaken; [|exact hw]; lia|].
  match goal with |- wok _ _ _ _ (let '(c, rolled) := ?x in _) => set (r := x) end.
  assert (hr : wok lo hi mds icwp (fst r)).
  { unfold r. destruct (is_some (c_start c)); [|exact hw]. cbv zeta.
    match goal with |- context [if ?b then _ else _] => destruct b end; [apply rollback_ok; exact hw|exact hw]. }
  destruct r as [c1 rolled]. cbn [fst] in hr. destruct rolled; [eapply wok_weaken; [|exact hr]; lia|].
  destruct (c_cwnd c1 <? c_ssthresh c1); [|apply cubic_avoid_ok; assumption].
  cbv zeta. match goal with |- wok _ _ _ _ (hy_step ?p ?l ?n ?x) => destruct (hy_step_cwnd p l n x) as (q1 & q2 & q3 & q4 & q5); cbv zeta in q1, q2, q3, q4; set (y := hy_step p l n x) in *; set (z := x) in * end.
  assert (hz : wok lo (hi + mds) mds icwp z).
  { destruct hr as [a b d e f]. unfold z. match goal with |- context [if ?b then _ else _] => destruct b end.
    - pose proof (ss_inc_bounds (set_c_sl (c_sl c1 + p_size p) c1) ltac:(cbn; lia)) as hb. cbn [c_mds set_c_sl] in hb.
      split; cbn [c_cwnd set_c_cwnd set_c_sl c_cu c_mds c_icwp]; lia.
    - split; cbn [c_cwnd set_c_cwnd set_c_sl set_c_ca set_c_cu set_c_prr set_c_start cc_ssthresh c_cu c_mds c_icwp cu_prior pi_cwnd fst]; try assumption; lia. }
  destruct hz as [a b d e f]. split; congruence || (rewrite ?q1, ?q2, ?q3, ?q4; lia).
Qed.

Lemma cc_acked_ok fl lo mds icwp pipe l latest now : 0 <= mds -> forall c hi, wok lo hi mds icwp c ->
  wok lo (hi + mds * Z.of_nat (length l)) mds icwp (cc_acked fl pipe l latest now c).
Proof.
  intros hm c hi hw. unfold cc_acked. destruct (c_alg c).
  - revert c hi hw. induction l as [|p l IH]; intros c hi hw; cbn [fold_left length]; [eapply wok_weaken; [|exact hw]; lia|].
    eapply wok_weaken; [|apply IH, reno_acked_ok; eassumption]. lia.
  - cbv zeta. match goal with |- context [set_c_cu ?u c] => set (c0 := set_c_cu u c); assert (h0 : wok lo hi mds icwp c0) by (destruct hw as [a b d e f]; split; assumption) end.
    clearbody c0. clear hw c. revert c0 hi h0. induction l as [|p l IH]; intros c hi hw; cbn [fold_left length]; [eapply wok_weaken; [|exact hw]; lia|].
    eapply wok_weaken; [|apply IH, cubic_acked_ok; eassumption]. lia.
Qed.

(** * Congestion events *)
Lemma event_reno sent now c : cc_in_recovery sent c = false ->
  c_cwnd (reno_event sent now c) = Z.max (c_cwnd c / 2) (2 * c_mds c) /\ c_ssthresh (reno_event sent now c) = Z.max (c_cwnd c / 2) (2 * c_mds c).
Proof.
  intros h. unfold reno_event. rewrite h. cbv zeta. unfold mul_half, MIN_WINDOW. rewrite (Z.mul_comm (c_mds _) 2).
  match goal with |- context [if ?b then _ else _] => destruct b end; split; reflexivity.
Qed.
Lemma event_cubic pipe sent now c : cc_in_recovery sent c = false ->
  c_cwnd (cubic_event pipe sent now c) = Z.max (mul_beta (c_cwnd c)) (2 * c_mds c) /\
  c_ssthresh (cubic_event pipe sent now c) = Z.max (mul_beta (c_cwnd c)) (2 * c_mds c).
Proof.
  intros h. unfold cubic_event. rewrite h. cbv zeta. unfold MIN_WINDOW. rewrite (Z.mul_comm (c_mds _) 2).
  match goal with |- context [if ?b then _ else _] => destruct b end; split; reflexivity.
Qed.

Lemma cc_event_cwnd pipe p now c : c_cwnd (cc_event pipe p now c) =
  if cc_in_recovery (p_sent p) c then c_cwnd c
  else Z.max (match c_alg c with Reno => c_cwnd c / 2 | Cubic => mul_beta (c_cwnd c) end) (2 * c_mds c).
Proof.
  unfold cc_event. destruct (cc_in_recovery (p_sent p) c) eqn:e; destruct (c_alg c).
  - unfold reno_event. rewrite e. reflexivity.
  - unfold cubic_event. rewrite e. reflexivity.
  - apply event_reno. exact e.
  - apply (event_cubic pipe (p_sent p) now (cubic_checkpoint c)). exact e.
Qed.
Lemma cc_event_other pipe p now c : c_mds (cc_event pipe p now c) = c_mds c /\ c_icwp (cc_event pipe p now c) = c_icwp c /\
  c_lost (cc_event pipe p now c) = c_lost c /\
  (pi_cwnd (cu_prior (c_cu (cc_event pipe p now c))) = c_cwnd c \/ pi_cwnd (cu_prior (c_cu (cc_event pipe p now c))) = pi_cwnd (cu_prior (c_cu c))).
Proof.
  unfold cc_event. destruct (c_alg c).
  - unfold reno_event. destruct (cc_in_recovery (p_sent p) c); [auto|]. cbv zeta.
    match goal with |- context [if ?b then _ else _] => destruct b end; cbn; auto.
  - destruct (cc_in_recovery (p_sent p) c) eqn:e.
    + unfold cubic_event. rewrite e. auto.
    + unfold cubic_event. change (cc_in_recovery (p_sent p) (cubic_checkpoint c)) with (cc_in_recovery (p_sent p) c). rewrite e. cbv zeta.
      match goal with |- context [if ?b then _ else _] => destruct b end; cbn; auto.
Qed.

Lemma cc_event_ok lo hi mds icwp pipe p now c : lo <= mds -> 2 * mds <= hi -> 0 <= c_cwnd c ->
  wok lo hi mds icwp c -> wok lo hi mds icwp (cc_event pipe p now c).
Proof.
  intros h1 h2 h0 [a b d e f]. destruct (cc_event_other pipe p now c) as (q1 & q2 & _ & q3).
  pose proof (cc_event_cwnd pipe p now c) as q.
  assert (hw : 2 * lo <= c_cwnd (cc_event pipe p now c) <= hi).
  { rewrite q. destruct (cc_in_recovery (p_sent p) c); [lia|]. rewrite e. destruct (c_alg c).
    - pose proof (Z.div_mod (c_cwnd c) 2 ltac:(lia)). pose proof (Z.mod_pos_bound (c_cwnd c) 2 ltac:(lia)). lia.
    - pose proof (mul_beta_le (c_cwnd c) ltac:(lia)). lia. }
  split; [lia|lia|destruct q3 as [-> | ->]; lia|congruence|congruence].
Qed.

(** * Proportional rate reduction *)
Lemma ceil_alt a b : 0 < b -> (a + b - 1) / b = ceil_div a b.
Proof.
  intros hb. unfold ceil_div. pose proof (Z.div_mod (a + b - 1) b ltac:(lia)). pose proof (Z.mod_pos_bound (a + b - 1) b hb).
  pose proof (Z.div_mod (- a) b ltac:(lia)). pose proof (Z.mod_pos_bound (- a) b hb). nia.
Qed.
Lemma ceil_mono a a' b : 0 < b -> a <= a' -> ceil_div a b <= ceil_div a' b.
Proof. intros hb h. unfold ceil_div. apply Z.opp_le_mono. rewrite !Z.opp_involutive. apply Z.div_le_mono; lia. Qed.
Lemma ceil_nonneg a b : 0 < b -> 0 <= a -> 0 <= ceil_div a b.
Proof. intros hb h. rewrite <- ceil_alt by lia. apply Z.div_pos; lia. Qed.

Lemma prr_fields ss mds p l : pr_delivered (fold_left (prr_step ss mds) l p) = pr_delivered p + pdelivered l /\
  pr_out (fold_left (prr_step ss mds) l p) = pr_out p + psent l /\
  pr_recoverfs (fold_left (prr_step ss mds) l p) = pr_recoverfs p.
Proof.
  revert p. induction l as [|x l IH]; intros p; cbn [fold_left pdelivered psent]; [lia|].
  destruct (IH (prr_step ss mds p x)) as (a & b & c). rewrite a, b, c. destruct x; cbn [prr_step prr_sent prr_acked pr_delivered pr_out pr_recoverfs pdelivered psent]; lia.
Qed.

(** While more than the target is in flight: proportional *)
Lemma prr_prop ss mds l : forall p, 0 <= ss -> 0 < pr_recoverfs p -> 0 <= pr_delivered p -> 0 <= pr_snd p ->
  pr_out p + pr_snd p <= ceil_div (pr_delivered p * ss) (pr_recoverfs p) ->
  obeys ss mds p l -> Forall (fun x => match x with PAck _ pipe => ss < pipe | _ => True end) l ->
  let q := fold_left (prr_step ss mds) l p in
  pr_out q + pr_snd q <= ceil_div (pr_delivered q * ss) (pr_recoverfs q).
Proof.
  induction l as [|x l IH]; intros p h1 h2 h3 h4 h5 ho hf; [exact h5|]. cbn [fold_left]. cbn [obeys] in ho. destruct ho as [hx ho].
  inversion hf as [|? ? hf1 hf2]; subst. destruct x as [n|d pipe]; cbn [prr_step] in *.
  - apply IH; auto; cbn [prr_sent pr_recoverfs pr_delivered pr_snd pr_out]; unfold sat_sub; lia.
  - assert (hm : ceil_div (pr_delivered p * ss) (pr_recoverfs p) <= ceil_div ((pr_delivered p + d) * ss) (pr_recoverfs p)) by (apply ceil_mono; nia).
    assert (ht : ss <? pipe = true) by lia. assert (hr : 0 <? pr_recoverfs p = true) by lia.
    apply IH; auto; unfold prr_acked; rewrite ht, hr, ceil_alt by lia; cbn [pr_recoverfs pr_delivered pr_snd pr_out]; unfold sat_sub; lia.
Qed.

(** Never more than delivered, and a datagram per acknowledgement, when the rate is reduced *)
Lemma prr_conserve ss mds l : forall p b, 0 <= ss <= pr_recoverfs p -> 0 <= mds -> 0 <= pr_delivered p -> 0 <= pr_snd p -> 0 <= b ->
  pr_out p + pr_snd p <= pr_delivered p + b ->
  obeys ss mds p l ->
  let q := fold_left (prr_step ss mds) l p in
  pr_out q + pr_snd q <= pr_delivered q + b + mds * packs l.
Proof.
  induction l as [|x l IH]; intros p b h1 hm h3 h4 hb h5 ho; cbn [fold_left packs]; [cbn [fold_left]; lia|]. cbn [obeys] in ho. destruct ho as [hx ho].
  destruct x as [n|d pipe]; cbn [prr_step packs] in *.
  - apply IH; auto; cbn [prr_sent pr_recoverfs pr_delivered pr_snd pr_out]; unfold sat_sub; lia.
  - replace (pr_delivered (fold_left (prr_step ss mds) l (prr_acked d pipe ss mds p)) + b + mds * (1 + packs l))
      with (pr_delivered (fold_left (prr_step ss mds) l (prr_acked d pipe ss mds p)) + (b + mds) + mds * packs l) by lia.
    apply IH; auto; try lia; unfold prr_acked; cbn [pr_recoverfs pr_delivered pr_snd pr_out]; try lia.
    + destruct (Z.ltb_spec ss pipe); [destruct (Z.ltb_spec 0 (pr_recoverfs p))|]; unfold sat_sub; lia.
    + destruct (Z.ltb_spec ss pipe).
      * destruct (Z.ltb_spec 0 (pr_recoverfs p)); [|lia]. rewrite ceil_alt by lia.
        assert (ceil_div ((pr_delivered p + d) * ss) (pr_recoverfs p) <= pr_delivered p + d).
        { etransitivity; [apply (ceil_mono _ ((pr_delivered p + d) * pr_recoverfs p)); nia|]. unfold ceil_div. rewrite <- Z.mul_opp_l, Z.div_mul by lia. lia. }
        unfold sat_sub. lia.
      * unfold sat_sub. lia.
Qed.

(** * Time in flight *)
Lemma bif_run_ok l : forall b last, bev_ok last l -> 0 <= bf_n b ->
  (match bf_start b with Some s => 0 < bf_n b /\ bf_open b = last - s /\ s <= last | None => bf_n b = 0 /\ bf_open b = 0 end) ->
  bif_duration (fold_left bif_step l b) = bif_duration b + busy (bf_n b) last l.
Proof.
  induction l as [|x l IH]; intros b last ho hn hs; cbn [fold_left busy]; [lia|]. cbn [bev_ok] in ho. destruct ho as (h1 & h2 & h3).
  destruct x as [k t|k t]; cbn [bif_step bev_time] in *.
  - assert (hk : k =? 0 = false) by lia. unfold bif_add. rewrite hk. cbn [bf_start].
    destruct (bf_start b) as [s|] eqn:es.
    + unfold bif_update. cbn [bf_start bf_n bf_closed]. destruct hs as (q1 & q2 & q3).
      assert (hz : bf_n b + k =? 0 = false) by lia. rewrite hz.
      rewrite (IH _ t); auto; unfold bif_duration; cbn [bf_closed bf_open bf_n bf_start]; [|lia|unfold since, sat_sub; lia].
      assert (hl : 0 <? bf_n b = true) by lia. rewrite hl. unfold since, sat_sub. lia.
    + destruct hs as [q1 q2]. rewrite (IH _ t); auto; unfold bif_duration; cbn [bf_closed bf_open bf_n bf_start]; [|lia|lia].
      rewrite q1. change (0 <? 0) with false. cbv iota. lia.
  - unfold bif_sub, bif_update. cbn [bf_start bf_n bf_closed].
    destruct (bf_start b) as [s|] eqn:es.
    + destruct hs as (q1 & q2 & q3). assert (hl : 0 <? bf_n b = true) by lia. rewrite hl.
      change (Z.max 0 (bf_n b - k)) with (sat_sub (bf_n b) k).
      destruct (Z.eqb_spec (sat_sub (bf_n b) k) 0) as [ez|ez].
      * rewrite (IH _ t); auto; unfold bif_duration; cbn [bf_closed bf_open bf_n bf_start]; [|lia|lia]. unfold since, sat_sub in *. lia.
      * rewrite (IH _ t); auto; unfold bif_duration; cbn [bf_closed bf_open bf_n bf_start]; unfold since, sat_sub in *; lia.
    + destruct hs as [q1 q2]. rewrite q1 in *. change (0 <? 0) with false. cbv iota. change (Z.max 0 (0 - k)) with (sat_sub 0 k).
      assert (sat_sub 0 k = 0) by (unfold sat_sub; lia).
      rewrite (IH _ t); auto; unfold bif_duration; cbn [bf_closed bf_open bf_n bf_start]; lia.
Qed.
