(** Every history has a ledger. *)
Require Import Verif.Base Verif.Errors Verif.RttModel Verif.RecoveryModel Verif.RecoverySpec Verif.RecoveryProofs Verif.RecoveryInv.
Require Import Permutation Sorted.

Lemma get_set e s v : get_s e (set_s e s v) = s. Proof. destruct e; reflexivity. Qed.
Lemma get_set_other e e' s v : e' <> e -> get_s e' (set_s e s v) = get_s e' v.
Proof. destruct e, e'; (congruence || reflexivity). Qed.
Lemma epoch_dec (a b : epoch) : {a = b} + {a <> b}. Proof. decide equality. Qed.

Lemma bif_update_n now b : bf_n (bif_update now b) = bf_n b.
Proof. unfold bif_update. destruct (bf_start b); [destruct (bf_n b =? 0) eqn:e|]; reflexivity. Qed.
Lemma bif_sub_n d now b : bf_n (bif_sub d now b) = sat_sub (bf_n b) d.
Proof. unfold bif_sub. rewrite bif_update_n. reflexivity. Qed.
Lemma bif_add_n d now b : bf_n (bif_add d now b) = bf_n b + d.
Proof.
  unfold bif_add. destruct (Z.eqb_spec d 0); [lia|]. cbn [bf_start]. destruct (bf_start b); [rewrite bif_update_n|]; reflexivity.
Qed.

Lemma slt_get hs now v e : get_s e (set_loss_timer hs now v) = get_s e v.
Proof. unfold set_loss_timer. destruct (fst (loss_time_and_space v)); [|destruct ((bf_n (v_bif v) =? 0) && hs_verified hs)]; destruct e; reflexivity. Qed.
Lemma slt_bif hs now v : v_bif (set_loss_timer hs now v) = v_bif v.
Proof. unfold set_loss_timer. destruct (fst (loss_time_and_space v)); [|destruct ((bf_n (v_bif v) =? 0) && hs_verified hs)]; reflexivity. Qed.
Lemma slt_rtt hs now v : v_rtt (set_loss_timer hs now v) = v_rtt v.
Proof. unfold set_loss_timer. destruct (fst (loss_time_and_space v)); [|destruct ((bf_n (v_bif v) =? 0) && hs_verified hs)]; reflexivity. Qed.
Lemma slt_reordered hs now v : v_reordered (set_loss_timer hs now v) = v_reordered v.
Proof. unfold set_loss_timer. destruct (fst (loss_time_and_space v)); [|destruct ((bf_n (v_bif v) =? 0) && hs_verified hs)]; reflexivity. Qed.
Lemma slt_thresh hs now v : v_thresh (set_loss_timer hs now v) = v_thresh v.
Proof. unfold set_loss_timer. destruct (fst (loss_time_and_space v)); [|destruct ((bf_n (v_bif v) =? 0) && hs_verified hs)]; reflexivity. Qed.

Record inv (v : rec) (led : ledger) : Prop := mkInv {
  i_core : forall e, core (get_s e v) (of_e e led);
  i_large : forall e, largest_ok (get_s e v) (of_e e led);
  i_ltime : forall e, ltime_ok (get_s e v) (of_e e led);
  i_bif : bf_n (v_bif v) = total in_flight led;
  i_thresh : 3 <= v_thresh v }.

Definition cntf (f : Z) (l : list Z) : Z := Z.of_nat (count_occ Z.eq_dec l f).
Definition gfr (f : Z) (p : pkt) : Z := cntf f (p_frames p).

Lemma cntf_nonneg f l : 0 <= cntf f l. Proof. unfold cntf. lia. Qed.
Lemma cntf_app f l1 l2 : cntf f (l1 ++ l2) = cntf f l1 + cntf f l2.
Proof. unfold cntf. rewrite count_occ_app. lia. Qed.
Lemma cntf_flat f l : cntf f (flat_map p_frames l) = psum (gfr f) l.
Proof. induction l as [|p l IH]; [reflexivity|]. cbn [flat_map psum]. rewrite cntf_app, IH. reflexivity. Qed.
Lemma good_gfr f : good (gfr f).
Proof. intros x p (_ & _ & _ & _ & _ & _ & _ & _ & h) hu. unfold gfr. rewrite (h hu). reflexivity. Qed.

(** Draining again changes nothing the ledger sees *)
Lemma core_drain t s L : core s L -> core (set_s_sent (drain t (s_sent s)) s) L.
Proof.
  intros hc. rewrite <- (settle_none (fun _ => false) Gone L) by reflexivity.
  eapply (core_update s _ L (fun _ => false) Gone (fun p => p)); auto.
  - discriminate.
  - discriminate.
  - rewrite map_id. destruct (drain_split t (s_sent s)) as (pre & e & h). exists pre. split; assumption.
  - cbn [s_inf set_s_sent]. rewrite esum_none by (apply Forall_forall; reflexivity). lia.
Qed.

(** The whole ledger, when one space settles *)
Definition onlye (e : epoch) (t : entry -> bool) (x : entry) : bool := epoch_eqb e (en_e x) && t x.
Lemma settle_same e t F led : of_e e (settle (onlye e t) F led) = settle t F (of_e e led).
Proof.
  rewrite settle_of_e. apply settle_ext. intros x hx. apply in_of_e in hx. unfold onlye. destruct hx as [_ <-].
  rewrite epoch_eqb_refl. reflexivity.
Qed.
Lemma settle_diff e e' t F led : e' <> e -> of_e e' (settle (onlye e t) F led) = of_e e' led.
Proof.
  intros h. apply (settle_other e); [exact h|]. intros x hx. apply Bool.andb_true_iff in hx.
  symmetry. apply epoch_eqb_eq. apply hx.
Qed.
Lemma esum_onlye g e t led : esum g (onlye e t) led = esum g t (of_e e led).
Proof.
  induction led as [|x led IH]; [reflexivity|]. unfold of_e in *. cbn [filter]. rewrite esum_cons, IH. unfold onlye.
  destruct (epoch_eqb e (en_e x)); cbn [andb]; [rewrite esum_cons; reflexivity|lia].
Qed.

Lemma lost_sizes (T : entry -> bool) L : Forall en_ok L ->
  esum lostsz T L + esum probesz T L = esum p_size (fun x => T x && p_inf (en_p x)) L.
Proof.
  induction 1 as [|x L (h1 & h2 & h3) _ IH]; [reflexivity|]. rewrite !esum_cons, <- IH. unfold lostsz, probesz, infsz.
  destruct (T x); cbn [andb]; [|lia].
  destruct (p_probe (en_p x)); [rewrite h3 by reflexivity; lia|]. destruct (p_inf (en_p x)); lia.
Qed.
Lemma infsz_size (T : entry -> bool) L : esum infsz T L = esum p_size (fun x => T x && p_inf (en_p x)) L.
Proof.
  induction L as [|x L IH]; [reflexivity|]. rewrite !esum_cons, <- IH. unfold infsz.
  destruct (T x); cbn [andb]; [destruct (p_inf (en_p x))|]; lia.
Qed.

Lemma counted_sum g h (T : entry -> bool) L : (forall x, T x = true -> is_out x = true) ->
  esum g (fun x => counted x && h (en_p x)) (settle T Lost L) - esum g (fun x => counted x && h (en_p x)) L =
  esum g (fun x => T x && negb (p_probe (en_p x)) && h (en_p x)) L.
Proof.
  intros ht. induction L as [|x L IH]; [reflexivity|]. unfold settle in *. cbn [map]. rewrite !esum_cons.
  destruct (T x) eqn:e; cbn [andb].
  - assert (c : counted x = false). { specialize (ht x e). unfold counted, lost_fate. unfold is_out in ht. destruct (en_fate x); (discriminate ht || reflexivity). }
    rewrite c. cbn [andb]. unfold counted at 1, lost_fate. cbn [set_fate en_fate en_p andb].
    destruct (negb (p_probe (en_p x)) && h (en_p x)); lia.
  - lia.
Qed.

Lemma all_ok v led : (forall e, core (get_s e v) (of_e e led)) -> Forall en_ok led.
Proof.
  intros h. apply Forall_forall. intros x hx. specialize (h (en_e x)). apply co_ok in h. rewrite Forall_forall in h.
  apply h. apply in_of_e. split; auto.
Qed.

Lemma esum_le_inflight g T L : (forall x, T x = true -> is_out x = true) -> (forall x, In x L -> 0 <= g (en_p x)) ->
  esum g (fun x => T x && p_inf (en_p x)) L <= esum g in_flight L.
Proof.
  intros ht. induction L as [|x L IH]; intros hg; [reflexivity|]. rewrite !esum_cons.
  assert (esum g (fun x => T x && p_inf (en_p x)) L <= esum g in_flight L) by (apply IH; intros; apply hg; right; assumption).
  specialize (hg x (or_introl eq_refl)). unfold in_flight at 1. destruct (T x) eqn:e; cbn [andb].
  - rewrite (ht x e). cbn [andb]. destruct (p_inf (en_p x)); lia.
  - destruct (is_out x && p_inf (en_p x)); lia.
Qed.

Lemma rec_lose_ok fl e now v led extra :
  (forall e', core (get_s e' v) (of_e e' led)) -> (forall e', largest_ok (get_s e' v) (of_e e' led)) ->
  (forall e', e' <> e -> ltime_ok (get_s e' v) (of_e e' led)) ->
  bf_n (v_bif v) = total in_flight led + extra -> 0 <= extra -> 3 <= v_thresh v ->
  exists S v' n b, rec_lose fl e now v = Ok (v', (n, b)) /\
    let led' := settle (onlye e (tlost S)) Lost led in
    (forall e', core (get_s e' v') (of_e e' led')) /\ (forall e', largest_ok (get_s e' v') (of_e e' led')) /\
    (forall e', ltime_ok (get_s e' v') (of_e e' led')) /\
    bf_n (v_bif v') = total in_flight led' + extra /\
    v_thresh v' = v_thresh v /\ v_rtt v' = v_rtt v /\ v_reordered v' = v_reordered v /\
    v_pto_count v' = v_pto_count v /\
    (forall e', s_last_el (get_s e' v') = s_last_el (get_s e' v) /\ s_probes (get_s e' v') = s_probes (get_s e' v) /\
       s_facked (get_s e' v') = s_facked (get_s e' v) /\ s_fpto (get_s e' v') = s_fpto (get_s e' v)) /\
    (forall e', e' <> e -> s_flost (get_s e' v') = s_flost (get_s e' v)) /\
    (exists new, s_flost (get_s e v') = s_flost (get_s e v) ++ flat_map p_frames new /\
       forall g, good g -> psum g new = esum g (tlost S) (of_e e led)) /\
    give_up_some (delay_of fl v') (v_thresh v') now e led led' /\
    lost_reports n b led led'.
Proof.
  intros hc hl hlt hb hex hth. unfold rec_lose.
  destruct (space_lose_ok (fl_scale fl (v_reordered v) (Z.max (r_latest (v_rtt v)) (r_srtt (v_rtt v)))) (v_thresh v) now
    (get_s e v) (of_e e led) (hc e) (hl e) ltac:(lia))
    as (S & s' & a & -> & h1 & h2 & h3 & h4 & h5 & h6 & h7 & h8 & h9 & hk & hbs & hpm & hlast & hwhy).
  cbn [bind]. cbv zeta in *. exists S.
  set (T := tlost S) in *.
  set (w1 := set_s e s' v).
  set (w2 := match l_last a with
             | Some p => set_bif (bif_sub (l_bytes a) now (v_bif (set_cc (cc_event (bf_n (v_bif w1)) p now (v_cc w1)) w1)))
                           (set_cc (cc_event (bf_n (v_bif w1)) p now (v_cc w1)) w1)
             | None => w1 end).
  assert (g2 : forall e', get_s e' w2 = get_s e' w1) by (intros e'; unfold w2; destruct (l_last a), e'; reflexivity).
  assert (b2 : bf_n (v_bif w2) = sat_sub (bf_n (v_bif v)) (l_bytes a)).
  { unfold w2. destruct (l_last a); [cbn [v_bif set_bif]; rewrite bif_sub_n; reflexivity|].
    rewrite hlast by reflexivity. cbn [v_bif set_s w1]. unfold sat_sub.
    assert (0 <= total in_flight led); [|rewrite hb; lia].
    apply esum_nonneg. intros x hx. pose proof (all_ok v led hc) as h. rewrite Forall_forall in h. apply (h x hx). }
  assert (f2 : v_thresh w2 = v_thresh v /\ v_rtt w2 = v_rtt v /\ v_reordered w2 = v_reordered v /\ v_pto_count w2 = v_pto_count v)
    by (unfold w2; destruct (l_last a); repeat split; reflexivity).
  set (w3 := set_bif (bif_sub (l_pm_bytes a) now (v_bif w2)) w2).
  set (w4 := set_s e (set_s_sent (drain (now - r_srtt (v_rtt w3)) (s_sent (get_s e w3))) (get_s e w3)) w3).
  set (w5 := set_cc (set_c_lost (c_lost (v_cc w4) + l_pkts a) (v_cc w4)) w4).
  exists w5, (l_pkts a), (l_bytes a). split; [reflexivity|].
  set (led' := settle (onlye e T) Lost led).
  assert (hT : forall x, onlye e T x = true -> is_out x = true).
  { intros x hx. unfold onlye, T, tlost in hx. apply Bool.andb_true_iff in hx. destruct hx as [_ hx]. apply Bool.andb_true_iff in hx. apply hx. }
  assert (g3 : get_s e w3 = s').
  { unfold w3. transitivity (get_s e w2); [destruct e; reflexivity|]. rewrite g2. apply get_set. }
  assert (g5 : get_s e w5 = set_s_sent (drain (now - r_srtt (v_rtt w3)) (s_sent s')) s').
  { unfold w5. transitivity (get_s e w4); [destruct e; reflexivity|]. unfold w4. rewrite get_set, g3. reflexivity. }
  assert (g5' : forall e', e' <> e -> get_s e' w5 = get_s e' v).
  { intros e' hne. unfold w5. transitivity (get_s e' w4); [destruct e'; reflexivity|]. unfold w4. rewrite get_set_other by exact hne.
    transitivity (get_s e' w2); [unfold w3; destruct e'; reflexivity|]. rewrite g2. apply get_set_other. exact hne. }
  split; [|split; [|split; [|split]]].
  - intros e'. destruct (epoch_dec e' e) as [->|hne].
    + rewrite g5. unfold led'. rewrite settle_same. apply core_drain. exact h1.
    + rewrite g5' by exact hne. unfold led'. rewrite settle_diff by exact hne. apply hc.
  - intros e'. destruct (epoch_dec e' e) as [->|hne].
    + rewrite g5. unfold led'. rewrite settle_same. exact h2.
    + rewrite g5' by exact hne. unfold led'. rewrite settle_diff by exact hne. apply hl.
  - intros e'. destruct (epoch_dec e' e) as [->|hne].
    + rewrite g5. unfold led'. rewrite settle_same. exact h3.
    + rewrite g5' by exact hne. unfold led'. rewrite settle_diff by exact hne. apply hlt. exact hne.
  - transitivity (sat_sub (bf_n (v_bif w2)) (l_pm_bytes a)).
    { transitivity (bf_n (v_bif w3)); [reflexivity|]. unfold w3. cbn [v_bif set_bif]. apply bif_sub_n. }
    pose proof (all_ok v led hc) as hok.
    assert (hsz : forall x, In x led -> 0 <= p_size (en_p x)) by (intros x hx; rewrite Forall_forall in hok; apply (hok x hx)).
    rewrite b2, hbs, hpm, hb. unfold led'. change (total in_flight ?x) with (esum p_size in_flight x).
    rewrite settle_sum by (congruence || exact hT).
    pose proof (esum_le_inflight p_size (onlye e T) led hT hsz) as hle.
    pose proof (lost_sizes (onlye e T) led hok) as hls. rewrite !esum_onlye in hls.
    assert (0 <= esum lostsz T (of_e e led)).
    { apply esum_nonneg. intros x hx. apply in_of_e in hx. destruct hx as [hx _]. specialize (hsz x hx). unfold lostsz, infsz.
      destruct (p_probe (en_p x)), (p_inf (en_p x)); lia. }
    assert (0 <= esum probesz T (of_e e led)).
    { apply esum_nonneg. intros x hx. apply in_of_e in hx. destruct hx as [hx _]. specialize (hsz x hx). unfold probesz.
      destruct (p_probe (en_p x)); lia. }
    unfold sat_sub. lia.
  - destruct f2 as (f21 & f22 & f23 & f24).
    assert (e1 : v_thresh w5 = v_thresh v) by exact f21.
    assert (e2 : v_rtt w5 = v_rtt v) by exact f22.
    assert (e3 : v_reordered w5 = v_reordered v) by exact f23.
    split; [exact e1|]. split; [exact e2|]. split; [exact e3|]. split; [exact f24|].
    split; [|split; [|split; [|split]]].
    + intros e'. destruct (epoch_dec e' e) as [->|hne].
      * rewrite g5. cbn [s_last_el s_probes s_facked s_fpto set_s_sent]. auto.
      * rewrite g5' by exact hne. auto.
    + intros e' hne. rewrite g5' by exact hne. reflexivity.
    + rewrite g5. exact h9.
    + assert (hd : delay_of fl w5 = Z.max (fl_scale fl (v_reordered v) (Z.max (r_latest (v_rtt v)) (r_srtt (v_rtt v)))) GRANULARITY).
      { unfold delay_of, rtt_loss_delay. rewrite e2, e3. reflexivity. }
      rewrite hd, e1. unfold give_up_some, led', settle.
      assert (gen : forall l, (forall x, In x l -> In x led) -> Forall2 (fun x y => y = x \/
        (en_fate x = Out /\ en_e x = e /\ y = set_fate Lost x /\ may_give_up (Z.max (fl_scale fl (v_reordered v) (Z.max (r_latest (v_rtt v)) (r_srtt (v_rtt v)))) GRANULARITY) (v_thresh v) now led x)) l
        (map (fun x => if onlye e T x then set_fate Lost x else x) l)).
      { induction l as [|x l IH]; intros hin; [constructor|]. cbn [map]. constructor; [|apply IH; intros; apply hin; right; assumption].
        destruct (onlye e T x) eqn:ex; [right|left; reflexivity].
        assert (hx : In x led) by (apply hin; left; reflexivity).
        pose proof (hT x ex) as ho. apply Bool.andb_true_iff in ex. destruct ex as [ee et]. apply epoch_eqb_eq in ee.
        repeat match goal with |- _ /\ _ => split end; auto.
        - unfold is_out in ho. destruct (en_fate x); (reflexivity || discriminate ho).
        - assert (hx2 : In x (of_e e led)) by (apply in_of_e; auto).
          destruct (hwhy x hx2 et) as [(z & hz & z1 & z2 & z3)|(z1 & z2 & z3)].
          + left. apply in_of_e in hz. exists z. destruct hz as [hz he]. repeat split; auto. congruence.
          + right. split; [exact z1|]. split; [exact z2|]. intros z hz he. apply z3. apply in_of_e. split; congruence. }
      apply gen. auto.
    + split.
      * rewrite hk. unfold led'.
        pose proof (counted_sum (fun _ => 1) (fun _ => true) (onlye e T) led hT) as hcs.
        change (number counted ?x) with (esum (fun _ => 1) counted x).
        rewrite (esum_ext _ counted (fun x => counted x && (fun _ => true) (en_p x)) (settle (onlye e T) Lost led)) by (intros; rewrite Bool.andb_true_r; reflexivity).
        rewrite (esum_ext _ counted (fun x => counted x && (fun _ => true) (en_p x)) led) by (intros; rewrite Bool.andb_true_r; reflexivity).
        rewrite hcs. rewrite <- (esum_onlye lost1). clear. induction led as [|x led IH]; [reflexivity|]. rewrite !esum_cons, IH.
        unfold lost1. destruct (onlye e T x); cbn [andb]; [|lia]. destruct (p_probe (en_p x)); reflexivity.
      * rewrite hbs. unfold led'.
        pose proof (counted_sum p_size p_inf (onlye e T) led hT) as hcs.
        unfold total. unfold esum in hcs at 1 2. rewrite hcs. rewrite <- (esum_onlye lostsz).
        clear. induction led as [|x led IH]; [reflexivity|]. rewrite !esum_cons, IH.
        unfold lostsz, infsz. destruct (onlye e T x); cbn [andb]; [|lia]. destruct (p_probe (en_p x)); cbn [negb andb]; [lia|].
        destruct (p_inf (en_p x)); lia.
Qed.

(** * Frames *)

Lemma settle_fate g (k : entry -> bool) T F L : (forall x, T x = true -> k x = false) -> (forall x, k (set_fate F x) = true) ->
  esum g k (settle T F L) = esum g k L + esum g T L.
Proof.
  intros h1 h2. unfold settle. induction L as [|x L IH]; [reflexivity|]. cbn [map]. rewrite !esum_cons, IH.
  destruct (T x) eqn:e; [|destruct (k x); lia]. rewrite (h2 x), (h1 x e). cbn [en_p set_fate]. lia.
Qed.
Lemma settle_unfate g (k : entry -> bool) T F L : (forall x, T x = true -> k x = false) -> (forall x, k (set_fate F x) = false) ->
  esum g k (settle T F L) = esum g k L.
Proof.
  intros h1 h2. unfold settle. induction L as [|x L IH]; [reflexivity|]. cbn [map]. rewrite !esum_cons, IH.
  destruct (T x) eqn:e; [|destruct (k x); lia]. rewrite (h2 x), (h1 x e). lia.
Qed.
Lemma settle_all g T F L : esum g (fun _ => true) (settle T F L) = esum g (fun _ => true) L.
Proof.
  unfold settle. induction L as [|x L IH]; [reflexivity|]. cbn [map]. rewrite !esum_cons, IH.
  destruct (T x); reflexivity.
Qed.
Lemma out_not_acked x : is_out x = true -> acked_fate x = false.
Proof. unfold is_out, acked_fate. destruct (en_fate x); (discriminate || reflexivity). Qed.
Lemma out_not_lost x : is_out x = true -> lost_fate x = false.
Proof. unfold is_out, lost_fate. destruct (en_fate x); (discriminate || reflexivity). Qed.

Record fgh : Type := mkFgh { gh_ack : list Z; gh_lost : list Z; gh_to : Z; gh_disc : bool; gh_sent : list Z }.
Record fsp (s : space) (L : ledger) (g : fgh) (f : Z) : Prop := mkFsp {
  fs_a : cntf f (gh_ack g) + cntf f (s_facked s) <= esum (gfr f) acked_fate L;
  fs_a2 : gh_disc g = false -> cntf f (gh_ack g) + cntf f (s_facked s) = esum (gfr f) acked_fate L;
  fs_l : cntf f (gh_lost g) + cntf f (s_flost s) + cntf f (s_fpto s) <=
    esum (gfr f) lost_fate L + gh_to g * esum (gfr f) (fun _ => true) L;
  fs_l2 : gh_disc g = false -> esum (gfr f) lost_fate L <= cntf f (gh_lost g) + cntf f (s_flost s);
  fs_s : esum (gfr f) (fun _ => true) L = cntf f (gh_sent g);
  fs_t : 0 <= gh_to g }.

Definition finv (v : rec) (led : ledger) (g : epoch -> fgh) : Prop :=
  forall e f, fsp (get_s e v) (of_e e led) (g e) f.

Definition gstep (o : rop) (x : rout) (e : epoch) (g : fgh) : fgh :=
  mkFgh (gh_ack g ++ reported_acked e [o] [x]) (gh_lost g ++ reported_lost e [o] [x]) (gh_to g + timeouts [o])
    (gh_disc g || discarded e [o]) (gh_sent g ++ frames_sent e [o]).

Lemma gfr_nonneg f L : forall x : entry, In x L -> 0 <= gfr f (en_p x).
Proof. intros x _. apply cntf_nonneg. Qed.

Lemma gstep_same o x e g : reported_acked e [o] [x] = [] -> reported_lost e [o] [x] = [] -> timeouts [o] = 0 ->
  discarded e [o] = false -> frames_sent e [o] = [] -> gstep o x e g = g.
Proof.
  intros h1 h2 h3 h4 h5. unfold gstep. rewrite h1, h2, h3, h4, h5, !app_nil_r, Bool.orb_false_r, Z.add_0_r.
  destruct g; reflexivity.
Qed.

(** Fields only *)
Lemma fsp_ext s s' L g f : s_facked s' = s_facked s -> s_flost s' = s_flost s -> s_fpto s' = s_fpto s ->
  fsp s L g f -> fsp s' L g f.
Proof. intros e1 e2 e3 [h1 h2 h3 h4 h5 h6]. split; rewrite ?e1, ?e2, ?e3; assumption. Qed.

Lemma fsp_lose s s' L g f S new : s_facked s' = s_facked s -> s_flost s' = s_flost s ++ flat_map p_frames new -> s_fpto s' = s_fpto s ->
  (forall g, good g -> psum g new = esum g (tlost S) L) ->
  fsp s L g f -> fsp s' (settle (tlost S) Lost L) g f.
Proof.
  intros e1 e2 e3 hn [h1 h2 h3 h4 h5 h6].
  assert (ho : forall x, tlost S x = true -> is_out x = true) by (intros x hx; apply Bool.andb_true_iff in hx; apply hx).
  pose proof (settle_fate (gfr f) lost_fate (tlost S) Lost L (fun x hx => out_not_lost x (ho x hx)) (fun _ => eq_refl)) as a1.
  pose proof (settle_unfate (gfr f) acked_fate (tlost S) Lost L (fun x hx => out_not_acked x (ho x hx)) (fun _ => eq_refl)) as a2.
  pose proof (settle_all (gfr f) (tlost S) Lost L) as a3.
  specialize (hn (gfr f) (good_gfr f)). rewrite <- cntf_flat in hn.
  split; rewrite ?e1, ?e2, ?e3, ?a1, ?a2, ?a3, ?cntf_app; auto; try lia.
Qed.

Lemma fsp_ack s s' L g f rs new : s_facked s' = s_facked s ++ flat_map p_frames new -> s_flost s' = s_flost s -> s_fpto s' = s_fpto s ->
  (forall g, good g -> psum g new = esum g (tack rs) L) ->
  fsp s L g f -> fsp s' (settle (tack rs) Acked L) g f.
Proof.
  intros e1 e2 e3 hn [h1 h2 h3 h4 h5 h6].
  assert (ho : forall x, tack rs x = true -> is_out x = true) by (intros x hx; apply Bool.andb_true_iff in hx; apply hx).
  pose proof (settle_unfate (gfr f) lost_fate (tack rs) Acked L (fun x hx => out_not_lost x (ho x hx)) (fun _ => eq_refl)) as a1.
  pose proof (settle_fate (gfr f) acked_fate (tack rs) Acked L (fun x hx => out_not_acked x (ho x hx)) (fun _ => eq_refl)) as a2.
  pose proof (settle_all (gfr f) (tack rs) Acked L) as a3.
  specialize (hn (gfr f) (good_gfr f)). rewrite <- cntf_flat in hn.
  split; rewrite ?e1, ?e2, ?e3, ?a1, ?a2, ?a3, ?cntf_app; auto; try lia.
Qed.

(** * Sending *)
Lemma of_e_app e l1 l2 : of_e e (l1 ++ l2) = of_e e l1 ++ of_e e l2.
Proof. unfold of_e. apply filter_app. Qed.

Definition sentok (led : ledger) (sent : list (epoch * Z)) : Prop :=
  forall x, In x led -> In (en_e x, en_num x) sent.

Lemma sorted_snoc L x : StronglySorted en_lt L -> (forall y, In y L -> en_num y < en_num x) -> StronglySorted en_lt (L ++ [x]).
Proof.
  induction 1 as [|y L hs IH hf]; intros hx; [repeat constructor|]. cbn. constructor.
  - apply IH. intros; apply hx; right; assumption.
  - apply Forall_app. split; [exact hf|]. constructor; [|constructor]. apply hx. left. reflexivity.
Qed.

Lemma core_sent s s' L e p now : core s L ->
  s_sent s' = s_sent s ++ [mkPkt (p_num p) (p_frames p) now None None (p_size p) (p_el p) (p_inf p) (p_data p) (p_probe p)] ->
  s_inf s' = s_inf s + (if p_inf p then 1 else 0) ->
  (forall y, In y L -> en_num y < p_num p) -> 0 <= p_num p -> 0 <= p_size p -> (p_probe p = true -> p_inf p = true) ->
  core s' (L ++ [mkEn e p now Out]).
Proof.
  intros [(pre & suf & -> & h1 & h2) hi hs ho] e1 e2 hn a b c. split.
  - exists pre, (suf ++ [mkEn e p now Out]). split; [symmetry; apply app_assoc|]. split; [exact h1|].
    rewrite e1. apply Forall2_app; [exact h2|]. constructor; [|constructor]. repeat split; reflexivity.
  - rewrite e2, hi. change (number in_flight ?x) with (esum (fun _ => 1) in_flight x). rewrite (esum_app _ _ (pre ++ suf)).
    rewrite esum_cons. unfold in_flight at 3, is_out. cbn [en_fate en_p andb]. change (esum _ _ []) with 0. destruct (p_inf p); lia.
  - apply sorted_snoc; assumption.
  - apply Forall_app. split; [exact ho|]. constructor; [|constructor]. repeat split; assumption.
Qed.

Lemma rec_sent_space e p hs now v e' : get_s e' (rec_sent e p hs now v) =
  if epoch_dec e' e then
    let s := get_s e v in
    mkSpace (if p_inf p && p_el p then Some now else s_last_el s) (s_largest s) (s_loss_time s)
      (s_sent s ++ [mkPkt (p_num p) (p_frames p) now (p_acked p) (p_lost p) (p_size p) (p_el p) (p_inf p) (p_data p) (p_probe p)])
      (s_probes s) (s_inf s + (if p_inf p then 1 else 0)) (s_facked s) (s_flost s) (s_fpto s)
  else get_s e' v.
Proof.
  unfold rec_sent. cbv zeta. cbn [p_inf].
  destruct (epoch_dec e' e) as [->|hne].
  - rewrite get_set. destruct (p_inf p); cbn [andb].
    + destruct (p_el p).
      * destruct e; cbn [get_s set_sent_counts v_ini v_hs v_app]; 
          match goal with |- context [set_loss_timer ?a ?b ?c] => 
            pose proof (slt_get a b c EInitial) as q1; pose proof (slt_get a b c EHandshake) as q2; pose proof (slt_get a b c EApp) as q3; 
            cbn [get_s] in q1, q2, q3; rewrite ?q1, ?q2, ?q3 end; reflexivity.
      * destruct e; cbn [get_s set_sent_counts v_ini v_hs v_app];
          match goal with |- context [set_loss_timer ?a ?b ?c] => 
            pose proof (slt_get a b c EInitial) as q1; pose proof (slt_get a b c EHandshake) as q2; pose proof (slt_get a b c EApp) as q3; 
            cbn [get_s] in q1, q2, q3; rewrite ?q1, ?q2, ?q3 end; reflexivity.
    + destruct e; cbn [get_s]; unfold set_s_sent; cbn; rewrite Z.add_0_r; reflexivity.
  - rewrite get_set_other by exact hne. destruct (p_inf p); cbn [andb].
    + match goal with |- get_s e' (set_sent_counts ?a ?b ?w) = _ => transitivity (get_s e' w); [destruct e'; reflexivity|] end.
      rewrite slt_get. match goal with |- get_s e' (set_bif ?b ?w) = _ => transitivity (get_s e' w); [destruct e'; reflexivity|] end.
      rewrite get_set_other by exact hne.
      match goal with |- get_s e' (set_cc ?b ?w) = _ => transitivity (get_s e' w); [destruct e'; reflexivity|] end.
      destruct (p_el p); [rewrite get_set_other by exact hne|]; destruct e'; reflexivity.
    + destruct e'; reflexivity.
Qed.

Lemma rec_sent_other e p hs now v : let v' := rec_sent e p hs now v in
  bf_n (v_bif v') = bf_n (v_bif v) + (if p_inf p then p_size p else 0) /\ v_thresh v' = v_thresh v /\ v_rtt v' = v_rtt v /\
  v_reordered v' = v_reordered v.
Proof.
  cbv zeta. unfold rec_sent. cbv zeta. cbn [p_inf].
  assert (h : forall e s w, v_bif (set_s e s w) = v_bif w /\ v_thresh (set_s e s w) = v_thresh w /\ v_rtt (set_s e s w) = v_rtt w /\
    v_reordered (set_s e s w) = v_reordered w) by (intros [] ? ?; repeat split; reflexivity).
  destruct (p_inf p); cbn [andb];
  repeat match goal with
  | |- context [v_bif (set_s ?e ?s ?w)] => rewrite (proj1 (h e s w))
  | |- context [v_thresh (set_s ?e ?s ?w)] => rewrite (proj1 (proj2 (h e s w)))
  | |- context [v_rtt (set_s ?e ?s ?w)] => rewrite (proj1 (proj2 (proj2 (h e s w))))
  | |- context [v_reordered (set_s ?e ?s ?w)] => rewrite (proj2 (proj2 (proj2 (h e s w))))
  | |- context [set_sent_counts ?a ?b ?w] => progress cbn [v_bif v_thresh v_rtt v_reordered set_sent_counts]
  | |- _ => rewrite ?slt_bif, ?slt_thresh, ?slt_rtt, ?slt_reordered; progress cbn [v_bif v_thresh v_rtt v_reordered set_bif set_cc]
  end.
  - rewrite bif_add_n. cbn [p_size].
    destruct (p_el p); rewrite ?(proj1 (h _ _ _)), ?(proj1 (proj2 (h _ _ _))), ?(proj1 (proj2 (proj2 (h _ _ _)))), ?(proj2 (proj2 (proj2 (h _ _ _))));
      repeat split; reflexivity.
  - cbn. repeat split; lia.
Qed.
