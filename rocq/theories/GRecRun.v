(** Each call, and whole histories. *)
Require Import Verif.Base Verif.Errors Verif.RttModel Verif.RecoveryModel Verif.RecoverySpec.
Require Import Verif.RecoveryProofs Verif.RecoveryInv Verif.RecoveryMain Verif.RecoverySteps Verif.RecoveryRun.
Require Import Verif.GRecModel Verif.GRecSpec Verif.GRecProofs.
Require Import Sorted.

Lemma gget_set e s v : gget e (gset e s v) = s. Proof. destruct e; reflexivity. Qed.
Lemma gget_set_other e e' s v : e' <> e -> gget e' (gset e s v) = gget e' v.
Proof. destruct e, e'; (congruence || reflexivity). Qed.

(** Its frames and deadlines as a state of the other implementation *)
Definition viewr (v : grec) : rec :=
  mkRec (view (gv_ini v)) (view (gv_hs v)) (view (gv_app v)) None 0 (gv_rtt v) 0 0 false (gv_bif v) 0 0 0 0 (cc_new Reno 0 0 false false).
Lemma get_view e v : get_s e (viewr v) = view (gget e v). Proof. destruct e; reflexivity. Qed.

Definition glarge (s : gspace) (L : ledger) : Prop :=
  match gs_largest s with
  | Some m => (exists z, In z L /\ en_fate z = Acked /\ en_num z = m) /\ (forall z, In z L -> en_fate z = Acked -> en_num z <= m)
  | None => forall z, In z L -> en_fate z <> Acked
  end.
Definition gth (v : grec) : Prop :=
  9 <= gv_time8 v <= 16 /\
  match gv_over8 v with
  | None => exists t, gv_thresh v = Some t /\ 3 <= t <= 20
  | Some o => (gv_thresh v = None \/ gv_thresh v = Some 3) /\ 1 <= o <= 8
  end.

Lemma acked_settle_lost T L z : (forall x, T x = true -> is_out x = true) -> In z (settle T Lost L) -> en_fate z = Acked -> In z L.
Proof.
  intros ht hz ha. unfold settle in hz. apply in_map_iff in hz. destruct hz as (y & <- & hy). destruct (T y); [discriminate ha|exact hy].
Qed.
Lemma acked_stays T F L z : (forall x, T x = true -> is_out x = true) -> In z L -> en_fate z = Acked -> In z (settle T F L).
Proof.
  intros ht hz ha. unfold settle. apply in_map_iff. exists z. split; [|exact hz]. destruct (T z) eqn:e; [|reflexivity].
  specialize (ht z e). unfold is_out in ht. rewrite ha in ht. discriminate ht.
Qed.
Lemma tlost_out S x : tlost S x = true -> is_out x = true.
Proof. intros h. apply Bool.andb_true_iff in h. apply h. Qed.
Lemma out_fate x : is_out x = true <-> en_fate x = Out.
Proof. unfold is_out. destruct (en_fate x); split; (congruence || discriminate). Qed.

Lemma sorted_uniq L x y : StronglySorted en_lt L -> In x L -> In y L -> en_num x = en_num y -> x = y.
Proof.
  intros hs hx hy he. induction hs as [|z L hs IH hz]; [destruct hx|]. rewrite Forall_forall in hz. unfold en_lt in hz.
  destruct hx as [->|hx], hy as [->|hy]; auto; [specialize (hz y hy)|specialize (hz x hx)]; lia.
Qed.

Lemma gspace_lose_ok delay thresh now s L : gcore s L -> glarge s L -> (forall t, thresh = Some t -> 1 <= t) ->
  exists S s' a, gspace_lose delay thresh now s = Ok (s', a) /\
    let T := tlost S in let L' := settle T Lost L in
    gcore s' L' /\ glarge s' L' /\
    gs_largest s' = gs_largest s /\ gs_last_el s' = gs_last_el s /\
    gs_probes s' = gs_probes s /\ gs_facked s' = gs_facked s /\ gs_fpto s' = gs_fpto s /\
    (exists new, gs_flost s' = gs_flost s ++ flat_map p_frames new /\ forall g, psum g new = esum g T L) /\
    gl_n a = esum lost1 T L /\ gl_bytes a = esum lostsz T L /\ gl_pm a = esum probesz T L /\
    (forall x, In x L -> T x = true ->
       (exists z, In z L /\ en_fate z = Acked /\ en_num x < en_num z /\
          ((exists t, thresh = Some t /\ en_num x + t <= en_num z) \/ en_at x + delay <= now)) \/
       (en_num x = 0 /\ en_at x + delay <= now /\ forall z, In z L -> en_fate z <> Acked)) /\
    (forall x z, In x L' -> is_out x = true -> (forall y, In y L' -> is_out y = true -> en_num x <= en_num y) ->
       In z L' -> en_fate z = Acked -> en_num x < en_num z ->
       now < en_at x + delay /\ (forall t, thresh = Some t -> en_num z < en_num x + t) /\ gs_loss_time s' = Some (en_at x + delay)).
Proof.
  intros hc hl hth. pose proof hc as [(pre & suf & eL & hpre & hf) hi hs ho]. unfold gspace_lose.
  assert (hs2 : StronglySorted en_lt suf) by (rewrite eL in hs; eapply sorted_app_r; exact hs).
  assert (ho2 : Forall en_ok suf) by (rewrite eL in ho; apply Forall_app in ho; apply ho).
  destruct (glose_ok now delay thresh (or0 (gs_largest s)) suf (gs_q s) hf hs2 ho2 (mkGl (gs_inf s) 0 0 0 [] None))
    as (k & l & a & new & e1 & e2 & e3 & e4 & e5 & e6 & e7 & e8 & e9 & e10 & e11).
  { cbn [gl_inf]. rewrite hi, eL, number_pre by exact hpre. lia. }
  rewrite e1. cbn [bind]. cbv zeta in *. cbn [gl_inf gl_n gl_bytes gl_pm gl_frames gl_time app] in *.
  exists (below k). eexists. exists a. split; [reflexivity|].
  set (T := tlost (below k)) in *. assert (ht : forall x, T x = true -> is_out x = true) by (intros x; apply tlost_out).
  assert (pz : forall g, esum g T L = esum g T suf) by (intros g; rewrite eL; apply esum_pre; assumption).
  assert (dueL : forall x, In x L -> T x = true -> In x suf).
  { intros x hx hT. rewrite eL in hx. apply in_app_or in hx. destruct hx as [hx|hx]; [|exact hx]. rewrite Forall_forall in hpre. specialize (ht x hT). rewrite (hpre x hx) in ht. discriminate ht. }
  split; [|split; [|split; [reflexivity|split; [reflexivity|split; [reflexivity|split; [reflexivity|split; [reflexivity|]]]]]]].
  - split; cbn [gs_q gs_inf].
    + exists pre, (settle T Lost suf). rewrite eL, settle_pre by assumption. auto.
    + rewrite e3, hi, inf_settle by (discriminate || exact ht). rewrite pz. reflexivity.
    + apply sorted_settle. exact hs.
    + apply ok_settle. exact ho.
  - unfold glarge in *. cbn [gs_largest]. destruct (gs_largest s) as [m|].
    + destruct hl as [(z & z1 & z2 & z3) hmax]. split; [exists z; split; [apply acked_stays; assumption|auto]|].
      intros y hy ha. apply hmax; [|exact ha]. eapply acked_settle_lost; eassumption.
    + intros z hz ha. apply (hl z); [|exact ha]. eapply acked_settle_lost; eassumption.
  - cbn [gs_flost gs_loss_time]. rewrite !pz. split; [exists new; rewrite e7; split; [reflexivity|intros g; rewrite pz; apply e8]|].
    split; [exact e4|]. split; [exact e5|]. split; [exact e6|]. split.
    + intros x hx hT. specialize (e10 x (dueL x hx hT) hT). assert (hk : en_num x < k) by (unfold T, tlost, below in hT; lia).
      unfold glarge in hl. unfold due in e10. unfold or0 in *. destruct (gs_largest s) as [m|].
      * left. destruct hl as [(z & z1 & z2 & z3) _]. exists z. split; [exact z1|]. split; [exact z2|].
        assert (en_num x <> en_num z).
        { intros he. assert (x = z) by (apply (sorted_uniq L); assumption). subst z. specialize (ht x hT). unfold is_out in ht. rewrite z2 in ht. discriminate ht. }
        split; [lia|]. destruct e10 as [e10|(t & e10 & e10')]; [right; lia|left; exists t; split; [exact e10|lia]].
      * rewrite Forall_forall in ho. destruct (ho x hx) as (q & _). right. split; [lia|]. split; [|exact hl].
        destruct e10 as [e10|(t & e10 & e10')]; [lia|].
        specialize (hth t e10). lia.
    + intros x z hx hxo hold hz ha hlt.
      assert (hzL : In z L) by (eapply acked_settle_lost; eassumption).
      assert (hm : en_num z <= or0 (gs_largest s)).
      { unfold glarge in hl. unfold or0. destruct (gs_largest s) as [m|]; [apply hl; assumption|destruct (hl z hzL ha)]. }
      assert (hxL : In x L /\ T x = false).
      { unfold settle in hx. apply in_map_iff in hx. destruct hx as (y & ey & hy). destruct (T y) eqn:eT; [subst x; discriminate hxo|]. subst y. auto. }
      destruct hxL as [hxL hxT].
      assert (hk : k <= en_num x) by (unfold T, tlost, below in hxT; rewrite hxo in hxT; cbn [andb] in hxT; lia).
      destruct e11 as [[-> _]|(y & y1 & y2 & y3 & y4 & y5)]; [lia|].
      assert (hyL : In y L) by (rewrite eL; apply in_or_app; right; exact y1).
      assert (hyL' : In y (settle T Lost L)).
      { unfold settle. apply in_map_iff. exists y. split; [|exact hyL]. unfold T, tlost, below. replace (en_num y <? k) with false by lia. rewrite Bool.andb_false_r. reflexivity. }
      specialize (hold y hyL' y2). assert (x = y) by (eapply sorted_uniq; [exact hs|exact hxL|exact hyL|lia]). subst y.
      unfold due in y4. split; [|split; [|exact y5]].
      * destruct (Z_lt_le_dec now (en_at x + delay)); [assumption|]. destruct y4. left. lia.
      * intros t ht'. destruct (Z_lt_le_dec (en_num z) (en_num x + t)); [assumption|]. destruct y4. right. exists t. split; [exact ht'|lia].
Qed.

Lemma gslt_get hs now v e : gget e (gset_loss_timer hs now v) = gget e v.
Proof. unfold gset_loss_timer. destruct (fst (gloss_time_and_space v)); [|destruct ((bf_n (gv_bif v) =? 0) && hs_verified hs)]; destruct e; reflexivity. Qed.
Lemma gslt_other hs now v : gv_bif (gset_loss_timer hs now v) = gv_bif v /\ gv_rtt (gset_loss_timer hs now v) = gv_rtt v /\
  gv_thresh (gset_loss_timer hs now v) = gv_thresh v /\ gv_time8 (gset_loss_timer hs now v) = gv_time8 v /\ gv_over8 (gset_loss_timer hs now v) = gv_over8 v.
Proof. unfold gset_loss_timer. destruct (fst (gloss_time_and_space v)); [|destruct ((bf_n (gv_bif v) =? 0) && hs_verified hs)]; repeat split; reflexivity. Qed.

Record ginv (v : grec) (led : ledger) : Prop := mkGinv {
  gi_core : forall e, gcore (gget e v) (of_e e led);
  gi_large : forall e, glarge (gget e v) (of_e e led);
  gi_bif : bf_n (gv_bif v) = total in_flight led;
  gi_th : gth v }.
Definition gfinv (v : grec) (led : ledger) (g : epoch -> fgh) : Prop := finv (viewr v) led g.

Lemma gall_ok v led : (forall e, gcore (gget e v) (of_e e led)) -> Forall en_ok led.
Proof.
  intros h. apply Forall_forall. intros x hx. specialize (h (en_e x)). apply gco_ok in h. rewrite Forall_forall in h.
  apply h. apply in_of_e. split; auto.
Qed.
Lemma gth_pos v : gth v -> forall t, gv_thresh v = Some t -> 1 <= t.
Proof. intros [_ h] t e. destruct (gv_over8 v); [destruct h as [[h|h] _]|destruct h as (x & h & ?)]; rewrite e in h; (discriminate h || injection h as ->; lia). Qed.

Lemma grec_lose_ok fl e now v led : ginv v led ->
  exists S v' n b, grec_lose fl e now v = Ok (v', (n, b)) /\
    let led' := settle (onlye e (tlost S)) Lost led in
    ginv v' led' /\
    gv_thresh v' = gv_thresh v /\ gv_rtt v' = gv_rtt v /\ gv_time8 v' = gv_time8 v /\ gv_over8 v' = gv_over8 v /\ gv_lost v' = gv_lost v /\ gv_spur v' = gv_spur v /\ gv_bytes_lost v' = gv_bytes_lost v /\
    (forall g, gfinv v led g -> gfinv v' led' g) /\
    ggive_up_some (gdelay fl v) (gv_thresh v) now e led led' /\
    lost_reports n b led led' /\ gtimely (gdelay fl v) (gv_thresh v) now e v' led'.
Proof.
  intros hinv. pose proof hinv as [hc hl hb hth]. unfold grec_lose.
  destruct (gspace_lose_ok (gdelay fl v) (gv_thresh v) now (gget e v) (of_e e led) (hc e) (hl e) (gth_pos v hth))
    as (S & s' & a & -> & h1 & h2 & h4 & h5 & h6 & h7 & h8 & h9 & hk & hbs & hpm & hwhy & htim).
  cbn [bind]. cbv zeta in *. exists S. set (T := tlost S) in *.
  eexists. exists (gl_n a), (gl_bytes a). split; [reflexivity|]. set (led' := settle (onlye e T) Lost led).
  assert (hT : forall x, onlye e T x = true -> is_out x = true).
  { intros x hx. apply Bool.andb_true_iff in hx. destruct hx as [_ hx]. apply (tlost_out S). exact hx. }
  set (v' := gset_bif _ _).
  assert (g1 : gget e v' = s') by (unfold v'; transitivity (gget e (gset e s' v)); [destruct e; reflexivity|apply gget_set]).
  assert (g2 : forall e', e' <> e -> gget e' v' = gget e' v).
  { intros e' hne. unfold v'. transitivity (gget e' (gset e s' v)); [destruct e'; reflexivity|]. apply gget_set_other. exact hne. }
  assert (f1 : gv_thresh v' = gv_thresh v /\ gv_rtt v' = gv_rtt v /\ gv_time8 v' = gv_time8 v /\ gv_over8 v' = gv_over8 v /\ gv_lost v' = gv_lost v /\ gv_spur v' = gv_spur v /\ gv_bytes_lost v' = gv_bytes_lost v)
    by (unfold v'; destruct e; repeat split; reflexivity).
  pose proof (gall_ok v led hc) as hok.
  assert (hsz : forall x, In x led -> 0 <= p_size (en_p x)) by (intros x hx; rewrite Forall_forall in hok; apply (hok x hx)).
  split.
  { split.
    - intros e'. destruct (epoch_dec e' e) as [->|hne].
      + rewrite g1. unfold led'. rewrite settle_same. exact h1.
      + rewrite g2 by exact hne. unfold led'. rewrite settle_diff by exact hne. apply hc.
    - intros e'. destruct (epoch_dec e' e) as [->|hne].
      + rewrite g1. unfold led'. rewrite settle_same. exact h2.
      + rewrite g2 by exact hne. unfold led'. rewrite settle_diff by exact hne. apply hl.
    - unfold v'. cbn [gv_bif gset_bif]. rewrite bif_sub_n, hb, hbs, hpm. unfold led'. change (total in_flight ?x) with (esum p_size in_flight x).
      rewrite settle_sum by (congruence || exact hT).
      pose proof (esum_le_inflight p_size (onlye e T) led hT hsz) as hle.
      pose proof (lost_sizes (onlye e T) led hok) as hls. rewrite !esum_onlye in hls. unfold sat_sub. lia.
    - destruct f1 as (q1 & _ & q2 & q3 & _). unfold gth in *. rewrite q1, q2, q3. exact hth. }
  destruct f1 as (q1 & q2 & q3 & q4 & q5 & q6 & q7). split; [exact q1|]. split; [exact q2|]. split; [exact q3|]. split; [exact q4|]. split; [exact q5|]. split; [exact q6|]. split; [exact q7|].
  split; [|split; [|split]].
  - intros g hg. unfold gfinv in *. eapply (frames_lose (viewr v)); [| |destruct h9 as (new & n1 & n2); exists new; split|exact hg].
    + intros e'. rewrite !get_view. destruct (epoch_dec e' e) as [->|hne]; [rewrite g1; unfold view; cbn [s_facked s_fpto]; auto|rewrite g2 by exact hne; auto].
    + intros e' hne. rewrite !get_view, g2 by exact hne. reflexivity.
    + rewrite !get_view, g1. exact n1.
    + intros k _. apply n2.
  - unfold ggive_up_some, led', settle.
    assert (gen : forall l, (forall x, In x l -> In x led) -> Forall2 (fun x y => y = x \/
      (en_fate x = Out /\ en_e x = e /\ y = set_fate Lost x /\ gmay_give_up (gdelay fl v) (gv_thresh v) now led x)) l
      (map (fun x => if onlye e T x then set_fate Lost x else x) l)).
    { induction l as [|x l IH]; intros hin; [constructor|]. cbn [map]. constructor; [|apply IH; intros; apply hin; right; assumption].
      destruct (onlye e T x) eqn:ex; [right|left; reflexivity].
      assert (hx : In x led) by (apply hin; left; reflexivity).
      pose proof (hT x ex) as ho. apply Bool.andb_true_iff in ex. destruct ex as [ee et]. apply epoch_eqb_eq in ee.
      split; [apply out_fate; exact ho|]. split; [auto|]. split; [reflexivity|].
      assert (hx2 : In x (of_e e led)) by (apply in_of_e; auto).
      destruct (hwhy x hx2 et) as [(z & hz & z1 & z2 & z3)|(z1 & z2 & z3)].
      - left. apply in_of_e in hz. exists z. destruct hz as [hz he]. repeat split; auto. congruence.
      - right. split; [exact z1|]. split; [exact z2|]. intros z hz he. apply z3. apply in_of_e. split; congruence. }
    apply gen. auto.
  - split.
    + rewrite hk. unfold led'.
      pose proof (counted_sum (fun _ => 1) (fun _ => true) (onlye e T) led hT) as hcs.
      change (number counted ?x) with (esum (fun _ => 1) counted x).
      rewrite (esum_ext _ counted (fun x => counted x && (fun _ => true) (en_p x)) (settle (onlye e T) Lost led)) by (intros; rewrite Bool.andb_true_r; reflexivity).
      rewrite (esum_ext _ counted (fun x => counted x && (fun _ => true) (en_p x)) led) by (intros; rewrite Bool.andb_true_r; reflexivity).
      rewrite hcs. rewrite <- (esum_onlye lost1). clear. induction led as [|x led IH]; [reflexivity|]. rewrite !esum_cons, IH.
      unfold lost1. destruct (onlye e T x); cbn [andb]; [|lia]. destruct (p_probe (en_p x)); reflexivity.
    + rewrite hbs. unfold led'.
      pose proof (counted_sum p_size p_inf (onlye e T) led hT) as hcs.
      unfold total. unfold esum in hcs at 1 2. rewrite hcs. rewrite <- (esum_onlye lostsz).
      clear. induction led as [|x led IH]; [reflexivity|]. rewrite !esum_cons, IH.
      unfold lostsz, infsz. destruct (onlye e T x); cbn [andb]; [|lia]. destruct (p_probe (en_p x)); cbn [negb andb]; [lia|].
      destruct (p_inf (en_p x)); lia.
  - intros x z (x1 & x2 & x3) x4 z1 z2 z3 hlt. rewrite g1. apply htim; auto.
    + rewrite <- (settle_same e T). apply in_of_e. auto.
    + apply out_fate. exact x2.
    + intros y hy hyo. rewrite <- (settle_same e T) in hy. apply in_of_e in hy. destruct hy as [y1 y2]. apply x3; [exact y1|congruence|apply out_fate; exact hyo].
    + rewrite <- (settle_same e T). apply in_of_e. auto.
Qed.

Definition gstep_ok (fl : gpar) (o : rop) (v : grec) (led : ledger) : Prop :=
  (hits o = true -> grec_step fl o v = Err OptimisticAckDetected) /\
  (hits o = false -> exists v' x led', grec_step fl o v = Ok (v', x) /\
    gledger_step fl v' o x led led' /\ ginv v' led' /\ keys led' = keys led ++ new_keys o /\
    gv_bytes_lost v' = gv_bytes_lost v /\
    forall g, gfinv v led g -> gfinv v' led' (fun e => gstep o x e (g e))).

(** Calls that leave queues, bytes in flight and the ledger alone *)
Lemma gquiet fl o v v' x led : ginv v led -> hits o = false -> grec_step fl o v = Ok (v', x) ->
  (forall e, gs_q (gget e v') = gs_q (gget e v) /\ gs_inf (gget e v') = gs_inf (gget e v) /\ gs_largest (gget e v') = gs_largest (gget e v)) ->
  gv_bif v' = gv_bif v -> gv_thresh v' = gv_thresh v /\ gv_time8 v' = gv_time8 v /\ gv_over8 v' = gv_over8 v ->
  gv_bytes_lost v' = gv_bytes_lost v ->
  gledger_step fl v' o x led led -> new_keys o = [] ->
  (forall g e f, gfinv v led g -> fsp (view (gget e v')) (of_e e led) (gstep o x e (g e)) f) ->
  gstep_ok fl o v led.
Proof.
  intros [h1 h2 h3 h4] hh hs he hb (t1 & t2 & t3) hbl hl hk hf. split; [congruence|]. intros _. exists v', x, led. split; [exact hs|].
  split; [exact hl|]. split; [|split; [rewrite hk, app_nil_r; reflexivity|split; [exact hbl|intros g hg e f; rewrite get_view; apply hf; exact hg]]].
  split; [intros e; destruct (he e) as (a & b & c).. | congruence | unfold gth in *; rewrite t1, t2, t3; exact h4].
  - destruct (h1 e) as [q1 q2 q3 q4]. split; rewrite ?a, ?b; assumption.
  - specialize (h2 e). unfold glarge in *. rewrite c. exact h2.
Qed.

Lemma gstep_path fl e now v led : ginv v led -> gstep_ok fl (RPathChange e now) v led.
Proof.
  intros hi. destruct (grec_lose_ok fl e now v led hi) as (S & v' & n & b & er & c1 & c2 & c3 & c4 & c5 & c6 & c7 & cbl & c8 & c9 & c10 & c11).
  split; [discriminate|]. intros _. exists v', (OLost n b). eexists. split; [cbn [grec_step]; rewrite er; reflexivity|].
  split; [|split; [exact c1|split; [|split; [exact cbl|]]]].
  - exists n, b. unfold gdelay. rewrite c2, c3, c4. split; [reflexivity|]. split; [exact c9|]. split; [exact c10|exact c11].
  - rewrite keys_settle. symmetry. apply app_nil_r.
  - intros g hg e' f. rewrite gstep_lost by exact I. apply (c8 g hg).
Qed.

Lemma gpto_frames_le fl f n s L : gcore s L -> cntf f (gpto_frames fl n (gs_q s)) <= esum (gfr f) is_out L.
Proof.
  intros [(pre & suf & -> & h1 & h2) _ _ _]. rewrite esum_app.
  assert (0 <= esum (gfr f) is_out pre) by (apply esum_nonneg, gfr_nonneg).
  enough (cntf f (gpto_frames fl n (gs_q s)) <= esum (gfr f) is_out suf) by lia. clear h1 H.
  revert n. induction h2 as [|x [m st] suf l hm h2 IH]; intros n; [destruct n; reflexivity|]. rewrite esum_cons.
  destruct hm as [_ hm]. cbn [snd] in hm.
  assert (0 <= esum (gfr f) is_out suf) by (apply esum_nonneg, gfr_nonneg).
  assert (0 <= gfr f (en_p x)) by apply cntf_nonneg.
  destruct n as [|n]; cbn [gpto_frames]; [change (cntf f []) with 0; destruct (is_out x); lia|].
  destruct st as [p| |].
  - destruct hm as (-> & hp & _). destruct (p_data p).
    + rewrite cntf_app. specialize (IH n). change (gfr f (en_p x)) with (cntf f (p_frames (en_p x))). rewrite hp.
      assert (cntf f (filter (fun f0 => negb (gp_dgram fl f0)) (p_frames p)) <= cntf f (p_frames p)); [|lia].
      unfold cntf. clear. induction (p_frames p) as [|y l IH]; [reflexivity|]. cbn [filter count_occ]. destruct (negb (gp_dgram fl y)); cbn [count_occ]; destruct (Z.eq_dec y f); lia.
    + specialize (IH (S n)). lia.
  - specialize (IH (S n)). destruct (is_out x); lia.
  - specialize (IH (S n)). destruct (is_out x); lia.
Qed.

Lemma ggive_up_none d t now e led : ggive_up_some d t now e led led.
Proof. unfold ggive_up_some. generalize led at 2 3. intros l. induction l; constructor; auto. Qed.

Lemma ginv_slt hs now v led : ginv v led -> ginv (gset_loss_timer hs now v) led.
Proof.
  intros [h1 h2 h3 h4]. destruct (gslt_other hs now v) as (q1 & q2 & q3 & q4 & q5). split; intros; rewrite ?gslt_get; auto; [rewrite q1; exact h3|].
  unfold gth in *. rewrite q3, q4, q5. exact h4.
Qed.
Lemma gfinv_slt hs now v led g : gfinv v led g -> gfinv (gset_loss_timer hs now v) led g.
Proof. intros h e f. specialize (h e f). rewrite get_view in *. rewrite gslt_get. exact h. Qed.
Lemma gslt_lost hs now v : gv_bytes_lost (gset_loss_timer hs now v) = gv_bytes_lost v.
Proof. unfold gset_loss_timer. destruct (fst (gloss_time_and_space v)); [|destruct ((bf_n (gv_bif v) =? 0) && hs_verified hs)]; reflexivity. Qed.

Lemma gstep_timeout_ok fl hs now v led : ginv v led -> gstep_ok fl (RTimeout hs now) v led.
Proof.
  intros hi. pose proof hi as [h1 h2 h3 h4]. split; [discriminate|]. intros _. cbn [grec_step]. unfold grec_timeout.
  destruct (gloss_time_and_space v) as [[t|] e0].
  - destruct (grec_lose_ok fl e0 now v led hi) as (S & v' & n & b & er & c1 & c2 & c3 & c4 & c5 & c6 & c7 & cbl & c8 & c9 & c10 & _).
    rewrite er. cbn [bind fst snd]. set (w := gset_lost _ v').
    assert (iw : ginv w (settle (onlye e0 (tlost S)) Lost led)).
    { destruct c1 as [q1 q2 q3 q4]. split; auto. }
    eexists _, _, _. split; [reflexivity|]. destruct (gslt_other hs now w) as (_ & q2 & q3 & q4 & _).
    split; [|split; [apply ginv_slt; exact iw|split; [|split]]].
    + exists e0, n, b. unfold gdelay. rewrite q2, q3, q4. unfold w. cbn [gv_rtt gv_thresh gv_time8 gset_lost]. rewrite c2, c3, c4. split; [reflexivity|]. split; [exact c9|exact c10].
    + rewrite keys_settle. symmetry. apply app_nil_r.
    + rewrite gslt_lost. exact cbl.
    + intros g hg. apply gfinv_slt. intros e' f. rewrite gstep_timeout. apply fsp_tick. specialize (c8 g hg e' f). destruct e'; exact c8.
  - cbn [bind fst snd]. cbv zeta.
    set (e := if 0 <? bf_n (gv_bif v) then snd (gpto_time_and_space hs now v) else if hs_keys hs then EHandshake else EInitial).
    set (w := gset_pto (gv_pto v + 1) v).
    set (s1 := gset_probes (Z.min MAX_PROBES (gv_pto w)) (gget e w)).
    set (s2 := match gs_fpto s1 with [] => gset_frames (gs_facked s1) (gs_flost s1) (gpto_frames fl (Z.to_nat (gs_probes s1)) (gs_q s1)) s1 | _ => s1 end).
    assert (gw : forall e', gget e' w = gget e' v) by (intros []; reflexivity).
    assert (hs2 : gs_q s2 = gs_q (gget e v) /\ gs_inf s2 = gs_inf (gget e v) /\ gs_largest s2 = gs_largest (gget e v) /\
      gs_facked s2 = gs_facked (gget e v) /\ gs_flost s2 = gs_flost (gget e v)).
    { unfold s2, s1. rewrite !gw. cbn [gs_fpto gset_probes]. destruct (gs_fpto (gget e v)); repeat split; reflexivity. }
    destruct hs2 as (a1 & a2 & a3 & a5 & a6).
    assert (hgv : forall e', gget e' (gset e s2 w) = if epoch_dec e' e then s2 else gget e' v).
    { intros e'. destruct (epoch_dec e' e) as [->|hne]; [apply gget_set|]. rewrite gget_set_other by exact hne. apply gw. }
    eexists _, _, led. split; [reflexivity|]. split; [|split; [|split; [|split]]].
    + exists e, 0, 0. split; [reflexivity|]. split; [apply ggive_up_none|]. split; lia.
    + apply ginv_slt. split; [intros e'; rewrite hgv; destruct (epoch_dec e' e) as [->|hne].. | |].
      * destruct (h1 e) as [q1 q2 q3 q4]. split; rewrite ?a1, ?a2; assumption.
      * apply h1.
      * specialize (h2 e). unfold glarge in *. rewrite a3. exact h2.
      * apply h2.
      * clearbody e. destruct e; exact h3.
      * clearbody e. destruct e; exact h4.
    + symmetry. apply app_nil_r.
    + rewrite gslt_lost. clearbody e. destruct e; reflexivity.
    + intros g hg. apply gfinv_slt. intros e' f. specialize (hg e' f). rewrite get_view in *. rewrite hgv, gstep_timeout. destruct (epoch_dec e' e) as [->|hne]; [|apply fsp_tick; exact hg].
      destruct hg as [g1 g2 g3 g4 g5 g6]. unfold view in g1, g2, g3, g4 |- *. cbn [s_facked s_flost s_fpto] in g1, g2, g3, g4.
      assert (hall : esum (gfr f) is_out (of_e e led) <= esum (gfr f) (fun _ => true) (of_e e led)).
      { clear. induction (of_e e led) as [|x L IH]; [reflexivity|]. rewrite !esum_cons. assert (0 <= gfr f (en_p x)) by apply cntf_nonneg. destruct (is_out x); lia. }
      assert (0 <= esum (gfr f) (fun _ => true) (of_e e led)) by (apply esum_nonneg, gfr_nonneg).
      split; cbn [gh_ack gh_lost gh_to gh_disc gh_sent s_facked s_flost s_fpto]; rewrite ?a5, ?a6; auto; try lia.
      assert (hp : cntf f (gs_fpto s2) <= cntf f (gs_fpto (gget e v)) + esum (gfr f) is_out (of_e e led)).
      { unfold s2, s1. rewrite gw. cbn [gs_fpto gset_probes]. destruct (gs_fpto (gget e v)) eqn:ef.
        - cbn [gs_fpto gset_frames gs_q gset_probes]. change (cntf f []) with 0. apply gpto_frames_le. apply h1.
        - assert (0 <= esum (gfr f) is_out (of_e e led)) by (apply esum_nonneg, gfr_nonneg). cbn [gs_fpto gset_probes]. rewrite ef. lia. }
      lia.
Qed.

Lemma grec_sent_eq e p hs now v led : ginv v led -> fresh e p (keys led) ->
  exists v', grec_sent e p hs now v = Ok v' /\
    (forall e', gget e' v' = if epoch_dec e' e then
       let s := gget e v in
       mkGs (if p_el p then Some (p_sent p) else gs_last_el s) (gs_largest s) (gs_loss_time s) (gs_q s ++ [(p_num p, GSent p)])
         (gs_probes s) (if p_inf p then gs_inf s + 1 else gs_inf s) (gs_facked s) (gs_flost s) (gs_fpto s) else gget e' v) /\
    bf_n (gv_bif v') = bf_n (gv_bif v) + (if p_inf p then p_size p else 0) /\
    gv_thresh v' = gv_thresh v /\ gv_time8 v' = gv_time8 v /\ gv_over8 v' = gv_over8 v /\ gv_bytes_lost v' = gv_bytes_lost v.
Proof.
  intros [h1 h2 h3 h4] (a1 & a2 & a3 & a4 & a5 & a6). unfold grec_sent. cbv zeta.
  assert (hq : forall q, In q (gs_q (gget e v)) -> fst q < p_num p).
  { intros q hq. destruct (h1 e) as [(pre & suf & eL & _ & hf) _ _ _]. assert (exists x, In x suf /\ grel x q) as (x & hx & hr & _).
    { clear -hf hq. induction hf as [|x y suf l h hf IH]; [destruct hq|]. destruct hq as [<-|hq]; [exists x; split; [left; reflexivity|exact h]|].
      destruct (IH hq) as (z & z1 & z2). exists z. split; [right; exact z1|exact z2]. }
    rewrite <- hr. assert (hx' : In x (of_e e led)) by (rewrite eL; apply in_or_app; right; exact hx). apply in_of_e in hx'. destruct hx' as [hx' he].
    apply a6. unfold keys. apply in_map_iff. exists x. rewrite he. auto. }
  assert (hl : (match gs_q (gget e v) with [] => false | _ => p_num p <=? fst (last (gs_q (gget e v)) (0, GAcked)) end) = false).
  { destruct (gs_q (gget e v)) as [|q l] eqn:eq; [reflexivity|]. assert (hin : In (last (q :: l) (0, GAcked)) (q :: l)).
    { destruct (exists_last (l := q :: l) ltac:(discriminate)) as (l' & y & ->). rewrite last_last. apply in_or_app. right. left. reflexivity. }
    specialize (hq _ hin). lia. }
  rewrite hl. clear hl. set (s := mkGs _ _ _ _ _ _ _ _ _). eexists. split; [reflexivity|].
  set (w := gset_counts _ _ (gset e s v)). assert (gw : forall e', gget e' w = gget e' (gset e s v)) by (intros []; reflexivity).
  assert (gs' : forall e', gget e' (gset e s v) = if epoch_dec e' e then s else gget e' v).
  { intros e'. destruct (epoch_dec e' e) as [->|hne]; [apply gget_set|apply gget_set_other; exact hne]. }
  assert (ow : gv_bif w = gv_bif v /\ gv_thresh w = gv_thresh v /\ gv_time8 w = gv_time8 v /\ gv_over8 w = gv_over8 v /\ gv_bytes_lost w = gv_bytes_lost v) by (unfold w; destruct e; repeat split; reflexivity).
  clearbody w. destruct ow as (o1 & o2 & o3 & o4 & o5).
  destruct (p_inf p) eqn:ei; cbn [andb].
  - set (u := gset_bif (bif_add (p_size p) now (gv_bif w)) w).
    assert (gu : forall e', gget e' u = gget e' w) by (intros []; reflexivity).
    destruct (gslt_other hs (p_sent p) u) as (q1 & q2 & q3 & q4 & q5). split; [intros e'; rewrite gslt_get, gu, gw; apply gs'|].
    rewrite q1, q3, q4, q5, gslt_lost. unfold u. cbn [gv_bif gset_bif gv_thresh gv_time8 gv_over8 gv_bytes_lost]. rewrite bif_add_n, o1. auto.
  - split; [intros e'; rewrite gw; apply gs'|]. rewrite o1, Z.add_0_r. auto.
Qed.

Lemma gstep_sent fl e p hs now v led : ginv v led -> fresh e p (keys led) -> gstep_ok fl (RSent e p hs now) v led.
Proof.
  intros hi hfr. destruct (grec_sent_eq e p hs now v led hi hfr) as (v' & es & gv & b1 & b2 & b3 & b4 & b5).
  destruct hi as [h1 h2 h3 h4]. destruct hfr as (a1 & a2 & a3 & a4 & a5 & a6).
  split; [discriminate|]. intros _. exists v', ONone, (led ++ [mkEn e p (p_sent p) Out]). split; [cbn [grec_step]; rewrite es; reflexivity|]. split; [reflexivity|].
  assert (hlt : forall y, In y (of_e e led) -> en_num y < p_num p).
  { intros y hy. apply in_of_e in hy. destruct hy as [hy <-]. apply a6. unfold keys. apply (in_map (fun x => (en_e x, en_num x)) _ _ hy). }
  set (x0 := mkEn e p (p_sent p) Out).
  assert (hoe : forall e', of_e e' (led ++ [x0]) = if epoch_dec e' e then of_e e led ++ [x0] else of_e e' led).
  { intros e'. rewrite of_e_app. unfold of_e at 2. cbn [filter en_e x0].
    destruct (epoch_dec e' e) as [->|hne]; [rewrite epoch_eqb_refl; reflexivity|]. rewrite epoch_eqb_neq by exact hne. apply app_nil_r. }
  split; [split|split; [|split; [exact b5|]]].
  - intros e'. rewrite gv, hoe. destruct (epoch_dec e' e) as [->|hne]; [|apply h1].
    destruct (h1 e) as [(pre & suf & eL & q1 & q2) hinf hs' ho]. split; cbn [gs_q gs_inf].
    + exists pre, (suf ++ [x0]). rewrite eL, app_assoc. split; [reflexivity|]. split; [exact q1|]. apply Forall2_app; [exact q2|]. repeat constructor.
    + change (number in_flight ?x) with (esum (fun _ => 1) in_flight x). rewrite esum_app, esum_cons. unfold in_flight at 2, is_out. cbn [x0 en_fate en_p andb].
      change (esum _ _ []) with 0. rewrite hinf. change (number in_flight ?x) with (esum (fun _ => 1) in_flight x). destruct (p_inf p); lia.
    + apply sorted_snoc; assumption.
    + apply Forall_app. split; [exact ho|]. constructor; [|constructor]. repeat split; assumption.
  - intros e'. rewrite gv, hoe. destruct (epoch_dec e' e) as [->|hne]; [|apply h2].
    specialize (h2 e). unfold glarge in *. cbn [gs_largest]. destruct (gs_largest (gget e v)).
    + destruct h2 as [(y & q1 & q2 & q3) hm]. split; [exists y; split; [apply in_or_app; left; exact q1|auto]|].
      intros y0 hy ha. apply in_app_or in hy. destruct hy as [hy|[<-|[]]]; [auto|discriminate ha].
    + intros z0 hz. apply in_app_or in hz. destruct hz as [hz|[<-|[]]]; [auto|discriminate].
  - rewrite b1, h3. change (esum p_size in_flight led + (if p_inf p then p_size p else 0) = esum p_size in_flight (led ++ [x0])).
    rewrite esum_app, esum_cons. unfold in_flight at 3, is_out. cbn [x0 en_fate en_p andb]. change (esum _ _ []) with 0. destruct (p_inf p); lia.
  - unfold gth in *. rewrite b2, b3, b4. exact h4.
  - unfold keys. rewrite map_app. reflexivity.
  - intros g hg e' f. specialize (hg e' f). rewrite get_view in *. rewrite gv, hoe. unfold gstep.
    change (reported_acked e' [RSent e p hs now] [ONone]) with (@nil Z).
    change (reported_lost e' [RSent e p hs now] [ONone]) with (@nil Z).
    change (timeouts [RSent e p hs now]) with 0. change (discarded e' [RSent e p hs now]) with false.
    change (frames_sent e' [RSent e p hs now]) with ((if epoch_eqb e' e then p_frames p else []) ++ []).
    rewrite !app_nil_r, Z.add_0_r, Bool.orb_false_r.
    destruct (epoch_dec e' e) as [->|hne].
    + rewrite epoch_eqb_refl. destruct hg as [g1 g2 g3 g4 g5 g6]. unfold view in g1, g2, g3, g4 |- *. cbn [s_facked s_flost s_fpto] in g1, g2, g3, g4.
      assert (hz : forall k, k x0 = false -> esum (gfr f) k (of_e e led ++ [x0]) = esum (gfr f) k (of_e e led)).
      { intros k hk. rewrite esum_app, esum_cons, hk. change (esum _ _ []) with 0. lia. }
      assert (ha : esum (gfr f) (fun _ => true) (of_e e led ++ [x0]) = esum (gfr f) (fun _ => true) (of_e e led) + gfr f p).
      { rewrite esum_app, esum_cons. change (esum _ _ []) with 0. cbn [x0 en_p]. lia. }
      assert (0 <= gfr f p) by apply cntf_nonneg.
      split; cbn [gh_ack gh_lost gh_to gh_disc gh_sent s_facked s_flost s_fpto gs_facked gs_flost gs_fpto]; rewrite ?ha, ?(hz acked_fate eq_refl), ?(hz lost_fate eq_refl); auto.
      * nia.
      * rewrite cntf_app. unfold gfr in *. lia.
    + rewrite epoch_eqb_neq by exact hne. rewrite app_nil_r. destruct (g e'). exact hg.
Qed.

Lemma gsum_unacked s L : gcore s L -> fold_right (fun x acc => gunacked x + acc) 0 (gs_q s) = esum p_size in_flight L.
Proof.
  intros [(pre & suf & -> & h1 & h2) _ _ _]. rewrite esum_app, (esum_none p_size in_flight pre).
  2:{ eapply Forall_impl; [|exact h1]. intros x hx. unfold in_flight. rewrite hx. reflexivity. }
  rewrite Z.add_0_l. clear h1. induction h2 as [|x [n st] suf l hm _ IH]; [reflexivity|]. rewrite esum_cons, <- IH. cbn [fold_right].
  destruct hm as [_ hm]. cbn [snd] in hm. unfold gunacked at 1, in_flight. cbn [snd]. destruct st as [p| |].
  - destruct hm as (-> & <- & _). cbn [andb]. destruct (p_inf (en_p x)); lia.
  - rewrite hm. cbn [andb]. lia.
  - rewrite hm. cbn [andb]. lia.
Qed.

Lemma gstep_discard fl e hs now v led : ginv v led -> gstep_ok fl (RDiscard e hs now) v led.
Proof.
  intros [h1 h2 h3 h4]. split; [discriminate|]. intros _. exists (grec_discard e hs now v), ONone, (settle (onlye e is_out) Gone led).
  split; [reflexivity|]. split; [reflexivity|]. unfold grec_discard. cbv zeta.
  set (s0 := mkGs None (gs_largest (gget e v)) None [] 0 0 [] [] []). set (w := gset_bif _ (gset e s0 v)).
  assert (hg : forall e', gget e' w = if epoch_dec e' e then s0 else gget e' v).
  { intros e'. unfold w. transitivity (gget e' (gset e s0 v)); [destruct e'; reflexivity|]. destruct (epoch_dec e' e) as [->|hne]; [apply gget_set|apply gget_set_other; exact hne]. }
  assert (ho : forall x, onlye e is_out x = true -> is_out x = true) by (intros x hx; apply Bool.andb_true_iff in hx; apply hx).
  assert (hall : Forall (fun x => is_out x = false) (settle is_out Gone (of_e e led))).
  { unfold settle. rewrite Forall_map. apply Forall_forall. intros x _. destruct (is_out x) eqn:ex; [reflexivity|exact ex]. }
  split; [apply ginv_slt; split|split; [|split]].
  - intros e'. rewrite hg. destruct (epoch_dec e' e) as [->|hne]; [|rewrite settle_diff by exact hne; apply h1].
    rewrite settle_same. destruct (h1 e) as [q1 q2 q3 q4]. split.
    + exists (settle is_out Gone (of_e e led)), []. split; [symmetry; apply app_nil_r|]. split; [exact hall|constructor].
    + cbn [gs_inf s0]. symmetry. apply (esum_none (fun _ => 1)). eapply Forall_impl; [|exact hall]. intros x hx. unfold in_flight. rewrite hx. reflexivity.
    + apply sorted_settle. exact q3.
    + apply ok_settle. exact q4.
  - intros e'. rewrite hg. destruct (epoch_dec e' e) as [->|hne]; [|rewrite settle_diff by exact hne; apply h2].
    rewrite settle_same. specialize (h2 e). unfold glarge in *. cbn [gs_largest s0].
    assert (back : forall z, In z (settle is_out Gone (of_e e led)) -> en_fate z = Acked -> In z (of_e e led)).
    { intros z hz ha. unfold settle in hz. apply in_map_iff in hz. destruct hz as (y & <- & hy). destruct (is_out y); [discriminate ha|exact hy]. }
    destruct (gs_largest (gget e v)).
    + destruct h2 as [(y & q1 & q2 & q3) hm]. split; [exists y; split; [apply acked_stays; auto|auto]|]. intros z0 hz ha. apply hm; auto.
    + intros z hz ha. apply (h2 z); auto.
  - unfold w. cbn [gv_bif gset_bif]. rewrite bif_sub_n, (gsum_unacked _ _ (h1 e)).
    replace (gv_bif (gset e s0 v)) with (gv_bif v) by (destruct e; reflexivity).
    rewrite h3. change (total in_flight ?x) with (esum p_size in_flight x).
    rewrite settle_sum by (discriminate || exact ho).
    assert (hok : forall x, In x led -> 0 <= p_size (en_p x)).
    { intros y hy. pose proof (gall_ok v led h1) as q. rewrite Forall_forall in q. apply (q y hy). }
    pose proof (esum_le_inflight p_size (onlye e is_out) led ho hok).
    replace (esum p_size in_flight (of_e e led)) with (esum p_size (fun x => onlye e is_out x && p_inf (en_p x)) led); [unfold sat_sub; lia|].
    rewrite <- esum_onlye. apply esum_ext. intros y _. unfold onlye, in_flight. symmetry. apply Bool.andb_assoc.
  - unfold w. destruct e; exact h4.
  - rewrite keys_settle. cbn [new_keys]. rewrite app_nil_r. reflexivity.
  - rewrite gslt_lost. unfold w. destruct e; reflexivity.
  - intros g hgh. apply gfinv_slt. intros e' f. specialize (hgh e' f). rewrite get_view in *. rewrite hg. unfold gstep.
    change (reported_acked e' [RDiscard e hs now] [ONone]) with (@nil Z).
    change (reported_lost e' [RDiscard e hs now] [ONone]) with (@nil Z).
    change (timeouts [RDiscard e hs now]) with 0. change (discarded e' [RDiscard e hs now]) with (epoch_eqb e' e || false).
    change (frames_sent e' [RDiscard e hs now]) with (@nil Z).
    rewrite !app_nil_r, Z.add_0_r, Bool.orb_false_r.
    destruct (epoch_dec e' e) as [->|hne].
    + rewrite epoch_eqb_refl, Bool.orb_true_r, settle_same. destruct hgh as [g1 g2 g3 g4 g5 g6].
      pose proof (settle_unfate (gfr f) lost_fate is_out Gone (of_e e led) (fun x hx => out_not_lost x hx) (fun _ => eq_refl)) as a1.
      pose proof (settle_unfate (gfr f) acked_fate is_out Gone (of_e e led) (fun x hx => out_not_acked x hx) (fun _ => eq_refl)) as a2.
      pose proof (settle_all (gfr f) is_out Gone (of_e e led)) as a3.
      unfold view in g1, g2, g3, g4 |- *. cbn [s_facked s_flost s_fpto] in g1, g2, g3, g4.
      pose proof (cntf_nonneg f (gs_facked (gget e v))). pose proof (cntf_nonneg f (gs_flost (gget e v))). pose proof (cntf_nonneg f (gs_fpto (gget e v))).
      split; cbn [gh_ack gh_lost gh_to gh_disc gh_sent s_facked s_flost s_fpto s0 gs_facked gs_flost gs_fpto]; rewrite ?a1, ?a2, ?a3; auto; change (cntf f []) with 0; try lia; discriminate.
    + rewrite epoch_eqb_neq by exact hne. rewrite Bool.orb_false_r, settle_diff by exact hne. destruct (g e'). exact hgh.
Qed.

Lemma gspurious_ok n spur v : gth v -> exists v', gspurious n spur v = Ok v' /\ gth v' /\
  (forall e, gget e v' = gget e v) /\ gv_bif v' = gv_bif v /\ gv_rtt v' = gv_rtt v /\ gv_bytes_lost v' = gv_bytes_lost v.
Proof.
  intros [h1 h2]. unfold gspurious. destruct (gv_over8 v) as [o|] eqn:eo.
  - destruct h2 as [[h2|h2] h3]; rewrite h2; cbn [is_some]; eexists; (split; [reflexivity|]); (split; [|split; [intros []; reflexivity|auto]]);
      split; cbn [gv_time8 gv_over8 gv_thresh gset_thresh]; try lia; split; auto; lia.
  - destruct h2 as (t & h2 & h3). rewrite h2. eexists. split; [reflexivity|]. split; [|split; [intros []; reflexivity|auto]].
    split; cbn [gv_time8 gv_over8 gv_thresh gset_thresh]; [lia|]. eexists. split; [reflexivity|]. change MAX_PKT_THRESH with 20. lia.
Qed.

Lemma sorted_last_max (p : pkt) new : StronglySorted plt (p :: new) -> forall q, In q (p :: new) -> p_num q <= p_num (last new p).
Proof.
  revert p. induction new as [|r new IH]; intros p h q hq.
  - destruct hq as [->|[]]. apply Z.le_refl.
  - apply StronglySorted_inv in h. destruct h as [h hf]. assert (el : last (r :: new) p = last new r).
    { destruct new as [|s new]; [reflexivity|]. cbn [last]. clear. revert s. induction new as [|t new IHn]; intros s; [reflexivity|]. exact (IHn t). }
    rewrite el. destruct hq as [<-|hq]; [|apply (IH r h q hq)]. specialize (IH r h r (or_introl eq_refl)).
    rewrite Forall_forall in hf. specialize (hf r (or_introl eq_refl)). unfold plt in hf. lia.
Qed.

Lemma gstep_ack fl e rs delay hs now skip v led : ginv v led -> valid_ranges rs -> gstep_ok fl (RAck e rs delay hs now skip) v led.
Proof.
  intros hi hv. pose proof hi as [h1 h2 h3 h4]. unfold gstep_ok. cbn [grec_step hits]. unfold grec_ack.
  destruct (gspace_ack_ok rs skip (gget e v) (of_e e led) (h1 e) hv) as [[k0 k1]|(k0 & s & a & es & k1 & k2 & k3 & k4 & k5 & k6 & k7 & k8 & k9 & k10 & k11 & k12 & k13)].
  { rewrite k1. split; [reflexivity|congruence]. }
  rewrite es. cbn [bind]. split; [congruence|]. intros _.
  assert (hth : gth (gset e s v)) by (destruct e; exact h4).
  set (spur := gv_spur (gset e s v) + ga_spur a).
  assert (hw : exists w, (match ga_thresh a with Some t => gspurious t spur (gset e s v)
      | None => Ok (gset_thresh spur (gv_thresh (gset e s v)) (gv_time8 (gset e s v)) (gv_over8 (gset e s v)) (gset e s v)) end) = Ok w /\ gth w /\
      (forall e', gget e' w = gget e' (gset e s v)) /\ gv_bif w = gv_bif v /\ gv_rtt w = gv_rtt v /\ gv_bytes_lost w = gv_bytes_lost v).
  { destruct (ga_thresh a) as [t|].
    - destruct (gspurious_ok t spur _ hth) as (w & q1 & q2 & q3 & q4 & q5 & q6). exists w. split; [exact q1|]. split; [exact q2|]. split; [exact q3|].
      rewrite q4, q5, q6. destruct e; auto.
    - eexists. split; [reflexivity|]. split; [exact hth|]. split; [intros []; reflexivity|]. destruct e; auto. }
  destruct hw as (w & -> & tw & gw & bw & rw & lw). cbn [bind].
  assert (hoT : forall x, onlye e (tack rs) x = true -> is_out x = true).
  { intros x hx. apply Bool.andb_true_iff in hx. destruct hx as [_ hx]. apply Bool.andb_true_iff in hx. apply hx. }
  set (mid := map (ack_entry e rs) led).
  assert (emid : mid = settle (onlye e (tack rs)) Acked led) by (unfold mid; rewrite settle_ack; reflexivity).
  assert (hnew : ga_new a = [] -> forall x, In x led -> onlye e (tack rs) x = false).
  { intros en x hx. specialize (k10 (fun _ => 1)). rewrite en in k10. cbn [psum] in k10.
    unfold onlye. destruct (epoch_eqb e (en_e x)) eqn:ee; [|reflexivity]. cbn [andb].
    apply (esum_one_zero _ _ (eq_sym k10)). apply in_of_e. apply epoch_eqb_eq in ee. auto. }
  assert (hacked : total (fun y => acks e rs y && p_inf (en_p y)) led = esum infsz (tack rs) (of_e e led)).
  { rewrite <- (esum_onlye infsz), infsz_size. change (esum p_size (fun y => acks e rs y && p_inf (en_p y)) led = esum p_size (fun x => onlye e (tack rs) x && p_inf (en_p x)) led).
    apply esum_ext. intros x _. unfold acks, onlye, tack. rewrite Bool.andb_assoc. reflexivity. }
  assert (cmid : forall e', gcore (gget e' w) (of_e e' mid)).
  { intros e'. rewrite gw, emid. destruct (epoch_dec e' e) as [->|hne].
    - rewrite gget_set, settle_same. exact k1.
    - rewrite gget_set_other, settle_diff by exact hne. apply h1. }
  assert (fmid : forall g, gfinv v led g -> gfinv w mid g).
  { intros g hg e' f. specialize (hg e' f). rewrite get_view in *. rewrite gw, emid. destruct (epoch_dec e' e) as [->|hne].
    - rewrite gget_set, settle_same. apply (fsp_ack (view (gget e v)) (view s) _ _ _ rs (ga_new a)); [exact k8|exact k6|exact k7|intros g0 _; apply k10|exact hg].
    - rewrite gget_set_other, settle_diff by exact hne. exact hg. }
  assert (g2 : gget e w = s) by (rewrite gw; apply gget_set).
  destruct (ga_new a) as [|p new] eqn:en.
  - cbn [bind]. assert (hn := hnew eq_refl). assert (em2 : mid = led) by (rewrite emid; apply settle_none; exact hn).
    assert (hb0 : esum infsz (tack rs) (of_e e led) = 0) by (rewrite <- (k10 infsz); reflexivity).
    eexists _, _, mid. split; [reflexivity|]. split; [|split; [|split; [|split; [exact lw|]]]].
    + unfold gledger_step. cbv zeta. fold mid. exists 0, 0, (ga_spur a). rewrite hacked, k9, hb0. split; [reflexivity|]. split; [apply ggive_up_none|]. split; [split; lia|].
      intros hx. apply existsb_exists in hx. destruct hx as (x & hx & ha). specialize (hn x hx). exfalso.
      unfold acks in ha. unfold onlye, tack in hn. rewrite Bool.andb_assoc in hn. congruence.
    + rewrite em2 in *. split; auto.
      * intros e'. rewrite gw. destruct (epoch_dec e' e) as [->|hne]; [|rewrite gget_set_other by exact hne; apply h2].
        rewrite gget_set. specialize (h2 e). unfold glarge in *. rewrite k2. exact h2.
      * rewrite bw. exact h3.
    + rewrite em2. symmetry. apply app_nil_r.
    + intros g hg. specialize (fmid g hg). intros e' f. rewrite gstep_same by reflexivity. apply fmid.
  - cbv zeta. rewrite <- en in *.
    assert (htop : exists x, In x (of_e e led) /\ tack rs x = true /\ en_p x = last new p).
    { apply k11. rewrite en. apply last_in. }
    destruct htop as (top & htop1 & htop2 & htop3).
    set (w2 := gset_bif (bif_sub (ga_bytes a) now (gv_bif w)) w).
    set (largest := Z.max (or0 (gs_largest (gget e w2))) (p_num (last new p))).
    set (w3 := gset e (gset_largest (Some largest) (gget e w2)) w2).
    set (w4 := if (p_num (last new p) =? largest) && ga_el a
               then gset_rtt (rtt_update (mkIn (since now (p_sent (last new p))) (delay * 1000) now (hs_done hs)) (gv_rtt w3)) w3
               else w3).
    assert (gw2 : forall e', gget e' w2 = gget e' w) by (intros []; reflexivity).
    assert (gw4 : forall e', gget e' w4 = if epoch_dec e' e then gset_largest (Some largest) (gget e w) else gget e' w).
    { intros e'. transitivity (gget e' w3); [unfold w4; destruct ((p_num (last new p) =? largest) && ga_el a), e'; reflexivity|].
      unfold w3. rewrite gw2. destruct (epoch_dec e' e) as [->|hne]; [apply gget_set|]. rewrite gget_set_other by exact hne. apply gw2. }
    assert (ow4 : gv_bif w4 = gv_bif w2 /\ gv_thresh w4 = gv_thresh w /\ gv_time8 w4 = gv_time8 w /\ gv_over8 w4 = gv_over8 w /\ gv_bytes_lost w4 = gv_bytes_lost w).
    { unfold w4, w3. destruct ((p_num (last new p) =? largest) && ga_el a), e; repeat split; reflexivity. }
    destruct ow4 as (o1 & o2 & o3 & o4 & o5).
    assert (hsz : forall x, In x led -> 0 <= p_size (en_p x)).
    { intros y hy. pose proof (gall_ok v led h1) as q. rewrite Forall_forall in q. apply (q y hy). }
    assert (i4 : ginv w4 mid).
    { split.
      - intros e'. rewrite gw4. specialize (cmid e'). destruct (epoch_dec e' e) as [->|hne]; [|exact cmid].
        destruct cmid as [q1 q2 q3 q4]. split; assumption.
      - intros e'. rewrite gw4. destruct (epoch_dec e' e) as [->|hne].
        + unfold glarge. cbn [gs_largest gset_largest]. unfold largest. rewrite gw2, g2, k2.
          assert (hn : p_num (last new p) = en_num top) by (unfold en_num; rewrite htop3; reflexivity).
          assert (htop' : In (set_fate Acked top) (of_e e mid)).
          { rewrite emid, settle_same. unfold settle. apply in_map_iff. exists top. rewrite htop2. auto. }
          assert (0 <= en_num top). { pose proof (gco_ok _ _ (h1 e)) as q. rewrite Forall_forall in q. apply (q top htop1). }
          assert (hmax : forall z, In z (of_e e led) -> tack rs z = true -> en_num z <= p_num (last new p)).
          { intros z hz ht.
            assert (hz' : In (en_p z) (ga_new a)).
            { specialize (k10 (fun q => if p_num q =? en_num z then 1 else 0)).
              assert (pos : 0 < esum (fun q => if p_num q =? en_num z then 1 else 0) (tack rs) (of_e e led)).
              { clear -hz ht. induction (of_e e led) as [|y L IH]; [destruct hz|]. rewrite esum_cons.
                assert (0 <= esum (fun q => if p_num q =? en_num z then 1 else 0) (tack rs) L) by (apply esum_nonneg; intros; destruct (_ =? _); lia).
                destruct hz as [->|hz]; [rewrite ht; assert (hr : (p_num (en_p z) =? en_num z) = true) by apply Z.eqb_refl; rewrite hr; lia|specialize (IH hz); destruct (tack rs y); [destruct (_ =? _)|]; lia]. }
              rewrite <- k10 in pos. assert (exists q, In q (ga_new a) /\ p_num q = en_num z) as (q & q1 & q2).
              { clear -pos. induction (ga_new a) as [|q l IH]; cbn [psum] in pos; [lia|]. destruct (p_num q =? en_num z) eqn:eq.
                - exists q. split; [left; reflexivity|lia].
                - destruct IH as (r & r1 & r2); [lia|]. exists r. split; [right; exact r1|exact r2]. }
              destruct (k11 q q1) as (y & y1 & y2 & y3). assert (hyz : y = z); [|rewrite <- hyz, y3; exact q1].
              apply (sorted_uniq (of_e e led)); [apply (h1 e)|exact y1|exact hz|]. unfold en_num in *. rewrite y3. exact q2. }
            rewrite en in hz', k13. apply (sorted_last_max p new k13 (en_p z) hz'). }
          assert (split_ : forall z, In z (of_e e mid) -> en_fate z = Acked -> (In z (of_e e led) /\ en_fate z = Acked) \/ en_num z <= p_num (last new p)).
          { intros z hz ha. rewrite emid, settle_same in hz. unfold settle in hz. apply in_map_iff in hz. destruct hz as (y & <- & hy).
            destruct (tack rs y) eqn:et; [right|left; auto]. apply (hmax y hy et). }
          specialize (h2 e). unfold glarge in h2. unfold or0. destruct (gs_largest (gget e v)) as [m|].
          * destruct h2 as [(y & q1 & q2 & q3) hm]. split.
            -- destruct (Z.max_spec m (p_num (last new p))) as [[_ ->]|[_ ->]].
               ++ exists (set_fate Acked top). split; [exact htop'|]. split; [reflexivity|]. rewrite hn. reflexivity.
               ++ exists y. split; [|auto]. rewrite emid, settle_same. unfold settle. apply in_map_iff.
                  exists y. split; [|exact q1]. unfold tack, is_out. rewrite q2. reflexivity.
            -- intros z hz ha. destruct (split_ z hz ha) as [[z1 z2]|hz']; [specialize (hm z z1 z2); lia|lia].
          * rewrite Z.max_r by lia. split; [exists (set_fate Acked top); split; [exact htop'|split; [reflexivity|rewrite hn; reflexivity]]|].
            intros z hz ha. destruct (split_ z hz ha) as [[z1 z2]|hz']; [destruct (h2 z z1 z2)|exact hz'].
        + rewrite gw, gget_set_other by exact hne. rewrite emid, settle_diff by exact hne. apply h2.
      - rewrite o1. unfold w2. cbn [gv_bif gset_bif]. rewrite bif_sub_n, bw, h3, k9, emid. change (total in_flight ?x) with (esum p_size in_flight x).
        rewrite settle_sum by (discriminate || exact hoT). rewrite <- (esum_onlye infsz), infsz_size.
        pose proof (esum_le_inflight p_size (onlye e (tack rs)) led hoT hsz). unfold sat_sub. lia.
      - unfold gth in *. rewrite o2, o3, o4. exact tw. }
    destruct (grec_lose_ok fl e now w4 mid i4) as (S & v' & n & b & er & c1 & c2 & c3 & c4 & c5 & c6 & c7 & cbl & c8 & c9 & c10 & c11).
    rewrite er. cbn [bind fst snd]. set (led' := settle (onlye e (tlost S)) Lost mid) in *. set (w5 := gset_lost _ (gset_pto 0 v')).
    assert (g5 : forall e', gget e' w5 = gget e' v') by (intros []; reflexivity).
    assert (i5 : ginv w5 led') by (destruct c1 as [q1 q2 q3 q4]; split; auto).
    destruct (gslt_other hs now w5) as (_ & q2 & q3 & q4 & _).
    eexists _, _, led'. split; [reflexivity|]. split; [|split; [apply ginv_slt; exact i5|split; [|split]]].
    + unfold gledger_step. cbv zeta. fold mid. exists n, b, (ga_spur a). unfold gdelay. rewrite q2, q3, q4. unfold w5. cbn [gv_rtt gv_thresh gv_time8 gset_lost gset_pto]. rewrite c2, c3, c4.
      rewrite hacked, k9. split; [reflexivity|]. split; [exact c9|]. split; [exact c10|]. intros _ x z a1 a2 a3 a4 a5 a6.
      rewrite gslt_get. fold w5. rewrite g5. apply (c11 x z a1 a2 a3 a4 a5 a6).
    + unfold led'. rewrite keys_settle, emid, keys_settle. symmetry. apply app_nil_r.
    + rewrite gslt_lost. unfold w5. cbn [gv_bytes_lost gset_lost gset_pto]. rewrite cbl, o5. exact lw.
    + intros g hg. apply gfinv_slt. intros e' f. rewrite gstep_same by reflexivity.
      assert (h5 : gfinv w4 mid g).
      { intros e2 f2. specialize (fmid g hg e2 f2). rewrite get_view in *. rewrite gw4. destruct (epoch_dec e2 e) as [->|hne]; [|exact fmid]. eapply fsp_ext; [..|exact fmid]; reflexivity. }
      specialize (c8 g h5 e' f). rewrite get_view in *. rewrite g5. exact c8.
Qed.

Lemma qpop_some l x l' : qpop l = Some (x, l') -> l = x :: l'.
Proof. destruct l; [discriminate|]. intros h. injection h as -> ->. reflexivity. Qed.
Lemma cntf_cons f x l : cntf f (x :: l) = cntf f [x] + cntf f l.
Proof. change (x :: l) with ([x] ++ l). apply cntf_app. Qed.

Lemma gstep_next_acked fl e v led : ginv v led -> gstep_ok fl (RNextAcked e) v led.
Proof.
  intros hi. destruct (qpop (gs_facked (gget e v))) as [[x l]|] eqn:ep.
  - assert (hs : grec_step fl (RNextAcked e) v = Ok (gset e (gset_frames l (gs_flost (gget e v)) (gs_fpto (gget e v)) (gget e v)) v, OFrame (Some x))).
    { cbn [grec_step]. unfold grec_next_acked. rewrite ep. reflexivity. }
    apply qpop_some in ep.
    eapply gquiet; [exact hi|reflexivity|exact hs|..]; try (destruct e; reflexivity).
    + intros e'. destruct (epoch_dec e' e) as [->|hne]; [rewrite gget_set|rewrite gget_set_other by exact hne]; repeat split; reflexivity.
    + destruct e; repeat split; reflexivity.
    + intros g e' f hg. specialize (hg e' f). rewrite get_view in hg. unfold gstep.
      change (reported_acked e' [RNextAcked e] [OFrame (Some x)]) with ((if epoch_eqb e' e then [x] else []) ++ []).
      change (reported_lost e' [RNextAcked e] [OFrame (Some x)]) with (@nil Z).
      change (timeouts [RNextAcked e]) with 0. change (discarded e' [RNextAcked e]) with false. change (frames_sent e' [RNextAcked e]) with (@nil Z).
      rewrite !app_nil_r, Z.add_0_r, Bool.orb_false_r.
      destruct (epoch_dec e' e) as [->|hne].
      * rewrite epoch_eqb_refl, gget_set. destruct hg as [g1 g2 g3 g4 g5 g6]. unfold view in g1, g2, g3, g4 |- *. cbn [s_facked s_flost s_fpto] in g1, g2, g3, g4. rewrite ep, cntf_cons in g1, g2.
        split; cbn [gh_ack gh_lost gh_to gh_disc gh_sent s_facked s_flost s_fpto gs_facked gs_flost gs_fpto gset_frames]; rewrite ?cntf_app; auto; try lia.
      * rewrite epoch_eqb_neq, gget_set_other by exact hne. rewrite app_nil_r. destruct (g e'). exact hg.
  - assert (hs : grec_step fl (RNextAcked e) v = Ok (v, OFrame None)).
    { cbn [grec_step]. unfold grec_next_acked. rewrite ep. reflexivity. }
    eapply gquiet; [exact hi|reflexivity|exact hs|..]; try reflexivity; auto.
    intros g e' f hg. rewrite gstep_same by reflexivity. rewrite <- get_view. apply hg.
Qed.

Lemma gstep_next_lost fl e v led : ginv v led -> gstep_ok fl (RNextLost e) v led.
Proof.
  intros hi. destruct (qpop (gs_flost (gget e v))) as [[x l]|] eqn:ep; [|destruct (qpop (gs_fpto (gget e v))) as [[x l]|] eqn:ep2].
  - assert (hs : grec_step fl (RNextLost e) v = Ok (gset e (gset_frames (gs_facked (gget e v)) l (gs_fpto (gget e v)) (gget e v)) v, OFrame (Some x))).
    { cbn [grec_step]. unfold grec_next_lost. rewrite ep. reflexivity. }
    apply qpop_some in ep.
    eapply gquiet; [exact hi|reflexivity|exact hs|..]; try (destruct e; reflexivity).
    + intros e'. destruct (epoch_dec e' e) as [->|hne]; [rewrite gget_set|rewrite gget_set_other by exact hne]; repeat split; reflexivity.
    + destruct e; repeat split; reflexivity.
    + intros g e' f hg. specialize (hg e' f). rewrite get_view in hg. unfold gstep.
      change (reported_lost e' [RNextLost e] [OFrame (Some x)]) with ((if epoch_eqb e' e then [x] else []) ++ []).
      change (reported_acked e' [RNextLost e] [OFrame (Some x)]) with (@nil Z).
      change (timeouts [RNextLost e]) with 0. change (discarded e' [RNextLost e]) with false. change (frames_sent e' [RNextLost e]) with (@nil Z).
      rewrite !app_nil_r, Z.add_0_r, Bool.orb_false_r.
      destruct (epoch_dec e' e) as [->|hne].
      * rewrite epoch_eqb_refl, gget_set. destruct hg as [g1 g2 g3 g4 g5 g6]. unfold view in g1, g2, g3, g4 |- *. cbn [s_facked s_flost s_fpto] in g1, g2, g3, g4. rewrite ep, cntf_cons in g3, g4.
        split; cbn [gh_ack gh_lost gh_to gh_disc gh_sent s_facked s_flost s_fpto gs_facked gs_flost gs_fpto gset_frames]; rewrite ?cntf_app; auto; try lia.
      * rewrite epoch_eqb_neq, gget_set_other by exact hne. rewrite app_nil_r. destruct (g e'). exact hg.
  - assert (hs : grec_step fl (RNextLost e) v = Ok (gset e (gset_frames (gs_facked (gget e v)) (gs_flost (gget e v)) l (gget e v)) v, OFrame (Some x))).
    { cbn [grec_step]. unfold grec_next_lost. rewrite ep, ep2. reflexivity. }
    apply qpop_some in ep2.
    eapply gquiet; [exact hi|reflexivity|exact hs|..]; try (destruct e; reflexivity).
    + intros e'. destruct (epoch_dec e' e) as [->|hne]; [rewrite gget_set|rewrite gget_set_other by exact hne]; repeat split; reflexivity.
    + destruct e; repeat split; reflexivity.
    + intros g e' f hg. specialize (hg e' f). rewrite get_view in hg. unfold gstep.
      change (reported_lost e' [RNextLost e] [OFrame (Some x)]) with ((if epoch_eqb e' e then [x] else []) ++ []).
      change (reported_acked e' [RNextLost e] [OFrame (Some x)]) with (@nil Z).
      change (timeouts [RNextLost e]) with 0. change (discarded e' [RNextLost e]) with false. change (frames_sent e' [RNextLost e]) with (@nil Z).
      rewrite !app_nil_r, Z.add_0_r, Bool.orb_false_r.
      destruct (epoch_dec e' e) as [->|hne].
      * rewrite epoch_eqb_refl, gget_set. destruct hg as [g1 g2 g3 g4 g5 g6]. unfold view in g1, g2, g3, g4 |- *. cbn [s_facked s_flost s_fpto] in g1, g2, g3, g4. rewrite ep2, cntf_cons in g3.
        pose proof (cntf_nonneg f [x]).
        split; cbn [gh_ack gh_lost gh_to gh_disc gh_sent s_facked s_flost s_fpto gs_facked gs_flost gs_fpto gset_frames]; rewrite ?cntf_app; auto; try lia.
      * rewrite epoch_eqb_neq, gget_set_other by exact hne. rewrite app_nil_r. destruct (g e'). exact hg.
  - assert (hs : grec_step fl (RNextLost e) v = Ok (v, OFrame None)).
    { cbn [grec_step]. unfold grec_next_lost. rewrite ep, ep2. reflexivity. }
    eapply gquiet; [exact hi|reflexivity|exact hs|..]; try reflexivity; auto.
    intros g e' f hg. rewrite gstep_same by reflexivity. rewrite <- get_view. apply hg.
Qed.

Ltac gquiet_tac hi :=
  eapply gquiet; [exact hi|reflexivity|reflexivity|..]; try reflexivity;
  [intros e'; destruct e'; repeat split; reflexivity
  |repeat split; reflexivity
  |intros g e' f hg; rewrite gstep_same by reflexivity; specialize (hg e' f); destruct e'; exact hg].

Lemma gstep_all fl o v led : ginv v led -> op_valid o (keys led) -> gstep_ok fl o v led.
Proof.
  intros hi hv. destruct o.
  - apply gstep_sent; assumption.
  - apply gstep_ack; assumption.
  - apply gstep_timeout_ok; assumption.
  - apply gstep_discard; assumption.
  - apply gstep_path; assumption.
  - apply gstep_next_acked; assumption.
  - apply gstep_next_lost; assumption.
  - eapply gquiet; [exact hi|reflexivity|reflexivity|..]; try (destruct e; reflexivity).
    + intros e'. destruct (epoch_dec e' e) as [->|hne]; [rewrite gget_set|rewrite gget_set_other by exact hne]; repeat split; reflexivity.
    + destruct e; repeat split; reflexivity.
    + intros g e' f hg. rewrite gstep_same by reflexivity. specialize (hg e' f). rewrite get_view in hg.
      destruct (epoch_dec e' e) as [->|hne]; [rewrite gget_set|rewrite gget_set_other by exact hne; exact hg].
      eapply fsp_ext; [..|exact hg]; reflexivity.
  - gquiet_tac hi.
  - gquiet_tac hi.
  - gquiet_tac hi.
  - gquiet_tac hi.
Qed.

Lemma grun_all fl ops : forall sent v led, ginv v led -> (forall k, In k (keys led) -> In k sent) -> valid_ops sent ops ->
  (existsb hits ops = true -> grec_run fl ops v = Err OptimisticAckDetected) /\
  (existsb hits ops = false -> exists v' xs led', grec_run fl ops v = Ok (v', xs) /\
    gexplains fl ops v led v' led' /\ ginv v' led' /\ gv_bytes_lost v' = gv_bytes_lost v /\
    forall g g', gfinv v led g -> grun_ok ops xs g g' -> gfinv v' led' g').
Proof.
  induction ops as [|o ops IH]; intros sent v led hi hk hv.
  - cbn [grec_run existsb]. split; [discriminate|]. intros _. exists v, [], led. split; [reflexivity|]. split; [constructor|]. split; [exact hi|]. split; [reflexivity|].
    intros g g' hg hr e f. specialize (hg e f). rewrite hr. cbn [reported_acked reported_lost timeouts discarded existsb frames_sent].
    rewrite !app_nil_r, Z.add_0_r, Bool.orb_false_r. destruct (g e). exact hg.
  - apply valid_cons in hv. destruct hv as [hov hv]. cbn [grec_run existsb].
    destruct (gstep_all fl o v led hi (op_valid_ext o _ _ hk hov)) as [hnp hok].
    destruct (hits o) eqn:eh; cbn [orb].
    + rewrite (hnp eq_refl). split; [reflexivity|discriminate].
    + destruct (hok eq_refl) as (v1 & x & led1 & es & l1 & i1 & k1 & b1 & f1). rewrite es. cbn [bind].
      destruct (IH (new_keys o ++ sent) v1 led1 i1) as [hnp2 hok2]; [|exact hv|].
      { intros k hin. rewrite k1 in hin. apply in_app_or in hin. apply in_or_app. destruct hin; [right; auto|left; assumption]. }
      split; [intros h; rewrite (hnp2 h); reflexivity|]. intros h. destruct (hok2 h) as (v2 & xs & led2 & er & l2 & i2 & b2 & f2). rewrite er. cbn [bind].
      exists v2, (x :: xs), led2. split; [reflexivity|]. split; [econstructor; eauto|]. split; [exact i2|]. split; [congruence|].
      intros g g' hg hr. apply (f2 (fun e => gstep o x e (g e)) g'); [apply f1; exact hg|].
      intros e. rewrite hr. unfold gstep. cbn [gh_ack gh_lost gh_to gh_disc gh_sent].
      rewrite ra_cons, rl_cons, to_cons, fs_cons, !app_assoc, Z.add_assoc. f_equal. unfold discarded. cbn [existsb]. rewrite Bool.orb_false_r, Bool.orb_assoc. reflexivity.
Qed.

Lemma ginv_new t irtt mad mds rel : ginv (grec_new t irtt mad mds rel) [].
Proof.
  split; [intros []; split; try (exists [], []; repeat constructor); try constructor; reflexivity|intros []; intros ? []|reflexivity|].
  split; cbn [grec_new gv_time8 gv_over8 gv_thresh]; [lia|]. change INITIAL_PKT_THRESH with 3. destruct rel; [split; [auto|lia]|exists 3; split; [reflexivity|lia]].
Qed.
Lemma gfinv_new t irtt mad mds rel : gfinv (grec_new t irtt mad mds rel) [] (fun _ => mkFgh [] [] 0 false []).
Proof. intros [] f; split; cbn; auto; unfold esum; cbn; lia. Qed.

Lemma ghistory_ok fl t irtt mad mds rel ops : valid_ops [] ops ->
  let v0 := grec_new t irtt mad mds rel in
  (existsb hits ops = true -> grec_run fl ops v0 = Err OptimisticAckDetected) /\
  (existsb hits ops = false -> exists v xs led, grec_run fl ops v0 = Ok (v, xs) /\
    gexplains fl ops v0 [] v led /\ ginv v led /\ gv_bytes_lost v = 0 /\
    finv (viewr v) led (fun e => mkFgh (reported_acked e ops xs) (reported_lost e ops xs) (timeouts ops) (discarded e ops) (frames_sent e ops))).
Proof.
  intros hv v0. destruct (grun_all fl ops [] v0 [] (ginv_new _ _ _ _ _) (fun k h => h) hv) as [h1 h2].
  split; [exact h1|]. intros h. destruct (h2 h) as (v & xs & led & er & e1 & e2 & b & e3). exists v, xs, led. split; [exact er|]. split; [exact e1|]. split; [exact e2|].
  split; [exact b|]. apply (e3 (fun _ => mkFgh [] [] 0 false [])); [apply gfinv_new|]. intros e. reflexivity.
Qed.
