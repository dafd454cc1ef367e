(** The queues of sent packets against the ledger. *)
Require Import Verif.Base Verif.Errors Verif.RttModel Verif.RecoveryModel Verif.RecoverySpec Verif.RecoveryProofs.
Require Import Permutation Sorted.

Definition esum (g : pkt -> Z) (f : entry -> bool) (L : ledger) : Z :=
  fold_right (fun x acc => if f x then g (en_p x) + acc else acc) 0 L.

Lemma total_esum f L : total f L = esum p_size f L. Proof. reflexivity. Qed.
Lemma number_esum f L : number f L = esum (fun _ => 1) f L. Proof. reflexivity. Qed.

Lemma esum_cons g f x L : esum g f (x :: L) = (if f x then g (en_p x) else 0) + esum g f L.
Proof. unfold esum. cbn [fold_right]. destruct (f x); lia. Qed.
Lemma esum_app g f L1 L2 : esum g f (L1 ++ L2) = esum g f L1 + esum g f L2.
Proof. induction L1 as [|x L1 IH]; [reflexivity|]. cbn [app]. rewrite !esum_cons, IH. lia. Qed.
Lemma esum_ext g f1 f2 L : (forall x, In x L -> f1 x = f2 x) -> esum g f1 L = esum g f2 L.
Proof.
  induction L as [|x L IH]; intros h; [reflexivity|]. rewrite !esum_cons, (h x (or_introl eq_refl)), IH; [reflexivity|].
  intros y hy. apply h. right; exact hy.
Qed.
Lemma esum_none g f L : Forall (fun x => f x = false) L -> esum g f L = 0.
Proof. induction 1 as [|x L h _ IH]; [reflexivity|]. rewrite esum_cons, h, IH. lia. Qed.
Lemma esum_nonneg g f L : (forall x, In x L -> 0 <= g (en_p x)) -> 0 <= esum g f L.
Proof.
  induction L as [|x L IH]; intros h; [cbn; lia|]. rewrite esum_cons.
  specialize (h x (or_introl eq_refl)) as h1. assert (0 <= esum g f L) by (apply IH; intros; apply h; right; assumption).
  destruct (f x); lia.
Qed.
Lemma esum_zero_in f L x : 0 <= esum (fun _ => 1) f L -> In x L -> f x = true -> 0 < esum (fun _ => 1) f L.
Proof.
  intros _. induction L as [|y L IH]; intros h hx; [destruct h|]. rewrite esum_cons.
  assert (0 <= esum (fun _ => 1) f L) by (apply esum_nonneg; intros; lia).
  destruct h as [->|h]; [rewrite hx; lia|]. specialize (IH h hx). destruct (f y); lia.
Qed.

(** Part of the ledger that belongs to one space *)
Definition of_e (e : epoch) (led : ledger) : ledger := filter (fun x => epoch_eqb e (en_e x)) led.

Lemma epoch_eqb_eq a b : epoch_eqb a b = true <-> a = b.
Proof. destruct a, b; cbn; split; (congruence || discriminate || reflexivity). Qed.
Lemma epoch_eqb_refl a : epoch_eqb a a = true. Proof. destruct a; reflexivity. Qed.
Lemma epoch_eqb_neq a b : a <> b -> epoch_eqb a b = false.
Proof. destruct a, b; cbn; congruence. Qed.

Lemma esum_split g f led : esum g f led =
  esum g f (of_e EInitial led) + esum g f (of_e EHandshake led) + esum g f (of_e EApp led).
Proof.
  induction led as [|x led IH]; [reflexivity|]. rewrite esum_cons, IH. unfold of_e. cbn [filter].
  destruct (en_e x); cbn [epoch_eqb]; rewrite ?esum_cons; lia.
Qed.

Lemma in_of_e e led x : In x (of_e e led) <-> In x led /\ en_e x = e.
Proof. unfold of_e. rewrite filter_In, epoch_eqb_eq. intuition congruence. Qed.

(** Settling some outstanding packets *)
Definition settle (t : entry -> bool) (F : fate) (L : ledger) : ledger :=
  map (fun x => if t x then set_fate F x else x) L.

Lemma settle_of_e e t F led : of_e e (settle t F led) = settle t F (of_e e led).
Proof.
  unfold settle, of_e. induction led as [|x led IH]; [reflexivity|]. cbn [map filter].
  assert (h : en_e (if t x then set_fate F x else x) = en_e x) by (destruct (t x); reflexivity).
  rewrite h. destruct (epoch_eqb e (en_e x)); cbn [map]; rewrite IH; reflexivity.
Qed.
Lemma settle_other e e' t F led : e' <> e -> (forall x, t x = true -> en_e x = e) ->
  of_e e' (settle t F led) = of_e e' led.
Proof.
  intros hne ht. rewrite settle_of_e. unfold settle. apply map_same. apply Forall_forall. intros x hx.
  apply in_of_e in hx. destruct (t x) eqn:e1; [|reflexivity]. apply ht in e1. destruct hx; congruence.
Qed.
Lemma settle_ext t1 t2 F L : (forall x, In x L -> t1 x = t2 x) -> settle t1 F L = settle t2 F L.
Proof. intros h. apply map_ext_in. intros x hx. rewrite h by exact hx. reflexivity. Qed.
Lemma settle_none t F L : (forall x, In x L -> t x = false) -> settle t F L = L.
Proof. intros h. apply map_same. apply Forall_forall. intros x hx. rewrite h by exact hx. reflexivity. Qed.

Lemma settle_sum g t F L : F <> Out -> (forall x, t x = true -> is_out x = true) ->
  esum g in_flight (settle t F L) = esum g in_flight L - esum g (fun x => t x && p_inf (en_p x)) L.
Proof.
  intros hF ht. induction L as [|x L IH]; [reflexivity|]. unfold settle in *. cbn [map]. rewrite !esum_cons, IH.
  destruct (t x) eqn:e; cbn [andb].
  - assert (h : in_flight (set_fate F x) = false) by (unfold in_flight, is_out; cbn; destruct F; (congruence || reflexivity)).
    rewrite h. unfold in_flight. rewrite (ht x e). cbn [andb]. destruct (p_inf (en_p x)); lia.
  - lia.
Qed.

(** A stored packet and its entry *)
Definition match_en (x : entry) (p : pkt) : Prop :=
  p_num p = en_num x /\ p_size p = p_size (en_p x) /\ p_inf p = p_inf (en_p x) /\ p_data p = p_data (en_p x) /\
  p_probe p = p_probe (en_p x) /\ p_el p = p_el (en_p x) /\ p_sent p = en_at x /\ un p = is_out x /\
  (un p = true -> p_frames p = p_frames (en_p x)).

Definition en_lt (x y : entry) : Prop := en_num x < en_num y.
Definition en_ok (x : entry) : Prop :=
  0 <= en_num x /\ 0 <= p_size (en_p x) /\ (p_probe (en_p x) = true -> p_inf (en_p x) = true).

Record core (s : space) (L : ledger) : Prop := mkCore {
  co_queue : exists pre suf, L = pre ++ suf /\ Forall (fun x => is_out x = false) pre /\ Forall2 match_en suf (s_sent s);
  co_inf : s_inf s = number in_flight L;
  co_sorted : StronglySorted en_lt L;
  co_ok : Forall en_ok L }.

Definition largest_ok (s : space) (L : ledger) : Prop :=
  match s_largest s with
  | Some m => exists z, In z L /\ en_fate z = Acked /\ en_num z = m
  | None => forall z, In z L -> en_fate z <> Acked
  end.
Definition ltime_ok (s : space) (L : ledger) : Prop :=
  s_loss_time s <> None -> exists x, In x L /\ is_out x = true.

Lemma sorted_app_r {A} (R : A -> A -> Prop) l1 l2 : StronglySorted R (l1 ++ l2) -> StronglySorted R l2.
Proof. induction l1; cbn; intros h; [exact h|]. inversion h; auto. Qed.

Lemma match_sorted suf l : Forall2 match_en suf l -> StronglySorted en_lt suf -> StronglySorted plt l.
Proof.
  induction 1 as [|x p suf l hm hf IH]; intros hs; [constructor|]. inversion hs as [|? ? hs1 hs2]; subst.
  constructor; [auto|]. apply Forall_forall. intros q hq.
  assert (exists y, In y suf /\ match_en y q) as (y & hy & hm').
  { clear -hf hq. induction hf as [|a b ? ? h hf IH]; [destruct hq|]. destruct hq as [<-|hq].
    - exists a. split; [left; reflexivity|exact h].
    - destruct (IH hq) as (y & ? & ?). exists y. split; [right|]; assumption. }
  rewrite Forall_forall in hs2. specialize (hs2 y hy). unfold plt, en_lt in *.
  destruct hm as (h1 & _), hm' as (h2 & _). lia.
Qed.

(** Sums over stored packets are sums over entries *)
Definition good (g : pkt -> Z) : Prop := forall x p, match_en x p -> un p = true -> g p = g (en_p x).

Lemma good_inf1 : good inf1. Proof. intros x p (_ & _ & h & _) _. unfold inf1. rewrite h. reflexivity. Qed.
Lemma good_infsz : good infsz.
Proof. intros x p (_ & h1 & h & _) _. unfold infsz. rewrite h, h1. reflexivity. Qed.
Lemma good_lost1 : good lost1.
Proof. intros x p (_ & _ & _ & _ & h & _) _. unfold lost1. rewrite h. reflexivity. Qed.
Lemma good_lostsz : good lostsz.
Proof. intros x p (_ & h1 & h2 & _ & h & _) _. unfold lostsz, infsz. rewrite h, h1, h2. reflexivity. Qed.
Lemma good_probesz : good probesz.
Proof. intros x p (_ & h1 & h2 & _ & h & _) _. unfold probesz. rewrite h, h1. reflexivity. Qed.

Lemma psum_esum s L g T : core s L -> good g ->
  psum g (filter (fun p => un p && T (p_num p)) (s_sent s)) = esum g (fun x => is_out x && T (en_num x)) L.
Proof.
  intros [(pre & suf & -> & hpre & hm) _ _ _] hg. rewrite esum_app.
  rewrite (esum_none g (fun x => is_out x && T (en_num x)) pre).
  2: { eapply Forall_impl; [|exact hpre]. cbv beta. intros x ->. reflexivity. }
  cbn [Z.add]. clear hpre. induction hm as [|x p suf l h hm IH]; [reflexivity|]. cbn [filter]. rewrite esum_cons, <- IH.
  destruct h as (hn & h1 & h2 & h3 & h4 & h4' & h5 & h6 & h7). rewrite hn, h6.
  destruct (is_out x && T (en_num x)) eqn:e; [|lia]. cbn [psum]. apply Bool.andb_true_iff in e.
  rewrite (hg x p); [reflexivity| |].
  - repeat split; auto; congruence.
  - rewrite h6. apply e.
Qed.

Lemma cnt_core s L : core s L -> cnt (s_sent s) = number in_flight L.
Proof.
  intros hc. unfold cnt. rewrite (filter_ext un (fun p => un p && (fun _ => true) (p_num p)))
    by (intros; rewrite Bool.andb_true_r; reflexivity).
  rewrite (psum_esum s L inf1 (fun _ => true) hc good_inf1), number_esum.
  clear hc. induction L as [|x L IH]; [reflexivity|]. rewrite !esum_cons, IH. unfold in_flight, inf1.
  rewrite Bool.andb_true_r. destruct (is_out x), (p_inf (en_p x)); reflexivity.
Qed.

Lemma core_plt s L : core s L -> StronglySorted plt (s_sent s).
Proof.
  intros [(pre & suf & -> & _ & hm) _ hs _]. eapply match_sorted; [exact hm|]. eapply sorted_app_r; exact hs.
Qed.

Lemma core_find s L p : core s L -> In p (s_sent s) -> exists x, In x L /\ match_en x p.
Proof.
  intros [(pre & suf & -> & _ & hm) _ _ _] hp.
  induction hm as [|a b ? ? h hf IH]; [destruct hp|]. destruct hp as [<-|hp].
  - exists a. split; [apply in_or_app; right; left; reflexivity|exact h].
  - destruct (IH hp) as (y & hy & ?). exists y. split; [|assumption].
    apply in_app_or in hy. apply in_or_app. destruct hy; [left|right; right]; assumption.
Qed.

Lemma core_find_out s L x : core s L -> In x L -> is_out x = true -> exists p, In p (s_sent s) /\ match_en x p.
Proof.
  intros [(pre & suf & -> & hpre & hm) _ _ _] hx ho. apply in_app_or in hx. destruct hx as [hx|hx].
  { rewrite Forall_forall in hpre. rewrite hpre in ho by exact hx. discriminate. }
  clear hpre. induction hm as [|a b ? ? h hf IH]; [destruct hx|]. destruct hx as [<-|hx].
  - exists b. split; [left; reflexivity|exact h].
  - destruct (IH hx) as (y & hy & ?). exists y. split; [right|]; assumption.
Qed.

(** Updating the stored packets and the entries alike *)
Lemma sorted_settle t F L : StronglySorted en_lt L -> StronglySorted en_lt (settle t F L).
Proof.
  unfold settle. induction 1 as [|x L hs IH hx]; cbn [map]; constructor; auto.
  rewrite Forall_map. eapply Forall_impl; [|exact hx]. intros y. unfold en_lt, en_num.
  destruct (t x), (t y); auto.
Qed.
Lemma ok_settle t F L : Forall en_ok L -> Forall en_ok (settle t F L).
Proof. unfold settle. rewrite Forall_map. apply Forall_impl. intros x. destruct (t x); auto. Qed.

Lemma core_update s s' L (t : entry -> bool) F (u : pkt -> pkt) :
  core s L -> F <> Out -> (forall x, t x = true -> is_out x = true) ->
  (forall x p, In x L -> match_en x p -> match_en (if t x then set_fate F x else x) (u p)) ->
  (exists pre0, map u (s_sent s) = pre0 ++ s_sent s' /\ Forall (fun p => un p = false) pre0) ->
  s_inf s' = s_inf s - esum inf1 t L ->
  core s' (settle t F L).
Proof.
  intros [(pre & suf & -> & hpre & hm) hi hs ho] hF ht hu (pre0 & e0 & h0) hi'. split.
  - assert (hm2 : Forall2 match_en (settle t F suf) (map u (s_sent s))).
    { assert (hin : forall x, In x suf -> In x (pre ++ suf)) by (intros; apply in_or_app; right; assumption).
      clear -hm hu hin. unfold settle. induction hm as [|x p suf l h hm IH]; [constructor|]. cbn [map]. constructor.
      - apply hu; [apply hin; left; reflexivity|exact h].
      - apply IH; intros; [apply hu; [|assumption]|]. 
        + apply in_app_or in H. apply in_or_app. destruct H; [left|right; right]; assumption.
        + apply in_or_app. right. assumption. }
    rewrite e0 in hm2. apply Forall2_app_inv_r in hm2. destruct hm2 as (pre1 & suf1 & hp1 & hs1 & e1).
    exists (settle t F pre ++ pre1), suf1. split; [|split].
    + unfold settle in *. rewrite map_app, e1, app_assoc. reflexivity.
    + apply Forall_app. split.
      * unfold settle. rewrite Forall_map. eapply Forall_impl; [|exact hpre]. intros x hx.
        destruct (t x); [unfold is_out; cbn; destruct F; (congruence || reflexivity)|exact hx].
      * clear -hp1 h0. induction hp1 as [|x p pre1 pre0 h hp1 IH]; [constructor|].
        inversion h0; subst. constructor; [|auto]. destruct h as (_ & _ & _ & _ & _ & _ & _ & h & _). congruence.
    + exact hs1.
  - rewrite hi', hi. change (esum (fun _ => 1) in_flight (pre ++ suf) - esum inf1 t (pre ++ suf) = esum (fun _ => 1) in_flight (settle t F (pre ++ suf))). rewrite settle_sum by assumption.
    assert (e : esum inf1 t (pre ++ suf) = esum (fun _ => 1) (fun x => t x && p_inf (en_p x)) (pre ++ suf)).
    { generalize (pre ++ suf). intros L. induction L as [|x L IH]; [reflexivity|]. rewrite !esum_cons, IH. unfold inf1.
      destruct (t x), (p_inf (en_p x)); reflexivity. }
    lia.
  - apply sorted_settle; assumption.
  - apply ok_settle; assumption.
Qed.

(** Ack ranges *)
Lemma valid_ranges_last rs : valid_ranges rs -> exists m, ranges_last rs = Some m /\
  forall lo hi, In (lo, hi) rs -> hi - 1 <= m.
Proof.
  intros h. destruct rs as [|r rs]; [destruct h|]. unfold ranges_last. eexists; split; [reflexivity|].
  revert r h. induction rs as [|r2 rs IH]; intros [lo hi] h lo' hi' hin.
  - destruct hin as [[= <- <-]|[]]. cbn. lia.
  - destruct r2 as [lo2 hi2]. cbn [valid_ranges] in h. destruct h as (h1 & h2 & h3).
    change (last ((lo, hi) :: (lo2, hi2) :: rs) (0, 0)) with (last ((lo2, hi2) :: rs) (0, 0)).
    destruct hin as [[= <- <-]|hin].
    + specialize (IH (lo2, hi2) h3 lo2 hi2 (or_introl eq_refl)).
      assert (lo2 < hi2) by (destruct rs as [|[]]; cbn in h3; lia). lia.
    + apply (IH (lo2, hi2) h3 lo' hi' hin).
Qed.

Definition tack (rs : list (Z * Z)) (x : entry) : bool := is_out x && covered rs (en_num x).

Lemma match_ack now rs x p : match_en x p ->
  match_en (if tack rs x then set_fate Acked x else x) (if pcov rs p then ack_upd now p else p).
Proof.
  intros (h1 & h2 & h3 & h4 & h5 & h5' & h6 & h7 & h8). unfold tack, pcov. rewrite h1.
  destruct (covered rs (en_num x)); [rewrite Bool.andb_true_r|rewrite Bool.andb_false_r; repeat split; assumption].
  assert (e : is_out (if is_out x then set_fate Acked x else x) = false).
  { destruct (is_out x) eqn:ex; [reflexivity|exact ex]. }
  assert (f : forall A (k : entry -> A), k (set_fate Acked x) = k x -> k (if is_out x then set_fate Acked x else x) = k x).
  { intros A k hk. destruct (is_out x); auto. }
  unfold match_en. rewrite un_ack_upd, e, num_ack_upd.
  rewrite (f _ en_num), (f _ (fun x => p_size (en_p x))), (f _ (fun x => p_inf (en_p x))), (f _ (fun x => p_data (en_p x))),
    (f _ (fun x => p_probe (en_p x))), (f _ (fun x => p_el (en_p x))), (f _ en_at) by reflexivity.
  assert (g : forall A (k : pkt -> A), (forall t fs, k (set_p_acked t fs p) = k p) -> k (ack_upd now p) = k p).
  { intros A k hk. unfold ack_upd. destruct (is_some (p_acked p)), (is_some (p_lost p)); auto. }
  rewrite (g _ p_size), (g _ p_inf), (g _ p_data), (g _ p_probe), (g _ p_el), (g _ p_sent) by reflexivity.
  repeat split; auto. discriminate.
Qed.

Lemma space_ack_ok now rtt rs skip s L : core s L -> valid_ranges rs ->
  space_ack now rtt rs skip s <> Panic /\
  forall s' a, space_ack now rtt rs skip s = Ok (s', a) ->
    core s' (settle (tack rs) Acked L) /\
    s_largest s' = s_largest s /\ s_loss_time s' = s_loss_time s /\ s_last_el s' = s_last_el s /\
    s_probes s' = s_probes s /\ s_flost s' = s_flost s /\ s_fpto s' = s_fpto s /\
    s_facked s' = s_facked s ++ flat_map p_frames (a_new a) /\
    a_bytes a = esum infsz (tack rs) L /\
    (forall g, good g -> psum g (a_new a) = esum g (tack rs) L) /\
    (forall p, In p (a_new a) -> exists x, In x L /\ tack rs x = true /\ match_en x p).
Proof.
  intros hc hv. unfold space_ack. destruct (valid_ranges_last rs hv) as (m & -> & hm).
  set (largest := Z.max (match s_largest s with Some x => x | None => 0 end) m).
  assert (hm' : forall lo hi, In (lo, hi) rs -> hi - 1 <= largest) by (intros lo hi hin; specialize (hm lo hi hin); lia).
  assert (hcnt : cnt (s_sent s) <= s_inf s) by (rewrite (cnt_core s L hc), (co_inf s L hc); lia).
  split.
  - destruct (ack_ranges_ok now largest skip rs (s_sent s) (mkA (s_inf s) 0 0 None false false [] []) []
      (mkA 0 0 0 None false false [] []) (core_plt s L hc) hm' hcnt) as [hp _].
    destruct (ack_ranges now largest skip rs (s_sent s) _) as [[l a]| |]; cbn [bind]; congruence.
  - intros s' a h.
    destruct (ack_ranges now largest skip rs (s_sent s) (mkA (s_inf s) 0 0 None false false [] [])) as [[l a1]| |] eqn:e;
      cbn [bind] in h; try discriminate h.
    destruct (ack_ranges_ok now largest skip rs (s_sent s) (mkA (s_inf s) 0 0 None false false [] []) l a1
      (core_plt s L hc) hm' hcnt) as [_ hok]. specialize (hok e).
    apply (f_equal (fun r => match r with Ok x => x | _ => (s, a) end)) in h. cbv beta iota in h.
    apply pair_equal_spec in h. destruct h as [<- <-].
    destruct hok as (-> & new & hperm & hi & hb & hn & hf).
    cbn [a_inf a_bytes a_new a_frames app] in hi, hb, hn, hf.
    assert (hsum : forall g, good g -> psum g new = esum g (tack rs) L).
    { intros g hg. rewrite (psum_perm g _ _ hperm). apply (psum_esum s L g (covered rs) hc hg). }
    split.
    + eapply (core_update s _ L (tack rs) Acked (fun p => if pcov rs p then ack_upd now p else p)).
      * exact hc.
      * discriminate.
      * intros x hx. apply Bool.andb_true_iff in hx. apply hx.
      * intros x p _ hx. apply match_ack. exact hx.
      * cbn [s_sent set_s_sent set_s_inf set_s_facked]. destruct (drain_split (now - rtt) (map (fun p => if pcov rs p then ack_upd now p else p) (s_sent s)))
          as (pre & e1 & h1). exists pre. split; assumption.
      * cbn [s_inf set_s_sent set_s_inf set_s_facked]. rewrite hi, (hsum inf1 good_inf1). reflexivity.
    + cbn [s_largest s_loss_time s_last_el s_probes s_flost s_fpto s_facked set_s_sent set_s_inf set_s_facked].
      rewrite hf, hn, hb. rewrite (hsum infsz good_infsz).
      repeat match goal with |- _ /\ _ => split end; try reflexivity.
      * exact hsum.
      * intros p hp. apply (Permutation_in _ hperm), filter_In in hp. destruct hp as [hp ht].
        destruct (core_find s L p hc hp) as (x & hx & hx2). exists x. split; [exact hx|split; [|exact hx2]].
        destruct hx2 as (h1 & _ & _ & _ & _ & _ & _ & h2 & _). unfold tack. rewrite <- h1, <- h2. exact ht.
Qed.

(** Loss *)
Definition tlost (S : Z -> bool) (x : entry) : bool := is_out x && S (en_num x).

Lemma match_lost now S x p : match_en x p ->
  match_en (if tlost S x then set_fate Lost x else x) (lose_upd now S p).
Proof.
  intros h. pose proof h as (h1 & h2 & h3 & h4 & h5 & h5' & h6 & h7 & h8). unfold tlost, lose_upd. rewrite h1, h7.
  destruct (is_out x && S (en_num x)) eqn:e; [|exact h].
  unfold match_en, un, set_p_lost, is_out. cbn. rewrite Bool.andb_false_r. repeat split; auto. discriminate.
Qed.

Lemma space_lose_ok delay thresh now s L : core s L -> largest_ok s L -> 1 <= thresh ->
  exists S s' a, space_lose delay thresh now s = Ok (s', a) /\
    let T := tlost S in
    core s' (settle T Lost L) /\ largest_ok s' (settle T Lost L) /\ ltime_ok s' (settle T Lost L) /\
    s_largest s' = s_largest s /\ s_last_el s' = s_last_el s /\
    s_probes s' = s_probes s /\ s_facked s' = s_facked s /\ s_fpto s' = s_fpto s /\
    (exists new, s_flost s' = s_flost s ++ flat_map p_frames new /\ forall g, good g -> psum g new = esum g T L) /\
    l_pkts a = esum lost1 T L /\ l_bytes a = esum lostsz T L /\ l_pm_bytes a = esum probesz T L /\
    (l_last a = None -> l_bytes a = 0) /\
    (forall x, In x L -> T x = true ->
       (exists z, In z L /\ en_fate z = Acked /\ en_num x < en_num z /\
          (en_num x + thresh <= en_num z \/ en_at x + Z.max delay GRANULARITY <= now)) \/
       (en_num x = 0 /\ en_at x + Z.max delay GRANULARITY <= now /\ forall z, In z L -> en_fate z <> Acked)).
Proof.
  intros hc hl ht. unfold space_lose.
  set (largest := match s_largest s with Some x => x | None => 0 end).
  assert (hprobe : Forall (fun p => p_probe p = true -> p_inf p = true) (s_sent s)).
  { apply Forall_forall. intros p hp. destruct (core_find s L p hc hp) as (x & hx & h1 & h2 & h3 & h4 & h5 & _).
    pose proof (co_ok s L hc) as ho. rewrite Forall_forall in ho. rewrite h5, h3. apply (ho x hx). }
  assert (hcnt : cnt (s_sent s) <= s_inf s) by (rewrite (cnt_core s L hc), (co_inf s L hc); lia).
  destruct (lose_ok now (Z.max delay GRANULARITY) thresh largest (s_sent s) (mkL (s_inf s) 0 0 0 None [] None)
    (core_plt s L hc) hprobe hcnt) as (S & a & e & hS & hi & hk & hb & hm & hf & hla & hti).
  rewrite e. cbn [bind]. exists S. eexists. exists a. split; [reflexivity|]. cbv zeta.
  set (T := tlost S).
  set (new := filter (fun p => un p && S (p_num p)) (s_sent s)) in *.
  assert (hsum : forall g, good g -> psum g new = esum g T L) by (intros g hg; exact (psum_esum s L g S hc hg)).
  cbn [l_inf l_pkts l_bytes l_pm_bytes l_frames l_last l_time app] in hi, hk, hb, hm, hf, hla, hti.
  assert (hcore : core (mkSpace (s_last_el s) (s_largest s) (l_time a) (map (lose_upd now S) (s_sent s)) (s_probes s) (l_inf a)
     (s_facked s) (s_flost s ++ l_frames a) (s_fpto s)) (settle T Lost L)).
  { eapply (core_update s _ L T Lost (lose_upd now S)).
    * exact hc.
    * discriminate.
    * intros x hx. apply Bool.andb_true_iff in hx. apply hx.
    * intros x p _ hx. apply match_lost. exact hx.
    * exists []. split; [reflexivity|constructor].
    * cbn [s_inf]. rewrite hi, (hsum inf1 good_inf1). reflexivity. }
  split; [exact hcore|]. split; [|split].
  - unfold largest_ok in *. cbn [s_largest]. destruct (s_largest s) as [m|].
    + destruct hl as (z & hz & hz1 & hz2). exists z. split; [|split; assumption].
      unfold settle. apply in_map_iff. exists z. split; [|exact hz].
      unfold T, tlost, is_out. rewrite hz1. reflexivity.
    + intros z hz. unfold settle in hz. apply in_map_iff in hz. destruct hz as (y & <- & hy).
      destruct (T y); [discriminate|apply hl; exact hy].
  - unfold ltime_ok. cbn [s_loss_time]. intros hne. destruct hti as [hti|(p & hp & hu & hs)]; [congruence|].
    destruct (core_find s L p hc hp) as (x & hx & hx2). exists x.
    assert (hT : T x = false).
    { unfold T, tlost. destruct hx2 as (h1 & _). rewrite <- h1, hs. apply Bool.andb_false_r. }
    destruct hx2 as (_ & _ & _ & _ & _ & _ & _ & h2 & _). split; [|congruence].
    unfold settle. apply in_map_iff. exists x. rewrite hT. split; [reflexivity|exact hx].
  - cbn [s_largest s_last_el s_probes s_facked s_fpto s_flost].
    rewrite hf, hk, hb, hm, (hsum lost1 good_lost1), (hsum lostsz good_lostsz), (hsum probesz good_probesz).
    repeat match goal with |- _ /\ _ => split end; try reflexivity; try lia.
    + exists new. split; [reflexivity|exact hsum].
    + intros hn. destruct (hla hn) as [_ h]. rewrite <- (hsum lostsz good_lostsz). clear -h.
      induction h as [|p l h1 _ IH]; [reflexivity|]. cbn [psum]. unfold lostsz at 1, infsz.
      destruct (p_probe p); [lia|]. rewrite h1 by reflexivity. lia.
    + intros x hx hT. apply Bool.andb_true_iff in hT. destruct hT as [ho hs].
      destruct (core_find_out s L x hc hx ho) as (p & hp & hm1 & _ & _ & _ & _ & _ & h6 & h7 & _).
      destruct (hS p hp ltac:(congruence) ltac:(congruence)) as [h1 h2]. rewrite hm1, h6 in *.
      unfold largest_ok in hl. unfold largest in *. destruct (s_largest s) as [m|].
      * left. destruct hl as (z & hz & hz1 & <-). exists z. split; [exact hz|split; [exact hz1|]].
        assert (en_num x <> en_num z).
        { intros heq. assert (x = z).
          { pose proof (co_sorted s L hc) as hso. clear -hx hz heq hso.
            induction hso as [|y L hso IH hy]; [destruct hx|]. rewrite Forall_forall in hy. unfold en_lt in hy.
            destruct hx as [->|hx], hz as [->|hz]; auto; [specialize (hy z hz)|specialize (hy x hx)]; lia. }
          subst z. unfold is_out in ho. rewrite hz1 in ho. discriminate ho. }
        split; [lia|]. destruct h2; [right; lia|left; lia].
      * right. pose proof (co_ok s L hc) as hok. rewrite Forall_forall in hok. destruct (hok x hx) as (h0 & _).
        split; [lia|]. split; [destruct h2; lia|exact hl].
Qed.
