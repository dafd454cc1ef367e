Require Import Verif.Base Verif.Errors Verif.RangesModel Verif.PnSendModel Verif.PnSendSpec Verif.OctetsModel Verif.PacketModel Verif.PacketProofs2.
Require Import Sorting.Sorted.

Ltac ands := repeat match goal with |- _ /\ _ => split end.

Lemma epoch_eqb_eq a b : epoch_eqb a b = true <-> a = b.
Proof. destruct a, b; cbn; split; congruence. Qed.

Lemma upd_same {A} (f : epoch -> A) e v : upd f e v e = v.
Proof. unfold upd. replace (epoch_eqb e e) with true by (destruct e; reflexivity). reflexivity. Qed.
Lemma upd_other {A} (f : epoch -> A) e v x : x <> e -> upd f e v x = f x.
Proof. intros h. unfold upd. destruct (epoch_eqb e x) eqn:E; auto. apply epoch_eqb_eq in E. congruence. Qed.

Lemma in_ranges_iff r n : in_ranges r n = true <-> covers r n.
Proof.
  unfold in_ranges, covers. rewrite existsb_exists. split.
  - intros ([a b] & h1 & h2). cbn in h2. exists a, b. split; auto. lia.
  - intros (a & b & h1 & h2). exists (a, b). split; auto. cbn. lia.
Qed.

(** The state after a history: [n] packets sent and [k] numbers skipped. *)
Definition ack_covers (ops : list pn_op) (e : epoch) (n : Z) : Prop :=
  exists ranges newly, In (PnAck e ranges newly) ops /\ covers ranges n.

Record inv (ops : list pn_op) (outs : list pn_out) (k : Z) (s : snd_state) : Prop := {
  i_next : s_next s = zlen (sent_pns outs) + k;
  i_below : Forall (fun x => x < s_next s) (sent_pns outs);
  i_sorted : StronglySorted Z.lt (sent_pns outs);
  i_nonneg : Forall (fun x => 0 <= x) (sent_pns outs);
  i_log : forall e n, In (e, n) (s_log s) <-> In n (sent_pns_in e outs);
  i_tx : forall e, match s_tx s e with
         | None => sent_pns_in e outs = []
         | Some l => In l (sent_pns_in e outs) /\ Forall (fun x => x <= l) (sent_pns_in e outs) end;
  i_skip : match m_skip (s_mgr s) with Some x => ~ In x (sent_pns outs) /\ 0 <= x < s_next s /\ m_counter (s_mgr s) = None | None => True end;
  i_count : match m_counter (s_mgr s) with Some c => 0 <= c /\ 20 * k + Z.max 0 (20 - c) <= zlen (sent_pns outs) | None => 20 * k <= zlen (sent_pns outs) end;
  i_k : 0 <= k;
  i_paths : s_paths s <> [] /\ forall p e a, In p (s_paths s) -> p e = Some a -> In a (sent_pns_in e outs) /\ ack_covers ops e a }.

Lemma sent_in_sub e outs : incl (sent_pns_in e outs) (sent_pns outs).
Proof.
  intros x. unfold sent_pns_in, sent_pns. rewrite !in_flat_map. intros (o & h1 & h2). exists o. split; auto.
  destruct o as [e' n| | |]; auto. destruct (epoch_eqb e e'); auto. destruct h2.
Qed.

Lemma inv_init : inv [] [] 0 pn_init.
Proof. constructor; cbn; auto; try constructor; try lia; try tauto; try discriminate. intros p e a [<-|[]]. discriminate. Qed.

Lemma sorted_snoc l x : StronglySorted Z.lt l -> Forall (fun y => y < x) l -> StronglySorted Z.lt (l ++ [x]).
Proof.
  induction l as [|y l IH]; cbn; intros h f; [repeat constructor|]. inversion h as [|? ? h1 h2]; inversion f as [|? ? f1 f2]; subst.
  constructor; auto. apply Forall_app. split; auto.
Qed.

(** What the path loop does. *)
Lemma ack_paths_facts e ranges largest tx log : (forall e n, In (e, n) log -> 0 <= n) -> forall newly paths m o ps m',
  ack_paths e ranges largest tx log newly paths m = (o, ps, m') ->
  (m' = m \/ m' = mkMgr None None) /\ length ps = length paths /\
  (o = PnAcked \/ o = PnRejected InvalidAckRange \/ o = PnRejected OptimisticAckDetected) /\
  (paths <> [] -> (exists l, tx = Some l /\ l < largest) -> o = PnRejected InvalidAckRange /\ m' = m) /\
  (paths <> [] -> ~ (exists l, tx = Some l /\ l < largest) -> (exists s, m_skip m = Some s /\ covers ranges s) -> o = PnRejected OptimisticAckDetected /\ m' = m) /\
  (~ (exists l, tx = Some l /\ l < largest) -> ~ (exists s, m_skip m = Some s /\ covers ranges s) -> o = PnAcked) /\
  (m' <> m -> exists s n, m_skip m = Some s /\ s < n /\ ((In (e, n) log /\ covers ranges n) \/ exists p, In p paths /\ p e = Some n)) /\
  (forall p e' a, In p ps -> p e' = Some a -> (e' = e /\ In (e, a) log /\ covers ranges a) \/ exists q, In q paths /\ q e' = Some a).
Proof.
  intros hlog newly paths. revert newly. induction paths as [|p ps0 IH]; intros newly m o ps m' h; cbn [ack_paths] in h.
  - injection h as <- <- <-. ands; auto; try congruence. intros q e' a [].
  - destruct (match tx with Some l => l <? largest | None => false end) eqn:E1.
    { injection h as <- <- <-. assert (ex : exists l, tx = Some l /\ l < largest) by (destruct tx; [|discriminate]; eexists; split; eauto; lia). ands; auto; try congruence; try tauto; intros; right; eauto. }
    assert (n1 : ~ exists l, tx = Some l /\ l < largest). { intros (l & -> & hl). lia. }
    destruct (match m_skip m with Some s => in_ranges ranges s | None => false end) eqn:E2.
    { injection h as <- <- <-. assert (ex : exists s, m_skip m = Some s /\ covers ranges s). { destruct (m_skip m) as [s|]; [|discriminate]. apply in_ranges_iff in E2. eauto. }
      ands; auto; try congruence; try tauto; intros; right; eauto. }
    assert (n2 : ~ exists s, m_skip m = Some s /\ covers ranges s). { intros (s & e2 & hs). rewrite e2 in E2. apply in_ranges_iff in hs. congruence. }
    set (la := match newly with Some n :: _ => if sent_in log e n && in_ranges ranges n then Some (Z.max (match p e with Some a => a | None => 0 end) n) else p e | _ => p e end) in *.
    set (m1 := match la, m_skip m with Some a, Some s => if s <? a then mkMgr None None else m | _, _ => m end) in *.
    destruct (ack_paths e ranges largest tx log (tl newly) ps0 m1) as [[o1 ps1] m2] eqn:E3. injection h as <- <- <-.
    destruct (IH _ _ _ _ _ E3) as (i1 & i2 & i3 & _ & _ & i6 & i7 & i8).
    assert (hla : forall a, la = Some a -> p e = Some a \/ (In (e, a) log /\ covers ranges a)).
    { unfold la. intros a. destruct newly as [|[n|] nw]; auto. destruct (sent_in log e n && in_ranges ranges n) eqn:E4; auto.
      apply andb_prop in E4 as (E4 & E4'). apply in_ranges_iff in E4'. unfold sent_in in E4. apply existsb_exists in E4 as ([e' n'] & k1 & k2). cbn in k2. apply andb_prop in k2 as (k2 & k3).
      apply epoch_eqb_eq in k2. assert (n' = n) by lia. subst e' n'. intros k4. injection k4 as k4. pose proof (hlog _ _ k1).
      destruct (p e) as [x|]; [destruct (Z.max_spec x n) as [[? q]|[? q]]|destruct (Z.max_spec 0 n) as [[? q]|[? q]]]; rewrite q in k4; subst; auto.
      right. assert (n = 0) by lia. subst. auto. }
    assert (hm1 : m1 = m \/ (m1 = mkMgr None None /\ exists s n, m_skip m = Some s /\ s < n /\ la = Some n)).
    { unfold m1. destruct la as [a|]; auto. destruct (m_skip m) as [s|]; auto. destruct (s <? a) eqn:E5; auto. right. split; auto. exists s, a. ands; auto. lia. }
    ands; auto; try tauto; try congruence.
    + destruct i1 as [-> | ->]; auto. destruct hm1 as [-> |(-> & _)]; auto.
    + cbn. lia.
    + intros _ _. apply i6; auto. intros (s & k1 & k2). destruct hm1 as [hm1|(hm1 & _)]; rewrite hm1 in k1; [|discriminate]. apply n2. eauto.
    + intros hne. destruct hm1 as [hm1|(hm1 & s & n & k1 & k2 & k3)].
      * rewrite hm1 in i7. destruct (i7 hne) as (s & n & k1 & k2 & [k3|(q & k3 & k4)]); exists s, n; ands; auto. right. exists q. split; auto. right. auto.
      * exists s, n. ands; auto. destruct (hla n k3) as [k4|k4]; auto. right. exists p. split; auto. left. auto.
    + intros q e' a [<-|hq] hqa.
      * destruct (epoch_eqb e e') eqn:Ee.
        -- apply epoch_eqb_eq in Ee. subst e'. rewrite upd_same in hqa. destruct (hla a hqa) as [k|k]; auto. right. exists p. split; auto. left. auto.
        -- rewrite upd_other in hqa by (intros ->; rewrite (proj2 (epoch_eqb_eq e e) eq_refl) in Ee; discriminate). right. exists p. split; auto. left. auto.
      * destruct (i8 q e' a hq hqa) as [k|(q' & k1 & k2)]; auto. right. exists q'. split; auto. right. auto.
Qed.

Lemma sent_pns_snoc outs o : sent_pns (outs ++ [o]) = sent_pns outs ++ match o with PnSent _ pn => [pn] | _ => [] end.
Proof. unfold sent_pns. rewrite flat_map_app. cbn. rewrite app_nil_r. reflexivity. Qed.
Lemma sent_in_snoc e outs o : sent_pns_in e (outs ++ [o]) =
  sent_pns_in e outs ++ match o with PnSent e' pn => if epoch_eqb e e' then [pn] else [] | _ => [] end.
Proof. unfold sent_pns_in. rewrite flat_map_app. cbn. rewrite app_nil_r. reflexivity. Qed.

Lemma ack_covers_mono ops op e n : ack_covers ops e n -> ack_covers (ops ++ [op]) e n.
Proof. intros (r & w & h1 & h2). exists r, w. split; auto. apply in_or_app. auto. Qed.

(** One step; what happens to the watched number is recorded. *)
Lemma inv_step ops outs k s op : inv ops outs k s -> pn_legal op ->
  exists o s' k', pn_step op s = Ok (o, s') /\ inv (ops ++ [op]) (outs ++ [o]) k' s' /\ s_next s <= s_next s' /\
    (forall x, m_skip (s_mgr s) = Some x -> m_skip (s_mgr s') = Some x \/
       exists e n, x < n /\ In n (sent_pns_in e (outs ++ [o])) /\ ack_covers (ops ++ [op]) e n) /\
    (forall pn, sent_pns [o] = [pn] -> s_next s <= pn /\ m_skip (s_mgr s') <> Some pn /\ m_skip (s_mgr s) <> Some pn).
Proof.
  intros [i1 i2 i3 i4 i5 i6 i7 i8 i9 i10] hl. destruct op as [e hs produced cwnd mds rnd|e ranges newly|].
  - destruct hl as (hl1 & hl2). cbn [pn_step].
    set (sk := pm_should_skip hs (s_mgr s)).
    assert (exists next m, (if sk then let* m := pm_set_skip (Some (s_next s)) (s_mgr s) in Ok (s_next s + 1, m) else Ok (s_next s, s_mgr s)) = Ok (next, m) /\
      exists k', 0 <= k' /\ next = zlen (sent_pns outs) + k' /\ s_next s <= next /\
      (match m_skip m with Some x => ~ In x (sent_pns outs) /\ 0 <= x < next /\ m_counter m = None | None => True end) /\
      (match m_counter m with Some c => 0 <= c /\ 20 * k' + Z.max 0 (20 - c) <= zlen (sent_pns outs) | None => 20 * k' <= zlen (sent_pns outs) end) /\
      (forall x, m_skip (s_mgr s) = Some x -> m_skip m = Some x)) as (next & m & e1 & k' & hk & e2 & e3 & e4 & e5 & e6).
    { subst sk. unfold pm_should_skip. destruct (m_counter (s_mgr s)) as [c|] eqn:Ec; [destruct (c =? 0) eqn:E0|]; cbn [andb];
        [destruct (m_skip (s_mgr s)) as [x|] eqn:Ex; cbn [is_none andb]; [|destruct hs]| |];
        try (exists (s_next s), (s_mgr s); split; [reflexivity|]; exists k; rewrite Ec; try rewrite Ex; ands; auto; try lia; tauto).
      assert (c = 0) by lia. subst c. exists (s_next s + 1), (mkMgr (Some (s_next s)) None). unfold pm_set_skip. rewrite Ex, Ec. cbn [is_none andb]. cbn [Z.eqb bind].
      split; [reflexivity|]. exists (k + 1). cbn [m_skip m_counter]. pose proof (zlen_nonneg (sent_pns outs)). ands; auto; try lia; try discriminate.
      intros hin. rewrite Forall_forall in i2. specialize (i2 _ hin). lia. }
    rewrite e1. cbn [bind]. clear e1 sk. destruct produced.
    + assert (exists m', pm_on_sent cwnd mds rnd hs m = Ok m' /\ m_skip m' = m_skip m /\
        match m_counter m' with Some c => 0 <= c /\ 20 * k' + Z.max 0 (20 - c) <= zlen (sent_pns outs) + 1 | None => 20 * k' <= zlen (sent_pns outs) + 1 end /\
        (m_skip m <> None -> m_counter m' = None)) as (m' & f1 & f2 & f3 & f4).
      { unfold pm_on_sent. destruct (m_counter m) as [c|] eqn:Ec.
        - eexists. split; [reflexivity|]. cbn [m_skip m_counter]. unfold sat_sub. ands; auto; try lia. destruct (m_skip m); [|congruence]. destruct e4 as (_ & _ & k0). congruence.
        - destruct (m_skip m) as [x|] eqn:Ex; cbn [is_none andb].
          { exists m. rewrite Ec, Ex. ands; auto. lia. }
          destruct hs; [|exists m; rewrite Ec, Ex; ands; auto; lia].
          unfold pm_arm. replace (mds <=? 0) with false by lia. eexists. split; [reflexivity|]. cbn [m_skip m_counter]. unfold MIN_SKIP_COUNTER_VALUE.
          assert (0 <= cwnd / mds) by (apply Z.div_pos; lia). assert (0 <= cwnd / mds / 2 <= cwnd / mds). { split; [apply Z.div_pos; lia|]. apply Z.div_le_upper_bound; lia. }
          pose proof (Z.mod_pos_bound rnd (cwnd / mds * 2 - cwnd / mds / 2 + 1) ltac:(lia)). ands; auto; try lia. congruence. }
      rewrite f1. cbn [bind]. exists (PnSent e next), (mkSnd (next + 1) m' (upd (s_tx s) e (Some (match s_tx s e with Some l => Z.max l next | None => next end))) (s_paths s) ((e, next) :: s_log s)), k'.
      assert (hlt : Forall (fun x => x < next) (sent_pns outs)). { eapply Forall_impl; [|exact i2]. cbn. intros; lia. }
      assert (hnz : 0 <= next). { pose proof (zlen_nonneg (sent_pns outs)). lia. }
      split; [reflexivity|]. split; [|split; [cbn; lia|split]].
      * constructor; cbn [s_next s_mgr s_tx s_paths s_log]; rewrite ?sent_pns_snoc.
        -- rewrite zlen_app. change (zlen [next]) with 1. lia.
        -- apply Forall_app. split; [eapply Forall_impl; [|exact hlt]; cbn; intros; lia|]. constructor; [lia|constructor].
        -- apply sorted_snoc; auto.
        -- apply Forall_app. split; auto.
        -- intros e' n. rewrite sent_in_snoc, in_app_iff, <- i5. cbn [In]. destruct (epoch_eqb e' e) eqn:Ee.
           ++ apply epoch_eqb_eq in Ee. subst e'. cbn [In]. split; [intros [h|h]; [injection h as ->|]|intros [h|[->|[]]]]; auto.
           ++ cbn [In]. split; [intros [h|h]; [injection h as -> ->|]|intros [h|[]]]; auto. rewrite (proj2 (epoch_eqb_eq e' e') eq_refl) in Ee. discriminate.
        -- intros e'. rewrite sent_in_snoc. destruct (epoch_eqb e' e) eqn:Ee.
           ++ apply epoch_eqb_eq in Ee. subst e'. rewrite upd_same. specialize (i6 e). rewrite Forall_forall in hlt. destruct (s_tx s e) as [l|].
              ** destruct i6 as (j1 & j2). pose proof (hlt l (sent_in_sub _ _ _ j1)). rewrite Z.max_r by lia.
                 split; [apply in_or_app; right; left; reflexivity|]. apply Forall_app. split; [|constructor; [lia|constructor]]. eapply Forall_impl; [|exact j2]. cbn. intros; lia.
              ** rewrite i6. cbn. split; auto. constructor; [lia|constructor].
           ++ rewrite upd_other by (intros ->; rewrite (proj2 (epoch_eqb_eq e e) eq_refl) in Ee; discriminate). rewrite app_nil_r. apply i6.
        -- rewrite f2. destruct (m_skip m) as [x|] eqn:Ex; auto. destruct e4 as (j1 & j2 & j3). ands; try lia; [|apply f4; congruence].
           rewrite in_app_iff. cbn [In]. intros [j|[j|[]]]; [auto|lia].
        -- rewrite zlen_app. change (zlen [next]) with 1. exact f3.
        -- auto.
        -- destruct i10 as (j1 & j2). split; auto. intros p e' a hp ha. destruct (j2 p e' a hp ha) as (j3 & j4). split; [|apply ack_covers_mono; auto].
           rewrite sent_in_snoc, in_app_iff. auto.
      * cbn [s_mgr]. rewrite f2. intros x hx. left. apply e6. auto.
      * intros pn hpn. cbn in hpn. injection hpn as <-. cbn [s_mgr]. rewrite f2. split; [lia|]. split.
        -- intros hx. rewrite hx in e4. lia.
        -- intros hx. apply e6 in hx. rewrite hx in e4. lia.
    + exists PnNothing, (mkSnd next m (s_tx s) (s_paths s) (s_log s)), k'. split; [reflexivity|].
      assert (es : sent_pns (outs ++ [PnNothing]) = sent_pns outs) by (rewrite sent_pns_snoc; apply app_nil_r).
      assert (ei : forall e, sent_pns_in e (outs ++ [PnNothing]) = sent_pns_in e outs) by (intros; rewrite sent_in_snoc; apply app_nil_r).
      split; [|split; [cbn; lia|split; [cbn [s_mgr]; auto|cbn; discriminate]]].
      constructor; cbn [s_next s_mgr s_tx s_paths s_log]; rewrite ?es; auto.
      * eapply Forall_impl; [|exact i2]. cbn. intros; lia.
      * intros e' n. rewrite ei. auto.
      * intros e'. rewrite ei. apply i6.
      * destruct i10 as (j1 & j2). split; auto. intros p e' a hp ha. destruct (j2 p e' a hp ha) as (j3 & j4). split; [|apply ack_covers_mono; auto]. rewrite ei. auto.
  - destruct hl as (hl1 & hl2). cbn [pn_step].
    assert (exists largest, ranges_last ranges = Some largest) as (largest & el).
    { unfold ranges_last. destruct (rev ranges) eqn:Er; [|eauto]. apply (f_equal (@rev _)) in Er. rewrite rev_involutive in Er. cbn in Er. congruence. }
    rewrite el. destruct (ack_paths e ranges largest (s_tx s e) (s_log s) newly (s_paths s) (s_mgr s)) as [[o ps] m'] eqn:Ea.
    assert (hlog : forall e n, In (e, n) (s_log s) -> 0 <= n). { intros e' n hin. apply i5 in hin. apply sent_in_sub in hin. rewrite Forall_forall in i4. auto. }
    destruct (ack_paths_facts _ _ _ _ _ hlog _ _ _ _ _ _ Ea) as (a1 & a2 & a3 & _ & _ & _ & a7 & a8).
    exists o, (mkSnd (s_next s) m' (s_tx s) ps (s_log s)), k. split; [reflexivity|].
    assert (es : sent_pns (outs ++ [o]) = sent_pns outs). { rewrite sent_pns_snoc. destruct a3 as [-> |[-> | ->]]; apply app_nil_r. }
    assert (ei : forall e, sent_pns_in e (outs ++ [o]) = sent_pns_in e outs). { intros e'. rewrite sent_in_snoc. destruct a3 as [-> |[-> | ->]]; apply app_nil_r. }
    assert (hnew : forall n, covers ranges n -> ack_covers (ops ++ [PnAck e ranges newly]) e n).
    { intros n hn. exists ranges, newly. split; auto. apply in_or_app. right. left. reflexivity. }
    split; [|split; [cbn; lia|split]].
    + constructor; cbn [s_next s_mgr s_tx s_paths s_log]; rewrite ?es; auto.
      * intros e' n. rewrite ei. auto.
      * intros e'. rewrite ei. apply i6.
      * destruct a1 as [-> | ->]; auto. exact I.
      * destruct a1 as [-> | ->]; auto. cbn [m_counter]. destruct (m_counter (s_mgr s)); lia.
      * destruct i10 as (j1 & j2). split; [intros ->; destruct (s_paths s); [congruence|discriminate]|]. intros p e' a hp ha. rewrite ei.
        destruct (a8 p e' a hp ha) as [(-> & k1 & k2)|(q & k1 & k2)].
        -- split; [apply i5; auto|apply hnew; auto].
        -- destruct (j2 q e' a k1 k2) as (j3 & j4). split; auto. apply ack_covers_mono. auto.
    + cbn [s_mgr]. intros x hx. destruct a1 as [-> | hm]; auto. right. destruct a7 as (x' & n & k1 & k2 & k3); [rewrite hm; intros hc; rewrite <- hc in hx; discriminate|].
      assert (x' = x) by congruence. subst x'. exists e, n. split; auto. rewrite ei. destruct k3 as [(k3 & k4)|(p & k3 & k4)].
      * split; [apply i5; auto|apply hnew; auto].
      * destruct i10 as (_ & j2). destruct (j2 p e n k3 k4). split; auto. apply ack_covers_mono. auto.
    + intros pn. destruct a3 as [-> |[-> | ->]]; discriminate.
  - exists PnNothing, (mkSnd (s_next s) (s_mgr s) (s_tx s) (s_paths s ++ [fun _ => None]) (s_log s)), k. split; [reflexivity|].
    assert (es : sent_pns (outs ++ [PnNothing]) = sent_pns outs) by (rewrite sent_pns_snoc; apply app_nil_r).
    assert (ei : forall e, sent_pns_in e (outs ++ [PnNothing]) = sent_pns_in e outs) by (intros; rewrite sent_in_snoc; apply app_nil_r).
    split; [|split; [cbn; lia|split; [cbn [s_mgr]; auto|cbn; discriminate]]].
    constructor; cbn [s_next s_mgr s_tx s_paths s_log]; rewrite ?es; auto.
    + intros e' n. rewrite ei. auto.
    + intros e'. rewrite ei. apply i6.
    + destruct i10 as (j1 & j2). split; [destruct (s_paths s); discriminate|]. intros p e' a hp ha. apply in_app_iff in hp as [hp|[<-|[]]]; [|discriminate].
      destruct (j2 p e' a hp ha) as (j3 & j4). split; [|apply ack_covers_mono; auto]. rewrite ei. auto.
Qed.

Lemma pn_run_app a : forall b s outs s', pn_run (a ++ b) s = Ok (outs, s') ->
  exists o1 s1 o2, pn_run a s = Ok (o1, s1) /\ pn_run b s1 = Ok (o2, s') /\ outs = o1 ++ o2.
Proof.
  induction a as [|op a IH]; cbn [app pn_run]; intros b s outs s' h; [exists [], s, outs; auto|].
  destruct (pn_step op s) as [[o s1]|e|]; cbn [bind] in *; try discriminate.
  destruct (pn_run (a ++ b) s1) as [[os s2]|e|] eqn:E; cbn [bind] in *; try discriminate. injection h as <- <-.
  destruct (IH _ _ _ _ E) as (o1 & s3 & o2 & e1 & e2 & ->). rewrite e1. cbn [bind]. exists (o :: o1), s3, o2. auto.
Qed.

Lemma inv_run ops2 : forall ops outs k s, inv ops outs k s -> Forall pn_legal ops2 ->
  exists outs2 s' k', pn_run ops2 s = Ok (outs2, s') /\ inv (ops ++ ops2) (outs ++ outs2) k' s' /\ s_next s <= s_next s' /\
    (forall x, m_skip (s_mgr s) = Some x -> (m_skip (s_mgr s') = Some x \/
       exists e n, x < n /\ In n (sent_pns_in e (outs ++ outs2)) /\ ack_covers (ops ++ ops2) e n)) /\
    Forall (fun pn => s_next s <= pn) (sent_pns outs2).
Proof.
  induction ops2 as [|op ops2 IH]; intros ops outs k s hi hl.
  - exists [], s, k. rewrite !app_nil_r. cbn. ands; auto; try constructor; lia.
  - inversion hl as [|? ? hl1 hl2]; subst. destruct (inv_step ops outs k s op hi hl1) as (o & s1 & k1 & e1 & i1 & n1 & w1 & p1).
    destruct (IH _ _ _ _ i1 hl2) as (outs2 & s2 & k2 & e2 & i2 & n2 & w2 & p2). cbn [pn_run]. rewrite e1. cbn [bind]. rewrite e2. cbn [bind].
    exists (o :: outs2), s2, k2. rewrite <- !app_assoc in i2, w2. cbn [app] in i2, w2. ands; auto; try lia.
    + intros x hx. destruct (w1 x hx) as [h|(e & n & h1 & h2 & h3)]; [apply w2; auto|]. right. exists e, n. ands; auto.
      * replace (outs ++ o :: outs2) with ((outs ++ [o]) ++ outs2) by (rewrite <- app_assoc; reflexivity).
        unfold sent_pns_in in *. rewrite flat_map_app. apply in_or_app. auto.
      * destruct h3 as (r & w & h3 & h4). exists r, w. split; auto. replace (ops ++ op :: ops2) with ((ops ++ [op]) ++ ops2) by (rewrite <- app_assoc; reflexivity).
        apply in_or_app. auto.
    + change (o :: outs2) with ([o] ++ outs2). unfold sent_pns. rewrite flat_map_app. apply Forall_app. split.
      * fold (sent_pns [o]). destruct o as [e pn| | |]; cbn; constructor; auto. apply (p1 pn). reflexivity.
      * eapply Forall_impl; [|exact p2]. cbn. intros; lia.
Qed.

Lemma run_inv ops outs s : Forall pn_legal ops -> pn_run ops pn_init = Ok (outs, s) -> exists k, inv ops outs k s.
Proof.
  intros hl h. destruct (inv_run ops [] [] 0 pn_init inv_init hl) as (o & s' & k & e & i & _). cbn [app] in i. rewrite h in e. injection e as <- <-. eauto.
Qed.

Theorem pn_total ops : Forall pn_legal ops -> exists outs s, pn_run ops pn_init = Ok (outs, s).
Proof. intros hl. destruct (inv_run ops [] [] 0 pn_init inv_init hl) as (o & s' & k & e & _). eauto. Qed.

Theorem pn_increasing ops outs s : Forall pn_legal ops -> pn_run ops pn_init = Ok (outs, s) ->
  StronglySorted Z.lt (sent_pns outs) /\
  Forall (fun pn => 0 <= pn < zlen (sent_pns outs) + zlen (sent_pns outs) / 20) (sent_pns outs).
Proof.
  intros hl h. destruct (run_inv _ _ _ hl h) as (k & [i1 i2 i3 i4 i5 i6 i7 i8 i9 i10]). split; auto.
  assert (hk : k <= zlen (sent_pns outs) / 20). { apply Z.div_le_lower_bound; [lia|]. destruct (m_counter (s_mgr s)); lia. }
  rewrite Forall_forall in *. intros x hx. specialize (i2 x hx). specialize (i4 x hx). lia.
Qed.

Theorem pn_skipped_never_sent ops1 ops2 outs1 s1 outs s x : Forall pn_legal (ops1 ++ ops2) ->
  pn_run ops1 pn_init = Ok (outs1, s1) -> m_skip (s_mgr s1) = Some x ->
  pn_run (ops1 ++ ops2) pn_init = Ok (outs, s) -> ~ In x (sent_pns outs).
Proof.
  intros hl h1 hx h. apply Forall_app in hl as (l1 & l2). destruct (run_inv _ _ _ l1 h1) as (k & hi).
  destruct (pn_run_app _ _ _ _ _ h) as (o1 & s2 & o2 & e1 & e2 & ->). rewrite h1 in e1. injection e1 as <- <-.
  destruct (inv_run ops2 _ _ _ _ hi l2) as (o3 & s3 & k3 & e3 & _ & _ & _ & p3). rewrite e2 in e3. injection e3 as <- <-.
  destruct hi as [i1 i2 i3 i4 i5 i6 i7 i8 i9 i10]. rewrite hx in i7. destruct i7 as (j1 & j2 & j3).
  unfold sent_pns in *. rewrite flat_map_app, in_app_iff. intros [hin|hin]; auto. rewrite Forall_forall in p3. specialize (p3 x hin). lia.
Qed.

Theorem pn_watched_until_validated ops1 ops2 outs1 s1 outs s x : Forall pn_legal (ops1 ++ ops2) ->
  pn_run ops1 pn_init = Ok (outs1, s1) -> m_skip (s_mgr s1) = Some x ->
  pn_run (ops1 ++ ops2) pn_init = Ok (outs, s) ->
  m_skip (s_mgr s) = Some x \/
  exists e n ranges newly, x < n /\ In n (sent_pns_in e outs) /\ In (PnAck e ranges newly) (ops1 ++ ops2) /\ covers ranges n.
Proof.
  intros hl h1 hx h. apply Forall_app in hl as (l1 & l2). destruct (run_inv _ _ _ l1 h1) as (k & hi).
  destruct (pn_run_app _ _ _ _ _ h) as (o1 & s2 & o2 & e1 & e2 & ->). rewrite h1 in e1. injection e1 as <- <-.
  destruct (inv_run ops2 _ _ _ _ hi l2) as (o3 & s3 & k3 & e3 & _ & _ & w3 & _). rewrite e2 in e3. injection e3 as <- <-.
  destruct (w3 x hx) as [w|(e & n & w1 & w2 & r & w & w3' & w4)]; auto. right. exists e, n, r, w. auto.
Qed.

Lemma ranges_last_covers ranges : ranges <> [] -> Forall (fun r => 0 <= fst r < snd r) ranges ->
  exists l, ranges_last ranges = Some l /\ covers ranges l.
Proof.
  intros hn hf. unfold ranges_last. destruct (rev ranges) as [|[a b] t] eqn:E.
  { apply (f_equal (@rev _)) in E. rewrite rev_involutive in E. cbn in E. congruence. }
  exists (b - 1). split; auto. assert (hin : In (a, b) ranges) by (apply in_rev; rewrite E; left; reflexivity).
  rewrite Forall_forall in hf. specialize (hf _ hin). cbn in hf. exists a, b. split; auto. lia.
Qed.

Theorem pn_honest_ack ops outs s e ranges newly : Forall pn_legal ops -> pn_run ops pn_init = Ok (outs, s) ->
  pn_legal (PnAck e ranges newly) -> (forall n, covers ranges n -> In n (sent_pns_in e outs)) ->
  exists s', pn_step (PnAck e ranges newly) s = Ok (PnAcked, s').
Proof.
  intros hl h (hr1 & hr2) hc. destruct (run_inv _ _ _ hl h) as (k & [i1 i2 i3 i4 i5 i6 i7 i8 i9 i10]).
  destruct (ranges_last_covers ranges hr1 hr2) as (l & el & cl). cbn [pn_step]. rewrite el.
  destruct (ack_paths e ranges l (s_tx s e) (s_log s) newly (s_paths s) (s_mgr s)) as [[o ps] m'] eqn:Ea.
  assert (hlog : forall e n, In (e, n) (s_log s) -> 0 <= n). { intros e' n hin. apply i5 in hin. apply sent_in_sub in hin. rewrite Forall_forall in i4. auto. }
  destruct (ack_paths_facts _ _ _ _ _ hlog _ _ _ _ _ _ Ea) as (_ & _ & _ & _ & _ & a6 & _). rewrite a6; [eauto| |].
  - intros (t & et & ht). specialize (i6 e). rewrite et in i6. destruct i6 as (_ & j). rewrite Forall_forall in j. specialize (j l (hc l cl)). lia.
  - intros (x & ex & hx). rewrite ex in i7. destruct i7 as (j & _). apply j. apply (sent_in_sub e). auto.
Qed.

Theorem pn_optimistic_ack ops outs s e ranges newly x : Forall pn_legal ops -> pn_run ops pn_init = Ok (outs, s) ->
  pn_legal (PnAck e ranges newly) -> m_skip (s_mgr s) = Some x -> covers ranges x ->
  exists err s', pn_step (PnAck e ranges newly) s = Ok (PnRejected err, s') /\ s_mgr s' = s_mgr s.
Proof.
  intros hl h (hr1 & hr2) hx hc. destruct (run_inv _ _ _ hl h) as (k & [i1 i2 i3 i4 i5 i6 i7 i8 i9 i10]).
  destruct (ranges_last_covers ranges hr1 hr2) as (l & el & cl). cbn [pn_step]. rewrite el.
  destruct (ack_paths e ranges l (s_tx s e) (s_log s) newly (s_paths s) (s_mgr s)) as [[o ps] m'] eqn:Ea.
  assert (hlog : forall e n, In (e, n) (s_log s) -> 0 <= n). { intros e' n hin. apply i5 in hin. apply sent_in_sub in hin. rewrite Forall_forall in i4. auto. }
  destruct (ack_paths_facts _ _ _ _ _ hlog _ _ _ _ _ _ Ea) as (_ & _ & _ & a4 & a5 & _).
  assert (hd : (exists t, s_tx s e = Some t /\ t < l) \/ ~ exists t, s_tx s e = Some t /\ t < l).
  { destruct (s_tx s e) as [t|]; [destruct (Z_lt_le_dec t l); [left; eauto|right; intros (t' & q & ?); injection q as <-; lia]|right; intros (t' & q & ?); discriminate]. }
  destruct hd as [hd|hd].
  - destruct (a4 (proj1 i10) hd) as (-> & ->). eexists _, _. split; reflexivity.
  - destruct (a5 (proj1 i10) hd ltac:(eauto)) as (-> & ->). eexists _, _. split; reflexivity.
Qed.

Theorem pn_ack_beyond ops outs s e ranges a b newly : Forall pn_legal ops -> pn_run ops pn_init = Ok (outs, s) ->
  sent_pns_in e outs <> [] -> Forall (fun n => n < b - 1) (sent_pns_in e outs) ->
  exists s', pn_step (PnAck e (ranges ++ [(a, b)]) newly) s = Ok (PnRejected InvalidAckRange, s').
Proof.
  intros hl h hne hb. destruct (run_inv _ _ _ hl h) as (k & [i1 i2 i3 i4 i5 i6 i7 i8 i9 i10]).
  cbn [pn_step]. unfold ranges_last. rewrite rev_app_distr. cbn [rev app snd].
  destruct (ack_paths e (ranges ++ [(a, b)]) (b - 1) (s_tx s e) (s_log s) newly (s_paths s) (s_mgr s)) as [[o ps] m'] eqn:Ea.
  assert (hlog : forall e n, In (e, n) (s_log s) -> 0 <= n). { intros e' n hin. apply i5 in hin. apply sent_in_sub in hin. rewrite Forall_forall in i4. auto. }
  destruct (ack_paths_facts _ _ _ _ _ hlog _ _ _ _ _ _ Ea) as (_ & _ & _ & a4 & _).
  specialize (i6 e). destruct (s_tx s e) as [t|]; [|congruence]. destruct i6 as (j1 & j2). rewrite Forall_forall in hb. specialize (hb t j1).
  destruct (a4 (proj1 i10)) as (-> & _); eauto.
Qed.

Theorem nonces_never_repeat ops outs s iv : Forall pn_legal ops -> pn_run ops pn_init = Ok (outs, s) -> zlen iv = 12 ->
  zlen (sent_pns outs) < 2 ^ 63 -> NoDup (map (make_nonce iv) (sent_pns outs)).
Proof.
  intros hl h hiv hn. destruct (pn_increasing _ _ _ hl h) as (h1 & h2).
  assert (hz : zlen (sent_pns outs) / 20 <= zlen (sent_pns outs)). { pose proof (zlen_nonneg (sent_pns outs)). apply Z.div_le_upper_bound; lia. }
  assert (hb : Forall (fun pn => 0 <= pn < 2 ^ 64) (sent_pns outs)). { eapply Forall_impl; [|exact h2]. cbn beta. intros. lia. }
  clear h2 hn hz h. induction h1 as [|x l hs IH hx]; [constructor|]. inversion hb as [|? ? b1 b2]; subst. cbn [map]. constructor; auto.
  rewrite in_map_iff. intros (y & e & hy). rewrite Forall_forall in hx, b2. specialize (hx y hy). specialize (b2 y hy).
  destruct (nonce_ok iv x hiv) as (n & en & _). rewrite en in e. pose proof (nonce_injective iv y x n hiv b2 b1 e en). lia.
Qed.
