Require Import Verif.Base Verif.Errors Verif.TpModel Verif.CidModel Verif.CidSpec Verif.CidProofs Verif.CidProofs2 Verif.CidProofs4.

Lemma filter_all {A} (f : A -> bool) l : (forall x, In x l -> f x = true) -> filter f l = l.
Proof. induction l as [|x l IH]; intros h; auto. cbn [filter]. rewrite (h x) by (left; auto). rewrite IH; auto. intros y hy. apply h. right; auto. Qed.
Lemma filter_map_nodup {A} (g : ent -> A) f l : NoDup (map g l) -> NoDup (map g (filter f l)).
Proof.
  induction l as [|x l IH]; intros h; auto. cbn [filter]. cbn in h. inversion h as [|? ? h1 h2]; subst.
  destruct (f x); auto. cbn. constructor; auto. intros hi. apply h1. apply in_map_iff in hi. destruct hi as (y & <- & hy).
  apply in_map. apply filter_In in hy. tauto.
Qed.

(** new_dcid, case by case. *)
Inductive nd_case (c : list Z) (n t r : Z) (s : cids) : res error unit * list (Z * Z) * cids -> Prop :=
| nd_zero : c_zd s = true -> nd_case c n t r s (Err InvalidState, [], s)
| nd_same e : c_zd s = false -> In e (c_d s) -> key e = (n, c, Some t) -> nd_case c n t r s (Ok tt, [], s)
| nd_clash e : c_zd s = false -> In e (c_d s) -> e_cid e = c \/ e_seq e = n -> key e <> (n, c, Some t) -> nd_case c n t r s (Err InvalidFrame, [], s)
| nd_bad : c_zd s = false -> ~ In c (map e_cid (c_d s)) -> ~ In n (map e_seq (c_d s)) -> n < r -> nd_case c n t r s (Err InvalidFrame, [], s)
| nd_late l : c_zd s = false -> ~ In c (map e_cid (c_d s)) -> ~ In n (map e_seq (c_d s)) -> r <= n < c_lrpt s ->
    zlen (c_ret s) < c_rcap s -> (forall y, In y l <-> y = n \/ In y (c_ret s)) -> nd_case c n t r s (Ok tt, [], w_ret l s)
| nd_late_full : c_zd s = false -> ~ In c (map e_cid (c_d s)) -> ~ In n (map e_seq (c_d s)) -> r <= n < c_lrpt s ->
    c_rcap s <= zlen (c_ret s) -> nd_case c n t r s (Err IdLimit, [], s)
| nd_new p ret err : c_zd s = false -> ~ In c (map e_cid (c_d s)) -> ~ In n (map e_seq (c_d s)) -> r <= n -> c_lrpt s <= n ->
    let m := Z.max r (c_lrpt s) in
    let k := filter (fun e => m <=? e_seq e) (c_d s) in
    zlen k < c_dcap s ->
    (forall y, In y (c_ret s) -> In y ret) ->
    (forall y, In y ret -> In y (c_ret s) \/ exists e, In e (c_d s) /\ e_seq e = y /\ y < m) ->
    (err = None -> forall e, In e (c_d s) -> e_seq e < m -> In (e_seq e) ret) ->
    (err = None \/ err = Some IdLimit) ->
    (zlen (c_ret s) + zlen (c_d s) <= c_rcap s -> err = None) ->
    (forall e pid, In e (c_d s) -> e_seq e < m -> e_pid e = Some pid -> In (e_seq e, pid) p) ->
    (forall q pid, In (q, pid) p -> exists e, In e (c_d s) /\ e_seq e = q /\ q < m /\ e_pid e = Some pid) ->
    nd_case c n t r s (match err with Some e => Err e | None => Ok tt end, p, w_d (k ++ [mkE c n (Some t) None]) (w_lrpt m (w_ret ret s)))
| nd_full p ret : c_zd s = false -> ~ In c (map e_cid (c_d s)) -> ~ In n (map e_seq (c_d s)) -> r <= n -> c_lrpt s <= n ->
    let m := Z.max r (c_lrpt s) in
    let k := filter (fun e => m <=? e_seq e) (c_d s) in
    c_dcap s <= zlen k ->
    (forall y, In y (c_ret s) -> In y ret) ->
    (forall y, In y ret -> In y (c_ret s) \/ exists e, In e (c_d s) /\ e_seq e = y /\ y < m) ->
    (forall e pid, In e (c_d s) -> e_seq e < m -> e_pid e = Some pid -> In (e_seq e, pid) p) ->
    (forall q pid, In (q, pid) p -> exists e, In e (c_d s) /\ e_seq e = q /\ q < m /\ e_pid e = Some pid) ->
    nd_case c n t r s (Err IdLimit, p, w_d k (w_lrpt m (w_ret ret s))).

Lemma new_dcid_case c n t r s : Forall (fun e => c_lrpt s <= e_seq e) (c_d s) -> nd_case c n t r s (new_dcid c n t r s).
Proof.
  intros hl. unfold new_dcid. destruct (c_zd s) eqn:Ez; [constructor; auto|].
  destruct (find _ _) as [e|] eqn:Ef.
  - apply find_some in Ef. destruct Ef as [e1 e2]. apply orb_true_iff in e2.
    assert (e_cid e = c \/ e_seq e = n) as e3 by (destruct e2 as [h|h]; [left; apply cid_eqb_iff; auto|right; lia]). clear e2.
    destruct (_ || _ || _) eqn:Eb.
    + apply nd_clash with e; auto. intros hk. unfold key in hk. injection hk as k1 k2 k3. rewrite k3 in Eb.
      assert (cid_eqb (e_cid e) c = true) as kk by (apply cid_eqb_iff; auto). rewrite kk in Eb.
      cbn in Eb. rewrite k1, Z.eqb_refl in Eb. cbn in Eb. rewrite Z.eqb_refl in Eb. discriminate.
    + apply orb_false_iff in Eb. destruct Eb as [Eb b3]. apply orb_false_iff in Eb. destruct Eb as [b1 b2].
      apply negb_false_iff in b1, b2, b3. apply cid_eqb_iff in b1. apply Z.eqb_eq in b2.
      apply nd_same with e; auto. unfold key. destruct (e_tok e) as [t'|]; [|discriminate]. apply Z.eqb_eq in b3. subst. auto.
  - assert (~ In c (map e_cid (c_d s)) /\ ~ In n (map e_seq (c_d s))) as [hc hn].
    { split; intros hi; apply in_map_iff in hi; destruct hi as (e & h1 & h2); pose proof (find_none _ _ Ef e h2) as h3; cbn in h3; apply orb_false_iff in h3; destruct h3 as [h3 h4].
      - apply cid_eqb_iff in h1. congruence.
      - lia. }
    destruct (Z.ltb_spec n r); [apply nd_bad; auto|].
    destruct (Z.ltb_spec n (c_lrpt s)).
    + unfold mark_retire. destruct (set_insert_spec n (c_rcap s) (c_ret s)) as [[h1 ->]|(h1 & l & -> & h2 & _)].
      * apply nd_late_full; auto.
      * apply nd_late; auto.
    + destruct (Z.ltb_spec (c_lrpt s) r) as [hr|hr].
      * assert (r = Z.max r (c_lrpt s)) as em by lia.
        destruct (retire_loop_spec r (c_rcap s) (c_d s) (c_ret s)) as (p & ret & err & -> & h1 & h2 & h3 & h4 & h4b & h5 & h6).
        rewrite em in h2, h3, h5, h6. cbv zeta. cbn [w_lrpt w_ret w_d c_d c_dcap].
        set (k := filter (fun e => r <=? e_seq e) (c_d s)).
        assert (k = filter (fun e => Z.max r (c_lrpt s) <=? e_seq e) (c_d s)) as ek by (rewrite <- em; auto).
        destruct (dq_insert _ _ _) as [l|x|] eqn:Ei.
        -- apply dq_insert_fresh in Ei.
           2: { cbn. unfold k. intros hi. apply hn. apply in_map_iff in hi. destruct hi as (e & <- & he). apply in_map. apply filter_In in he. tauto. }
           destruct Ei as [-> hcap]. replace (w_lrpt r) with (w_lrpt (Z.max r (c_lrpt s))) by (rewrite <- em; auto).
           replace k with (filter (fun e => Z.max r (c_lrpt s) <=? e_seq e) (c_d s)) in * by auto.
           match goal with |- nd_case _ _ _ _ _ (_, _, ?st) =>
             change st with (w_d (filter (fun e => Z.max r (c_lrpt s) <=? e_seq e) (c_d s) ++ [mkE c n (Some t) None]) (w_lrpt (Z.max r (c_lrpt s)) (w_ret ret s))) end.
           apply nd_new; auto.
        -- assert (x = IdLimit) as -> by (eapply dq_insert_err; eauto).
           unfold dq_insert in Ei. destruct (dq_get _ _); [discriminate|]. destruct (Z.leb_spec (c_dcap s) (zlen k)); [|discriminate].
           replace (w_lrpt r) with (w_lrpt (Z.max r (c_lrpt s))) by (rewrite <- em; auto).
           replace k with (filter (fun e => Z.max r (c_lrpt s) <=? e_seq e) (c_d s)) in * by auto.
           match goal with |- nd_case _ _ _ _ _ (_, _, ?st) =>
             change st with (w_d (filter (fun e => Z.max r (c_lrpt s) <=? e_seq e) (c_d s)) (w_lrpt (Z.max r (c_lrpt s)) (w_ret ret s))) end.
           apply nd_full; auto.
        -- exfalso. eapply dq_insert_nopanic; eauto.
      * assert (c_lrpt s = Z.max r (c_lrpt s)) as em by lia. cbv zeta.
        assert (c_d s = filter (fun e => Z.max r (c_lrpt s) <=? e_seq e) (c_d s)) as ek.
        { symmetry. apply filter_all. intros x hx. rewrite Forall_forall in hl. specialize (hl x hx). lia. }
        assert (forall d, w_d d s = w_d d (w_lrpt (Z.max r (c_lrpt s)) (w_ret (c_ret s) s))) as es.
        { intros d. unfold w_d, w_lrpt, w_ret. cbn. rewrite <- em. auto. }
        destruct (dq_insert _ _ _) as [l|x|] eqn:Ei.
        -- apply dq_insert_fresh in Ei; [|exact hn]. destruct Ei as [-> hcap]. rewrite es. rewrite ek at 1.
           apply (nd_new c n t r s [] (c_ret s) None); auto; try (rewrite <- ek; auto).
           ++ intros _ e he hlt. rewrite Forall_forall in hl. specialize (hl e he). lia.
           ++ intros e pid he hlt. rewrite Forall_forall in hl. specialize (hl e he). lia.
           ++ intros q pid [].
        -- assert (x = IdLimit) as -> by (eapply dq_insert_err; eauto).
           unfold dq_insert in Ei. destruct (dq_get _ _); [discriminate|]. destruct (Z.leb_spec (c_dcap s) (zlen (c_d s))); [|discriminate].
           replace s with (w_d (c_d s) s) at 2 by (destruct s; reflexivity). rewrite es. rewrite ek at 1.
           apply (nd_full c n t r s [] (c_ret s)); auto; try (rewrite <- ek; auto).
           ++ intros e pid he hlt. rewrite Forall_forall in hl. specialize (hl e he). lia.
           ++ intros q pid [].
        -- exfalso. eapply dq_insert_nopanic; eauto.
Qed.

Section D.
Variables (dl : Z) (dc : list Z) (dt : option Z).
Notation dinv := (dinv dl dc dt).

Lemma nodup_app_r {A} (a b : list A) x : NoDup (a ++ b) -> In x b -> ~ In x a.
Proof.
  induction a as [|y a IH]; cbn; intros h hx; [auto|]. inversion h as [|? ? h1 h2]; subst.
  intros [->|hi]; [apply h1; apply in_or_app; auto|]. apply IH; auto.
Qed.
Lemma fresh_offer h c n t r o : NoDup (0 :: offered (h ++ [(GotNewCid c n t r, o)])) -> ~ offered0 h n.
Proof.
  rewrite offered_app. cbn [offered]. intros hn. change (0 :: offered h ++ [n]) with ((0 :: offered h) ++ [n]) in hn.
  intros ho. apply (nodup_app_r _ _ n hn); [cbn; auto|]. destruct ho as [->|ho]; [left; auto|right; auto].
Qed.
Lemma offered_in h c n t r o : In (GotNewCid c n t r, o) h -> In n (offered h).
Proof.
  induction h as [|[op o'] h IH]; [intros []|]. intros [e|hi].
  - injection e as -> ->. cbn. auto.
  - apply IH in hi. cbn [offered]. destruct op; auto. right; auto.
Qed.
Lemma known_off h e : known_d dc dt h e -> offered0 h (e_seq e).
Proof. intros [hk|(t & r & o & h1 & h2)]; [left; unfold key in hk; congruence|right; eapply offered_in; eauto]. Qed.

Lemma new_dcid_dinv c n t r h s : dinv h s ->
  let x := new_dcid c n t r s in
  dinv (h ++ [(GotNewCid c n t r, out_of (fun _ => OUnit) (fst (fst x)))]) (snd x).
Proof.
  intros hd. cbv zeta. destruct (new_dcid_case c n t r s (di_lrpt _ _ _ _ _ hd)) as
    [hz|e hz he hk|e hz he ho hk|hz h1 h2 h3|l hz h1 h2 h3 h4 h5|hz h1 h2 h3 h4|p ret err hz h1 h2 h3 h4 m k h5 h6 h7 h8 h9 h9b h10 h11|p ret hz h1 h2 h3 h4 m k h5 h6 h7 h10 h11];
    cbn [fst snd out_of]; try solve [apply dinv_refused; auto].
  - assert (offered0 h n) as hoff. { pose proof (known_off _ _ (di_known _ _ _ _ _ hd e he)) as hx. unfold key in hk. injection hk as <- _ _. auto. }
    assert (In n (map e_seq (c_d s))) as hin by (unfold key in hk; injection hk as <- _ _; apply in_map; auto).
    destruct hd. constructor; auto.
    + intros x hx. apply known_app; auto.
    + intros hl q hq. apply off_app. apply lost_sent_snoc in hl. destruct hl as [hl _]. apply di_src; auto.
      destruct hq as [|hq]; auto. apply rs_app in hq. destruct hq as [|(pid & [hq|[]])]; auto. discriminate.
    + intros hc q hq. apply clean_app in hc. destruct hc as [hc _]. destruct hq as [->|hq].
      * destruct (di_acc hc 0) as [|[|]]; auto. right. right. apply rs_app. auto.
      * apply acc_app in hq. destruct hq as [hq|(c' & t' & r' & [hq|[]])].
        -- destruct (di_acc hc q) as [|[|]]; auto. right. right. apply rs_app. auto.
        -- injection hq as <- <- <- <-. auto.
    + intros _ hn. apply fresh_offer in hn. tauto.
    + intros hn. apply fresh_offer in hn. tauto.
  - destruct hd. constructor; cbn [w_ret c_d c_dcap c_rcap c_ret c_lrpt]; auto.
    + intros x hx. apply known_app; auto.
    + intros hl q hq. apply lost_sent_snoc in hl. destruct hl as [hl _]. rewrite h5 in hq.
      assert (q = n \/ In q (c_ret s) \/ retire_sent h q) as hq'.
      { destruct hq as [[|]|hq]; auto. apply rs_app in hq. destruct hq as [|(pid & [hq|[]])]; auto. discriminate. }
      destruct hq' as [->|hq']; [right; rewrite offered_app; apply in_or_app; right; cbn; auto|]. apply off_app. auto.
    + intros hc q hq. apply clean_app in hc. destruct hc as [hc _]. rewrite h5. destruct hq as [->|hq].
      * destruct (di_acc hc 0) as [|[|]]; auto. right. right. apply rs_app. auto.
      * apply acc_app in hq. destruct hq as [hq|(c' & t' & r' & [hq|[]])].
        -- destruct (di_acc hc q) as [|[|]]; auto. right. right. apply rs_app. auto.
        -- injection hq as <- <- <- <-. auto.
    + intros hl hn q hq. apply nd_app in hn. apply lost_sent_snoc in hl. destruct hl as [hl _]. destruct (di_disj hl hn q hq) as [a b]. split.
      * rewrite h5. intros [->|]; auto.
      * intros hx. apply rs_app in hx. destruct hx as [|(pid & [hx|[]])]; auto. discriminate.
    + intros hn c' n' t' r' hi. apply nd_app in hn. apply in_app_iff in hi. destruct hi as [hi|[hi|[]]]; [eapply di_rpt; eauto|].
      injection hi as <- <- <- <-. lia.
  - assert (m <= n /\ c_lrpt s <= m /\ r <= m) as (hm1 & hm2 & hm3) by (unfold m; lia). clearbody m.
    assert (forall x, In x k <-> In x (c_d s) /\ m <= e_seq x) as hk by (intros x; unfold k; rewrite filter_In, Z.leb_le; tauto).
    pose proof (filter_map_nodup e_seq (fun e => m <=? e_seq e) _ (di_nds _ _ _ _ _ hd)) as hn1. fold k in hn1.
    pose proof (filter_map_nodup e_cid (fun e => m <=? e_seq e) _ (di_ndc _ _ _ _ _ hd)) as hn2. fold k in hn2. clearbody k.
    destruct hd. constructor; cbn [w_ret w_d w_lrpt c_d c_dcap c_rcap c_ret c_lrpt]; auto.
    + rewrite map_app. apply NoDup_snoc; auto. cbn. intros hi. apply h2. apply in_map_iff in hi. destruct hi as (x & <- & hx). apply in_map. apply hk in hx. tauto.
    + rewrite map_app. apply NoDup_snoc; auto. cbn. intros hi. apply h1. apply in_map_iff in hi. destruct hi as (x & <- & hx). apply in_map. apply hk in hx. tauto.
    + rewrite zlen_app, zlen_cons, zlen_nil. pose proof (zlen_nonneg k). lia.
    + intros x hx. apply in_app_iff in hx. destruct hx as [hx|[<-|[]]].
      * apply known_app. apply di_known. apply hk in hx. tauto.
      * right. exists t, r. eexists. split; [reflexivity|]. apply in_or_app. right. left. reflexivity.
    + apply Forall_app. split; [|constructor; [cbn; lia|constructor]]. rewrite Forall_forall. intros x hx. apply hk in hx. tauto.
    + intros hl q hq. apply lost_sent_snoc in hl. destruct hl as [hl _]. apply off_app. destruct hq as [hq|hq].
      * apply h7 in hq. destruct hq as [hq|(e & a & b & _)]; auto. subst q. eapply known_off; eauto.
      * apply rs_app in hq. destruct hq as [|(pid & [hq|[]])]; auto. discriminate.
    + intros hc q hq. apply clean_app in hc. destruct hc as [hc hc2]. inversion hc2 as [|? ? hc3 _]; subst. clear hc2.
      destruct err as [e|]; [discriminate|]. specialize (h8 eq_refl).
      assert (In q (map e_seq (c_d s)) \/ In q (c_ret s) \/ retire_sent h q \/ q = n) as hq'.
      { destruct hq as [->|hq].
        - destruct (di_acc hc 0) as [|[|]]; auto.
        - apply acc_app in hq. destruct hq as [hq|(c' & t' & r' & [hq|[]])].
          + destruct (di_acc hc q) as [|[|]]; auto.
          + injection hq as <- <- <- <-. auto. }
      rewrite map_app, in_app_iff. destruct hq' as [hq'|[hq'|[hq'| ->]]].
      * apply in_map_iff in hq'. destruct hq' as (x & <- & hx). destruct (Z.ltb_spec (e_seq x) m).
        -- right. left. auto.
        -- left. left. apply in_map. apply hk. split; auto.
      * right. left. auto.
      * right. right. apply rs_app. auto.
      * left. right. cbn. auto.
    + intros hl hn q hq. pose proof (fresh_offer _ _ _ _ _ _ hn) as hfr. apply nd_app in hn. apply lost_sent_snoc in hl. destruct hl as [hl _].
      rewrite map_app, in_app_iff in hq.
      assert (retire_sent (h ++ [(GotNewCid c n t r, out_of (fun _ => OUnit) match err with Some e => Err e | None => Ok tt end)]) q -> retire_sent h q) as hrs.
      { intros hx. apply rs_app in hx. destruct hx as [|(pid & [hx|[]])]; auto. discriminate. }
      destruct hq as [hq|[hq|[]]].
      * apply in_map_iff in hq. destruct hq as (x & <- & hx). apply hk in hx. destruct hx as [hx hx2].
        destruct (di_disj hl hn (e_seq x) (in_map _ _ _ hx)) as [a b]. split; [|auto]. intros hy. apply h7 in hy. destruct hy as [|(e & _ & e1 & e2)]; auto. lia.
      * cbn in hq. subst q. split.
        -- intros hy. apply h7 in hy. destruct hy as [hy|(e & _ & e1 & e2)]; [|lia]. apply hfr. auto.
        -- intros hy. apply hfr. auto.
    + intros hn c' n' t' r' hi. apply nd_app in hn. apply in_app_iff in hi. destruct hi as [hi|[hi|[]]].
      * pose proof (di_rpt hn _ _ _ _ hi). lia.
      * injection hi as <- <- <- <-. lia.
  - assert (c_lrpt s <= m) as hm2 by (unfold m; lia). clearbody m.
    assert (forall x, In x k <-> In x (c_d s) /\ m <= e_seq x) as hk by (intros x; unfold k; rewrite filter_In, Z.leb_le; tauto).
    pose proof (filter_map_nodup e_seq (fun e => m <=? e_seq e) _ (di_nds _ _ _ _ _ hd)) as hn1. fold k in hn1.
    pose proof (filter_map_nodup e_cid (fun e => m <=? e_seq e) _ (di_ndc _ _ _ _ _ hd)) as hn2. fold k in hn2.
    pose proof (filter_len (fun e => m <=? e_seq e) (c_d s)) as hkl. fold k in hkl. clearbody k.
    destruct hd. constructor; cbn [w_ret w_d w_lrpt c_d c_dcap c_rcap c_ret c_lrpt]; auto.
    + lia.
    + intros x hx. apply known_app. apply di_known. apply hk in hx. tauto.
    + rewrite Forall_forall. intros x hx. apply hk in hx. tauto.
    + intros hl q hq. apply lost_sent_snoc in hl. destruct hl as [hl _]. apply off_app. destruct hq as [hq|hq].
      * apply h7 in hq. destruct hq as [hq|(e & a & b & _)]; auto. subst q. eapply known_off; eauto.
      * apply rs_app in hq. destruct hq as [|(pid & [hq|[]])]; auto. discriminate.
    + intros hc. apply clean_app in hc. destruct hc as [_ hc]. inversion hc as [|? ? hc3 _]; subst. discriminate.
    + intros hl hn q hq. apply nd_app in hn. apply lost_sent_snoc in hl. destruct hl as [hl _].
      apply in_map_iff in hq. destruct hq as (x & <- & hx). apply hk in hx. destruct hx as [hx hx2].
      destruct (di_disj hl hn (e_seq x) (in_map _ _ _ hx)) as [a b]. split.
      * intros hy. apply h7 in hy. destruct hy as [|(e & _ & e1 & e2)]; auto. lia.
      * intros hy. apply rs_app in hy. destruct hy as [|(pid & [hy|[]])]; auto. discriminate.
    + intros hn c' n' t' r' hi. apply nd_app in hn. apply in_app_iff in hi. destruct hi as [hi|[hi|[]]]; [|discriminate].
      pose proof (di_rpt hn _ _ _ _ hi). lia.
Qed.

(** Moving an id from the active ones to the queue. *)
Lemma retire_dcid_dinv q u h s : dinv h s -> let x := retire_dcid q s in
  dinv (h ++ [(RetireDcid q u, out_of (fun _ => OUnit) (fst x))]) (snd x).
Proof.
  intros hd. cbv zeta. unfold retire_dcid.
  assert (forall o, dinv (h ++ [(RetireDcid q u, o)]) s) as hsame.
  { intros o. apply dinv_quiet; auto. intros n (pid & [hx|[]]). discriminate. }
  destruct (c_zd s); [apply hsame|].
  destruct (dq_remove_cases q (c_d s)) as [[_ ->]|[(_ & _ & ->)|(hl & e & he1 & he2 & _ & ->)]]; try apply hsame.
  assert (In q (map e_seq (c_d s))) as hq by (rewrite <- he2; apply in_map; auto).
  pose proof (dq_del_len _ _ hq) as hlen.
  assert (forall o ret, (forall y, In y (c_ret s) -> In y ret) -> (forall y, In y ret -> In y (c_ret s) \/ y = q) ->
     (o <> OFail IdLimit -> In q ret) -> dinv (h ++ [(RetireDcid q u, o)]) (w_ret ret (w_d (dq_del q (c_d s)) s))) as hmain.
  { intros o ret r1 r2 r3.
    assert (forall n, retire_sent (h ++ [(RetireDcid q u, o)]) n -> retire_sent h n) as hrs.
    { intros n hx. apply rs_app in hx. destruct hx as [|(pid & [hx|[]])]; auto. discriminate. }
    assert (forall n, accepted (h ++ [(RetireDcid q u, o)]) n -> accepted h n) as hac.
    { intros n hx. apply acc_app in hx. destruct hx as [|(c & t & r & [hx|[]])]; auto. discriminate. }
    destruct hd. constructor; cbn [w_ret w_d c_d c_dcap c_rcap c_ret c_lrpt]; auto.
    - apply dq_del_map; auto.
    - apply dq_del_map; auto.
    - lia.
    - intros x hx. apply known_app. apply di_known. eapply dq_del_in; eauto.
    - rewrite Forall_forall in *. intros x hx. apply di_lrpt. eapply dq_del_in; eauto.
    - intros hls n hn. apply lost_sent_snoc in hls. destruct hls as [hls _]. apply off_app. destruct hn as [hn|hn]; auto.
      apply r2 in hn. destruct hn as [hn| ->]; auto. rewrite <- he2. eapply known_off; eauto.
    - intros hc n hn. apply clean_app in hc. destruct hc as [hc hc2]. inversion hc2 as [|? ? hc3 _]; subst. clear hc2.
      destruct (di_acc hc n) as [hx|[hx|hx]].
      + destruct hn; auto.
      + destruct (Z.eq_dec n (e_seq e)) as [->|]; [right; left; auto|left]. apply dq_del_seqs; auto.
      + auto.
      + right. right. apply rs_app. auto.
    - intros hls hn n hi. apply nd_app in hn. apply lost_sent_snoc in hls. destruct hls as [hls _].
      destruct (di_disj hls hn n) as [a b].
      { apply in_map_iff in hi. destruct hi as (x & <- & hx). apply in_map. eapply dq_del_in; eauto. }
      split; [|auto]. intros hx. apply r2 in hx. destruct hx as [|hx]; auto. subst n. revert hi. apply dq_del_gone; auto.
    - intros hn c n t r hi. apply nd_app in hn. apply in_app_iff in hi. destruct hi as [hi|[hi|[]]]; [eapply di_rpt; eauto|discriminate]. }
  unfold mark_retire. cbn [w_d c_rcap c_ret].
  destruct (set_insert_spec q (c_rcap s) (c_ret s)) as [[_ ->]|(_ & l & -> & h2 & _)]; cbn [fst snd out_of].
  - specialize (hmain (OFail IdLimit) (c_ret s) ltac:(auto) ltac:(auto) ltac:(congruence)). exact hmain.
  - apply hmain; intros; apply h2 || (apply h2 in H; tauto); auto.
Qed.

Lemma lost_retire_dinv q h s : dinv h s -> let x := mark_retire q s in
  dinv (h ++ [(LostRetire q, out_of (fun _ => OUnit) (fst x))]) (snd x).
Proof.
  intros hd. cbv zeta. unfold mark_retire.
  destruct (set_insert_spec q (c_rcap s) (c_ret s)) as [[_ ->]|(_ & l & -> & h2 & _)]; cbn [fst snd out_of].
  - apply dinv_quiet; auto. intros n (pid & [hx|[]]). discriminate.
  - assert (forall n, retire_sent (h ++ [(LostRetire q, OUnit)]) n -> retire_sent h n) as hrs.
    { intros n hx. apply rs_app in hx. destruct hx as [|(pid & [hx|[]])]; auto. discriminate. }
    assert (forall n, accepted (h ++ [(LostRetire q, OUnit)]) n -> accepted h n) as hac.
    { intros n hx. apply acc_app in hx. destruct hx as [|(c & t & r & [hx|[]])]; auto. discriminate. }
    destruct hd. constructor; cbn [w_ret c_d c_dcap c_rcap c_ret c_lrpt]; auto.
    + intros x hx. apply known_app. auto.
    + intros hls n hn. apply lost_sent_snoc in hls. destruct hls as [hls hls2]. specialize (hls2 q eq_refl). apply off_app.
      rewrite h2 in hn. destruct hn as [[->|hn]|hn]; auto.
    + intros hc n hn. apply clean_app in hc. destruct hc as [hc _]. rewrite h2.
      destruct (di_acc hc n) as [hx|[hx|hx]]; auto; [destruct hn; auto|]. right. right. apply rs_app. auto.
    + intros hls hn n hi. apply nd_app in hn. apply lost_sent_snoc in hls. destruct hls as [hls hls2]. specialize (hls2 q eq_refl).
      destruct (di_disj hls hn n hi) as [a b]. split; [|auto]. rewrite h2. intros [->|]; auto.
    + intros hn c n t r hi. apply nd_app in hn. apply in_app_iff in hi. destruct hi as [hi|[hi|[]]]; [eapply di_rpt; eauto|discriminate].
Qed.

Lemma send_retire_dinv pid q h s : dinv h s -> In q (c_ret s) ->
  dinv (h ++ [(SendRetire pid q, OSeq q)]) (unmark_retire q s).
Proof.
  intros hd hq. set (p := (SendRetire pid q, OSeq q)).
  assert (forall n, retire_sent (h ++ [p]) n <-> retire_sent h n \/ n = q) as hrs.
  { intros n. rewrite rs_app. split; (intros [|hx]; [auto|]).
    - destruct hx as (pd & [hx|[]]). unfold p in hx. injection hx as _ <- _. auto.
    - subst n. right. exists pid. left. auto. }
  assert (forall n, accepted (h ++ [p]) n -> accepted h n) as hac.
  { intros n hx. apply acc_app in hx. destruct hx as [|(c & t & r & [hx|[]])]; auto. discriminate. }
  destruct hd. constructor; cbn [unmark_retire w_ret c_d c_dcap c_rcap c_ret c_lrpt]; auto.
  - intros x hx. apply known_app. auto.
  - intros hls n hn. apply lost_sent_snoc in hls. destruct hls as [hls _]. apply off_app. destruct hn as [hn|hn].
    + apply del_first_in in hn. auto.
    + apply hrs in hn. destruct hn as [| ->]; auto.
  - intros hc n hn. apply clean_app in hc. destruct hc as [hc _].
    destruct (di_acc hc n) as [hx|[hx|hx]]; auto; [destruct hn; auto| |].
    + destruct (Z.eq_dec n q) as [->|]; [right; right; apply hrs; auto|]. right. left. apply del_first_in'; auto.
    + right. right. apply hrs. auto.
  - intros hls hn n hi. apply nd_app in hn. apply lost_sent_snoc in hls. destruct hls as [hls _].
    destruct (di_disj hls hn n hi) as [a b]. split; [intros hx; apply a; eapply del_first_in; eauto|].
    intros hx. apply hrs in hx. destruct hx as [| ->]; auto.
  - intros hn c n t r hi. apply nd_app in hn. apply in_app_iff in hi. destruct hi as [hi|[hi|[]]]; [eapply di_rpt; eauto|discriminate].
Qed.

Lemma dinv_step h x op : dinv h (x_ids x) -> dinv (h ++ [(op, fst (cid_step op x))]) (x_ids (snd (cid_step op x))).
Proof.
  intros hd.
  assert (s_op op \/ ~ s_op op) as [hop|hop] by (destruct op; cbn; tauto).
  { pose proof (s_op_d op x hop) as hx. cbv zeta in hx. destruct hx as (hx & _).
    apply dinv_k with (s := x_ids x). { unfold dpart in hx. injection hx as e1 e2 e3 e4 e5 e6. unfold kpart. congruence. }
    apply dinv_quiet; auto; destruct op; cbn in hop; try tauto; try reflexivity; intros n (pid & [hy|[]]); discriminate. }
  assert (forall o, (forall c n t r, op <> GotNewCid c n t r) -> (forall n pid, op <> SendRetire pid n) -> dinv (h ++ [(op, o)]) (x_ids x)) as hsame.
  { intros o h1 h2. apply dinv_quiet; auto; [destruct op; try reflexivity; exfalso; eapply h1; eauto|].
    intros n (pid & [hy|[]]). eapply h2. injection hy as -> _. reflexivity. }
  destruct op; cbn in hop; try tauto; clear hop; cbn [cid_step].
  - destruct (c_zd (x_ids x)) eqn:Ez; [apply dinv_refused; auto|].
    pose proof (new_dcid_dinv cid seq tok rpt h (x_ids x) hd) as hh. cbv zeta in hh.
    destruct (new_dcid cid seq tok rpt (x_ids x)) as [[r p] s']. cbn [fst snd] in *.
    eapply dinv_k; [|exact hh]. rewrite reassign_all_k. auto.
  - cbn [fst snd]. eapply dinv_k; [apply fill_k|]. apply hsame; discriminate.
  - destruct (c_zd (x_ids x)); [apply hsame; discriminate|]. destruct (path_seq x (x_active x)); [|apply hsame; discriminate].
    destruct (_ && _ && _); [apply hsame; discriminate|].
    pose proof (retire_dcid_dinv seq other_usable h (x_ids x) hd) as hh. cbv zeta in hh.
    destruct (retire_dcid seq (x_ids x)) as [[[pid|]| |] s']; cbn [fst snd out_of] in *; auto.
    eapply dinv_k; [|exact hh]. rewrite reassign_k. auto.
  - assert (forall o, o <> OSeq seq -> dinv (h ++ [(SendRetire pid seq, o)]) (x_ids x)) as hs2.
    { intros o ho. apply dinv_quiet; auto. intros n (pd & [hy|[]]). injection hy as _ <- hy. auto. }
    destruct (path_seq x pid); [|apply hs2; discriminate]. destruct (existsb _ _ && _) eqn:Eb; [|apply hs2; discriminate].
    apply andb_true_iff in Eb. destruct Eb as [Eb _]. apply existsb_exists in Eb. destruct Eb as (y & h1 & h2). apply Z.eqb_eq in h2. subst y.
    apply send_retire_dinv; auto.
  - pose proof (lost_retire_dinv seq h (x_ids x) hd) as hh. cbv zeta in hh. destruct (mark_retire seq (x_ids x)) as [r s']. exact hh.
  - destruct client; [|apply hsame; discriminate].
    destruct (if c_zd (x_ids x) then Some 0 else lowest_available (x_ids x)); [|apply hsame; discriminate].
    cbn [fst snd x_ids]. apply dinv_k with (s := x_ids x); [unfold kpart; cbn; rewrite link_key; auto|]. apply hsame; discriminate.
  - destruct (negb (known_pid pid x)); [apply hsame; discriminate|]. destruct (_ =? _); [apply hsame; discriminate|].
    destruct (path_seq x pid); [apply hsame; discriminate|]. destruct disable_dcid_reuse; apply hsame; discriminate.
  - destruct (negb (known_pid pid x)); [apply hsame; discriminate|]. destruct (_ =? _); [apply hsame; discriminate|].
    destruct (path_seq x pid); [apply hsame; discriminate|]. destruct (lowest_available (x_ids x)); [|apply hsame; discriminate].
    cbn [fst snd x_ids]. eapply dinv_k; [apply reassign_k|]. apply hsame; discriminate.
Qed.

Lemma dinv_reach sc st h x : reach (x_init (cids_new dl sc st dc dt)) h x -> dinv h (x_ids x).
Proof. intros hr. induction hr as [|h x op hr IH]; [apply dinv_init|apply dinv_step; auto]. Qed.
End D.
