(** Acknowledgement and loss of the packets in one queue. *)
Require Import Verif.Base Verif.Errors Verif.RttModel Verif.RecoveryModel Verif.RecoverySpec.
Require Import Permutation Sorted.

Definition un (p : pkt) : bool := negb (is_some (p_acked p)) && negb (is_some (p_lost p)).
Definition inr (lo hi : Z) (p : pkt) : bool := (lo <=? p_num p) && (p_num p <? hi).
Definition ack_upd (now : Z) (p : pkt) : pkt :=
  if is_some (p_acked p) then p
  else if is_some (p_lost p) then set_p_acked now (p_frames p) p else set_p_acked now [] p.

Fixpoint psum (g : pkt -> Z) (l : list pkt) : Z := match l with [] => 0 | p :: tl => g p + psum g tl end.
Definition inf1 (p : pkt) : Z := if p_inf p then 1 else 0.
Definition infsz (p : pkt) : Z := if p_inf p then p_size p else 0.
Definition cnt (l : list pkt) : Z := psum inf1 (filter un l).

Lemma psum_app g l1 l2 : psum g (l1 ++ l2) = psum g l1 + psum g l2.
Proof. induction l1; cbn [psum app]; lia. Qed.
Lemma psum_perm g l1 l2 : Permutation l1 l2 -> psum g l1 = psum g l2.
Proof. induction 1; cbn [psum]; lia. Qed.
Lemma psum_nonneg g l : (forall p, 0 <= g p) -> 0 <= psum g l.
Proof. intros h. induction l as [|p l IH]; cbn [psum]; [lia|specialize (h p); lia]. Qed.
Lemma inf1_nonneg p : 0 <= inf1 p. Proof. unfold inf1; destruct (p_inf p); lia. Qed.

Lemma psum_filter_le g f l : (forall p, 0 <= g p) -> psum g (filter f l) <= psum g l.
Proof.
  intros h. induction l as [|p l IH]; cbn [psum filter]; [lia|].
  specialize (h p). destruct (f p); cbn [psum]; lia.
Qed.

Definition nums (l : list pkt) : list Z := map p_num l.
Definition plt (p q : pkt) : Prop := p_num p < p_num q.

Lemma un_ack_upd now p : un (ack_upd now p) = false.
Proof. unfold un, ack_upd. destruct (p_acked p) eqn:a, (p_lost p) eqn:b; cbn; rewrite ?a, ?b; reflexivity. Qed.
Lemma num_ack_upd now p : p_num (ack_upd now p) = p_num p.
Proof. unfold ack_upd. destruct (is_some (p_acked p)), (is_some (p_lost p)); reflexivity. Qed.
Lemma ack_upd_twice now p : ack_upd now (ack_upd now p) = ack_upd now p.
Proof. unfold ack_upd. destruct (p_acked p) eqn:a, (p_lost p) eqn:b; cbn; rewrite ?a; reflexivity. Qed.

Lemma ack_one_ok now largest p a :
  p_num p <= largest -> (un p = true -> p_inf p = true -> 1 <= a_inf a) ->
  exists a', ack_one now largest p a = Ok (ack_upd now p, a') /\
    let new := if un p then [p] else [] in
    a_inf a' = a_inf a - psum inf1 new /\ a_bytes a' = a_bytes a + psum infsz new /\
    a_new a' = a_new a ++ new /\ a_frames a' = a_frames a ++ flat_map p_frames new.
Proof.
  intros hl hi. unfold ack_one, ack_upd, un in *.
  destruct (is_some (p_acked p)) eqn:ea; cbn [negb andb].
  - eexists; split; [reflexivity|]. cbn [psum flat_map]. rewrite !app_nil_r. repeat split; lia.
  - destruct (is_some (p_lost p)) eqn:el; cbn [negb andb] in *.
    + destruct (Z.ltb_spec largest (p_num p)); [lia|].
      eexists; split; [reflexivity|]. cbn [psum flat_map a_inf a_bytes a_new a_frames]. rewrite !app_nil_r.
      repeat split; lia.
    + destruct (p_inf p) eqn:ei; cbn [andb].
      * destruct (Z.ltb_spec (a_inf a) 1); [specialize (hi eq_refl eq_refl); lia|].
        eexists; split; [reflexivity|]. cbn [psum flat_map a_inf a_bytes a_new a_frames].
        unfold inf1, infsz. rewrite ei, app_nil_r. repeat split; lia.
      * eexists; split; [reflexivity|]. cbn [psum flat_map a_inf a_bytes a_new a_frames].
        unfold inf1, infsz. rewrite ei, app_nil_r. repeat split; lia.
Qed.

Lemma filter_none {A} (f : A -> bool) l : Forall (fun x => f x = false) l -> filter f l = [].
Proof. induction 1 as [|x l h _ IH]; cbn; rewrite ?h; auto. Qed.
Lemma map_same {A} (f : A -> A) l : Forall (fun x => f x = x) l -> map f l = l.
Proof. induction 1 as [|x l h _ IH]; cbn; congruence. Qed.

Lemma ack_range_ok now largest lo hi l : forall a,
  StronglySorted plt l -> (forall p, In p l -> inr lo hi p = true -> p_num p <= largest) ->
  cnt l <= a_inf a ->
  exists a', ack_range now largest lo hi l a =
      Ok (map (fun p => if inr lo hi p then ack_upd now p else p) l, a') /\
    let new := filter (fun p => un p && inr lo hi p) l in
    a_inf a' = a_inf a - psum inf1 new /\ a_bytes a' = a_bytes a + psum infsz new /\
    a_new a' = a_new a ++ new /\ a_frames a' = a_frames a ++ flat_map p_frames new.
Proof.
  induction l as [|p l IH]; intros a hs hm hc.
  - eexists; split; [reflexivity|]. cbn [filter psum flat_map]. rewrite !app_nil_r. repeat split; lia.
  - inversion hs as [|? ? hs1 hs2]; subst. cbn [ack_range].
    assert (hm' : forall q, In q l -> inr lo hi q = true -> p_num q <= largest) by (intros; apply hm; [right|]; assumption).
    assert (hpos : forall x, 0 <= inf1 x) by exact inf1_nonneg.
    destruct (Z.ltb_spec (p_num p) lo) as [h1|h1].
    + assert (e : inr lo hi p = false) by (unfold inr; destruct (Z.leb_spec lo (p_num p)); [lia|reflexivity]).
      assert (hc' : cnt l <= a_inf a).
      { unfold cnt in *. cbn [filter] in hc. destruct (un p); cbn [psum] in hc; [specialize (hpos p)|]; lia. }
      destruct (IH a hs1 hm' hc') as (a' & ea & h). rewrite ea. cbn [bind].
      eexists; split; [cbn [map]; rewrite e; reflexivity|]. cbn [filter]. rewrite e, Bool.andb_false_r. exact h.
    + destruct (Z.leb_spec hi (p_num p)) as [h2|h2].
      * assert (hout : Forall (fun q => inr lo hi q = false) (p :: l)).
        { apply Forall_forall. intros q [<-|hq]; unfold inr.
          - destruct (Z.ltb_spec (p_num p) hi); [lia|apply Bool.andb_false_r].
          - rewrite Forall_forall in hs2. specialize (hs2 q hq). unfold plt in hs2.
            destruct (Z.ltb_spec (p_num q) hi); [lia|apply Bool.andb_false_r]. }
        exists a. split.
        -- f_equal. f_equal. symmetry. apply map_same. eapply Forall_impl; [|exact hout]. intros q ->. reflexivity.
        -- rewrite (filter_none (fun p0 => un p0 && inr lo hi p0)).
           ++ cbn [psum flat_map]. rewrite !app_nil_r. repeat split; lia.
           ++ eapply Forall_impl; [|exact hout]. cbv beta. intros q ->. apply Bool.andb_false_r.
      * assert (e : inr lo hi p = true) by (unfold inr; destruct (Z.leb_spec lo (p_num p)), (Z.ltb_spec (p_num p) hi); (lia || reflexivity)).
        destruct (ack_one_ok now largest p a) as (a1 & e1 & i1 & b1 & n1 & f1).
        { apply hm; [left; reflexivity|exact e]. }
        { intros hu hi'. unfold cnt in hc. cbn [filter] in hc. rewrite hu in hc. cbn [psum] in hc.
          assert (0 <= psum inf1 (filter un l)) by (apply psum_nonneg; exact hpos).
          unfold inf1 in hc at 1. rewrite hi' in hc. lia. }
        rewrite e1. cbn [bind].
        assert (hc' : cnt l <= a_inf a1).
        { rewrite i1. unfold cnt in *. cbn [filter] in hc. destruct (un p); cbn [psum] in *; lia. }
        destruct (IH a1 hs1 hm' hc') as (a2 & e2 & i2 & b2 & n2 & f2). rewrite e2. cbn [bind].
        eexists; split; [cbn [map]; rewrite e; reflexivity|]. cbn [filter]. rewrite e, Bool.andb_true_r.
        destruct (un p); cbn [psum flat_map app] in *; rewrite ?app_nil_r in *.
        -- rewrite i2, i1, b2, b1, n2, n1, f2, f1, <- !app_assoc. repeat split; lia.
        -- rewrite i2, i1, b2, b1, n2, n1, f2, f1. repeat split; lia.
Qed.

(** All ranges *)
Definition pcov (rs : list (Z * Z)) (p : pkt) : bool := covered rs (p_num p).

Lemma sorted_map (f : pkt -> pkt) l : (forall p, p_num (f p) = p_num p) ->
  StronglySorted plt l -> StronglySorted plt (map f l).
Proof.
  intros hf. induction 1 as [|p l hs IH hp]; cbn; constructor; auto.
  rewrite Forall_map. eapply Forall_impl; [|exact hp]. intros q. unfold plt. rewrite !hf. auto.
Qed.

Lemma perm_split now lo hi rs l :
  Permutation (filter (fun p => un p && pcov ((lo, hi) :: rs) p) l)
    (filter (fun p => un p && inr lo hi p) l ++
     filter (fun p => un p && pcov rs p) (map (fun p => if inr lo hi p then ack_upd now p else p) l)).
Proof.
  induction l as [|p l IH]; [constructor|]. cbn [filter map].
  assert (ec : pcov ((lo, hi) :: rs) p = inr lo hi p || pcov rs p) by reflexivity.
  rewrite ec. destruct (inr lo hi p) eqn:e; cbn [orb].
  - rewrite un_ack_upd. cbn [andb]. rewrite Bool.andb_true_r. destruct (un p); cbn [app]; [constructor|]; exact IH.
  - rewrite Bool.andb_false_r. destruct (un p && pcov rs p).
    + apply Permutation_cons_app. exact IH.
    + exact IH.
Qed.

Lemma cnt_map now lo hi l :
  cnt (map (fun p => if inr lo hi p then ack_upd now p else p) l) =
  cnt l - psum inf1 (filter (fun p => un p && inr lo hi p) l).
Proof.
  unfold cnt. induction l as [|p l IH]; [reflexivity|]. cbn [map filter].
  destruct (inr lo hi p).
  - rewrite un_ack_upd, Bool.andb_true_r. destruct (un p); cbn [psum]; lia.
  - rewrite Bool.andb_false_r. destruct (un p); cbn [psum]; lia.
Qed.

Lemma ack_ranges_ok now largest skip rs : forall l a l' a',
  StronglySorted plt l -> (forall lo hi, In (lo, hi) rs -> hi - 1 <= largest) ->
  cnt l <= a_inf a ->
  ack_ranges now largest skip rs l a <> Panic /\
  (ack_ranges now largest skip rs l a = Ok (l', a') ->
   l' = map (fun p => if pcov rs p then ack_upd now p else p) l /\
   exists new, Permutation new (filter (fun p => un p && pcov rs p) l) /\
     a_inf a' = a_inf a - psum inf1 new /\ a_bytes a' = a_bytes a + psum infsz new /\
     a_new a' = a_new a ++ new /\ a_frames a' = a_frames a ++ flat_map p_frames new).
Proof.
  induction rs as [|[lo hi] rs IH]; intros l a l' a' hs hm hc; cbn [ack_ranges].
  - split; [discriminate|]. intros [= <- <-]. split; [symmetry; apply map_id|].
    exists []. rewrite (filter_none (fun p => un p && pcov [] p)) by (apply Forall_forall; intros p _; apply Bool.andb_false_r).
    cbn [psum flat_map]. rewrite !app_nil_r. repeat split; try lia; constructor.
  - destruct (match skip with Some s => (lo <=? s) && (s <? hi) | None => false end); [split; discriminate|].
    destruct (ack_range_ok now largest lo hi l a hs) as (a1 & e1 & i1 & b1 & n1 & f1).
    { intros p _ hp. specialize (hm lo hi (or_introl eq_refl)). unfold inr in hp.
      destruct (Z.ltb_spec (p_num p) hi); [lia|rewrite Bool.andb_false_r in hp; discriminate]. }
    { exact hc. }
    rewrite e1. cbn [bind].
    specialize (IH (map (fun p => if inr lo hi p then ack_upd now p else p) l) a1 l' a').
    destruct IH as [hp hok].
    + apply sorted_map; [|exact hs]. intros p. destruct (inr lo hi p); [apply num_ack_upd|reflexivity].
    + intros lo' hi' h. apply (hm lo' hi'). right; exact h.
    + rewrite cnt_map, i1. lia.
    + split; [exact hp|]. intros h. destruct (hok h) as (-> & new & hperm & i2 & b2 & n2 & f2).
      split.
      * rewrite map_map. apply map_ext. intros p.
        assert (ec : pcov ((lo, hi) :: rs) p = inr lo hi p || pcov rs p) by reflexivity. rewrite ec.
        assert (epc : forall q, p_num q = p_num p -> pcov rs q = pcov rs p) by (intros q hq; unfold pcov; rewrite hq; reflexivity).
        destruct (inr lo hi p); cbn [orb]; [|reflexivity].
        rewrite epc by apply num_ack_upd. destruct (pcov rs p); [apply ack_upd_twice|reflexivity].
      * exists (filter (fun p => un p && inr lo hi p) l ++ new). split; [|].
        -- rewrite (perm_split now lo hi rs l). apply Permutation_app_head. exact hperm.
        -- rewrite i2, i1, b2, b1, n2, n1, f2, f1, !psum_app, flat_map_app, <- !app_assoc. repeat split; lia.
Qed.

(** Lost packets *)
Definition lose_upd (now : Z) (S : Z -> bool) (p : pkt) : pkt :=
  if un p && S (p_num p) then set_p_lost now p else p.

Definition lost1 (p : pkt) : Z := if p_probe p then 0 else 1.
Definition lostsz (p : pkt) : Z := if p_probe p then 0 else infsz p.
Definition probesz (p : pkt) : Z := if p_probe p then p_size p else 0.

Lemma lose_ok now delay thresh largest l : forall a,
  StronglySorted plt l -> Forall (fun p => p_probe p = true -> p_inf p = true) l -> cnt l <= l_inf a ->
  exists S a', lose now delay thresh largest l a = Ok (map (lose_upd now S) l, a') /\
    (forall p, In p l -> un p = true -> S (p_num p) = true ->
       p_num p <= largest /\ (p_sent p + delay <= now \/ p_num p + thresh <= largest)) /\
    let new := filter (fun p => un p && S (p_num p)) l in
    l_inf a' = l_inf a - psum inf1 new /\ l_pkts a' = l_pkts a + psum lost1 new /\
    l_bytes a' = l_bytes a + psum lostsz new /\ l_pm_bytes a' = l_pm_bytes a + psum probesz new /\
    l_frames a' = l_frames a ++ flat_map p_frames new /\
    (l_last a' = None -> l_last a = None /\ Forall (fun p => p_probe p = false -> p_inf p = false) new) /\
    (l_time a' = l_time a \/ exists p, In p l /\ un p = true /\ S (p_num p) = false).
Proof.
  induction l as [|p l IH]; intros a hs hp hc.
  - exists (fun _ => false), a. split; [reflexivity|]. split; [intros ? []|]. cbn [filter psum flat_map]. rewrite !app_nil_r.
    repeat split; try lia; auto.
  - inversion hs as [|? ? hs1 hs2]; subst. inversion hp as [|? ? hp1 hp2]; subst. cbn [lose].
    assert (hpos : forall x, 0 <= inf1 x) by exact inf1_nonneg.
    assert (stop : forall t, (t = l_time a \/ un p = true) -> exists S a',
      @Ok error _ (p :: l, mkL (l_inf a) (l_pkts a) (l_bytes a) (l_pm_bytes a) (l_last a) (l_frames a) t) =
        Ok (map (lose_upd now S) (p :: l), a') /\
      (forall q, In q (p :: l) -> un q = true -> S (p_num q) = true ->
         p_num q <= largest /\ (p_sent q + delay <= now \/ p_num q + thresh <= largest)) /\
      let new := filter (fun q => un q && S (p_num q)) (p :: l) in
      l_inf a' = l_inf a - psum inf1 new /\ l_pkts a' = l_pkts a + psum lost1 new /\
      l_bytes a' = l_bytes a + psum lostsz new /\ l_pm_bytes a' = l_pm_bytes a + psum probesz new /\
      l_frames a' = l_frames a ++ flat_map p_frames new /\
      (l_last a' = None -> l_last a = None /\ Forall (fun p => p_probe p = false -> p_inf p = false) new) /\
      (l_time a' = l_time a \/ exists q, In q (p :: l) /\ un q = true /\ S (p_num q) = false)).
    { intros t ht. exists (fun _ => false). eexists. split; [|split].
      - f_equal. f_equal. symmetry. apply map_same. apply Forall_forall. intros q _. unfold lose_upd.
        rewrite Bool.andb_false_r. reflexivity.
      - intros q _ _ h. discriminate h.
      - rewrite (filter_none (fun q => un q && false)) by (apply Forall_forall; intros; apply Bool.andb_false_r).
        cbn [psum flat_map l_inf l_pkts l_bytes l_pm_bytes l_frames l_last l_time]. rewrite app_nil_r.
        repeat split; try lia; auto. destruct ht as [->|ht]; [left; reflexivity|right].
        exists p. repeat split; auto. left; reflexivity. }
    destruct (Z.ltb_spec largest (p_num p)) as [h1|h1].
    { destruct a. apply (stop l_time). left. reflexivity. }
    assert (hne : forall q, In q l -> p_num q <> p_num p).
    { intros q hq. rewrite Forall_forall in hs2. specialize (hs2 q hq). unfold plt in hs2. lia. }
    destruct (is_some (p_acked p) || is_some (p_lost p)) eqn:eu.
    + assert (u : un p = false) by (unfold un; rewrite <- Bool.negb_orb, eu; reflexivity).
      assert (hc' : cnt l <= l_inf a) by (unfold cnt in *; cbn [filter] in hc; rewrite u in hc; exact hc).
      destruct (IH a hs1 hp2 hc') as (S & a' & e & hS & h). rewrite e. cbn [bind].
      exists S, a'. split; [|split].
      * f_equal. cbn [map]. unfold lose_upd at 2. rewrite u. reflexivity.
      * intros q [<-|hq] hu; [congruence|apply hS; auto].
      * cbn [filter]. rewrite u. cbn [andb]. destruct h as (i & k & b & m & f & la & ti). repeat split; auto; try apply la; auto.
        destruct ti as [ti|(q & hq & h2)]; [left; exact ti|right; exists q; split; [right; exact hq|exact h2]].
    + assert (u : un p = true) by (unfold un; rewrite <- Bool.negb_orb, eu; reflexivity).
      assert (hcp : cnt (p :: l) = inf1 p + cnt l) by (unfold cnt; cbn [filter]; rewrite u; reflexivity).
      assert (hcl : 0 <= cnt l) by (apply psum_nonneg; exact hpos).
      destruct ((p_sent p <=? now - delay) || (p_num p + thresh <=? largest)) eqn:ec.
      2: { apply stop. right; exact u. }
      assert (hcond : p_num p <= largest /\ (p_sent p + delay <= now \/ p_num p + thresh <= largest)).
      { split; [lia|]. apply Bool.orb_true_iff in ec. destruct ec as [ec|ec]; [left|right]; lia. }
      assert (go : forall i k b m la, i = l_inf a - inf1 p -> k = l_pkts a + lost1 p -> b = l_bytes a + lostsz p ->
         m = l_pm_bytes a + probesz p ->
         (la = None -> l_last a = None /\ (p_probe p = false -> p_inf p = false)) ->
         exists S a', (let* '(tl, a0) := lose now delay thresh largest l (mkL i k b m la (l_frames a ++ p_frames p) (l_time a)) in
                       Ok (set_p_lost now p :: tl, a0)) = Ok (map (lose_upd now S) (p :: l), a') /\
         (forall q, In q (p :: l) -> un q = true -> S (p_num q) = true ->
            p_num q <= largest /\ (p_sent q + delay <= now \/ p_num q + thresh <= largest)) /\
         let new := filter (fun q => un q && S (p_num q)) (p :: l) in
         l_inf a' = l_inf a - psum inf1 new /\ l_pkts a' = l_pkts a + psum lost1 new /\
         l_bytes a' = l_bytes a + psum lostsz new /\ l_pm_bytes a' = l_pm_bytes a + psum probesz new /\
         l_frames a' = l_frames a ++ flat_map p_frames new /\
         (l_last a' = None -> l_last a = None /\ Forall (fun p => p_probe p = false -> p_inf p = false) new) /\
         (l_time a' = l_time a \/ exists q, In q (p :: l) /\ un q = true /\ S (p_num q) = false)).
      { intros i k b m la -> -> -> -> hla.
        destruct (IH (mkL (l_inf a - inf1 p) (l_pkts a + lost1 p) (l_bytes a + lostsz p) (l_pm_bytes a + probesz p) la
                   (l_frames a ++ p_frames p) (l_time a)) hs1 hp2) as (S & a' & e & hS & h).
        { cbn [l_inf]. lia. }
        rewrite e. cbn [bind].
        set (S' := fun n => (n =? p_num p) || S n).
        assert (hS' : forall q, In q l -> S' (p_num q) = S (p_num q)).
        { intros q hq. unfold S'. destruct (Z.eqb_spec (p_num q) (p_num p)) as [x|x]; [destruct (hne q hq x)|reflexivity]. }
        assert (hSp : S' (p_num p) = true) by (unfold S'; rewrite Z.eqb_refl; reflexivity).
        assert (ef : filter (fun q => un q && S' (p_num q)) l = filter (fun q => un q && S (p_num q)) l).
        { apply filter_ext_in. intros q hq. rewrite hS' by exact hq. reflexivity. }
        exists S', a'. split; [|split].
        - f_equal. cbn [map]. f_equal. f_equal.
          + unfold lose_upd. rewrite u, hSp. reflexivity.
          + apply map_ext_in. intros q hq. unfold lose_upd. rewrite hS' by exact hq. reflexivity.
        - intros q [<-|hq] hu hsq; [exact hcond|]. rewrite hS' in hsq by exact hq. apply hS; assumption.
        - cbn [filter]. rewrite u, hSp. cbn [andb]. rewrite ef.
          destruct h as (hi & hk & hb & hm & hf & hl & ht). cbn [l_inf l_pkts l_bytes l_pm_bytes l_frames l_last l_time] in *.
          cbn [psum flat_map]. rewrite hi, hk, hb, hm, hf, <- !app_assoc.
          repeat split; try lia.
          + destruct (hl H) as [h2 _]. apply hla in h2. tauto.
          + destruct (hl H) as [h2 h3]. apply hla in h2. constructor; tauto.
          + destruct ht as [ht|(q & hq & h2 & h3)]; [left; exact ht|right]. exists q.
            split; [right; exact hq|]. rewrite hS' by exact hq. auto. }
      destruct (p_probe p) eqn:epr.
      * assert (ei : p_inf p = true) by (apply hp1; reflexivity).
        assert (e1 : inf1 p = 1) by (unfold inf1; rewrite ei; reflexivity).
        destruct (Z.ltb_spec (l_inf a) 1); [lia|].
        apply go; try lia; unfold lost1, lostsz, probesz; rewrite ?epr; try lia. intros ->. split; [reflexivity|discriminate].
      * destruct (p_inf p) eqn:ei.
        -- assert (e1 : inf1 p = 1) by (unfold inf1; rewrite ei; reflexivity).
           destruct (Z.ltb_spec (l_inf a) 1); [lia|].
           apply go; try lia; unfold lost1, lostsz, probesz, infsz; rewrite ?epr, ?ei; try lia. discriminate.
        -- apply go; try lia; unfold lost1, lostsz, probesz, infsz, inf1; rewrite ?epr, ?ei; try lia. intros ->. auto.
Qed.

(** Draining removes only settled packets, from the front *)
Lemma drain_split t l : exists pre, l = pre ++ drain t l /\ Forall (fun p => un p = false) pre.
Proof.
  induction l as [|p l IH]; cbn [drain]; [exists []; split; [reflexivity|constructor]|].
  destruct (match p_lost p with Some x => t <? x | None => false end); [exists []; split; [reflexivity|constructor]|].
  destruct (negb (is_some (p_acked p)) && negb (is_some (p_lost p))) eqn:e; [exists []; split; [reflexivity|constructor]|].
  destruct IH as (pre & e1 & h). exists (p :: pre). split; [cbn; rewrite <- e1; reflexivity|]. constructor; assumption.
Qed.
