(** With the fix to the choice of the starting point, and acknowledgments in order,
    a sample starts no later than the sending of its packet; and what a congestion
    event reports of its samples. *)
Require Import Verif.Base Verif.BwModel Verif.SampModel Verif.SampSpec Verif.SampProofs.

Definition first_le (l : list apoint) (b : Z) : Prop := match l with [] => False | x :: _ => ap_bytes x <= b end.
Record K (h : list sev) (s : sampler) : Prop := {
  k_first : (exists t n b, In (SSent t n b 0 true) h) -> sp_cands s <> [];
  k_le : forall n q, open_ n h = Some q -> (forall now n', In (SAcked now n') h -> n' < n) -> first_le (sp_cands s) (acked_total q) }.

Lemma suffix_order (a b : list sev) : forall l l', l ++ a = l' ++ b -> (exists m, a = m ++ b) \/ (exists m, b = m ++ a).
Proof.
  induction l as [|x l IH]; intros l' e; cbn in e; [left; eauto|]. destruct l' as [|y l']; cbn in e; [right; exists (x :: l); auto|].
  injection e as _ e. eauto.
Qed.
Lemma open_order h n q m q' : sensible h -> open_ n h = Some q -> open_ m h = Some q' -> n <= m -> acked_total q <= acked_total q'.
Proof.
  intros hs e e' hnm. destruct (open_shape _ _ _ e) as ((l & e1) & t & b & f & q1 & e2). destruct (open_shape _ _ _ e') as ((l' & e1') & t' & b' & f' & q1' & e2').
  destruct (suffix_order q q' l l' ltac:(congruence)) as [(x & ex)|(x & ex)].
  - destruct x as [|y x]; [cbn in ex; rewrite ex; lia|]. exfalso. rewrite e1 in hs. apply sensible_app in hs. rewrite e2 in ex, hs. cbn in ex. injection ex as <- ex. subst q1.
    cbn in hs. destruct hs as (_ & _ & _ & hn & _). specialize (hn t' m b' f' true). rewrite e2' in hn. specialize (hn ltac:(apply in_or_app; right; left; auto)). lia.
  - rewrite ex. apply acked_mono. rewrite <- ex. rewrite e1' in hs. apply sensible_app in hs. exact hs.
Qed.

Lemma choose_fix b l a l' : first_le l b -> choose_a0 true b l = (a, l') -> first_le l' b /\ exists x, a = Some x /\ ap_bytes x <= b.
Proof.
  revert a l'. induction l as [|x l IH]; intros a l' hl e; [destruct hl|]. cbn [choose_a0] in e. destruct l as [|y l].
  - injection e as <- <-. split; auto. eauto.
  - destruct (b <? ap_bytes y) eqn:E; [injection e as <- <-; split; eauto|]. apply IH; auto. cbn. lia.
Qed.

Lemma K_same h s e s' : K h s -> sp_cands s' = sp_cands s -> (forall n q, open_ n (e :: h) = Some q -> open_ n h = Some q) ->
  (match e with SSent _ _ _ _ true => False | _ => True end) -> K (e :: h) s'.
Proof.
  intros k ec eo es. destruct k. constructor; rewrite ec.
  - intros (t & n & b & [->|hin]); [destruct es|]. apply k_first0. eauto.
  - intros n q hq hn. apply (k_le0 n q); auto. intros now n' hin. eapply hn. right. eauto.
Qed.

Lemma tk_cands c bw bytes s s' x : tk_update c bw bytes s = Ok (s', x) -> sp_cands s' = sp_cands s.
Proof.
  unfold tk_update. cbv zeta. destruct (tk_start s); [|intros e; injection e as <- <-; reflexivity]. destruct (_ <? _); [intros e; injection e as <- <-; reflexivity|].
  destruct (_ <=? _); [intros e; injection e as <- <-; reflexivity|]. destruct (_ <? _); [discriminate|]. intros e; injection e as <- <-; reflexivity.
Qed.
Lemma end_cands c bw s s' x : sp_on_end c bw s = Ok (s', x) -> exists l, sp_cands s' = sp_cands s ++ l.
Proof.
  unfold sp_on_end. destruct (_ <? _); [discriminate|]. destruct (_ =? 0); [intros e; injection e as <- <-; exists []; rewrite app_nil_r; auto|].
  destruct (tk_update _ _ _ _) as [(s1, y)| |] eqn:E; cbn [bind]; try discriminate. apply tk_cands in E. cbn in E.
  destruct (_ && _); [|intros e; injection e as <- <-; exists []; rewrite app_nil_r; auto]. destruct (less_recent _ _ _); [|discriminate].
  intros e; injection e as <- <-. cbn. rewrite E. eauto.
Qed.
Lemma acked_cands c now n s s' r p m : sc_avoid c = true -> smap_take n (sp_map s) = (p, m) -> sp_on_acked c now n s = Ok (s', r) ->
  sp_cands s' = match p with Some p => snd (choose_a0 (sc_fix c) (bp_acked p) (sp_cands s)) | None => sp_cands s end.
Proof.
  intros hav ht. unfold sp_on_acked. rewrite ht, hav. destruct p as [p|]; [|intros e; injection e as <- <-; reflexivity]. cbv zeta.
  destruct (points_update _ _) as [(p0, p1)| |]; cbn [bind]; try discriminate.
  match goal with |- bind ?x _ = _ -> _ => destruct x as [sr| |]; cbn [bind]; try discriminate end.
  destruct (choose_a0 _ _ _) as (a0 & cands). cbn [snd]. destruct (_ <=? _); [intros e; injection e as <- <-; reflexivity|].
  destruct (_ <? _); [discriminate|]. destruct (srate _ _); cbn [bind]; try discriminate. intros e; injection e as <- <-; reflexivity.
Qed.

Lemma step_K c t0 ev h s s' : sc_avoid c = true -> sc_fix c = true -> J c t0 h s -> K h s -> sensible (ev :: h) -> in_order (ev :: h) -> sp_step c ev s = Ok s' -> K (ev :: h) s'.
Proof.
  intros hav hfx hj hk hs ho e. pose proof (sensible_tl _ _ hs) as h1. destruct ev as [t n b f r|n|n b|now n|bw| |least]; cbn [sp_step] in e.
  - destruct r; cbn in ho.
    2:{ unfold sp_on_sent in e. cbn in e. injection e as <-. apply (K_same h s); auto. }
    unfold sp_on_sent in e. cbn [negb] in e. rewrite hav, Bool.andb_true_r in e. cbv zeta in e.
    match type of e with bind ?x _ = _ => destruct x as [(p0, p1)| |]; cbn [bind] in e; try discriminate end.
    destruct (smap_insert _ _ _) as [m| |]; cbn [bind] in e; try discriminate. injection e as <-. destruct ho as (o1 & o2 & o3).
    pose proof (jacked _ _ _ _ hj) as hja. destruct (f =? 0) eqn:Ef.
    + constructor; cbn [sp_cands]; [discriminate|]. intros n' q hq _. cbn [open_] in hq. destruct (n =? n'); [|rewrite o1 in hq by lia; discriminate].
      injection hq as <-. cbn. lia.
    + constructor; cbn [sp_cands]; [intros _; apply hk; apply o2; lia|]. intros n' q hq hn. cbn [open_] in hq. destruct (n =? n') eqn:En.
      * injection hq as <-. cbn [acked_total]. pose proof (k_first _ _ hk (o2 ltac:(lia))) as hne. pose proof (jcands _ _ _ _ hj hav) as hl.
        destruct (sp_cands s) as [|x l]; [congruence|]. cbn. apply (line_le h); auto. apply hl. left; auto.
      * apply (k_le _ _ hk n' q hq). intros now' m' hin. eapply hn. right; eauto.
  - injection e as <-. apply (K_same h s); auto; [unfold sp_on_neutered; destruct (smap_take _ _); reflexivity|]. intros x q. cbn. destruct (n =? x); [discriminate|auto].
  - injection e as <-. apply (K_same h s); auto; [unfold sp_on_lost; destruct (smap_take _ _); reflexivity|]. intros x q. cbn. destruct (n =? x); [discriminate|auto].
  - destruct (sp_on_acked c now n s) as [(s1, r)| |] eqn:E; cbn [bind] in e; try discriminate. injection e as <-.
    destruct (smap_take n (sp_map s)) as (p & m) eqn:Et. pose proof (acked_cands c now n s s1 r p m hav Et E) as ec.
    destruct (take_spec _ _ _ _ (jsorted _ _ _ _ hj) Et) as (a & _). pose proof (jmap _ _ _ _ hj n) as hm. rewrite <- a in hm.
    destruct ho as (o1 & o2). destruct (open_ n h) as [q|] eqn:Eo; cbn [option_map] in hm; rewrite hm in ec.
    2:{ apply (K_same h s); auto. intros x q. cbn. destruct (n =? x); [discriminate|auto]. }
    pose proof (k_le _ _ hk n q Eo o1) as hfl. cbn [bp_acked describe] in ec. rewrite hfx in ec.
    destruct (choose_a0 true (acked_total q) (sp_cands s)) as (a0 & l) eqn:Ec. cbn [snd] in ec. destruct (choose_fix _ _ _ _ hfl Ec) as (hl & _).
    constructor; rewrite ec; [intros _; destruct l; [destruct hl|discriminate]|]. intros n' q' hq hn. cbn [open_] in hq. destruct (n =? n'); [discriminate|].
    pose proof (hn now n (or_introl eq_refl)) as hlt. pose proof (open_order h n q n' q' h1 Eo hq ltac:(lia)) as hle. destruct l; [destruct hl|]. cbn in *. lia.
  - destruct (sp_on_end c bw s) as [(s1, x)| |] eqn:E; cbn [bind] in e; try discriminate. injection e as <-. destruct (end_cands _ _ _ _ _ E) as (l & el).
    constructor; rewrite el.
    + intros (t & n & b & [|hin]); [discriminate|]. pose proof (k_first _ _ hk ltac:(eauto)) as k. destruct (sp_cands s); [congruence|discriminate].
    + intros n q hq hn. cbn in hq. pose proof (k_le _ _ hk n q hq ltac:(intros; eapply hn; right; eauto)) as k. destruct (sp_cands s); [destruct k|exact k].
  - injection e as <-. apply (K_same h s); auto.
  - injection e as <-. apply (K_same h s); auto. intros x q. cbn. destruct (x <? least); [discriminate|auto].
Qed.

Lemma in_order_tl e h : in_order (e :: h) -> in_order h.
Proof. destruct e as [? ? ? ? []| | | | | |]; cbn; tauto. Qed.
Lemma all_K c t0 h s : (forall x, x <= sc_scale c x) -> instant t0 -> sc_avoid c = true -> sc_fix c = true -> sensible h -> in_order h -> sp_after_all c t0 h = Ok s -> K h s.
Proof.
  intros hsc ht hav hfx. revert s. induction h as [|ev h IH]; intros s hs ho e; cbn [sp_after_all] in e.
  - injection e as <-. constructor; [intros (? & ? & ? & [])|discriminate].
  - pose proof (sensible_tl _ _ hs) as h1. pose proof (all_J c t0 h hsc ht h1) as hj. destruct (sp_after_all c t0 h) as [s0| |]; cbn [bind] in e; try discriminate.
    apply (step_K c t0 ev h s0 s); auto. apply IH; auto. apply in_order_tl in ho. exact ho.
Qed.

(** ** Events *)
Lemma losses_hist c t0 h s lost l s' l' : sp_after_all c t0 h = Ok s -> sp_losses lost l s = (s', l') ->
  sp_after_all c t0 (rev (map (fun x => SLost (fst x) (snd x)) lost) ++ h) = Ok s'.
Proof.
  revert h s l. induction lost as [|(n, b) lost IH]; intros h s l e e1; cbn [sp_losses map rev app fst snd] in *.
  - injection e1 as <- <-. exact e.
  - destruct (sp_on_lost n b s) as (s1 & p) eqn:E. rewrite <- app_assoc. cbn [app]. eapply IH; [|exact e1]. cbn [sp_after_all]. rewrite e. cbn [bind sp_step]. rewrite E. reflexivity.
Qed.
Lemma samples_hist c t0 h s now acked s' l : sp_after_all c t0 h = Ok s -> samples c now acked s = Ok (s', l) ->
  sp_after_all c t0 (rev (map (SAcked now) acked) ++ h) = Ok s'.
Proof.
  revert h s l. induction acked as [|n acked IH]; intros h s l e e1; cbn [samples map rev app] in *.
  - injection e1 as <- <-. exact e.
  - destruct (sp_on_acked c now n s) as [(s1, r)| |] eqn:E; cbn [bind] in e1; try discriminate. destruct (samples c now acked s1) as [(s2, l2)| |] eqn:E2; cbn [bind] in e1; try discriminate.
    injection e1 as <- <-. rewrite <- app_assoc. cbn [app]. eapply IH; [|exact E2]. cbn [sp_after_all]. rewrite e. cbn [bind sp_step]. rewrite E. reflexivity.
Qed.

(** [e'] extends [e] by the samples [l] *)
Definition max_of (o : option Z) (l : list Z) (o' : option Z) : Prop :=
  (forall x, In x l -> olt o' (Some x) = false) /\ olt o' o = false /\ (o' = o \/ exists x, In x l /\ o' = Some x).
Definition reports (e : esample) (l : list bsample) (e' : esample) : Prop :=
  (forall r, In r l -> olt (es_bw e') (Some (bs_bw r)) = false) /\ olt (es_bw e') (es_bw e) = false /\
  ((es_bw e' = es_bw e /\ es_app e' = es_app e) \/ exists r, In r l /\ es_bw e' = Some (bs_bw r) /\ es_app e' = bp_app (bs_state r)) /\
  (forall r, In r l -> exists m, es_rtt e' = Some m /\ m <= bs_rtt r) /\
  (forall m, es_rtt e = Some m -> exists m', es_rtt e' = Some m' /\ m' <= m) /\
  (es_rtt e' = es_rtt e \/ exists r, In r l /\ es_rtt e' = Some (bs_rtt r)).
Lemma olt_trans a b d : olt a b = false -> olt b d = false -> olt a d = false.
Proof. destruct a, b, d; cbn; auto; try discriminate; lia. Qed.
Lemma olt_asym a b : olt a b = true -> olt b a = false.
Proof. destruct a, b; cbn; auto; lia. Qed.
Lemma olt_refl a : olt a a = false.
Proof. destruct a; cbn; auto; lia. Qed.

Lemma acks_reports c now acked : forall l e s s' l' e', sp_acks c now acked l e s = Ok (s', l', e') ->
  exists rs, samples c now acked s = Ok (s', rs) /\ reports e rs e'.
Proof.
  induction acked as [|n acked IH]; intros l e s s' l' e' h; cbn [sp_acks samples] in *.
  - injection h as <- <- <-. exists []. split; auto. unfold reports. split; [intros r []|]. split; [apply olt_refl|]. split; [auto|]. split; [intros r []|]. split; [|auto]. intros m em. exists m. split; auto. lia.
  - destruct (sp_on_acked c now n s) as [(s1, [r|])| |] eqn:E; cbn [bind] in *; try discriminate.
    + destruct (_ <? _); [discriminate|]. destruct (IH _ _ _ _ _ _ h) as (rs & -> & hr). cbn [bind]. exists (r :: rs). split; auto.
      destruct hr as (a1 & a2 & a3 & a4 & a5 & a6). cbn [es_bw es_app es_rtt] in *. set (better := olt (es_bw e) (Some (bs_bw r))) in *.
      assert (b1 : olt (es_bw e') (Some (bs_bw r)) = false).
      { destruct better eqn:Eb; auto. eapply olt_trans; [exact a2|]. exact Eb. }
      assert (b2 : olt (es_bw e') (es_bw e) = false).
      { destruct better eqn:Eb; auto. eapply olt_trans; [exact a2|]. apply olt_asym. exact Eb. }
      split; [intros x [<-|hx]; auto|]. split; [exact b2|]. split.
      { destruct a3 as [(e1 & e2)|(x & hx & e1 & e2)]; [|right; exists x; split; [right; auto|auto]]. destruct better; [right; exists r; split; [left; auto|auto]|left; auto]. }
      destruct (a5 _ eq_refl) as (m' & em & hm). split.
      { intros x [<-|hx]; [|auto]. exists m'. split; auto. destruct (es_rtt e); lia. }
      split; [intros m e0; rewrite e0 in *; exists m'; split; auto; lia|].
      destruct a6 as [a6|(x & hx & a6)]; [|right; exists x; split; [right; auto|auto]].
      destruct (es_rtt e) as [m|]; [|right; exists r; split; [left; auto|auto]]. destruct (Z_le_dec (bs_rtt r) m).
      * right. exists r. split; [left; auto|]. rewrite a6, Z.min_l by lia. reflexivity.
      * left. rewrite a6, Z.min_r by lia. reflexivity.
    + destruct (IH _ _ _ _ _ _ h) as (rs & -> & hr). cbn [bind]. exists rs. auto.
Qed.
