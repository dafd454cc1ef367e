(** The sampler is a function of the history. *)
Require Import Verif.Base Verif.BwModel Verif.SampModel Verif.SampSpec.
From Coq Require Import Sorting.Sorted.

Fixpoint sget (n : Z) (l : list (Z * option bpkt)) : option bpkt :=
  match l with [] => None | (k, v) :: tl => if k =? n then v else sget n tl end.
Definition keys (l : list (Z * option bpkt)) : list Z := map fst l.
Definition sorted (l : list (Z * option bpkt)) : Prop := StronglySorted Z.lt (keys l).

Lemma sget_out n l : ~ In n (keys l) -> sget n l = None.
Proof. induction l as [|(k, v) l IH]; cbn; auto. intros h. destruct (k =? n) eqn:E; [exfalso; apply h; left; lia|]. apply IH. tauto. Qed.
Lemma sorted_tl x l : sorted (x :: l) -> sorted l /\ ~ In (fst x) (keys l) /\ forall k, In k (keys l) -> fst x < k.
Proof.
  unfold sorted. cbn. intros h. inversion h; subst. rewrite Forall_forall in H2. split; auto. split; auto. intros hin. apply H2 in hin. lia.
Qed.
Lemma find_spec n l r l' : smap_find n l = (r, l') -> r = sget n l /\ (forall m, sget m l' = if m =? n then None else sget m l) /\ keys l' = keys l.
Proof.
  revert r l'. induction l as [|(k, v) l IH]; intros r l' e; cbn in *.
  - injection e as <- <-. split; auto. split; auto. intros m. cbn. destruct (m =? n); auto.
  - destruct (k =? n) eqn:E.
    + injection e as <- <-. split; auto. split; auto. intros m. cbn. destruct (k =? m) eqn:E2; destruct (m =? n) eqn:E3; auto; lia.
    + destruct (smap_find n l) as (r1 & l1). injection e as <- <-. destruct (IH _ _ eq_refl) as (a & b & d). split; auto. split; [|unfold keys in *; cbn; congruence].
      intros m. cbn. rewrite b. destruct (k =? m) eqn:E2; destruct (m =? n) eqn:E3; auto; lia.
Qed.
Lemma trim_spec l : sorted l -> sorted (smap_trim l) /\ (forall m, sget m (smap_trim l) = sget m l) /\ incl (keys (smap_trim l)) (keys l).
Proof.
  induction l as [|(k, [v|]) l IH]; intros h; cbn [smap_trim]; try (split; [auto|split; auto; apply incl_refl]).
  destruct (sorted_tl _ _ h) as (h1 & h2 & _). destruct (IH h1) as (a & b & d). split; auto. split; [|apply incl_tl; auto].
  intros m. rewrite b. cbn. destruct (k =? m) eqn:E; auto. apply sget_out. replace m with k by lia. exact h2.
Qed.
Lemma take_spec n l r l' : sorted l -> smap_take n l = (r, l') ->
  r = sget n l /\ (forall m, sget m l' = if m =? n then None else sget m l) /\ sorted l' /\ incl (keys l') (keys l).
Proof.
  intros h e. destruct l as [|(k, v) l]; cbn [smap_take] in e.
  - injection e as <- <-. split; auto. split; [|split; [auto|apply incl_refl]]. intros m. cbn. destruct (m =? n); auto.
  - destruct (k =? n) eqn:E.
    + injection e as <- <-. cbn. rewrite E. split; auto. destruct (sorted_tl _ _ h) as (h1 & h2 & _). split; [|split; [auto|apply incl_tl, incl_refl]].
      intros m. destruct (m =? n) eqn:E2; [apply sget_out; replace m with k by lia; exact h2|]. replace (k =? m) with false by lia. reflexivity.
    + destruct (smap_find n ((k, v) :: l)) as (r1 & l1) eqn:F. injection e as <- <-. destruct (find_spec _ _ _ _ F) as (a & b & d).
      assert (h1 : sorted l1) by (unfold sorted; rewrite d; exact h). destruct (trim_spec _ h1) as (x & y & z). split; auto.
      split; [intros m; rewrite y; apply b|]. split; auto. rewrite <- d. exact z.
Qed.
Lemma obsolete_spec least l : sorted l -> sorted (smap_obsolete least l) /\ (forall m, sget m (smap_obsolete least l) = if m <? least then None else sget m l) /\
  incl (keys (smap_obsolete least l)) (keys l).
Proof.
  induction l as [|(k, v) l IH]; intros h; cbn [smap_obsolete].
  - split; auto. split; [|apply incl_refl]. intros m. cbn. destruct (m <? least); auto.
  - destruct (sorted_tl _ _ h) as (h1 & h2 & h3). cbn [fst] in *. destruct (k <? least) eqn:E.
    + destruct (IH h1) as (a & b & d). split; auto. split; [|apply incl_tl; auto]. intros m. rewrite b. destruct (m <? least) eqn:E2; auto.
      cbn. replace (k =? m) with false by lia. reflexivity.
    + split; auto. split; [|apply incl_refl]. intros m. destruct (m <? least) eqn:E2; auto. apply sget_out. cbn. intros [e|hin]; [lia|]. apply h3 in hin. lia.
Qed.
Lemma sget_app n a b : sget n (a ++ b) = if existsb (fun k => k =? n) (keys a) then sget n a else sget n b.
Proof. induction a as [|(k, v) a IH]; cbn; auto. destruct (k =? n); auto. Qed.
Lemma sorted_app_one l n v : sorted l -> (forall k, In k (keys l) -> k < n) -> sorted (l ++ [(n, v)]).
Proof.
  induction l as [|(k, w) l IH]; intros h hk; [repeat constructor|]. destruct (sorted_tl _ _ h) as (h1 & h2 & h3).
  unfold sorted. cbn. constructor; [apply IH; auto; intros; apply hk; right; auto|]. apply Forall_forall. intros x hx. unfold keys in hx.
  rewrite map_app in hx. apply in_app_or in hx. destruct hx as [hx|[<-|[]]]; [apply h3; exact hx|apply hk; left; auto].
Qed.
Lemma insert_spec n v l : sorted l -> (forall k, In k (keys l) -> k < n) -> exists l', smap_insert n v l = Ok l' /\ sorted l' /\
  (forall m, sget m l' = if m =? n then Some v else sget m l) /\ (forall k, In k (keys l') -> k = n \/ In k (keys l)).
Proof.
  intros h hk. exists (l ++ [(n, Some v)]). split; [|split; [apply sorted_app_one; auto|split]].
  - unfold smap_insert. destruct l as [|x l]; [reflexivity|]. assert (hl : In (fst (last (x :: l) (0, None))) (keys (x :: l))).
    { apply in_map. clear. revert x. induction l as [|y l IH]; intros x; [left; auto|]. right. apply (IH y). }
    apply hk in hl. replace (_ <=? _) with false by lia. reflexivity.
  - intros m. rewrite sget_app. cbn. destruct (existsb _ _) eqn:E.
    + apply existsb_exists in E. destruct E as (k & hin & ek). apply hk in hin. replace (m =? n) with false by lia. reflexivity.
    + assert (e0 : sget m l = None).
      { apply sget_out. intros hin. assert (existsb (fun k => k =? m) (keys l) = true); [|congruence]. apply existsb_exists. exists m. split; auto. lia. }
      rewrite e0. destruct (n =? m) eqn:E1; destruct (m =? n) eqn:E2; auto; lia.
  - intros k hin. unfold keys in hin. rewrite map_app in hin. apply in_app_or in hin. destruct hin as [hin|[<-|[]]]; auto.
Qed.

(** ** Facts about histories *)
Lemma open_shape n h q : open_ n h = Some q -> (exists l, h = l ++ q) /\ exists t b f q', q = SSent t n b f true :: q'.
Proof.
  induction h as [|e h IH]; [discriminate|]. cbn [open_]. intros e0.
  assert (k : open_ n h = Some q -> (exists l, e :: h = l ++ q) /\ exists t b f q', q = SSent t n b f true :: q').
  { intros e1. destruct (IH e1) as ((l & ->) & k). split; auto. exists (e :: l). reflexivity. }
  destruct e as [t n' b f []|n'|n' b|now n'|bw| |least]; auto; try (destruct (n' =? n) eqn:E; [discriminate|auto]); [|destruct (n <? least); [discriminate|auto]].
  destruct (n' =? n) eqn:E; [|auto]. injection e0 as <-. split; [exists []; reflexivity|]. replace n with n' by lia. eauto 6.
Qed.
Lemma sensible_app a b : sensible (a ++ b) -> sensible b.
Proof. induction a as [|e a IH]; cbn [app]; auto. intros h. apply IH. destruct e; cbn in h; tauto. Qed.
Lemma open_sensible n h q : sensible h -> open_ n h = Some q -> sensible q /\ 0 <= head_size q.
Proof.
  intros hs e. destruct (open_shape _ _ _ e) as ((l & ->) & t & b & f & q' & ->). apply sensible_app in hs. split; auto. cbn in hs. cbn. tauto.
Qed.
Lemma acked_up e h : sensible h -> acked_total h <= acked_total (e :: h).
Proof.
  intros hs. destruct e as [? ? ? ? []| | | | | |]; cbn [acked_total]; try lia. destruct (open_ n h) eqn:E; [|lia]. apply open_sensible in E; auto. lia.
Qed.
Lemma sensible_tl e h : sensible (e :: h) -> sensible h.
Proof. apply (sensible_app [e]). Qed.
Lemma acked_mono l h : sensible (l ++ h) -> acked_total h <= acked_total (l ++ h).
Proof. induction l as [|e l IH]; intros hs; cbn [app] in *; [lia|]. pose proof (sensible_tl _ _ hs) as h1. specialize (IH h1). pose proof (acked_up e _ h1). lia. Qed.
Lemma sent_up e h : sensible (e :: h) -> sent_total h <= sent_total (e :: h).
Proof. intros hs. destruct e as [? ? ? ? []| | | | | |]; cbn in *; lia. Qed.
Lemma sent_mono l h : sensible (l ++ h) -> sent_total h <= sent_total (l ++ h).
Proof. induction l as [|e l IH]; intros hs; cbn [app] in *; [lia|]. pose proof (sensible_tl _ _ hs) as h1. specialize (IH h1). pose proof (sent_up e _ hs). lia. Qed.
Lemma open_le n h q : sensible h -> open_ n h = Some q -> acked_total q <= acked_total h /\ sent_total q <= sent_total h.
Proof. intros hs e. destruct (open_shape _ _ _ e) as ((l & ->) & _). split; [apply acked_mono|apply sent_mono]; auto. Qed.
Lemma acked_nonneg h : sensible h -> 0 <= acked_total h.
Proof. intros hs. rewrite <- (app_nil_r h) in *. apply (acked_mono h [] hs). Qed.
Lemma flagged_le t0 h : sensible h -> 0 <= snd (flagged t0 h) <= sent_total h.
Proof.
  induction h as [|e h IH]; [cbn; lia|]. intros hs. pose proof (sensible_tl _ _ hs) as h1. specialize (IH h1). pose proof (sent_up _ _ hs) as h2.
  destruct e as [t n b f []| |n b|now n|bw| |least]; cbn [flagged]; try lia.
  - destruct (f =? 0); cbn [snd]; lia.
  - destruct (open_ n h) eqn:E; [|lia]. cbn [snd]. apply open_le in E as E2; auto. apply open_sensible in E; auto. destruct E as (E & _).
    pose proof (sent_mono l [] ltac:(rewrite app_nil_r; auto)) as z. rewrite app_nil_r in z. cbn in z. lia.
Qed.
Lemma line_le h a : sensible h -> In a (ack_line h) -> 0 <= ap_bytes a <= acked_total h.
Proof.
  induction h as [|e h IH]; [intros _ []|]. intros hs hin. pose proof (sensible_tl _ _ hs) as h1. specialize (IH h1). pose proof (acked_up e h h1) as h2.
  assert (k : In a (ack_line h) -> 0 <= ap_bytes a <= acked_total (e :: h)) by (intros k; specialize (IH k); lia).
  pose proof (acked_nonneg h h1) as h0.
  destruct e as [t n b f []| |n b|now n|bw| |least]; cbn [ack_line] in hin; auto.
  - destruct (f =? 0); auto. destruct hin as [<-|hin]; [cbn [ap_bytes]; lia|auto].
  - destruct (open_ n h); auto. destruct hin as [<-|hin]; [cbn [ap_bytes]; lia|auto].
Qed.

(** ** The invariant *)
Record J (c : scfg) (t0 : Z) (h : list sev) (s : sampler) : Prop := {
  jsent : sp_sent s = sent_total h; jacked : sp_acked s = acked_total h; jlost : sp_lost s = lost_total h; jneut : sp_neut s = neut_total h;
  jlast : sp_last_sent s = last_num h; jlimit : limit h = if sp_app s then Some (sp_eoal s) else None;
  jnews : sp_ack_time s = news t0 h; jflag : flagged t0 h = (sp_sent_time s, sp_sent_at s);
  jmap : forall n, sget n (sp_map s) = option_map (describe t0) (open_ n h);
  jsorted : sorted (sp_map s);
  jkeys : forall k, In k (keys (sp_map s)) -> exists t b f r, In (SSent t k b f r) h;
  jcands : sc_avoid c = true -> incl (sp_cands s) (ack_line h);
  jp0 : sc_avoid c = true -> forall a, sp_p0 s = Some a -> In a (ack_line h);
  jp1 : sc_avoid c = true -> forall a, sp_p1 s = Some a -> In a (ack_line h);
  jafter : 0 <= sp_after s <= sp_acked s;
  jfresh : sc_avoid c = true -> sp_after s < sp_acked s -> sp_p1 s <> None }.

Lemma J_new c t0 : J c t0 [] (sp_new t0).
Proof. constructor; cbn; auto; try lia; try (intros; discriminate); try (intros k []); try (intros _ ? []); try (intros; lia); try constructor. all: try (intros; apply incl_nil_l). all: cbn in *; try lia; try tauto. Qed.

Lemma limited_app c t0 h s : J c t0 h s -> sp_app s = limited (limit h).
Proof. intros h0. rewrite (jlimit _ _ _ _ h0). destruct (sp_app s); reflexivity. Qed.

Lemma sent_J c t0 h s t n b f r : J c t0 h s -> sensible (SSent t n b f r :: h) -> exists s', sp_on_sent c t n b f r s = Ok s' /\ J c t0 (SSent t n b f r :: h) s'.
Proof.
  intros h0 hs. pose proof hs as (_ & hb & hf & hn & h1). unfold sp_on_sent. destruct r; cbn [negb].
  2:{ eexists. split; [reflexivity|]. destruct h0. constructor; cbn; auto. intros k hk. destruct (jkeys0 k hk) as (x1 & x2 & x3 & x4 & x5). eauto 7. }
  pose proof (jafter _ _ _ _ h0) as ha.
  set (quiet := f =? 0).
  assert (pts : exists p0 p1, (if quiet && sc_avoid c then points_update (mkAp t (sp_acked s)) None else Ok (sp_p0 s, sp_p1 s)) = Ok (p0, p1) /\
    (sc_avoid c = true -> forall a, p0 = Some a -> In a (ack_line h)) /\ (sc_avoid c = true -> forall a, p1 = Some a -> In a (ack_line (SSent t n b f true :: h))) /\
    (sc_avoid c = true -> sp_after s < sp_acked s -> p1 <> None)).
  { destruct (quiet && sc_avoid c) eqn:E.
    - exists None, (Some (mkAp t (sp_acked s))). unfold points_update. cbn [ap_bytes]. replace (sp_acked s <? 0) with false by lia. split; auto. split; [discriminate|].
      split; [|discriminate]. intros _ a ea. injection ea as <-. cbn [ack_line]. fold quiet. apply andb_prop in E. destruct E as (-> & _). left. rewrite (jacked _ _ _ _ h0). reflexivity.
    - exists (sp_p0 s), (sp_p1 s). split; auto. split; [apply h0|]. split; [|apply h0]. intros hav a ea. pose proof (jp1 _ _ _ _ h0 hav a ea). cbn [ack_line]. destruct (f =? 0); [right|]; auto. }
  destruct pts as (p0 & p1 & -> & q0 & q1 & qf). cbn [bind].
  destruct (insert_spec n (mkBp t b (if quiet then sp_sent s + b else sp_sent_at s) (if quiet then t else sp_sent_time s) (if quiet then t else sp_ack_time s) (sp_app s) (sp_sent s + b) (sp_acked s) (sp_lost s) (f + b)) (sp_map s) (jsorted _ _ _ _ h0)) as (m & -> & hm1 & hm2 & hm3).
  { intros k hk. destruct (jkeys _ _ _ _ h0 k hk) as (x1 & x2 & x3 & x4 & x5). eapply hn; eauto. }
  cbn [bind]. eexists. split; [reflexivity|]. pose proof (limited_app _ _ _ _ h0) as hl. destruct h0. constructor; cbn [sp_sent sp_acked sp_lost sp_neut sp_last_sent sp_app sp_eoal sp_ack_time sp_sent_time sp_sent_at sp_map sp_cands sp_p0 sp_p1 sp_after]; auto.
  - cbn. lia.
  - cbn. fold quiet. destruct quiet; auto.
  - cbn [flagged]. fold quiet. destruct quiet; auto. cbn [sent_total]. rewrite jsent0. f_equal. apply Z.add_comm.
  - intros k. rewrite hm2. cbn [open_]. destruct (k =? n) eqn:E; destruct (n =? k) eqn:E2; try lia; [|apply jmap0]. cbn [option_map]. f_equal. unfold describe.
    cbn [head_time head_size head_flight news limit sent_total acked_total lost_total flagged]. fold quiet.
    rewrite <- hl, <- jsent0, <- jacked0, <- jlost0, <- jnews0. destruct quiet; cbn [fst snd]; [|rewrite jflag0; cbn [fst snd]]; f_equal; lia.
  - intros k hk. apply hm3 in hk. destruct hk as [->|hk]; [repeat eexists; left; reflexivity|]. destruct (jkeys0 k hk) as (x1 & x2 & x3 & x4 & x5). repeat eexists. right; eauto.
  - intros hav. rewrite hav, Bool.andb_true_r. intros a ha'. cbn [ack_line]. fold quiet. destruct quiet.
    + destruct ha' as [<-|[]]. left. rewrite jacked0. reflexivity.
    + apply jcands0; auto.
  - intros hav a ea. specialize (q0 hav a ea). cbn [ack_line]. destruct (f =? 0); [right|]; auto.
Qed.

(** Histories that only forget a packet *)
Lemma forget_J c t0 h s e m s' : J c t0 h s -> sorted m -> (forall k, sget k m = option_map (describe t0) (open_ k (e :: h))) -> incl (keys m) (keys (sp_map s)) ->
  sp_sent s' = sent_total (e :: h) -> sp_acked s' = acked_total (e :: h) -> sp_lost s' = lost_total (e :: h) -> sp_neut s' = neut_total (e :: h) ->
  sp_last_sent s' = last_num (e :: h) -> limit (e :: h) = (if sp_app s' then Some (sp_eoal s') else None) -> sp_ack_time s' = news t0 (e :: h) ->
  flagged t0 (e :: h) = (sp_sent_time s', sp_sent_at s') -> sp_map s' = m -> sp_cands s' = sp_cands s -> sp_p0 s' = sp_p0 s -> sp_p1 s' = sp_p1 s -> sp_after s' = sp_after s ->
  sp_acked s' = sp_acked s -> ack_line (e :: h) = ack_line h -> J c t0 (e :: h) s'.
Proof.
  intros h0 m1 m2 m3 e1 e2 e3 e4 e5 e6 e7 e8 e9 e10 e11 e12 e13 e14 e15. destruct h0. constructor; auto.
  - rewrite e9. exact m2.
  - rewrite e9. exact m1.
  - rewrite e9. intros k hk. apply m3 in hk. destruct (jkeys0 k hk) as (x1 & x2 & x3 & x4 & x5). repeat eexists. right; eauto.
  - rewrite e10, e15. auto.
  - rewrite e11, e15. auto.
  - rewrite e12, e15. auto.
  - rewrite e13, e14. auto.
  - rewrite e12, e13, e14. auto.
Qed.

Lemma neut_J c t0 h s n : J c t0 h s -> J c t0 (SNeut n :: h) (sp_on_neutered n s).
Proof.
  intros h0. unfold sp_on_neutered. destruct (smap_take n (sp_map s)) as (p & m) eqn:E.
  destruct (take_spec _ _ _ _ (jsorted _ _ _ _ h0) E) as (a & b & d & k). pose proof (jmap _ _ _ _ h0 n) as hm. rewrite <- a in hm.
  eapply forget_J with (m := m); eauto; try (cbn; apply h0); try reflexivity.
  - intros x. rewrite b, (jmap _ _ _ _ h0). cbn [open_]. destruct (x =? n) eqn:E1; destruct (n =? x) eqn:E2; auto; lia.
  - cbn. rewrite (jneut _ _ _ _ h0), hm. destruct (open_ n h); reflexivity.
Qed.
Lemma lost_J c t0 h s n by_ : J c t0 h s -> J c t0 (SLost n by_ :: h) (fst (sp_on_lost n by_ s)) /\ snd (sp_on_lost n by_ s) = option_map (describe t0) (open_ n h).
Proof.
  intros h0. unfold sp_on_lost. destruct (smap_take n (sp_map s)) as (p & m) eqn:E.
  destruct (take_spec _ _ _ _ (jsorted _ _ _ _ h0) E) as (a & b & d & k). pose proof (jmap _ _ _ _ h0 n) as hm. rewrite <- a in hm.
  split; [|exact hm]. cbn [fst]. eapply forget_J with (m := m); eauto; try (cbn; apply h0); try reflexivity.
  - intros x. rewrite b, (jmap _ _ _ _ h0). cbn [open_]. destruct (x =? n) eqn:E1; destruct (n =? x) eqn:E2; auto; lia.
  - cbn. rewrite (jlost _ _ _ _ h0). lia.
Qed.
Lemma app_J c t0 h s : J c t0 h s -> J c t0 (SApp :: h) (sp_on_app_limited s).
Proof.
  intros h0. eapply forget_J with (m := sp_map s); eauto; try (cbn; apply h0); try reflexivity; try apply incl_refl.
  cbn. rewrite (jlast _ _ _ _ h0). reflexivity.
Qed.
Lemma obs_J c t0 h s least : J c t0 h s -> J c t0 (SObs least :: h) (sp_on_obsolete least s).
Proof.
  intros h0. destruct (obsolete_spec least _ (jsorted _ _ _ _ h0)) as (a & b & d).
  eapply forget_J with (m := smap_obsolete least (sp_map s)); eauto; try (cbn; apply h0); try reflexivity.
  intros x. rewrite b, (jmap _ _ _ _ h0). cbn [open_]. destruct (x <? least); auto.
Qed.

(** ** Rates *)
Lemma srate_ok bytes nanos : 0 <= bytes -> 0 < nanos <= u64_max ->
  srate bytes nanos = (if u64_max <? 8 * bytes * 1000000000 then Err tt else Ok (rate_of bytes nanos)).
Proof.
  intros hb hn. unfold srate, bw_from_bytes, rate_of, mul64. destruct (bytes =? 0) eqn:E.
  - replace bytes with 0 by lia. reflexivity.
  - rewrite Z.mod_small by (unfold u64_max in *; lia). replace (nanos =? 0) with false by lia. unfold nanos_per_second.
    destruct (u64_max <? 8 * bytes) eqn:E1; cbn [bind]; [replace (u64_max <? 8 * bytes * 1000000000) with true by lia; reflexivity|].
    destruct (u64_max <? 8 * bytes * 1000000000) eqn:E2; cbn [bind]; [reflexivity|]. destruct (8 * bytes * 1000000000 <? nanos) eqn:E3; f_equal.
    + rewrite Z.div_small by lia. reflexivity.
    + assert (1 <= 8 * bytes * 1000000000 / nanos) by (apply Z.div_le_lower_bound; lia). lia.
Qed.

Lemma open_times t0 n h q : instant t0 -> sensible h -> open_ n h = Some q -> instant (head_time q) /\ instant (fst (flagged t0 q)) /\ instant (news t0 q).
Proof.
  intros ht hs e. apply open_sensible in e as hq; auto. destruct hq as (hq & _). split; [|].
  - destruct (open_shape _ _ _ e) as (_ & t & b & f & q' & ->). cbn in *. tauto.
  - clear e. induction q as [|ev q IH]; [cbn; auto|]. pose proof (sensible_tl _ _ hq) as h1. specialize (IH h1). destruct IH as (i1 & i2).
    destruct ev as [t n' b f []| |n' b|now n'|bw| |least]; cbn [flagged news]; auto.
    + cbn in hq. destruct (f =? 0); cbn [fst]; tauto.
    + cbn in hq. destruct (open_ n' q) eqn:E; [|auto]. cbn [fst]. split; [|tauto]. destruct (open_shape _ _ _ E) as ((l1 & e1) & t & b & f & q' & ->).
      subst q. apply sensible_app in h1. cbn in *. tauto.
Qed.
Lemma line_times h a : sensible h -> In a (ack_line h) -> instant (ap_time a).
Proof.
  induction h as [|e h IH]; [intros _ []|]. intros hs hin. pose proof (sensible_tl _ _ hs) as h1. specialize (IH h1).
  destruct e as [t n b f []| |n b|now n|bw| |least]; cbn [ack_line] in hin; auto.
  - cbn in hs. destruct (f =? 0); auto. destruct hin as [<-|hin]; [cbn; tauto|auto].
  - cbn in hs. destruct (open_ n h); auto. destruct hin as [<-|hin]; [cbn [ap_time]; tauto|auto].
Qed.
Lemma choose_in fix_ b l a l' : choose_a0 fix_ b l = (a, l') -> incl l' l /\ (forall x, a = Some x -> In x l) /\ (a = None -> l = []).
Proof.
  revert a l'. induction l as [|x l IH]; intros a l' e; cbn in e.
  - injection e as <- <-. split; [apply incl_refl|]. split; [discriminate|auto].
  - destruct l as [|y l]; [injection e as <- <-; split; [apply incl_refl|split; [|discriminate]]; intros z ez; injection ez as <-; left; auto|].
    destruct (b <? ap_bytes y).
    + injection e as <- <-. split; [apply incl_refl|]. split; [|discriminate]. intros z ez. injection ez as <-. destruct fix_; [left|right; left]; auto.
    + destruct (IH _ _ e) as (p1 & p2 & p3). split; [apply incl_tl; auto|]. split; [|intros k; specialize (p3 k); discriminate]. intros z ez. right. auto.
Qed.

(** The start of the ack rate of a packet whose sending ends [q]: without the
    avoidance of overestimates, the state at its sending *)
Definition start_point (t0 : Z) (c : scfg) (s : sampler) (q : list sev) : apoint :=
  match (if sc_avoid c then fst (choose_a0 (sc_fix c) (acked_total q) (sp_cands s)) else None) with
  | Some a => a | None => mkAp (news t0 q) (acked_total q) end.
Definition send_rate_of (t0 : Z) (q : list sev) : option Z :=
  if fst (flagged t0 q) <? head_time q then Some (rate_of (sent_total q - snd (flagged t0 q)) (head_time q - fst (flagged t0 q))) else None.
Definition huge (n : Z) : Prop := u64_max < 8 * n * 1000000000.

Lemma acked_J c t0 h s now n : J c t0 h s -> instant t0 -> sensible (SAcked now n :: h) ->
  match sp_on_acked c now n s with
  | Ok (s', r) => J c t0 (SAcked now n :: h) s' /\
      match open_ n h with
      | None => r = None
      | Some q =>
          let a0 := start_point t0 c s q in
          ap_bytes a0 <= acked_total (SAcked now n :: h) /\
          r = if now <=? ap_time a0 then None
              else let ack := rate_of (acked_total (SAcked now n :: h) - ap_bytes a0) (now - ap_time a0) in
                   Some (mkBs (match send_rate_of t0 q with Some x => Z.min x ack | None => ack end) (sat_sub now (head_time q)) (send_rate_of t0 q) ack (describe t0 q))
      end
  | Err _ => huge (Z.max (sent_total h) (acked_total (SAcked now n :: h)))
  | Panic => False
  end.
Proof.
  intros h0 ht hs. pose proof (sensible_tl _ _ hs) as h1. unfold sp_on_acked. destruct (smap_take n (sp_map s)) as (p & m) eqn:E.
  destruct (take_spec _ _ _ _ (jsorted _ _ _ _ h0) E) as (a & b & d & k). pose proof (jmap _ _ _ _ h0 n) as hm. rewrite <- a in hm.
  assert (mm : forall x, sget x m = option_map (describe t0) (open_ x (SAcked now n :: h))).
  { intros x. rewrite b, (jmap _ _ _ _ h0). cbn [open_]. destruct (x =? n) eqn:E1; destruct (n =? x) eqn:E2; auto; lia. }
  destruct (open_ n h) as [q|] eqn:Eo; cbn [option_map] in hm; subst p; rewrite hm.
  2:{ split; [|reflexivity]. eapply forget_J with (m := m); eauto; try (cbn; rewrite ?Eo; try apply h0; try reflexivity).
      rewrite (jacked _ _ _ _ h0). lia. }
  pose proof (open_sensible _ _ _ h1 Eo) as (hq & hsz). pose proof (open_le _ _ _ h1 Eo) as (hqa & hqs). pose proof (acked_nonneg _ hq) as hq0.
  assert (ea : sp_acked s + bp_size (describe t0 q) = acked_total (SAcked now n :: h)).
  { cbn [acked_total describe bp_size]. rewrite Eo, (jacked _ _ _ _ h0). reflexivity. }
  cbn zeta. rewrite ea. set (acked := acked_total (SAcked now n :: h)) in *. pose proof (jafter _ _ _ _ h0) as haf. cbn [describe bp_size] in ea.
  pose proof (jacked _ _ _ _ h0) as hja. assert (hup : acked_total h <= acked) by lia.
  assert (hline : ack_line (SAcked now n :: h) = mkAp now acked :: ack_line h) by (cbn [ack_line]; rewrite Eo; reflexivity).
  assert (pts : exists p0 p1, (if sc_avoid c then points_update (mkAp now acked) (sp_p1 s) else Ok (sp_p0 s, sp_p1 s)) = Ok (p0, p1) /\
    (sc_avoid c = true -> forall a, p0 = Some a -> In a (ack_line h)) /\ (sc_avoid c = true -> p1 = Some (mkAp now acked))).
  { destruct (sc_avoid c) eqn:Ev; [|exists (sp_p0 s), (sp_p1 s); split; [auto|split; discriminate]].
    exists (sp_p1 s), (Some (mkAp now acked)). unfold points_update. cbn [ap_bytes]. split; [|split; [intros _; apply (jp1 _ _ _ _ h0 Ev)|auto]].
    destruct (sp_p1 s) as [x|] eqn:Ep; [|replace (acked <? 0) with false by lia; reflexivity].
    pose proof (line_le h x h1 (jp1 _ _ _ _ h0 Ev x Ep)). replace (acked <? ap_bytes x) with false by lia. reflexivity. }
  destruct pts as (p0 & p1 & -> & q0 & q1). cbn [bind describe bp_last_sent bp_time bp_sent bp_sent_at bp_acked bp_last_ack].
  pose proof (flagged_le t0 q hq) as hfl. destruct (open_times t0 n h q ht h1 Eo) as (t1 & t2 & t3). unfold instant in t1, t2, t3.
  assert (snd_ : exists x, (if fst (flagged t0 q) <? head_time q
     then if sent_total q <? snd (flagged t0 q) then Panic
          else let* r := srate (sent_total q - snd (flagged t0 q)) (head_time q - fst (flagged t0 q)) in Ok (Some r)
     else Ok None) = x /\ (x = Ok (send_rate_of t0 q) \/ (x = Err tt /\ huge (Z.max (sent_total h) acked)))).
  { eexists. split; [reflexivity|]. unfold send_rate_of. destruct (fst (flagged t0 q) <? head_time q) eqn:E1; [|auto].
    replace (sent_total q <? snd (flagged t0 q)) with false by lia. rewrite srate_ok by lia. destruct (u64_max <? _) eqn:E2; cbn [bind]; [|auto]. right. split; auto. unfold huge. lia. }
  destruct snd_ as (x & -> & [->|(-> & hh)]); cbn [bind]; [|exact hh].
  unfold start_point. destruct (sc_avoid c) eqn:Ev.
  - destruct (choose_a0 (sc_fix c) (acked_total q) (sp_cands s)) as (a0 & cands) eqn:Ec. destruct (choose_in _ _ _ _ _ Ec) as (c1 & c2 & c3). cbn [fst].
    set (a1 := match a0 with Some a => a | None => mkAp (news t0 q) (acked_total q) end).
    assert (ha1 : ap_bytes a1 <= acked /\ 0 <= ap_bytes a1 /\ instant (ap_time a1)).
    { unfold a1. destruct a0 as [z|]; [|cbn [ap_bytes ap_time]; unfold instant; lia]. specialize (c2 z eq_refl). apply (jcands _ _ _ _ h0 Ev) in c2. pose proof (line_le _ _ h1 c2). pose proof (line_times _ _ h1 c2). repeat split; try lia; apply H0. }
    destruct ha1 as (a2 & a3 & a4). unfold instant in a4.
    set (s' := mkSp _ _ _ _ _ _ _ _ _ _ _ _ _ _ _ _ _ _ _).
    assert (hJ : J c t0 (SAcked now n :: h) s').
    { unfold s'. destruct h0. constructor; cbn [sp_sent sp_acked sp_lost sp_neut sp_last_sent sp_app sp_eoal sp_ack_time sp_sent_time sp_sent_at sp_map sp_cands sp_p0 sp_p1 sp_after]; auto.
      - cbn [limit]. rewrite Eo, jlimit0. destruct (sp_app s); cbn [andb]; [|reflexivity]. destruct (sp_eoal s) as [e|]; [|reflexivity]. destruct (e <? n); reflexivity.
      - cbn [news]. rewrite Eo. reflexivity.
      - cbn [flagged]. rewrite Eo. reflexivity.
      - intros z hz. apply k in hz. destruct (jkeys0 z hz) as (x1 & x2 & x3 & x4 & x5). repeat eexists. right; eauto.
      - intros _. rewrite hline. intros z hz. right. apply jcands0; auto.
      - intros _ z hz. rewrite hline. right. auto.
      - intros _ z hz. rewrite q1 in hz by auto. injection hz as <-. rewrite hline. left. reflexivity.
      - lia.
      - intros _ _. rewrite q1 by auto. discriminate. }
    destruct (now <=? ap_time a1) eqn:E1; [split; [exact hJ|split; [lia|reflexivity]]|]. replace (acked <? ap_bytes a1) with false by lia.
    cbn in hs. unfold instant in hs. rewrite srate_ok by lia. destruct (u64_max <? _) eqn:E2; cbn [bind]; [unfold huge; lia|]. split; [exact hJ|]. split; [lia|reflexivity].
  - set (a1 := mkAp (news t0 q) (acked_total q)). 
    set (s' := mkSp _ _ _ _ _ _ _ _ _ _ _ _ _ _ _ _ _ _ _).
    assert (hJ : J c t0 (SAcked now n :: h) s').
    { unfold s'. destruct h0. constructor; cbn [sp_sent sp_acked sp_lost sp_neut sp_last_sent sp_app sp_eoal sp_ack_time sp_sent_time sp_sent_at sp_map sp_cands sp_p0 sp_p1 sp_after]; auto; try congruence.
      - cbn [limit]. rewrite Eo, jlimit0. destruct (sp_app s); cbn [andb]; [|reflexivity]. destruct (sp_eoal s) as [e|]; [|reflexivity]. destruct (e <? n); reflexivity.
      - cbn [news]. rewrite Eo. reflexivity.
      - cbn [flagged]. rewrite Eo. reflexivity.
      - intros z hz. apply k in hz. destruct (jkeys0 z hz) as (x1 & x2 & x3 & x4 & x5). repeat eexists. right; eauto.
      - lia. }
    destruct (now <=? ap_time a1) eqn:E1; [split; [exact hJ|split; [cbn [ap_bytes a1]; lia|reflexivity]]|]. cbn [ap_bytes ap_time a1] in *. replace (acked <? acked_total q) with false by lia.
    cbn in hs. unfold instant in hs. rewrite srate_ok by lia. destruct (u64_max <? _) eqn:E2; cbn [bind]; [unfold huge; lia|]. split; [exact hJ|]. split; [lia|reflexivity].
Qed.

Lemma tk_J c t0 e h s s' bw bytes x : J c t0 (e :: h) s -> tk_update c bw bytes s = Ok (s', x) -> J c t0 (e :: h) s' /\ sp_p0 s' = sp_p0 s /\ sp_p1 s' = sp_p1 s /\
  sp_after s' = sp_after s /\ sp_acked s' = sp_acked s.
Proof.
  intros h0. unfold tk_update. set (w := fun st b before => mkSp (sp_sent s) (sp_acked s) (sp_lost s) (sp_neut s) (sp_last_sent s) (sp_last_acked s) (sp_app s) (sp_ack_time s) (sp_sent_at s) (sp_sent_time s) (sp_p0 s) (sp_p1 s) (sp_cands s) (sp_map s) (sp_eoal s) (sp_after s) st b before).
  assert (hw : forall st b before, J c t0 (e :: h) (w st b before) /\ sp_p0 (w st b before) = sp_p0 s /\ sp_p1 (w st b before) = sp_p1 s /\ sp_after (w st b before) = sp_after s /\ sp_acked (w st b before) = sp_acked s)
    by (intros; split; [destruct h0; constructor; auto|auto]).
  cbv zeta. destruct (tk_start s) as [t|]; [|intros k; injection k as <- <-; apply hw]. destruct (_ <? sp_last_acked s); [intros k; injection k as <- <-; apply hw|].
  destruct (_ <=? sc_scale c _); [intros k; injection k as <- <-; apply hw|]. destruct (_ <? _); [discriminate|]. intros k; injection k as <- <-; apply hw.
Qed.

Lemma end_J c t0 h s bw : (forall x, x <= sc_scale c x) -> J c t0 h s -> sensible h ->
  exists s' x, sp_on_end c bw s = Ok (s', x) /\ J c t0 (SEnd bw :: h) s'.
Proof.
  intros hsc h0 hs. unfold sp_on_end. pose proof (jafter _ _ _ _ h0) as ha. replace (sp_acked s <? sp_after s) with false by lia.
  assert (h1 : J c t0 (SEnd bw :: h) s).
  { destruct h0. constructor; auto. intros k hk. destruct (jkeys0 k hk) as (x1 & x2 & x3 & x4 & x5). repeat eexists. right; eauto. }
  destruct (sp_acked s - sp_after s =? 0) eqn:E; [exists s, 0; auto|].
  set (s1 := mkSp _ _ _ _ _ _ _ _ _ _ _ _ _ _ _ (sp_acked s) _ _ _).
  assert (h2 : J c t0 (SEnd bw :: h) s1) by (unfold s1; destruct h1; constructor; cbn; auto; try lia; intros; lia).
  assert (hk : exists s2 x, tk_update c bw (sp_acked s - sp_after s) s1 = Ok (s2, x)).
  { unfold tk_update. cbv zeta. destruct (tk_start s1); [|eauto]. destruct (_ <? _); [eauto|]. destruct (_ <=? sc_scale c _) eqn:E1; [eauto|].
    destruct (_ <? _) eqn:E2; [|eauto]. exfalso. match type of E1 with (_ <=? sc_scale c ?y) = false => specialize (hsc y) end. lia. }
  destruct hk as (s2 & x & ek). rewrite ek. cbn [bind]. destruct (tk_J _ _ _ _ _ _ _ _ _ h2 ek) as (h3 & e0 & e1 & e2 & e3).
  destruct (sc_avoid c && (x =? 0)) eqn:E1; [|eauto]. apply andb_prop in E1. destruct E1 as (Ev & _).
  assert (hp1 : sp_p1 s2 <> None) by (rewrite e1; cbn; apply (jfresh _ _ _ _ h0 Ev); lia).
  destruct (less_recent (sc_fix c) (sp_p0 s2) (sp_p1 s2)) as [a|] eqn:El.
  - eexists _, x. split; [reflexivity|]. assert (hin : In a (ack_line (SEnd bw :: h))).
    { pose proof (jp0 _ _ _ _ h3 Ev) as i0. pose proof (jp1 _ _ _ _ h3 Ev) as i1. unfold less_recent in El. destruct (sp_p0 s2) as [y|]; [|apply i1; auto].
      destruct (sc_fix c); [destruct (0 <? ap_bytes y)|]; auto. }
    destruct h3. constructor; cbn; auto. intros _. apply incl_app; [apply jcands0; auto|]. intros z [<-|[]]. exact hin.
  - exfalso. unfold less_recent in El. destruct (sp_p0 s2) as [y|]; [|congruence]. destruct (sc_fix c); [destruct (0 <? ap_bytes y)|]; congruence.
Qed.

Theorem step_J c t0 ev h s : (forall x, x <= sc_scale c x) -> instant t0 -> J c t0 h s -> sensible (ev :: h) ->
  match sp_step c ev s with Ok s' => J c t0 (ev :: h) s' | Err _ => huge (Z.max (sent_total h) (acked_total (ev :: h))) | Panic => False end.
Proof.
  intros hsc ht h0 hs. pose proof (sensible_tl _ _ hs) as h1. destruct ev as [t n b f r|n|n b|now n|bw| |least]; cbn [sp_step].
  - destruct (sent_J _ _ _ _ _ _ _ _ _ h0 hs) as (s' & -> & k). exact k.
  - apply neut_J. exact h0.
  - apply lost_J. exact h0.
  - pose proof (acked_J c t0 h s now n h0 ht hs) as k. destruct (sp_on_acked c now n s) as [(s', r)| |]; cbn [bind]; tauto.
  - destruct (end_J c t0 h s bw hsc h0 h1) as (s' & x & -> & k). cbn [bind]. exact k.
  - apply app_J. exact h0.
  - apply obs_J. exact h0.
Qed.

Theorem all_J c t0 h : (forall x, x <= sc_scale c x) -> instant t0 -> sensible h ->
  match sp_after_all c t0 h with Ok s => J c t0 h s | Err _ => huge (Z.max (sent_total h) (acked_total h)) | Panic => False end.
Proof.
  intros hsc ht. induction h as [|ev h IH]; intros hs; cbn [sp_after_all]; [apply J_new|]. pose proof (sensible_tl _ _ hs) as h1. specialize (IH h1).
  pose proof (sent_up _ _ hs) as u1. pose proof (acked_up ev h h1) as u2.
  destruct (sp_after_all c t0 h) as [s| |]; cbn [bind]; [|unfold huge in *; lia|exact IH].
  pose proof (step_J c t0 ev h s hsc ht IH hs) as k. destruct (sp_step c ev s); auto. unfold huge in *. lia.
Qed.
