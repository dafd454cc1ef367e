(** The network model never panics, and its sampler counts what events report. *)
Require Import Verif.Base Verif.BwModel Verif.SampModel Verif.SampSpec Verif.SampProofs Verif.SampOrder Verif.SampBytes Verif.BbrNetModel Verif.BbrNetSpec Verif.BbrNetProofs.

Lemma acks_J c t0 now : instant t0 -> instant now -> forall acked h l e s, J c t0 h s -> sensible h ->
  match sp_acks c now acked l e s with
  | Ok (s', _, _) => J c t0 (rev (map (SAcked now) acked) ++ h) s' /\ sensible (rev (map (SAcked now) acked) ++ h)
  | Err _ => huge (sent_total h)
  | Panic => False
  end.
Proof.
  intros ht hn. induction acked as [|n acked IH]; intros h l e s j hs; cbn [sp_acks map rev app]; [auto|].
  assert (hs' : sensible (SAcked now n :: h)) by (split; auto). pose proof (acked_J c t0 h s now n j ht hs') as ka. pose proof (acked_le_sent _ hs') as hl.
  destruct (sp_on_acked c now n s) as [(s1, r)| |] eqn:E; cbn [bind]; [|unfold huge in *; cbn [sent_total] in *; lia|exact ka].
  destruct ka as (j1 & kr). rewrite <- app_assoc. cbn [app]. destruct r as [r|].
  - destruct (open_ n h) as [q|] eqn:Eq; [|discriminate]. destruct kr as (_ & kr). destruct (now <=? _); [discriminate|]. injection kr as ->. cbn [bs_state bs_bw bs_rtt bs_send bs_ack].
    pose proof (open_le _ _ _ hs Eq) as hq. assert (hb : bp_acked (describe t0 q) = acked_total q) by reflexivity.
    assert (hh : acked_total h <= acked_total (SAcked now n :: h)) by (apply (acked_mono [SAcked now n] h); exact hs').
    replace (sp_acked s1 <? bp_acked (describe t0 q)) with false by (rewrite (jacked _ _ _ _ j1), hb; lia).
    apply (IH (SAcked now n :: h)); auto.
  - apply (IH (SAcked now n :: h)); auto.
Qed.
Lemma losses_J c t0 : forall lost h l s s' l', J c t0 h s -> sensible h -> sp_losses lost l s = (s', l') ->
  J c t0 (rev (map (fun x => SLost (fst x) (snd x)) lost) ++ h) s' /\ sensible (rev (map (fun x => SLost (fst x) (snd x)) lost) ++ h).
Proof.
  induction lost as [|(n, b) lost IH]; intros h l s s' l' j hs e; cbn [sp_losses map rev app fst snd] in *; [injection e as <- _; auto|].
  pose proof (lost_J c t0 h s n b j) as (j1 & _). destruct (sp_on_lost n b s) as (s1 & q). cbn [fst] in j1. rewrite <- app_assoc. cbn [app]. eapply IH; eauto.
Qed.
Lemma not_sent_app l h : (forall e, In e l -> match e with SSent _ _ _ _ _ => False | _ => True end) -> sent_total (l ++ h) = sent_total h /\ (forall t n b f r, In (SSent t n b f r) (l ++ h) -> In (SSent t n b f r) h).
Proof.
  induction l as [|e l IH]; intros hl; cbn [app]; [auto|]. destruct (IH (fun x hx => hl x (or_intror hx))) as (i1 & i2). pose proof (hl e (or_introl eq_refl)) as he.
  split; [destruct e; try destruct retr; cbn [sent_total]; auto; contradiction|]. intros t n b f r [->|hin]; [destruct he|auto].
Qed.
Lemma lost_app lost h : lost_total (rev (map (fun x => SLost (fst x) (snd x)) lost) ++ h) = lost_total h + fold_right (fun x a => snd x + a) 0 lost.
Proof.
  revert h. induction lost as [|(n, b) lost IH]; intros h; cbn [map rev app fold_right fst snd]; [lia|]. rewrite <- app_assoc. cbn [app]. rewrite IH. cbn [lost_total]. lia.
Qed.
Lemma acks_lost now acked h : lost_total (rev (map (SAcked now) acked) ++ h) = lost_total h.
Proof. revert h. induction acked as [|n l IH]; intros h; cbn [map rev app]; auto. rewrite <- app_assoc. cbn [app]. rewrite IH. reflexivity. Qed.

Lemma event_J c t0 h s now acked lost mb bound : (forall x, x <= sc_scale c x) -> instant t0 -> instant now -> J c t0 h s -> sensible h ->
  match sp_event c now acked lost mb bound s with
  | Ok (s', e) => exists h', J c t0 h' s' /\ sensible h' /\ sent_total h' = sent_total h /\ acked_total h <= acked_total h' /\
      lost_total h' = lost_total h + fold_right (fun x a => snd x + a) 0 lost /\ (forall t n b f r, In (SSent t n b f r) h' -> In (SSent t n b f r) h)
  | Err _ => huge (sent_total h)
  | Panic => False
  end.
Proof.
  intros hsc ht hn j hs. unfold sp_event. destruct (sp_losses lost None s) as (s1, l) eqn:El. destruct (losses_J c t0 lost h None s s1 l j hs El) as (j1 & hs1).
  set (h1 := rev (map (fun x => SLost (fst x) (snd x)) lost) ++ h) in *.
  assert (q1 : sent_total h1 = sent_total h /\ (forall t n b f r, In (SSent t n b f r) h1 -> In (SSent t n b f r) h)).
  { apply not_sent_app. intros e he. rewrite <- in_rev in he. apply in_map_iff in he. destruct he as (x & <- & _). exact I. }
  destruct q1 as (q1 & q2). assert (q3 : lost_total h1 = lost_total h + fold_right (fun x a => snd x + a) 0 lost) by apply lost_app.
  assert (q4 : acked_total h <= acked_total h1) by (apply acked_mono; exact hs1).
  destruct acked as [|n0 acked0]; [exists h1; split; [exact j1|split; [exact hs1|split; [exact q1|split; [exact q4|split; [exact q3|exact q2]]]]]|]. set (acked := n0 :: acked0) in *.
  pose proof (acks_J c t0 now ht hn acked h1 None es_none s1 j1 hs1) as ka. destruct (sp_acks c now acked None es_none s1) as [((s2, a), e)| |]; cbn [bind]; [|rewrite <- q1; exact ka|exact ka].
  destruct ka as (j2 & hs2). set (h2 := rev (map (SAcked now) acked) ++ h1) in *.
  assert (q5 : sent_total h2 = sent_total h1 /\ (forall t n b f r, In (SSent t n b f r) h2 -> In (SSent t n b f r) h1)).
  { apply not_sent_app. intros x he. rewrite <- in_rev in he. apply in_map_iff in he. destruct he as (y & <- & _). exact I. }
  destruct q5 as (q5 & q6). assert (q7 : acked_total h1 <= acked_total h2) by (apply acked_mono; exact hs2).
  match goal with |- context [sp_on_end c ?b s2] => destruct (end_J c t0 h2 s2 b hsc j2 hs2) as (s3 & x & -> & j3); cbn [bind]; exists (SEnd b :: h2) end.
  split; [exact j3|]. split; [exact hs2|]. cbn [sent_total acked_total lost_total]. split; [lia|]. split; [lia|]. split; [unfold h2; rewrite acks_lost; exact q3|].
  intros t n b f r [e0|hin]; [discriminate|]. auto.
Qed.

Record N2 (p : npar) (t0 : Z) (ops : list nop) (l : nlog) (n : net) (h : list sev) : Prop := {
  m_J : J (np_sc p) t0 h (nt_sp n);
  m_sens : sensible h;
  m_sent : sent_total h = sent_bytes l;
  m_acked : acked_total h = acked_bytes l;
  m_lost : lost_total h = lost_bytes l;
  m_ops : forall t n b f r, In (SSent t n b f r) h -> In (NSent t f n b r) ops }.

Lemma N2_step p t0 ops l n o h : (forall x, x <= sc_scale (np_sc p) x) -> instant t0 -> N2 p t0 ops l n h -> nsensible (o :: ops) ->
  match nt_step p o n with
  | Ok (n', x) => exists h', N2 p t0 (o :: ops) ((o, x) :: l) n' h'
  | Err _ => huge (sent_bytes l)
  | Panic => False
  end.
Proof.
  intros hsc ht k hs. destruct k. pose proof m_J0 as j.
  assert (same : forall o' n' x h', o = o' -> (match o' with NSent _ _ _ _ _ | NEvent _ _ _ _ _ _ => False | _ => True end) -> (match x with OEv _ => False | _ => True end) ->
     J (np_sc p) t0 h' (nt_sp n') -> sensible h' -> sent_total h' = sent_total h -> acked_total h' = acked_total h -> lost_total h' = lost_total h ->
     (forall t n b f r, In (SSent t n b f r) h' -> In (SSent t n b f r) h) -> N2 p t0 (o' :: ops) ((o', x) :: l) n' h').
  { intros o' n' x h' -> ho hx a1 a2 a3 a4 a5 a6. assert (hx' : x = ONone \/ exists b, x = OBool b) by (destruct x; eauto; contradiction).
    constructor; auto; [destruct o'; try contradiction; destruct hx' as [->|(b & ->)]; cbn; congruence..|]. intros. right. auto. }
  destruct o; cbn [nt_step].
  - unfold nt_sent. assert (hs1 : sensible (SSent t n0 bytes flight retr :: h)).
    { cbn in hs. destruct hs as (b1 & b2 & b3 & b4 & b5). cbn. repeat (split; auto). intros t' n' b' f' r' hin. apply m_ops0 in hin. eapply b4. exact hin. }
    destruct (sent_J (np_sc p) t0 h (nt_sp n) t n0 bytes flight retr j hs1) as (s' & -> & j1). cbn [bind]. exists (SSent t n0 bytes flight retr :: h). constructor; auto.
    + destruct retr; cbn; lia.
    + intros t' n' b' f' r' [e|hin]; [injection e as -> -> -> -> ->; left; auto|right; auto].
  - cbn in hs. destruct hs as (b1 & b2 & b3). destruct (nt_start p time cwnd prior probing acked lost n) as [(n', c)| |] eqn:E; cbn [bind].
    + apply start_shape in E. destruct E as (sp & e & Ee & h1 & h2 & h3 & h4 & h5 & _).
      pose proof (event_J (np_sc p) t0 h (nt_sp n) time acked lost (Some (nt_max n)) (match nt_lo n with Some b => b | None => u64_max end) hsc ht b1 j m_sens0) as ke. rewrite Ee in ke.
      destruct ke as (h' & c1 & c2 & c3 & c4 & c5 & c6). exists h'. constructor; auto.
      * rewrite h3. exact c1. * cbn. congruence. * cbn. rewrite h4, <- (jacked _ _ _ _ c1), (jacked _ _ _ _ j). lia. * cbn. rewrite h5, <- (jlost _ _ _ _ c1), (jlost _ _ _ _ j). lia.
      * intros. right. apply m_ops0, c6. auto.
    + unfold nt_start in E. pose proof (event_J (np_sc p) t0 h (nt_sp n) time acked lost (Some (nt_max n)) (match nt_lo n with Some b => b | None => u64_max end) hsc ht b1 j m_sens0) as ke.
      destruct (match last_num_of acked with Some k => rt_acked k (nt_rt n) | None => (false, nt_rt n) end). cbv zeta in E.
      destruct (sp_event _ _ _ _ _ _ _) as [(sp, ee)| |]; cbn [bind] in E; [|rewrite <- m_sent0; exact ke|discriminate].
      destruct (match es_rtt ee with Some r => if r <? nt_rtt n then (r, time) else (nt_rtt n, nt_rtt_at n) | None => (nt_rtt n, nt_rtt_at n) end). destruct (_ || _); discriminate.
    + unfold nt_start in E. pose proof (event_J (np_sc p) t0 h (nt_sp n) time acked lost (Some (nt_max n)) (match nt_lo n with Some b => b | None => u64_max end) hsc ht b1 j m_sens0) as ke.
      destruct (match last_num_of acked with Some k => rt_acked k (nt_rt n) | None => (false, nt_rt n) end). cbv zeta in E.
      destruct (sp_event _ _ _ _ _ _ _) as [(sp, ee)| |]; cbn [bind] in E; [|discriminate|exact ke].
      destruct (match es_rtt ee with Some r => if r <? nt_rtt n then (r, time) else (nt_rtt n, nt_rtt_at n) | None => (nt_rtt n, nt_rtt_at n) end).
      destruct ke as (h' & c1 & c2 & c3 & c4 & c5 & c6). assert (0 <= fold_right (fun (x : Z * Z) a => snd x + a) 0 lost) by (clear - b2; induction b2; cbn; lia).
      replace (sp_acked sp <? sp_acked (nt_sp n)) with false in E by (rewrite (jacked _ _ _ _ c1), (jacked _ _ _ _ j); lia).
      replace (sp_lost sp <? sp_lost (nt_sp n)) with false in E by (rewrite (jlost _ _ _ _ c1), (jlost _ _ _ _ j); lia). cbn [orb] in E. discriminate.
  - exists (SObs least :: h). eapply same; try reflexivity; try exact I; auto; [|intros ? ? ? ? ? [e|hin]; [discriminate|auto]]. unfold nt_finish. destruct (ce_end c); apply obs_J; exact j.
  - destruct (nt_expire p c n) as (n', b) eqn:E. exists h. eapply same; try reflexivity; try exact I; auto. unfold nt_expire in E. destruct (ce_rtt c); [destruct (_ <? _)|]; injection E as <- <-; exact j.
  - exists h. eapply same; try reflexivity; try exact I; auto.
  - destruct (nt_growth p c n) as (n', b) eqn:E. exists h. eapply same; try reflexivity; try exact I; auto. unfold nt_growth in E. destruct (_ <=? _); [|destruct (ce_last c)]; injection E as <- <-; exact j.
  - exists h. eapply same; try reflexivity; try exact I; auto. unfold nt_queue. destruct (_ <? _); exact j.
  - exists h. eapply same; try reflexivity; try exact I; auto. unfold nt_advance. destruct (_ =? _); exact j.
  - exists h. eapply same; try reflexivity; try exact I; auto.
  - exists h. eapply same; try reflexivity; try exact I; auto.
  - exists h. eapply same; try reflexivity; try exact I; auto.
  - exists h. eapply same; try reflexivity; try exact I; auto.
  - exists h. eapply same; try reflexivity; try exact I; auto.
  - exists (SApp :: h). eapply same; try reflexivity; try exact I; auto; [apply app_J; exact j|intros ? ? ? ? ? [e|hin]; [discriminate|auto]].
  - exists (SNeut n0 :: h). eapply same; try reflexivity; try exact I; auto; [apply neut_J; exact j|intros ? ? ? ? ? [e|hin]; [discriminate|auto]].
  - exists h. eapply same; try reflexivity; try exact I; auto.
Qed.

Lemma nsensible_tl o ops : nsensible (o :: ops) -> nsensible ops.
Proof. destruct o; cbn; tauto. Qed.
Fixpoint ops_bytes (ops : list nop) : Z := match ops with [] => 0 | NSent _ _ _ b true :: l => b + ops_bytes l | _ :: l => ops_bytes l end.
Lemma bytes_nonneg ops : nsensible ops -> 0 <= ops_bytes ops.
Proof. induction ops as [|o ops IH]; cbn [ops_bytes]; [lia|]. intros hs. specialize (IH (nsensible_tl _ _ hs)). destruct o as [? ? ? ? []| | | | | | | | | | | | | | |]; try exact IH. cbn in hs. lia. Qed.
Lemma N2_all p t0 r0 : (forall x, x <= sc_scale (np_sc p) x) -> instant t0 -> forall ops, nsensible ops ->
  match nt_all p t0 r0 ops with
  | Ok (n, l) => (exists h, N2 p t0 ops l n h) /\ sent_bytes l = ops_bytes ops
  | Err _ => huge (ops_bytes ops)
  | Panic => False
  end.
Proof.
  intros hsc ht. induction ops as [|o ops IH]; intros hs; cbn [nt_all].
  - split; [|reflexivity]. exists []. constructor; auto; try exact I. pose proof (all_J (np_sc p) t0 [] hsc ht I) as k. exact k.
  - specialize (IH (nsensible_tl _ _ hs)). pose proof (bytes_nonneg _ hs) as hb. assert (hm : ops_bytes ops <= ops_bytes (o :: ops)) by (destruct o as [? ? ? ? []| | | | | | | | | | | | | | |]; cbn [ops_bytes]; try lia; cbn in hs; lia).
    destruct (nt_all p t0 r0 ops) as [(n, l)| |]; cbn [bind]; [|unfold huge in *; lia|exact IH].
    destruct IH as ((h & k) & ke). pose proof (N2_step p t0 ops l n o h hsc ht k hs) as ks. destruct (nt_step p o n) as [(n', x)| |]; cbn [bind]; [|unfold huge in *; lia|exact ks].
    split; [exact ks|]. destruct o as [? ? ? ? []| | | | | | | | | | | | | | |]; cbn [sent_bytes ops_bytes]; lia.
Qed.
