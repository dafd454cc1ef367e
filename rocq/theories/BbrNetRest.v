(** The rest of what the network model remembers, over every history. *)
Require Import Verif.Base Verif.BwModel Verif.SampModel Verif.SampSpec Verif.BbrNetModel Verif.BbrNetSpec Verif.BbrNetProofs.

Lemma adapt_rest p a b w n : let n' := nt_adapt p a b w n in nt_base n' = nt_base n /\ nt_stale n' = nt_stale n /\ nt_queued n' = nt_queued n.
Proof. unfold nt_adapt. cbv zeta. destruct (negb a || b); [repeat split|]. destruct (_ <=? _); repeat split. Qed.

Lemma start_rest p t w pr pb acked lost n n' c : nt_start p t w pr pb acked lost n = Ok (n', c) ->
  ce_time c = t /\ ce_end c = match last_num_of acked with Some k => fst (rt_acked k (nt_rt n)) | None => false end /\
  nt_latest n' = match ce_raw c with Some b => if ce_end c then b else Z.max (nt_latest n) b | None => nt_latest n end /\
  nt_in_latest n' = (if ce_end c && (0 <? ce_inf c) then ce_inf c else Z.max (nt_in_latest n) (ce_inf c)) /\
  rs_min (nt_rs n') = Z.min (rs_min (nt_rs n)) (ce_flight c) /\ nt_base n' = nt_base n /\ nt_stale n' = nt_stale n /\ nt_queued n' = nt_queued n /\ nt_full n' = nt_full n /\
  nt_in_hi n' = nt_in_hi n /\
  nt_rtt_at n' = match ce_rtt c with Some r => if r <? nt_rtt n then t else nt_rtt_at n | None => nt_rtt_at n end /\
  (if ce_end c && negb pb && (0 <? rs_lost (nt_rs n'))
   then nt_lo n' = Some (Z.max (match ce_raw c with Some b => Z.max (nt_latest n) b | None => nt_latest n end) (np_beta_bw p (match nt_lo n with Some b => b | None => nt_max n' end))) /\
        nt_in_lo n' = Z.max (Z.max (nt_in_latest n) (ce_inf c)) (np_beta_in p (if nt_in_lo n =? u64_max then w else nt_in_lo n))
   else nt_lo n' = nt_lo n /\ nt_in_lo n' = nt_in_lo n).
Proof.
  unfold nt_start. intros h. destruct (match last_num_of acked with Some k => rt_acked k (nt_rt n) | None => (false, nt_rt n) end) as (ended, rt) eqn:Er.
  cbv zeta in h. destruct (sp_event _ _ _ _ _ _ _) as [(sp, e)| |] eqn:Ee; cbn [bind] in h; try discriminate.
  destruct (match es_rtt e with Some r => if r <? nt_rtt n then (r, t) else (nt_rtt n, nt_rtt_at n) | None => (nt_rtt n, nt_rtt_at n) end) as (rtt, rtt_at) eqn:Et.
  destruct ((sp_acked sp <? sp_acked (nt_sp n)) || (sp_lost sp <? sp_lost (nt_sp n))) eqn:E0; [discriminate|].
  match type of h with context [nt_adapt ?a ?b ?c ?d ?m] => pose proof (adapt_same a b c d m) as (a1 & a2 & a3 & a4 & a5 & a6 & a7 & a8 & a9 & a10 & a11); pose proof (adapt_rest a b c d m) as (a12 & a13 & a14); remember (nt_adapt a b c d m) as m' eqn:Em end.
  injection h as <- <-. unfold nt_max. cbn [nt_sp nt_rt nt_bw0 nt_bw1 nt_rtt nt_rtt_at nt_rs nt_latest nt_lo nt_in_latest nt_in_lo nt_in_hi nt_full nt_base nt_stale nt_queued ce_acked ce_lost ce_time ce_probing ce_cwnd ce_flight ce_bw ce_app ce_rtt ce_last ce_end ce_raw ce_inf] in *.
  rewrite a3, a4, a6, a7, a8, a9, a10, a11, a12, a13, a14. cbn [rs_lost rs_events rs_min rs_deliv].
  split; [reflexivity|]. split; [destruct (last_num_of acked); [rewrite Er|injection Er as <- _]; reflexivity|].
  split; [destruct (es_bw e), ended; reflexivity|]. split; [reflexivity|]. split; [reflexivity|]. do 5 (split; [reflexivity|]).
  split; [destruct (es_rtt e); [destruct (_ <? _)|]; injection Et as _ <-; reflexivity|].
  subst m'. unfold nt_adapt, nt_max. cbn [nt_rs rs_lost nt_lo nt_latest nt_in_lo nt_in_latest nt_bw0 nt_bw1].
  replace (0 <? (if 0 <? sp_lost sp - sp_lost (nt_sp n) then rs_lost (nt_rs n) + (sp_lost sp - sp_lost (nt_sp n)) else rs_lost (nt_rs n)))
    with (negb ((if 0 <? sp_lost sp - sp_lost (nt_sp n) then rs_lost (nt_rs n) + (sp_lost sp - sp_lost (nt_sp n)) else rs_lost (nt_rs n)) <=? 0)) by lia.
  destruct ended, pb; cbn [negb orb andb]; auto. destruct (_ <=? 0); cbn [negb]; auto.
Qed.

Record N3 (p : npar) (t0 rtt0 : Z) (l : nlog) (n : net) : Prop := {
  k_latest : nt_latest n = round_best l;
  k_inf : nt_in_latest n = round_inflight l;
  k_min : rs_min (nt_rs n) = round_min l;
  k_queued : nt_queued n = queued_rounds l;
  k_stale : nt_stale n = stale_rounds p l;
  k_at : nt_rtt_at n = rtt_since t0 rtt0 l }.
Lemma forall_least r m l : In m l -> (forall x, In x l -> m <= x) -> forallb (fun x => r <? x) l = (r <? m).
Proof.
  intros hi hm. destruct (r <? m) eqn:E; [apply forallb_forall; intros x hx; specialize (hm x hx); lia|].
  apply Bool.not_true_is_false. intros hf. rewrite forallb_forall in hf. specialize (hf m hi). cbn in hf. congruence.
Qed.
Lemma N3_step p t0 rtt0 l n o n' x : N1 rtt0 l n -> N3 p t0 rtt0 l n -> nt_step p o n = Ok (n', x) -> N3 p t0 rtt0 ((o, x) :: l) n'.
Proof.
  intros k1 k h. destruct k. destruct o; cbn [nt_step] in h.
  - unfold nt_sent in h. destruct (sp_on_sent _ _ _ _ _ _ _); cbn [bind] in h; try discriminate. injection h as <- <-. constructor; auto. cbn [round_min nt_rs rs_min]. congruence.
  - destruct (nt_start _ _ _ _ _ _ _ _) as [(m, c)| |] eqn:E; cbn [bind] in h; try discriminate. injection h as <- <-.
    apply start_rest in E. destruct E as (h1 & h2 & h3 & h4 & h5 & h6 & h7 & h8 & h9 & h10 & h11 & _).
    constructor; cbn [round_best round_inflight round_min queued_rounds stale_rounds rtt_since]; try congruence.
    + rewrite h3, k_latest0. reflexivity. + rewrite h4, k_inf0. reflexivity.
    + destruct (n_rtt _ _ _ k1) as (q1 & q2). rewrite h11, k_at0, <- h1. destruct (ce_rtt c); auto. rewrite (forall_least _ _ _ q1 q2). reflexivity.
  - injection h as <- <-. unfold nt_finish. destruct (ce_end c) eqn:E; constructor; cbn [round_best round_inflight round_min queued_rounds stale_rounds rtt_since]; rewrite ?E; auto.
  - unfold nt_expire in h. destruct (ce_rtt c) as [r|] eqn:E; [destruct (_ <? _)|]; injection h as <- <-; constructor; auto.
  - injection h as <- <-. constructor; auto.
  - unfold nt_growth in h. destruct (_ <=? _); [|destruct (ce_last c) as [s|] eqn:E]; injection h as <- <-; constructor; auto; cbn [stale_rounds nt_stale nt_with_full]; rewrite ?E; auto. destruct (np_ignore p && bp_app s); lia.
  - injection h as <- <-. unfold nt_queue. destruct (rs_min (nt_rs n) <? target) eqn:E; constructor; auto; cbn [queued_rounds nt_queued nt_with_full]; rewrite k_min0 in E; rewrite E; auto. lia.
  - injection h as <- <-. unfold nt_advance. destruct (_ =? _); constructor; auto.
  - injection h as <- <-. constructor; auto.
  - injection h as <- <-. constructor; auto.
  - injection h as <- <-. constructor; auto.
  - injection h as <- <-. constructor; auto.
  - injection h as <- <-. constructor; auto. cbn [rtt_since nt_rtt_at nt_with_rtt]. congruence.
  - injection h as <- <-. constructor; auto.
  - injection h as <- <-. constructor; auto.
  - injection h as <- <-. constructor; auto.
Qed.
Lemma runs_N3 p t0 r0 : forall l n, runs p (nt_new t0 r0) l n -> N3 p t0 r0 l n.
Proof.
  induction l as [|(o, x) l IH]; intros n h; [apply runs_nil in h; subst; constructor; reflexivity|]. destruct (runs_inv _ _ _ _ _ _ h) as (m & H2 & H4).
  eapply N3_step; eauto. eapply runs_N1; eauto.
Qed.
Lemma full_stays p n : forall l n', runs p n l n' -> nt_full n = true -> nt_full n' = true.
Proof.
  induction l as [|(o, x) l IH]; intros n' h hf; [apply runs_nil in h; subst; auto|]. destruct (runs_inv _ _ _ _ _ _ h) as (m & H2 & H4). specialize (IH _ H2 hf).
  destruct o; cbn [nt_step] in H4; try (injection H4 as <- <-; exact IH).
  - unfold nt_sent in H4. destruct (sp_on_sent _ _ _ _ _ _ _); cbn [bind] in H4; try discriminate. injection H4 as <- <-. exact IH.
  - destruct (nt_start _ _ _ _ _ _ _ _) as [(m', c)| |] eqn:E; cbn [bind] in H4; try discriminate. injection H4 as <- <-. apply start_rest in E. destruct E as (_ & _ & _ & _ & _ & _ & _ & _ & h9 & _). congruence.
  - injection H4 as <- <-. unfold nt_finish. destruct (ce_end c); exact IH.
  - unfold nt_expire in H4. destruct (ce_rtt c); [destruct (_ <? _)|]; injection H4 as <- <-; exact IH.
  - unfold nt_growth in H4. destruct (_ <=? _); [|destruct (ce_last c)]; injection H4 as <- <-; auto. cbn. rewrite IH. reflexivity.
  - injection H4 as <- <-. unfold nt_queue. destruct (_ <? _); cbn; rewrite IH; reflexivity.
  - injection H4 as <- <-. unfold nt_advance. destruct (_ =? _); exact IH.
  - injection H4 as <- <-. reflexivity.
Qed.

Lemma start_reach p t w pr pb acked lost n n' c : nt_start p t w pr pb acked lost n = Ok (n', c) ->
  sp_acked (nt_sp n') = ce_acked c + sp_acked (nt_sp n) /\ rs_lim (nt_rs n') = rs_lim (nt_rs n) /\
  rs_deliv (nt_rs n') = match ce_last c with Some s => if (0 <? ce_acked c) && (bp_acked s <? sp_acked (nt_sp n')) then Z.max (rs_deliv (nt_rs n)) (sp_acked (nt_sp n') - bp_acked s) else rs_deliv (nt_rs n) | None => rs_deliv (nt_rs n) end.
Proof.
  unfold nt_start. intros h. destruct (match last_num_of acked with Some k => rt_acked k (nt_rt n) | None => (false, nt_rt n) end) as (ended, rt).
  cbv zeta in h. destruct (sp_event _ _ _ _ _ _ _) as [(sp, e)| |] eqn:Ee; cbn [bind] in h; try discriminate.
  destruct (match es_rtt e with Some r => if r <? nt_rtt n then (r, t) else (nt_rtt n, nt_rtt_at n) | None => (nt_rtt n, nt_rtt_at n) end) as (rtt, rtt_at).
  destruct ((sp_acked sp <? sp_acked (nt_sp n)) || (sp_lost sp <? sp_lost (nt_sp n))); [discriminate|].
  match type of h with context [nt_adapt ?a ?b ?c ?d ?m] => pose proof (adapt_same a b c d m) as (a1 & _ & _ & _ & _ & _ & a7 & _); remember (nt_adapt a b c d m) as m' eqn:Em end.
  injection h as <- <-. cbn [nt_sp nt_rs ce_acked ce_last rs_lim rs_deliv] in *. rewrite a1, a7. cbn [rs_lim rs_deliv]. split; [lia|]. auto.
Qed.
Lemma take_acked n s : sp_acked (sp_on_neutered n s) = sp_acked s.
Proof. unfold sp_on_neutered. destruct (smap_take _ _). reflexivity. Qed.
Lemma sent_acked c t n b f r s s' : sp_on_sent c t n b f r s = Ok s' -> sp_acked s' = sp_acked s.
Proof.
  unfold sp_on_sent. destruct r; cbn [negb]; [|intros [= <-]; reflexivity]. cbv zeta. destruct (_ && _).
  - unfold points_update. destruct (_ <? 0); cbn [bind]; [discriminate|]. destruct (smap_insert _ _ _); cbn [bind]; try discriminate. intros [= <-]. reflexivity.
  - cbn [bind]. destruct (smap_insert _ _ _); cbn [bind]; try discriminate. intros [= <-]. reflexivity.
Qed.
Record N4 (l : nlog) (n : net) : Prop := {
  d_acked : sp_acked (nt_sp n) = acked_bytes l;
  d_deliv : rs_deliv (nt_rs n) = round_delivered l /\ 0 <= round_delivered l;
  d_hi : nt_in_hi n = hi_of l;
  d_lim : rs_lim (nt_rs n) = round_limited l }.
Lemma N4_step p l n o n' x : N4 l n -> nt_step p o n = Ok (n', x) -> N4 ((o, x) :: l) n'.
Proof.
  intros k h. destruct k. destruct d_deliv0 as (dd & dn). destruct o; cbn [nt_step] in h.
  - unfold nt_sent in h. destruct (sp_on_sent _ _ _ _ _ _ _) eqn:E; cbn [bind] in h; try discriminate. injection h as <- <-. apply sent_acked in E. constructor; auto; [cbn; destruct retr; congruence|]. cbn. congruence.
  - destruct (nt_start _ _ _ _ _ _ _ _) as [(m, c)| |] eqn:E; cbn [bind] in h; try discriminate. injection h as <- <-. pose proof E as E'. apply start_reach in E. destruct E as (e1 & e2 & e3). apply start_rest in E'. destruct E' as (_ & _ & _ & _ & _ & _ & _ & _ & _ & h10 & _).
    constructor; cbn [acked_bytes round_delivered hi_of round_limited]; try congruence. rewrite e3, e1, d_acked0, dd. destruct (ce_last c) as [s|]; auto. destruct (0 <? ce_acked c); cbn [andb]; auto. match goal with |- context [?a <? ?b] => destruct (a <? b) eqn:E2 end; split; lia.
  - injection h as <- <-. unfold nt_finish. destruct (ce_end c) eqn:E; constructor; cbn [acked_bytes round_delivered hi_of round_limited]; rewrite ?E; auto; cbn; split; auto; lia.
  - unfold nt_expire in h. destruct (ce_rtt c) as [r|]; [destruct (_ <? _)|]; injection h as <- <-; constructor; auto.
  - injection h as <- <-. constructor; auto. cbn. split; auto; lia.
  - unfold nt_growth in h. destruct (_ <=? _); [|destruct (ce_last c)]; injection h as <- <-; constructor; auto.
  - injection h as <- <-. unfold nt_queue. destruct (_ <? _); constructor; auto.
  - injection h as <- <-. unfold nt_advance. destruct (_ =? _); constructor; auto.
  - injection h as <- <-. constructor; auto.
  - injection h as <- <-. constructor; auto.
  - injection h as <- <-. constructor; auto.
  - injection h as <- <-. constructor; auto.
  - injection h as <- <-. constructor; auto.
  - injection h as <- <-. constructor; auto.
  - injection h as <- <-. constructor; auto. cbn [nt_sp nt_with_sp acked_bytes]. rewrite take_acked. auto.
  - injection h as <- <-. constructor; auto.
Qed.
Lemma runs_N4 p t0 r0 : forall l n, runs p (nt_new t0 r0) l n -> N4 l n.
Proof.
  induction l as [|(o, x) l IH]; intros n h; [apply runs_nil in h; subst; constructor; try reflexivity; cbn; split; auto; lia|]. destruct (runs_inv _ _ _ _ _ _ h) as (m & H2 & H4). eapply N4_step; eauto.
Qed.
