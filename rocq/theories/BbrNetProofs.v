(** Proofs about the network model. *)
Require Import Verif.Base Verif.BwModel Verif.SampModel Verif.SampSpec Verif.SampProofs Verif.SampOrder Verif.SampBytes Verif.BbrNetModel Verif.BbrNetSpec.

Definition is_adv (o : nop) : bool := match o with NAdvance => true | _ => false end.
Definition took (n : net) (c : cev) : Z :=
  match ce_bw c with Some b => if negb (ce_app c) || (nt_max n <? b) then Z.max (nt_bw1 n) b else nt_bw1 n | None => nt_bw1 n end.

Lemma adapt_same p a b w n : let n' := nt_adapt p a b w n in
  nt_sp n' = nt_sp n /\ nt_rt n' = nt_rt n /\ nt_bw0 n' = nt_bw0 n /\ nt_bw1 n' = nt_bw1 n /\ nt_rtt n' = nt_rtt n /\ nt_rtt_at n' = nt_rtt_at n /\ nt_rs n' = nt_rs n /\
  nt_latest n' = nt_latest n /\ nt_in_latest n' = nt_in_latest n /\ nt_in_hi n' = nt_in_hi n /\ nt_full n' = nt_full n.
Proof. unfold nt_adapt. cbv zeta. destruct (negb a || b); [repeat split|]. destruct (_ <=? _); repeat split. Qed.

Lemma start_shape p t w pr pb acked lost n n' c : nt_start p t w pr pb acked lost n = Ok (n', c) ->
  exists sp e, sp_event (np_sc p) t acked lost (Some (nt_max n)) (match nt_lo n with Some b => b | None => u64_max end) (nt_sp n) = Ok (sp, e) /\
  sp_acked (nt_sp n) <= sp_acked sp /\ sp_lost (nt_sp n) <= sp_lost sp /\ nt_sp n' = sp /\
  ce_acked c = sp_acked sp - sp_acked (nt_sp n) /\ ce_lost c = sp_lost sp - sp_lost (nt_sp n) /\ ce_time c = t /\ ce_probing c = pb /\ ce_cwnd c = w /\
  ce_flight c = Z.max 0 (Z.max 0 (pr - ce_acked c) - ce_lost c) /\
  ce_bw c = (if sp_acked sp =? sp_acked (nt_sp n) then None else es_bw e) /\ ce_app c = es_app e /\ ce_rtt c = es_rtt e /\ ce_last c = es_last e /\
  (ce_end c, nt_rt n') = match last_num_of acked with Some k => rt_acked k (nt_rt n) | None => (false, nt_rt n) end /\
  nt_bw0 n' = nt_bw0 n /\ nt_bw1 n' = took n c /\
  (nt_rtt n', nt_rtt_at n') = match es_rtt e with Some r => if r <? nt_rtt n then (r, t) else (nt_rtt n, nt_rtt_at n) | None => (nt_rtt n, nt_rtt_at n) end /\
  rs_lost (nt_rs n') = rs_lost (nt_rs n) + ce_lost c /\ rs_events (nt_rs n') = rs_events (nt_rs n) + (if 0 <? ce_lost c then 1 else 0) /\
  rs_min (nt_rs n') = Z.min (rs_min (nt_rs n)) (ce_flight c) /\
  rs_deliv (nt_rs n') = match es_last e with Some s => if (0 <? ce_acked c) && (bp_acked s <? sp_acked sp) then Z.max (rs_deliv (nt_rs n)) (sp_acked sp - bp_acked s) else rs_deliv (nt_rs n) | None => rs_deliv (nt_rs n) end /\
  nt_in_hi n' = nt_in_hi n /\ nt_full n' = nt_full n /\
  let latest := match es_bw e with Some b => Z.max (nt_latest n) b | None => nt_latest n end in
  nt_latest n' = match es_bw e with Some b => if ce_end c then b else latest | None => latest end /\
  (if ce_end c && negb pb && (0 <? rs_lost (nt_rs n'))
   then nt_lo n' = Some (Z.max latest (np_beta_bw p (match nt_lo n with Some b => b | None => nt_max n' end))) /\
        nt_in_lo n' = Z.max (Z.max (nt_in_latest n) (es_inflight e)) (np_beta_in p (if nt_in_lo n =? u64_max then w else nt_in_lo n))
   else nt_lo n' = nt_lo n /\ nt_in_lo n' = nt_in_lo n).
Proof.
  unfold nt_start. intros h. destruct (match last_num_of acked with Some k => rt_acked k (nt_rt n) | None => (false, nt_rt n) end) as (ended, rt) eqn:Er.
  cbv zeta in h. destruct (sp_event _ _ _ _ _ _ _) as [(sp, e)| |] eqn:Ee; cbn [bind] in h; try discriminate. exists sp, e. split; [reflexivity|].
  destruct (match es_rtt e with Some r => if r <? nt_rtt n then (r, t) else (nt_rtt n, nt_rtt_at n) | None => (nt_rtt n, nt_rtt_at n) end) as (rtt, rtt_at) eqn:Et.
  destruct ((sp_acked sp <? sp_acked (nt_sp n)) || (sp_lost sp <? sp_lost (nt_sp n))) eqn:E0; [discriminate|]. apply Bool.orb_false_iff in E0. destruct E0 as (E1 & E2).
  match type of h with context [nt_adapt ?a ?b ?c ?d ?m] => pose proof (adapt_same a b c d m) as (a1 & a2 & a3 & a4 & a5 & a6 & a7 & a8 & a9 & a10 & a11); remember (nt_adapt a b c d m) as m' eqn:Em end.
  injection h as <- <-. cbn [nt_sp nt_rt nt_bw0 nt_bw1 nt_rtt nt_rtt_at nt_rs nt_latest nt_lo nt_in_latest nt_in_lo nt_in_hi nt_full ce_acked ce_lost ce_time ce_probing ce_cwnd ce_flight ce_bw ce_app ce_rtt ce_last ce_end] in *.
  rewrite a1, a2, a3, a4, a5, a6, a7, a10, a11, a8. cbn [rs_lost rs_events rs_min rs_deliv].
  split; [lia|]. split; [lia|]. do 6 (split; [reflexivity|]). split; [unfold sat_sub; lia|]. split; [destruct (sp_acked sp =? _); reflexivity|]. do 3 (split; [reflexivity|]).
  split; [reflexivity|]. split; [reflexivity|]. split; [unfold took; cbn [ce_bw ce_app]; destruct (negb (sp_acked sp =? sp_acked (nt_sp n))); reflexivity|]. split; [reflexivity|].
  split; [destruct (0 <? _) eqn:E3; lia|]. split; [destruct (0 <? _) eqn:E3; lia|]. split; [reflexivity|]. split; [reflexivity|]. split; [reflexivity|]. split; [reflexivity|].
  cbv zeta. split; [destruct (es_bw e), ended; reflexivity|]. subst m'. unfold nt_adapt. cbn [nt_rs rs_lost nt_lo nt_latest nt_in_lo nt_in_latest].
  replace (0 <? (if 0 <? sp_lost sp - sp_lost (nt_sp n) then rs_lost (nt_rs n) + (sp_lost sp - sp_lost (nt_sp n)) else rs_lost (nt_rs n)))
    with (negb ((if 0 <? sp_lost sp - sp_lost (nt_sp n) then rs_lost (nt_rs n) + (sp_lost sp - sp_lost (nt_sp n)) else rs_lost (nt_rs n)) <=? 0)) by lia.
  destruct ended, pb; cbn [negb orb andb]; auto. destruct (_ <=? 0); cbn [negb]; auto.
Qed.

(** ** Bandwidth *)
Lemma step_bw p o n n' x : nt_step p o n = Ok (n', x) ->
  if is_adv o then nt_bw1 n' = 0 /\ nt_bw0 n' = (if nt_bw1 n =? 0 then nt_bw0 n else nt_bw1 n)
  else nt_bw0 n' = nt_bw0 n /\ nt_bw1 n' = match x with OEv c => took n c | _ => nt_bw1 n end.
Proof.
  destruct o; cbn [nt_step is_adv]; intros h.
  - unfold nt_sent in h. destruct (sp_on_sent _ _ _ _ _ _ _); cbn [bind] in h; try discriminate. injection h as <- <-. auto.
  - destruct (nt_start _ _ _ _ _ _ _ _) as [(m, c)| |] eqn:E; cbn [bind] in h; try discriminate. injection h as <- <-.
    apply start_shape in E. destruct E as (sp & e & E). decompose [and] E. auto.
  - injection h as <- <-. unfold nt_finish. destruct (ce_end c); auto.
  - unfold nt_expire in h. destruct (ce_rtt c); [destruct (_ <? _)|]; injection h as <- <-; auto.
  - injection h as <- <-. auto.
  - unfold nt_growth in h. destruct (_ <=? _); [|destruct (ce_last c)]; injection h as <- <-; auto.
  - injection h as <- <-. unfold nt_queue. destruct (_ <? _); auto.
  - injection h as <- <-. unfold nt_advance. destruct (nt_bw1 n =? 0) eqn:E; cbn; split; auto; lia.
  - injection h as <- <-. auto.
  - injection h as <- <-. auto.
  - injection h as <- <-. auto.
  - injection h as <- <-. auto.
  - injection h as <- <-. auto.
  - injection h as <- <-. auto.
  - injection h as <- <-. auto.
  - injection h as <- <-. auto.
Qed.

Inductive runs (p : npar) (n : net) : nlog -> net -> Prop :=
  | r_nil : runs p n [] n
  | r_cons m n' o x l : runs p n l m -> nt_step p o m = Ok (n', x) -> runs p n ((o, x) :: l) n'.
Lemma all_runs p t0 r0 : forall ops n l, nt_all p t0 r0 ops = Ok (n, l) -> runs p (nt_new t0 r0) l n.
Proof.
  induction ops as [|o ops IH]; intros n l h; cbn [nt_all] in h; [injection h as <- <-; constructor|].
  destruct (nt_all p t0 r0 ops) as [(m, l1)| |]; cbn [bind] in h; try discriminate. destruct (nt_step p o m) as [(m', x)| |] eqn:E; cbn [bind] in h; try discriminate.
  injection h as <- <-. econstructor; eauto.
Qed.
Lemma runs_inv p n o x l n' : runs p n ((o, x) :: l) n' -> exists m, runs p n l m /\ nt_step p o m = Ok (n', x).
Proof. intros h. inversion h; subst. eauto. Qed.
Lemma runs_nil p n n' : runs p n [] n' -> n' = n.
Proof. intros h. inversion h; auto. Qed.
Lemma runs_app p n : forall a b n', runs p n (a ++ b) n' -> exists m, runs p n b m /\ runs p m a n'.
Proof.
  induction a as [|(o, x) a IH]; intros b n' h; cbn [app] in h; [exists n'; split; [auto|constructor]|].
  destruct (runs_inv _ _ _ _ _ _ h) as (m & H3 & H4). destruct (IH _ _ H3) as (m' & h1 & h2). exists m'. split; auto. econstructor; eauto.
Qed.

Lemma took_ge n c : nt_bw1 n <= took n c.
Proof. unfold took. destruct (ce_bw c); [destruct (_ || _)|]; lia. Qed.
Lemma took_in n c : took n c = nt_bw1 n \/ ce_bw c = Some (took n c).
Proof. unfold took. destruct (ce_bw c) as [b|]; auto. destruct (_ || _); auto. destruct (Z_le_dec b (nt_bw1 n)); [left; lia|right; f_equal; lia]. Qed.

Lemma adv_cons o x l : advances ((o, x) :: l) = (if is_adv o then 1 else 0) + advances l.
Proof. unfold advances. cbn [filter fst]. destruct o; cbn [is_adv length]; lia. Qed.
Lemma adv_nonneg l : 0 <= advances l. Proof. unfold advances. lia. Qed.
Lemma keep_bw p n : forall l n' b, runs p n l n' -> b <= nt_bw1 n -> (advances l = 0 -> b <= nt_bw1 n') /\ (advances l <= 1 -> b <= nt_max n').
Proof.
  induction l as [|(o, x) l IH]; intros n' b h hb; [apply runs_nil in h; subst; split; intros; unfold nt_max; lia|destruct (runs_inv _ _ _ _ _ _ h) as (m & H2 & H4)].
  destruct (IH _ b H2 hb) as (i1 & i2). pose proof (step_bw _ _ _ _ _ H4) as k. rewrite adv_cons. pose proof (adv_nonneg l). unfold nt_max in *. destruct (is_adv o).
  - destruct k as (k1 & k2). split; [intros; lia|]. intros ha. assert (q : b <= nt_bw1 m) by (apply i1; lia). rewrite k1, k2. destruct (nt_bw1 m =? 0) eqn:E; lia.
  - destruct k as (k1 & k2). assert (nt_bw1 m <= nt_bw1 n') by (rewrite k2; destruct x; [apply took_ge| |]; lia). split; intros ha; [specialize (i1 ltac:(lia))|specialize (i2 ltac:(lia))]; lia.
Qed.
Lemma bw1_from p n : forall l n', runs p n l n' -> nt_bw1 n' = nt_bw1 n \/ nt_bw1 n' = 0 \/ In (nt_bw1 n') (bw_samples l).
Proof.
  induction l as [|(o, x) l IH]; intros n' h; [apply runs_nil in h; subst; auto|destruct (runs_inv _ _ _ _ _ _ h) as (m & H2 & H4)]. specialize (IH _ H2). pose proof (step_bw _ _ _ _ _ H4) as k. unfold bw_samples in *. cbn [flat_map snd]. destruct (is_adv o).
  - destruct k as (k1 & _). auto.
  - destruct k as (_ & k). destruct x as [c| |]; [|rewrite k; destruct IH as [|[|]]; auto|rewrite k; destruct IH as [|[|]]; auto].
    rewrite k. destruct (took_in m c) as [e|e]; [rewrite e; destruct IH as [|[|]]; auto; right; right; apply in_or_app; auto|].
    right. right. rewrite e. left. reflexivity.
Qed.
Lemma bw0_from p n : forall l n', runs p n l n' -> nt_bw0 n' = nt_bw0 n \/ nt_bw0 n' = nt_bw1 n \/ In (nt_bw0 n') (bw_samples l).
Proof.
  induction l as [|(o, x) l IH]; intros n' h; [apply runs_nil in h; subst; auto|destruct (runs_inv _ _ _ _ _ _ h) as (m & H2 & H4)]. specialize (IH _ H2). pose proof (step_bw _ _ _ _ _ H4) as k. pose proof (bw1_from _ _ _ _ H2) as k1.
  unfold bw_samples in *. cbn [flat_map snd]. assert (up : forall z, In z (flat_map (fun x => match snd x with OEv c => match ce_bw c with Some b => [b] | None => [] end | _ => [] end) l) ->
    In z (match x with OEv c => match ce_bw c with Some b => [b] | None => [] end | _ => [] end ++ flat_map (fun x => match snd x with OEv c => match ce_bw c with Some b => [b] | None => [] end | _ => [] end) l)) by (intros; apply in_or_app; auto).
  destruct (is_adv o).
  - destruct k as (_ & k). rewrite k. destruct (nt_bw1 m =? 0) eqn:E; [destruct IH as [|[|]]; auto|]. destruct k1 as [|[|]]; auto. lia.
  - destruct k as (k & _). rewrite k. destruct IH as [|[|]]; auto.
Qed.
(** without an advance [bw0] stays *)
Lemma bw0_stays p n : forall l n', runs p n l n' -> advances l = 0 -> nt_bw0 n' = nt_bw0 n.
Proof.
  induction l as [|(o, x) l IH]; intros n' h ha; [apply runs_nil in h; subst; auto|destruct (runs_inv _ _ _ _ _ _ h) as (m & H2 & H4)]. rewrite adv_cons in ha. pose proof (adv_nonneg l). pose proof (step_bw _ _ _ _ _ H4) as k. destruct (is_adv o); [lia|]. destruct k as (-> & _). apply IH; auto.
Qed.

(** ** Rounds, losses in a round, and the round trip *)
Definition least_of (l : list Z) : Z := match l with [] => 0 | x :: l => fold_left Z.min l x end.
Record N1 (rtt0 : Z) (l : nlog) (n : net) : Prop := {
  n_count : rt_count (nt_rt n) = rounds_of l;
  n_last : rt_last (nt_rt n) = last_sent l;
  n_end : rt_end (nt_rt n) = round_mark l;
  n_lost : rs_lost (nt_rs n) = round_lost l;
  n_events : rs_events (nt_rs n) = round_losses l;
  n_rtt : In (nt_rtt n) (rtt_window rtt0 l) /\ forall r, In r (rtt_window rtt0 l) -> nt_rtt n <= r }.
Lemma N1_step p rtt0 l n o n' x : N1 rtt0 l n -> nt_step p o n = Ok (n', x) -> N1 rtt0 ((o, x) :: l) n'.
Proof.
  intros k h. destruct k. destruct o; cbn [nt_step] in h.
  - unfold nt_sent in h. destruct (sp_on_sent _ _ _ _ _ _ _); cbn [bind] in h; try discriminate. injection h as <- <-. constructor; auto.
  - destruct (nt_start _ _ _ _ _ _ _ _) as [(m, c)| |] eqn:E; cbn [bind] in h; try discriminate. injection h as <- <-.
    apply start_shape in E. destruct E as (sp & e & E). decompose [and] E. clear E.
    assert (rtx : rt_count (nt_rt m) = (if ce_end c then 1 else 0) + rt_count (nt_rt n) /\ rt_last (nt_rt m) = rt_last (nt_rt n) /\ rt_end (nt_rt m) = if ce_end c then Some (rt_last (nt_rt n)) else rt_end (nt_rt n)).
    { destruct (last_num_of acked) as [k|]; [unfold rt_acked in *; destruct (rt_end (nt_rt n)) as [z|] eqn:Ez; [destruct (k <=? z)|]|]; match goal with q : (ce_end c, nt_rt m) = _ |- _ => injection q as -> -> end; cbn [rt_count rt_last rt_end]; (split; [lia|split; [reflexivity|auto]]). }
    destruct rtx as (r1 & r2 & r3). constructor; cbn [rounds_of last_sent round_mark round_lost round_losses rtt_window].
    + lia. + congruence. + rewrite r3. destruct (ce_end c); congruence. + lia. + lia.
    + destruct n_rtt0 as (q1 & q2). match goal with q : ce_rtt c = _ |- _ => rewrite q end. match goal with q : (nt_rtt m, _) = _ |- _ => revert q end.
      destruct (es_rtt e) as [r|]; [|intros [= -> _]; auto]. destruct (r <? nt_rtt n) eqn:E; intros [= -> _]; split.
      * left; auto. * intros z [<-|hz]; [lia|]. specialize (q2 z hz). lia.
      * right; auto. * intros z [<-|hz]; [lia|]. auto.
  - injection h as <- <-. unfold nt_finish. destruct (ce_end c) eqn:E; constructor; cbn [rounds_of last_sent round_mark round_lost round_losses rtt_window]; rewrite ?E; auto.
  - unfold nt_expire in h. destruct (ce_rtt c) as [r|] eqn:E; [destruct (_ <? _)|]; injection h as <- <-; constructor; cbn [rounds_of last_sent round_mark round_lost round_losses rtt_window]; rewrite ?E; auto.
    cbn [nt_rtt nt_with_rtt]. split; [left; auto|]. intros z [<-|[]]. lia.
  - injection h as <- <-. constructor; cbn [rounds_of last_sent round_mark round_lost round_losses rtt_window]; cbn; auto; try congruence.
  - unfold nt_growth in h. destruct (_ <=? _); [|destruct (ce_last c)]; injection h as <- <-; constructor; auto.
  - injection h as <- <-. unfold nt_queue. destruct (_ <? _); constructor; auto.
  - injection h as <- <-. unfold nt_advance. destruct (_ =? _); constructor; auto.
  - injection h as <- <-. constructor; auto.
  - injection h as <- <-. constructor; auto.
  - injection h as <- <-. constructor; auto.
  - injection h as <- <-. constructor; auto.
  - injection h as <- <-. constructor; auto.
  - injection h as <- <-. constructor; auto.
  - injection h as <- <-. constructor; auto.
  - injection h as <- <-. constructor; auto.
Qed.
Lemma N1_new t0 r0 : N1 r0 [] (nt_new t0 r0).
Proof. constructor; auto. cbn. split; [auto|]. intros r [<-|[]]. lia. Qed.
Lemma runs_N1 p t0 r0 : forall l n, runs p (nt_new t0 r0) l n -> N1 r0 l n.
Proof. induction l as [|(o, x) l IH]; intros n h; [apply runs_nil in h; subst; apply N1_new|destruct (runs_inv _ _ _ _ _ _ h) as (m & H2 & H4)]. eapply N1_step; eauto. Qed.
