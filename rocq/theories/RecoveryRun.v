(** Whole histories. *)
Require Import Verif.Base Verif.Errors Verif.RttModel Verif.RecoveryModel Verif.RecoverySpec Verif.RecoveryProofs Verif.RecoveryInv Verif.RecoveryMain Verif.RecoverySteps.
Require Import Permutation Sorted.

Lemma vpop_some l x l' : vpop l = Some (x, l') -> l = l' ++ [x].
Proof.
  destruct l as [|a l]; [discriminate|]. intros h. cbn [vpop] in h. injection h as <- <-.
  rewrite (app_removelast_last a (l := a :: l)) at 1 by discriminate. f_equal. f_equal.
  destruct l as [|b l]; [reflexivity|]. cbn [last]. destruct l; reflexivity || (clear; revert b; induction l; intros; cbn [last] in *; auto).
Qed.

Lemma cntf_one f x : cntf f [x] = if Z.eq_dec x f then 1 else 0.
Proof. unfold cntf. cbn. destruct (Z.eq_dec x f); reflexivity. Qed.

Lemma step_next_acked fl e v led : inv v led -> step_ok fl (RNextAcked e) v led.
Proof.
  intros hi. destruct (vpop (s_facked (get_s e v))) as [[x l]|] eqn:ep.
  - assert (hs : rec_step fl (RNextAcked e) v = Ok (set_s e (set_s_facked l (get_s e v)) v, OFrame (Some x))).
    { cbn [rec_step]. unfold rec_next_acked. rewrite ep. reflexivity. }
    apply vpop_some in ep.
    eapply quiet; [exact hi|exact hs|..]; try (destruct e; reflexivity).
    + intros e'. destruct (epoch_dec e' e) as [->|hne]; [rewrite get_set|rewrite get_set_other by exact hne]; repeat split; reflexivity.
    + intros g e' f hg. specialize (hg e' f). unfold gstep.
      change (reported_acked e' [RNextAcked e] [OFrame (Some x)]) with ((if epoch_eqb e' e then [x] else []) ++ []).
      change (reported_lost e' [RNextAcked e] [OFrame (Some x)]) with (@nil Z).
      change (timeouts [RNextAcked e]) with 0. change (discarded e' [RNextAcked e]) with false. change (frames_sent e' [RNextAcked e]) with (@nil Z).
      rewrite !app_nil_r, Z.add_0_r, Bool.orb_false_r.
      destruct (epoch_dec e' e) as [->|hne].
      * rewrite epoch_eqb_refl, get_set. destruct hg as [g1 g2 g3 g4 g5 g6]. rewrite ep, cntf_app in g1, g2.
        split; cbn [gh_ack gh_lost gh_to gh_disc gh_sent s_facked s_flost s_fpto set_s_facked]; rewrite ?cntf_app; auto; try lia.
      * rewrite epoch_eqb_neq, get_set_other by exact hne. rewrite app_nil_r. destruct (g e'). exact hg.
  - assert (hs : rec_step fl (RNextAcked e) v = Ok (v, OFrame None)).
    { cbn [rec_step]. unfold rec_next_acked. rewrite ep. reflexivity. }
    eapply quiet; [exact hi|exact hs|..]; try reflexivity; auto.
    intros g e' f hg. rewrite gstep_same by reflexivity. apply hg.
Qed.

Lemma step_next_lost fl e v led : inv v led -> step_ok fl (RNextLost e) v led.
Proof.
  intros hi. destruct (vpop (s_flost (get_s e v))) as [[x l]|] eqn:ep; [|destruct (vpop (s_fpto (get_s e v))) as [[x l]|] eqn:ep2].
  - assert (hs : rec_step fl (RNextLost e) v = Ok (set_s e (set_s_flost l (get_s e v)) v, OFrame (Some x))).
    { cbn [rec_step]. unfold rec_next_lost. rewrite ep. reflexivity. }
    apply vpop_some in ep.
    eapply quiet; [exact hi|exact hs|..]; try (destruct e; reflexivity).
    + intros e'. destruct (epoch_dec e' e) as [->|hne]; [rewrite get_set|rewrite get_set_other by exact hne]; repeat split; reflexivity.
    + intros g e' f hg. specialize (hg e' f). unfold gstep.
      change (reported_lost e' [RNextLost e] [OFrame (Some x)]) with ((if epoch_eqb e' e then [x] else []) ++ []).
      change (reported_acked e' [RNextLost e] [OFrame (Some x)]) with (@nil Z).
      change (timeouts [RNextLost e]) with 0. change (discarded e' [RNextLost e]) with false. change (frames_sent e' [RNextLost e]) with (@nil Z).
      rewrite !app_nil_r, Z.add_0_r, Bool.orb_false_r.
      destruct (epoch_dec e' e) as [->|hne].
      * rewrite epoch_eqb_refl, get_set. destruct hg as [g1 g2 g3 g4 g5 g6]. rewrite ep, cntf_app in g3, g4.
        split; cbn [gh_ack gh_lost gh_to gh_disc gh_sent s_facked s_flost s_fpto set_s_flost]; rewrite ?cntf_app; auto; try lia.
      * rewrite epoch_eqb_neq, get_set_other by exact hne. rewrite app_nil_r. destruct (g e'). exact hg.
  - assert (hs : rec_step fl (RNextLost e) v = Ok (set_s e (set_s_fpto l (get_s e v)) v, OFrame (Some x))).
    { cbn [rec_step]. unfold rec_next_lost. rewrite ep, ep2. reflexivity. }
    apply vpop_some in ep2.
    eapply quiet; [exact hi|exact hs|..]; try (destruct e; reflexivity).
    + intros e'. destruct (epoch_dec e' e) as [->|hne]; [rewrite get_set|rewrite get_set_other by exact hne]; repeat split; reflexivity.
    + intros g e' f hg. specialize (hg e' f). unfold gstep.
      change (reported_lost e' [RNextLost e] [OFrame (Some x)]) with ((if epoch_eqb e' e then [x] else []) ++ []).
      change (reported_acked e' [RNextLost e] [OFrame (Some x)]) with (@nil Z).
      change (timeouts [RNextLost e]) with 0. change (discarded e' [RNextLost e]) with false. change (frames_sent e' [RNextLost e]) with (@nil Z).
      rewrite !app_nil_r, Z.add_0_r, Bool.orb_false_r.
      destruct (epoch_dec e' e) as [->|hne].
      * rewrite epoch_eqb_refl, get_set. destruct hg as [g1 g2 g3 g4 g5 g6]. rewrite ep2, cntf_app in g3.
        pose proof (cntf_nonneg f [x]).
        split; cbn [gh_ack gh_lost gh_to gh_disc gh_sent s_facked s_flost s_fpto set_s_fpto]; rewrite ?cntf_app; auto; try lia.
      * rewrite epoch_eqb_neq, get_set_other by exact hne. rewrite app_nil_r. destruct (g e'). exact hg.
  - assert (hs : rec_step fl (RNextLost e) v = Ok (v, OFrame None)).
    { cbn [rec_step]. unfold rec_next_lost. rewrite ep, ep2. reflexivity. }
    eapply quiet; [exact hi|exact hs|..]; try reflexivity; auto.
    intros g e' f hg. rewrite gstep_same by reflexivity. apply hg.
Qed.

(** What an operation needs, given the packets sent so far *)
Definition op_valid (o : rop) (sent : list (epoch * Z)) : Prop :=
  match o with RSent e p _ _ => fresh e p sent | RAck _ rs _ _ _ _ => valid_ranges rs | _ => True end.

Lemma valid_cons sent o ops : valid_ops sent (o :: ops) -> op_valid o sent /\ valid_ops (new_keys o ++ sent) ops.
Proof. destruct o; cbn [valid_ops op_valid new_keys app]; intuition. Qed.

Ltac quiet_tac hi :=
  eapply quiet; [exact hi|reflexivity|..]; try reflexivity;
  [intros e'; destruct e'; repeat split; reflexivity
  |intros g e' f hg; rewrite gstep_same by reflexivity; specialize (hg e' f); destruct e'; exact hg].

Lemma step_all fl o v led : inv v led -> op_valid o (keys led) -> step_ok fl o v led.
Proof.
  intros hi hv. destruct o.
  - apply step_sent; assumption.
  - apply step_ack; assumption.
  - apply step_timeout; assumption.
  - apply step_discard; assumption.
  - apply step_path; assumption.
  - apply step_next_acked; assumption.
  - apply step_next_lost; assumption.
  - eapply quiet; [exact hi|reflexivity|..]; try (destruct e; reflexivity).
    + intros e'. unfold rec_ping. destruct (epoch_dec e' e) as [->|hne]; [rewrite get_set|rewrite get_set_other by exact hne]; repeat split; reflexivity.
    + intros g e' f hg. rewrite gstep_same by reflexivity. specialize (hg e' f). unfold rec_ping.
      destruct (epoch_dec e' e) as [->|hne]; [rewrite get_set|rewrite get_set_other by exact hne; exact hg].
      eapply fsp_ext; [..|exact hg]; reflexivity.
  - eapply quiet; [exact hi|reflexivity|..]; unfold rec_pmtud_mds; try (destruct (c_cwnd (v_cc v) =? v_mds v * c_icwp (v_cc v)); reflexivity).
    + intros e'. destruct (c_cwnd (v_cc v) =? v_mds v * c_icwp (v_cc v)), e'; repeat split; reflexivity.
    + intros g e' f hg. rewrite gstep_same by reflexivity. specialize (hg e' f). destruct (c_cwnd (v_cc v) =? v_mds v * c_icwp (v_cc v)), e'; exact hg.
  - eapply quiet; [exact hi|reflexivity|..]; unfold rec_update_mds, rec_pmtud_mds; try (destruct (c_cwnd (v_cc v) =? v_mds v * c_icwp (v_cc v)); reflexivity).
    + intros e'. destruct (c_cwnd (v_cc v) =? v_mds v * c_icwp (v_cc v)), e'; repeat split; reflexivity.
    + intros g e' f hg. rewrite gstep_same by reflexivity. specialize (hg e' f). destruct (c_cwnd (v_cc v) =? v_mds v * c_icwp (v_cc v)), e'; exact hg.
  - quiet_tac hi.
  - quiet_tac hi.
Qed.

Lemma fresh_ext e p s1 s2 : (forall x, In x s2 -> In x s1) -> fresh e p s1 -> fresh e p s2.
Proof. intros h (a & b & c & d & f & g). repeat split; auto. Qed.
Lemma op_valid_ext o s1 s2 : (forall x, In x s2 -> In x s1) -> op_valid o s1 -> op_valid o s2.
Proof. destruct o; cbn [op_valid]; auto. apply fresh_ext. Qed.

Definition grun_ok (ops : list rop) (xs : list rout) (g g' : epoch -> fgh) : Prop := forall e,
  g' e = mkFgh (gh_ack (g e) ++ reported_acked e ops xs) (gh_lost (g e) ++ reported_lost e ops xs) (gh_to (g e) + timeouts ops)
    (gh_disc (g e) || discarded e ops) (gh_sent (g e) ++ frames_sent e ops).

Lemma ra_cons e o ops x xs : reported_acked e (o :: ops) (x :: xs) = reported_acked e [o] [x] ++ reported_acked e ops xs.
Proof. destruct o; cbn [reported_acked]; auto. destruct x as [| | |[f|]]; cbn [reported_acked]; auto. rewrite app_nil_r. reflexivity. Qed.
Lemma rl_cons e o ops x xs : reported_lost e (o :: ops) (x :: xs) = reported_lost e [o] [x] ++ reported_lost e ops xs.
Proof. destruct o; cbn [reported_lost]; auto. destruct x as [| | |[f|]]; cbn [reported_lost]; auto. rewrite app_nil_r. reflexivity. Qed.
Lemma to_cons o ops : timeouts (o :: ops) = timeouts [o] + timeouts ops.
Proof. destruct o; cbn [timeouts]; lia. Qed.
Lemma fs_cons e o ops : frames_sent e (o :: ops) = frames_sent e [o] ++ frames_sent e ops.
Proof. destruct o; cbn [frames_sent]; auto. rewrite app_nil_r. reflexivity. Qed.

Lemma run_ok fl ops : forall sent v led, inv v led -> (forall k, In k (keys led) -> In k sent) -> valid_ops sent ops ->
  rec_run fl ops v <> Panic /\
  forall v' xs, rec_run fl ops v = Ok (v', xs) -> exists led',
    explains fl ops v led v' led' /\ inv v' led' /\
    forall g g', finv v led g -> grun_ok ops xs g g' -> finv v' led' g'.
Proof.
  induction ops as [|o ops IH]; intros sent v led hi hk hv.
  - cbn [rec_run]. split; [discriminate|]. intros v' xs h. injection h as <- <-. exists led. split; [constructor|]. split; [exact hi|].
    intros g g' hg hr e f. specialize (hg e f). rewrite hr. cbn [reported_acked reported_lost timeouts discarded existsb frames_sent].
    rewrite !app_nil_r, Z.add_0_r, Bool.orb_false_r. destruct (g e). exact hg.
  - apply valid_cons in hv. destruct hv as [hov hv]. cbn [rec_run].
    destruct (step_all fl o v led hi (op_valid_ext o _ _ hk hov)) as [hnp hok].
    destruct (rec_step fl o v) as [[v1 x]| |] eqn:es; [|cbn [bind]; split; [discriminate|intros ? ? hh; discriminate hh]|destruct (hnp eq_refl)].
    destruct (hok v1 x eq_refl) as (led1 & l1 & i1 & k1 & f1). cbn [bind].
    destruct (IH (new_keys o ++ sent) v1 led1 i1) as [hnp2 hok2]; [|exact hv|].
    { intros k hin. rewrite k1 in hin. apply in_app_or in hin. apply in_or_app. destruct hin; [right; auto|left; assumption]. }
    destruct (rec_run fl ops v1) as [[v2 xs]| |]; [|cbn [bind]; split; [discriminate|intros ? ? hh; discriminate hh]|destruct (hnp2 eq_refl)].
    cbn [bind]. split; [discriminate|]. intros v' xs' h. injection h as <- <-.
    destruct (hok2 v2 xs eq_refl) as (led2 & l2 & i2 & f2).
    exists led2. split; [econstructor; eauto|]. split; [exact i2|].
    intros g g' hg hr. apply (f2 (fun e => gstep o x e (g e)) g'); [apply f1; exact hg|].
    intros e. rewrite hr. unfold gstep. cbn [gh_ack gh_lost gh_to gh_disc gh_sent].
    rewrite ra_cons, rl_cons, to_cons, fs_cons, !app_assoc, Z.add_assoc. f_equal. unfold discarded. cbn [existsb]. rewrite Bool.orb_false_r, Bool.orb_assoc. reflexivity.
Qed.

(** ... and anything else every call preserves *)
Lemma run_pres fl (P : rec -> ledger -> Prop) ops : forall sent v led, inv v led -> (forall k, In k (keys led) -> In k sent) -> valid_ops sent ops ->
  (forall o v led v' x led', In o ops -> inv v led -> op_valid o (keys led) -> rec_step fl o v = Ok (v', x) ->
     ledger_step fl v' o x led led' -> inv v' led' -> P v led -> P v' led') ->
  P v led ->
  forall v' xs, rec_run fl ops v = Ok (v', xs) -> exists led',
    explains fl ops v led v' led' /\ inv v' led' /\ P v' led' /\
    forall g g', finv v led g -> grun_ok ops xs g g' -> finv v' led' g'.
Proof.
  induction ops as [|o ops IH]; intros sent v led hi hk hv hP hp v' xs h.
  - cbn [rec_run] in h. injection h as <- <-. exists led. split; [constructor|]. split; [exact hi|]. split; [exact hp|].
    intros g g' hg hr e f. specialize (hg e f). rewrite hr. cbn [reported_acked reported_lost timeouts discarded existsb frames_sent].
    rewrite !app_nil_r, Z.add_0_r, Bool.orb_false_r. destruct (g e). exact hg.
  - apply valid_cons in hv. destruct hv as [hov hv]. cbn [rec_run] in h.
    destruct (step_all fl o v led hi (op_valid_ext o _ _ hk hov)) as [hnp hok].
    destruct (rec_step fl o v) as [[v1 x]| |] eqn:es; cbn [bind] in h; try discriminate h.
    destruct (hok v1 x eq_refl) as (led1 & l1 & i1 & k1 & f1).
    destruct (rec_run fl ops v1) as [[v2 xs']| |] eqn:er; cbn [bind] in h; try discriminate h. injection h as <- <-.
    destruct (IH (new_keys o ++ sent) v1 led1 i1) with (v' := v2) (xs := xs') as (led2 & l2 & i2 & p2 & f2); auto.
    { intros k hin. rewrite k1 in hin. apply in_app_or in hin. apply in_or_app. destruct hin; [right; auto|left; assumption]. }
    { intros o' w lw w' x' lw' hin. apply hP. right. exact hin. }
    { eapply (hP o v led); eauto; [left; reflexivity|]. apply (op_valid_ext o _ _ hk hov). }
    exists led2. split; [econstructor; eauto|]. split; [exact i2|]. split; [exact p2|].
    intros g g' hg hr. apply (f2 (fun e => gstep o x e (g e)) g'); [apply f1; exact hg|].
    intros e. rewrite hr. unfold gstep. cbn [gh_ack gh_lost gh_to gh_disc gh_sent].
    rewrite ra_cons, rl_cons, to_cons, fs_cons, !app_assoc, Z.add_assoc. f_equal. unfold discarded. cbn [existsb]. rewrite Bool.orb_false_r, Bool.orb_assoc. reflexivity.
Qed.

Lemma inv_new t irtt mds icwp a hy fix_ : inv (rec_new t irtt mds icwp a hy fix_) [].
Proof.
  split; [intros []; split; try (exists [], []; repeat constructor); try constructor; reflexivity|intros []; intros ? [] |
    intros []; intros h; destruct (h eq_refl)|reflexivity|apply Z.le_refl].
Qed.

Lemma finv_new t irtt mds icwp a hy fix_ : finv (rec_new t irtt mds icwp a hy fix_) [] (fun _ => mkFgh [] [] 0 false []).
Proof. intros [] f; split; cbn; auto; unfold esum; cbn; lia. Qed.

Lemma history_ok fl t irtt mds icwp a hy fix_ ops : valid_ops [] ops ->
  let v0 := rec_new t irtt mds icwp a hy fix_ in
  rec_run fl ops v0 <> Panic /\
  forall v xs, rec_run fl ops v0 = Ok (v, xs) -> exists led,
    explains fl ops v0 [] v led /\ inv v led /\
    finv v led (fun e => mkFgh (reported_acked e ops xs) (reported_lost e ops xs) (timeouts ops) (discarded e ops) (frames_sent e ops)).
Proof.
  intros hv v0. destruct (run_ok fl ops [] v0 [] (inv_new _ _ _ _ _ _ _) (fun k h => h) hv) as [h1 h2].
  split; [exact h1|]. intros v xs h. destruct (h2 v xs h) as (led & e1 & e2 & e3). exists led. split; [exact e1|]. split; [exact e2|].
  apply (e3 (fun _ => mkFgh [] [] 0 false [])); [apply finv_new|]. intros e. reflexivity.
Qed.


(** Errors *)
Lemma ack_range_noerr now largest lo hi l : forall a err, ack_range now largest lo hi l a <> Err err.
Proof.
  induction l as [|p l IH]; intros a err h; cbn [ack_range] in h; [discriminate|].
  destruct (p_num p <? lo).
  - destruct (ack_range now largest lo hi l a) as [[? ?]| |] eqn:e; cbn [bind] in h; try discriminate h. apply (IH a e0). exact e.
  - destruct (hi <=? p_num p); [discriminate|]. unfold ack_one in h.
    destruct (is_some (p_acked p)); cbn [bind] in h.
    + destruct (ack_range now largest lo hi l a) as [[? ?]| |] eqn:e; cbn [bind] in h; try discriminate h. apply (IH a e0). exact e.
    + destruct (is_some (p_lost p)); [destruct (largest <? p_num p); [discriminate|]|destruct (p_inf p && (a_inf a <? 1)); [discriminate|]];
      cbn [bind] in h; match type of h with context [ack_range now largest lo hi l ?b] => destruct (ack_range now largest lo hi l b) as [[? ?]| |] eqn:e; cbn [bind] in h; try discriminate h; apply (IH b e0); exact e end.
Qed.

Definition skip_hit (skip : option Z) (rs : list (Z * Z)) : bool :=
  match skip with Some n => covered rs n | None => false end.

Lemma ack_ranges_err now largest skip rs : forall l a err, ack_ranges now largest skip rs l a = Err err ->
  err = OptimisticAckDetected /\ skip_hit skip rs = true.
Proof.
  induction rs as [|[lo hi] rs IH]; intros l a err h; cbn [ack_ranges] in h; [discriminate|].
  unfold skip_hit in *. destruct skip as [n|].
  - unfold covered in *. cbn [existsb fst snd]. destruct ((lo <=? n) && (n <? hi)); [injection h as <-; auto|]. cbn [orb].
    destruct (ack_range now largest lo hi l a) as [[l1 a1]|e1|] eqn:e; cbn [bind] in h; [|destruct (ack_range_noerr _ _ _ _ _ _ _ e)|discriminate].
    apply (IH l1 a1 err h).
  - destruct (ack_range now largest lo hi l a) as [[l1 a1]|e1|] eqn:e; cbn [bind] in h; [|destruct (ack_range_noerr _ _ _ _ _ _ _ e)|discriminate].
    destruct (IH l1 a1 err h) as [_ q]. discriminate q.
Qed.

Lemma ack_ranges_hit now largest skip rs : skip_hit skip rs = true -> forall l a l' a', ack_ranges now largest skip rs l a <> Ok (l', a').
Proof.
  unfold skip_hit. destruct skip as [n|]; [|discriminate]. induction rs as [|[lo hi] rs IH]; [discriminate|].
  intros hc l a l' a' h. cbn [ack_ranges] in h. unfold covered in *. cbn [existsb fst snd] in hc.
  destruct ((lo <=? n) && (n <? hi)); [discriminate|]. cbn [orb] in hc.
  destruct (ack_range now largest lo hi l a) as [[l1 a1]| |]; cbn [bind] in h; try discriminate h. apply (IH hc l1 a1 l' a' h).
Qed.

Definition hits (o : rop) : bool :=
  match o with RAck _ rs _ _ _ skip => skip_hit skip rs | _ => false end.

Lemma rec_lose_noerr fl e now v led : inv v led -> forall err, rec_lose fl e now v <> Err err.
Proof.
  intros [h1 h2 h3 h4 h5] err h.
  destruct (rec_lose_ok fl e now v led 0 h1 h2 (fun e' _ => h3 e') ltac:(lia) ltac:(lia) h5) as (S & v' & n & b & er & _). congruence.
Qed.

(** An error is always the skipped packet number *)
Lemma step_err fl o v led err : inv v led -> op_valid o (keys led) -> rec_step fl o v = Err err -> err = OptimisticAckDetected /\ hits o = true.
Proof.
  intros hi hv h. destruct o; cbn [rec_step] in h; try discriminate h.
  - unfold rec_ack in h. unfold space_ack in h. destruct (valid_ranges_last rs hv) as (m & em & _). rewrite em in h.
    match type of h with context [ack_ranges ?a ?b ?c ?d ?f ?g] => destruct (ack_ranges a b c d f g) as [[l a1]|e1|] eqn:ea end.
    2:{ cbn [bind] in h. injection h as <-. cbn [hits]. apply (ack_ranges_err _ _ _ _ _ _ _ ea). }
    2:{ discriminate h. }
    exfalso. pose proof (step_ack fl e rs delay hs now skip v led hi hv) as hs'. destruct hs' as [_ hs'].
    cbn [rec_step] in hs'. unfold rec_ack, space_ack in hs'. rewrite em, ea in hs'. cbn [bind] in h, hs'.
    destruct (a_new a1) eqn:en; [discriminate h|]. cbv zeta in h.
    match type of h with context [rec_lose fl e now ?w] => destruct (rec_lose fl e now w) as [[? ?]| e2 |] eqn:el; cbn [bind] in h; try discriminate h;
      unfold rec_lose in el; 
      match type of el with context [space_lose ?a ?b ?c ?d] => destruct (space_lose a b c d) as [[? ?]|e3|] eqn:el2; cbn [bind] in el; try discriminate el end end.
    unfold space_lose in el2. match type of el2 with context [lose ?a ?b ?c ?d ?f ?g] => destruct (lose a b c d f g) as [[? ?]|e4|] eqn:el3; cbn [bind] in el2; try discriminate el2 end.
    clear -el3. revert el3. match goal with |- lose ?a ?b ?c ?d ?f ?g = _ -> _ => generalize f g end. intros lst. induction lst as [|q lst IH]; intros acc hh; cbn [lose] in hh; [discriminate hh|].
    repeat match type of hh with
    | (if ?b then _ else _) = _ => destruct b; try discriminate hh
    | context [lose ?a ?b ?c ?d lst ?g] => let E := fresh in destruct (lose a b c d lst g) as [[? ?]| |] eqn:E; cbn [bind] in hh; try discriminate hh; try (injection hh as ->; exact (IH _ E))
    end.
  - unfold rec_timeout in h. destruct (loss_time_and_space v) as [[t|] e0]; [|discriminate h].
    destruct (rec_lose fl e0 now v) as [[? ?]|e1|] eqn:el; cbn [bind] in h; try discriminate h. destruct (rec_lose_noerr fl e0 now v led hi e1 el).
  - destruct (rec_lose fl e now v) as [[? ?]|e1|] eqn:el; cbn [bind] in h; try discriminate h. destruct (rec_lose_noerr fl e now v led hi e1 el).
  - destruct (rec_next_acked e v); discriminate h.
  - destruct (rec_next_lost e v); discriminate h.
Qed.

Lemma run_err fl ops : forall sent v led err, inv v led -> (forall k, In k (keys led) -> In k sent) -> valid_ops sent ops ->
  rec_run fl ops v = Err err -> err = OptimisticAckDetected /\ existsb hits ops = true.
Proof.
  induction ops as [|o ops IH]; intros sent v led err hi hk hv h; [discriminate h|].
  apply valid_cons in hv. destruct hv as [hov hv]. cbn [rec_run existsb] in h |- *.
  assert (hov' := op_valid_ext o _ _ hk hov).
  destruct (step_all fl o v led hi hov') as [hnp hok].
  destruct (rec_step fl o v) as [[v1 x]|e1|] eqn:es; [|cbn [bind] in h; injection h as <-; destruct (step_err fl o v led e1 hi hov' es) as [-> ->]; auto|destruct (hnp eq_refl)].
  destruct (hok v1 x eq_refl) as (led1 & l1 & i1 & k1 & f1). cbn [bind] in h.
  destruct (rec_run fl ops v1) as [[v2 xs]|e2|] eqn:er; cbn [bind] in h; try discriminate h. injection h as <-.
  destruct (IH (new_keys o ++ sent) v1 led1 e2 i1) as [-> ->]; auto; [|apply conj; [reflexivity|apply Bool.orb_true_r]].
  intros k hin. rewrite k1 in hin. apply in_app_or in hin. apply in_or_app. destruct hin; [right; auto|left; assumption].
Qed.

Lemma run_hit fl ops : forall v v' xs, rec_run fl ops v = Ok (v', xs) -> existsb hits ops = false.
Proof.
  induction ops as [|o ops IH]; intros v v' xs h; [reflexivity|]. cbn [rec_run existsb] in h |- *.
  destruct (rec_step fl o v) as [[v1 x]|e1|] eqn:es; cbn [bind] in h; try discriminate h.
  destruct (rec_run fl ops v1) as [[v2 xs']|e2|] eqn:er; cbn [bind] in h; try discriminate h.
  rewrite (IH _ _ _ er), Bool.orb_false_r. destruct (hits o) eqn:eh; [|reflexivity]. exfalso.
  destruct o; cbn [hits] in eh; try discriminate eh. cbn [rec_step] in es. unfold rec_ack, space_ack in es.
  destruct (ranges_last rs); [|discriminate es].
  match type of es with context [ack_ranges ?a ?b ?c ?d ?f ?g] => destruct (ack_ranges a b c d f g) as [[l a1]|e3|] eqn:ea end; cbn [bind] in es; try discriminate es.
  exact (ack_ranges_hit _ _ _ _ eh _ _ _ _ ea).
Qed.

(** Counting *)
Lemma cntf_times f l : cntf f l = Z.of_nat (times f l). Proof. reflexivity. Qed.
Lemma nodup_times l : NoDup l <-> forall f, (times f l <= 1)%nat.
Proof. apply NoDup_count_occ. Qed.

Lemma fates_le f L : esum (gfr f) acked_fate L + esum (gfr f) lost_fate L <= esum (gfr f) (fun _ => true) L.
Proof.
  induction L as [|x L IH]; [reflexivity|]. rewrite !esum_cons. assert (0 <= gfr f (en_p x)) by apply cntf_nonneg.
  unfold acked_fate at 1, lost_fate at 1. destruct (en_fate x); lia.
Qed.

Lemma esum_pos_in f k L : 0 < esum (gfr f) k L -> exists x, In x L /\ k x = true /\ In f (p_frames (en_p x)).
Proof.
  induction L as [|x L IH]; intros h; [unfold esum in h; cbn in h; lia|]. rewrite esum_cons in h.
  destruct (k x) eqn:e.
  - destruct (Z.eq_dec (gfr f (en_p x)) 0).
    + destruct IH as (y & h1 & h2); [lia|]. exists y. split; [right; exact h1|exact h2].
    + exists x. split; [left; reflexivity|]. split; [exact e|]. apply (count_occ_In Z.eq_dec). unfold gfr, cntf in *. lia.
  - destruct IH as (y & h1 & h2); [lia|]. exists y. split; [right; exact h1|exact h2].
Qed.
Lemma in_esum_pos f k L x : In x L -> k x = true -> In f (p_frames (en_p x)) -> 0 < esum (gfr f) k L.
Proof.
  induction L as [|y L IH]; intros hx hk hf; [destruct hx|]. rewrite esum_cons.
  assert (0 <= esum (gfr f) k L) by (apply esum_nonneg, gfr_nonneg). assert (0 <= gfr f (en_p y)) by apply cntf_nonneg.
  destruct hx as [->|hx]; [|specialize (IH hx hk hf); destruct (k y); lia].
  rewrite hk. apply (count_occ_In Z.eq_dec) in hf. unfold gfr at 1, cntf. lia.
Qed.
