(** Counters, thresholds and probes of BBR2's loss detection. *)
Require Import Verif.Base Verif.Errors Verif.RttModel Verif.RecoveryModel Verif.RecoverySpec Verif.GRecModel Verif.GRecSpec.
Require Import Verif.RecoveryProofs Verif.RecoveryInv Verif.RecoveryMain Verif.RecoverySteps Verif.RecoveryRun Verif.GRecProofs Verif.GRecRun.

Definition spur_ok (a : gaacc) : Prop := 0 <= ga_spur a /\ (ga_thresh a <> None -> 0 < ga_spur a) /\ (ga_new a = [] -> ga_bytes a = 0).

Lemma gack_one_spur largest x a x' a' : gack_one largest x a = Ok (x', a') -> spur_ok a -> spur_ok a'.
Proof.
  intros h (h1 & h2 & h3). unfold gack_one in h. destruct (snd x) as [p| |].
  - destruct (p_inf p && (ga_inf a <? 1)); [discriminate h|]. injection h as _ <-. split; [assumption|]. split; [assumption|]. cbn [ga_new]. intros q. destruct (ga_new a); discriminate q.
  - injection h as _ <-. split; auto.
  - destruct (largest <? fst x); [discriminate h|]. injection h as _ <-. split; [|split]; cbn [ga_spur ga_thresh ga_new ga_bytes]; [lia|intros _; lia|exact h3].
Qed.
Lemma gack_range_spur largest lo hi l : forall a l' a', gack_range largest lo hi l a = Ok (l', a') -> spur_ok a -> spur_ok a'.
Proof.
  induction l as [|x l IH]; intros a l' a' h hs; cbn [gack_range] in h; [injection h as _ <-; exact hs|].
  destruct (fst x <? lo).
  - destruct (gack_range largest lo hi l a) as [[l1 a1]| |] eqn:e; cbn [bind] in h; try discriminate h. injection h as _ <-. exact (IH _ _ _ e hs).
  - destruct (fst x <? hi); [|injection h as _ <-; exact hs].
    destruct (gack_one largest x a) as [[x1 a1]| |] eqn:e1; cbn [bind] in h; try discriminate h.
    destruct (gack_range largest lo hi l a1) as [[l1 a2]| |] eqn:e; cbn [bind] in h; try discriminate h. injection h as _ <-.
    exact (IH _ _ _ e (gack_one_spur _ _ _ _ _ e1 hs)).
Qed.
Lemma gack_ranges_spur largest skip rs : forall l a l' a', gack_ranges largest skip rs l a = Ok (l', a') -> spur_ok a -> spur_ok a'.
Proof.
  induction rs as [|[lo hi] rs IH]; intros l a l' a' h hs; cbn [gack_ranges] in h; [injection h as _ <-; exact hs|].
  destruct (match skip with Some s => (lo <=? s) && (s <? hi) | None => false end); [discriminate h|].
  destruct (gack_range largest lo hi l a) as [[l1 a1]| |] eqn:e; cbn [bind] in h; try discriminate h.
  exact (IH _ _ _ _ h (gack_range_spur _ _ _ _ _ _ _ e hs)).
Qed.

(** Lost packets, spurious losses and bytes that one call adds to the counters *)
Definition lost_of (o : rop) (x : rout) : Z :=
  match o, x with RAck _ _ _ _ _ _, OAck (n, _, _, _) => n | RTimeout _ _, OLost n _ => n | _, _ => 0 end.
Definition spur_of (x : rout) : Z := match x with OAck (_, _, _, s) => s | _ => 0 end.
Definition sent_of (o : rop) : Z := match o with RSent _ p _ _ => p_size p | _ => 0 end.

(** The thresholds of state [v]: as at the start unless a loss was spurious *)
Definition tinv (relaxed : bool) (v : grec) : Prop :=
  0 <= gv_spur v /\ is_some (gv_over8 v) = relaxed /\
  (gv_spur v = 0 -> gv_thresh v = Some 3 /\ gv_time8 v = 9) /\
  match gv_over8 v with
  | None => (exists t, gv_thresh v = Some t /\ 3 <= t <= 20) /\ (gv_time8 v = 9 \/ gv_time8 v = 10)
  | Some o => (gv_thresh v = None \/ gv_thresh v = Some 3) /\ 1 <= o <= 8 /\ gv_time8 v = 8 + o
  end.
Definition tmono (v v' : grec) : Prop :=
  gv_spur v <= gv_spur v' /\ gv_time8 v <= gv_time8 v' /\
  (forall t', gv_thresh v' = Some t' -> exists t, gv_thresh v = Some t /\ t <= t').

Definition same_th (v v' : grec) : Prop :=
  gv_spur v' = gv_spur v /\ gv_thresh v' = gv_thresh v /\ gv_time8 v' = gv_time8 v /\ gv_over8 v' = gv_over8 v.
Lemma same_inv r v v' : same_th v v' -> tinv r v -> tinv r v' /\ tmono v v'.
Proof.
  intros (a & b & c & d) h. unfold tinv, tmono in *. rewrite a, b, c, d. split; [exact h|]. split; [lia|]. split; [lia|]. intros t' ->. exists t'. split; [reflexivity|lia].
Qed.
Lemma tmono_trans a b c : tmono a b -> tmono b c -> tmono a c.
Proof.
  intros (a1 & a2 & a3) (b1 & b2 & b3). split; [lia|]. split; [lia|]. intros t h. destruct (b3 t h) as (t1 & h1 & l1). destruct (a3 t1 h1) as (t2 & h2 & l2). exists t2. split; [exact h2|lia].
Qed.

Lemma okinj {A} (a b : A) : @Ok error A a = Ok b -> a = b.
Proof. congruence. Qed.
Lemma gspurious_inv r n k v v' : tinv r v -> 0 < k -> gspurious n (gv_spur v + k) v = Ok v' -> tinv r v' /\ tmono v v'.
Proof.
  intros (h0 & hr & h1 & h2) hk h. unfold gspurious in h. destruct (gv_over8 v) as [o|] eqn:eo.
  - destruct h2 as (h2 & h3 & h4). destruct (gv_thresh v) as [t|] eqn:et; cbn [is_some] in h; apply okinj in h; subst v'; unfold tinv, tmono; cbn [gv_spur gv_over8 gv_thresh gv_time8 gset_thresh is_some];
      (split; [split; [lia|]; split; [exact hr|]; split; [intros; exfalso; lia|]; split; [auto|]; split; [lia|]; lia|split; [lia|]; split; [lia|]; discriminate]).
  - destruct h2 as ((t & h2 & h3) & h4). rewrite h2 in h. apply okinj in h; subst v'. unfold tinv, tmono. cbn [gv_spur gv_over8 gv_thresh gv_time8 gset_thresh is_some]. change MAX_PKT_THRESH with 20.
    split; [split; [lia|]; split; [exact hr|]; split; [intros; exfalso; lia|]; split; [|auto]; eexists; split; [reflexivity|lia]|].
    split; [lia|]. split; [lia|]. intros t' ht'. injection ht' as <-. exists t. split; [exact h2|lia].
Qed.

Lemma gslt_stat hs now v : same_th v (gset_loss_timer hs now v) /\ gv_lost (gset_loss_timer hs now v) = gv_lost v /\ gv_bytes_sent (gset_loss_timer hs now v) = gv_bytes_sent v.
Proof. unfold gset_loss_timer, same_th. destruct (fst (gloss_time_and_space v)); [|destruct ((bf_n (gv_bif v) =? 0) && hs_verified hs)]; repeat split; reflexivity. Qed.
Lemma grec_lose_stat fl e now v v' nb : grec_lose fl e now v = Ok (v', nb) -> same_th v v' /\ gv_lost v' = gv_lost v /\ gv_bytes_sent v' = gv_bytes_sent v.
Proof.
  unfold grec_lose. intros h. destruct (gspace_lose (gdelay fl v) (gv_thresh v) now (gget e v)) as [[s a]| |]; cbn [bind] in h; try discriminate h.
  injection h as <- _. unfold same_th. destruct e; repeat split; reflexivity.
Qed.
Lemma same_trans a b c : same_th a b -> same_th b c -> same_th a c.
Proof. unfold same_th. intuition congruence. Qed.

Lemma gset_stat e s v : same_th v (gset e s v) /\ gv_lost (gset e s v) = gv_lost v /\ gv_bytes_sent (gset e s v) = gv_bytes_sent v.
Proof. unfold same_th. destruct e; repeat split; reflexivity. Qed.

(** Everything one call does to counters and thresholds *)
Lemma gstep_stat fl r o v v' x : grec_step fl o v = Ok (v', x) -> tinv r v ->
  tinv r v' /\ tmono v v' /\ gv_lost v' = gv_lost v + lost_of o x /\ gv_spur v' = gv_spur v + spur_of x /\ gv_bytes_sent v' = gv_bytes_sent v + sent_of o.
Proof.
  intros h ht.
  assert (quiet : same_th v v' -> gv_lost v' = gv_lost v + lost_of o x -> spur_of x = 0 -> gv_bytes_sent v' = gv_bytes_sent v + sent_of o ->
    tinv r v' /\ tmono v v' /\ gv_lost v' = gv_lost v + lost_of o x /\ gv_spur v' = gv_spur v + spur_of x /\ gv_bytes_sent v' = gv_bytes_sent v + sent_of o).
  { intros hs h1 h2 h3. destruct (same_inv r v v' hs ht) as [a b]. destruct hs as (c & _). rewrite h2. split; [exact a|]. split; [exact b|]. split; [exact h1|]. split; [lia|exact h3]. }
  destruct o; cbn [grec_step] in h.
  - unfold grec_sent in h. cbv zeta in h. destruct (match gs_q (gget e v) with [] => false | _ => p_num p <=? fst (last (gs_q (gget e v)) (0, GAcked)) end); cbn [bind] in h; [discriminate h|].
    injection h as <- <-. apply quiet; try reflexivity.
    + destruct (p_inf p); [eapply same_trans; [|apply gslt_stat]|]; unfold same_th; destruct e; repeat split; reflexivity.
    + cbn [lost_of]. rewrite Z.add_0_r. destruct (p_inf p); [rewrite (proj1 (proj2 (gslt_stat _ _ _)))|]; destruct e; reflexivity.
    + cbn [sent_of]. destruct (p_inf p); [rewrite (proj2 (proj2 (gslt_stat _ _ _)))|]; destruct e; reflexivity.
  - destruct (grec_ack fl e rs delay hs now skip v) as [[v2 o2]| |] eqn:ea; cbn [bind] in h; try discriminate h. injection h as <- <-. clear quiet.
    unfold grec_ack in ea. destruct (gspace_ack rs skip (gget e v)) as [[s a]| |] eqn:es; cbn [bind] in ea; try discriminate ea.
    assert (hsp : spur_ok a).
    { unfold gspace_ack in es. destruct (ranges_last rs); [|discriminate es].
      match type of es with context [gack_ranges ?q1 ?q2 ?q3 ?q4 ?q5] => destruct (gack_ranges q1 q2 q3 q4 q5) as [[l1 a1]| |] eqn:eg end; cbn [bind] in es; try discriminate es.
      injection es as _ <-. apply (gack_ranges_spur _ _ _ _ _ _ _ eg). split; [|split]; cbn [ga_spur ga_thresh ga_bytes]; [lia|congruence|reflexivity]. }
    destruct (gset_stat e s v) as (s1 & s2 & s3). destruct (same_inv r v _ s1 ht) as [t1 m1].
    set (u := gset e s v) in *.
    match type of ea with bind ?m _ = _ => destruct m as [w| |] eqn:ew end; cbn [bind] in ea; try discriminate ea.
    assert (hw : tinv r w /\ tmono v w /\ gv_lost w = gv_lost v /\ gv_spur w = gv_spur v + ga_spur a /\ gv_bytes_sent w = gv_bytes_sent v).
    { assert (esp : gv_spur u = gv_spur v) by apply s1. destruct hsp as (p0 & p1 & _). destruct (ga_thresh a) as [n|] eqn:eth.
      - assert (hp : 0 < ga_spur a) by (apply p1; discriminate).
        destruct (gspurious_inv r n (ga_spur a) u w t1 hp ew) as [t2 m2]. split; [exact t2|]. split; [exact (tmono_trans _ _ _ m1 m2)|].
        unfold gspurious in ew. destruct (gv_over8 u); [destruct (is_some (gv_thresh u)); apply okinj in ew; subst w|destruct (gv_thresh u); [apply okinj in ew; subst w|discriminate ew]]; cbn [gv_lost gv_spur gv_bytes_sent gset_thresh]; rewrite s2, s3, esp; auto.
      - apply okinj in ew; subst w. cbn [gv_lost gv_spur gv_bytes_sent gset_thresh]. rewrite s2, s3, esp. split; [|split; [|auto]].
        + destruct t1 as (q0 & q1 & q2 & q3). unfold tinv. cbn [gv_spur gv_over8 gv_thresh gv_time8 gset_thresh]. split; [lia|]. split; [exact q1|]. split; [intros; apply q2; lia|exact q3].
        + destruct m1 as (q1 & q2 & q3). unfold tmono. cbn [gv_spur gv_over8 gv_thresh gv_time8 gset_thresh]. split; [lia|]. split; [exact q2|exact q3]. }
    destruct hw as (w1 & w2 & w3 & w4 & w5).
    destruct (ga_new a) as [|p new]; [injection ea as <- <-; cbn [lost_of spur_of sent_of]; rewrite !Z.add_0_r; auto|].
    cbv zeta in ea.
    match type of ea with bind (grec_lose fl e now ?z) _ = _ => set (w' := z) in ea end.
    assert (hw' : same_th w w' /\ gv_lost w' = gv_lost w /\ gv_bytes_sent w' = gv_bytes_sent w).
    { unfold w', same_th. match goal with |- context [if ?b then _ else _] => destruct b end; destruct e; repeat split; reflexivity. }
    clearbody w'. destruct (grec_lose fl e now w') as [[w2' nb]| |] eqn:el; cbn [bind] in ea; try discriminate ea. injection ea as <- <-.
    destruct (grec_lose_stat _ _ _ _ _ _ el) as (l1 & l2 & l3). destruct hw' as (z1 & z2 & z3).
    set (y := gset_lost _ _). destruct (gslt_stat hs now y) as (y1 & y2 & y3).
    assert (y0 : same_th w2' y) by (unfold y, same_th; repeat split; reflexivity).
    assert (hs' : same_th w (gset_loss_timer hs now y)) by (eapply same_trans; [exact z1|]; eapply same_trans; [exact l1|]; eapply same_trans; [exact y0|exact y1]).
    destruct (same_inv r w _ hs' w1) as [f1 f2]. split; [exact f1|]. split; [exact (tmono_trans _ _ _ w2 f2)|]. cbn [lost_of spur_of sent_of]. destruct hs' as (hs' & _).
    rewrite y2, y3, hs'. unfold y. cbn [gv_lost gset_lost gset_pto gv_bytes_sent]. rewrite l2, z2, w3, l3, z3, w5, w4. lia.
  - destruct (grec_timeout fl hs now v) as [[v2 o2]| |] eqn:ea; cbn [bind] in h; try discriminate h. injection h as <- <-. unfold grec_timeout in ea.
    destruct (gloss_time_and_space v) as [[d|] e0].
    + destruct (grec_lose fl e0 now v) as [[w nb]| |] eqn:el; cbn [bind] in ea; try discriminate ea. injection ea as <- <-.
      destruct (grec_lose_stat _ _ _ _ _ _ el) as (l1 & l2 & l3). destruct (gslt_stat hs now (gset_lost (gv_lost w + fst nb) w)) as (y1 & y2 & y3).
      apply quiet; [|rewrite y2; cbn [lost_of gv_lost gset_lost]; lia|reflexivity|rewrite y3; cbn [gv_bytes_sent gset_lost sent_of]; lia].
      eapply same_trans; [exact l1|]. eapply same_trans; [|exact y1]. repeat split; reflexivity.
    + cbv zeta in ea. injection ea as <- <-. match goal with |- context [gset_loss_timer hs now ?y] => set (u := y) in * end.
      assert (hu : same_th v u /\ gv_lost u = gv_lost v /\ gv_bytes_sent u = gv_bytes_sent v).
      { unfold u, same_th. match goal with |- context [gset ?ee ?ss ?vv] => generalize ss; intros sx; generalize ee; intros ex end. destruct ex; repeat split; reflexivity. }
      destruct hu as (u1 & u2 & u3). destruct (gslt_stat hs now u) as (y1 & y2 & y3).
      apply quiet; [eapply same_trans; [exact u1|exact y1]|rewrite y2; cbn [lost_of fst]; lia|reflexivity|rewrite y3; cbn [sent_of]; lia].
  - injection h as <- <-. unfold grec_discard. cbv zeta. match goal with |- context [gset_loss_timer hs now ?y] => set (u := y) in * end.
    assert (hu : same_th v u /\ gv_lost u = gv_lost v /\ gv_bytes_sent u = gv_bytes_sent v) by (unfold u, same_th; destruct e; repeat split; reflexivity).
    destruct hu as (u1 & u2 & u3). unfold grec_discard in quiet. cbv zeta in quiet. fold u in quiet. destruct (gslt_stat hs now u) as (y1 & y2 & y3).
    apply quiet; [eapply same_trans; [exact u1|exact y1]|rewrite y2; cbn [lost_of]; lia|reflexivity|rewrite y3; cbn [sent_of]; lia].
  - destruct (grec_lose fl e now v) as [[w nb]| |] eqn:el; cbn [bind] in h; try discriminate h. injection h as <- <-.
    destruct (grec_lose_stat _ _ _ _ _ _ el) as (l1 & l2 & l3). apply quiet; [exact l1|cbn [lost_of]; lia|reflexivity|cbn [sent_of]; lia].
  - unfold grec_next_acked in h. destruct (qpop (gs_facked (gget e v))) as [[y l]|]; injection h as <- <-; (apply quiet; [|cbn [lost_of]; rewrite Z.add_0_r|reflexivity|cbn [sent_of]; rewrite Z.add_0_r]); try reflexivity; try (unfold same_th; destruct e; repeat split; reflexivity); destruct e; reflexivity.
  - unfold grec_next_lost in h. destruct (qpop (gs_flost (gget e v))) as [[y l]|]; [|destruct (qpop (gs_fpto (gget e v))) as [[y l]|]]; injection h as <- <-; (apply quiet; [|cbn [lost_of]; rewrite Z.add_0_r|reflexivity|cbn [sent_of]; rewrite Z.add_0_r]); try reflexivity; try (unfold same_th; destruct e; repeat split; reflexivity); destruct e; reflexivity.
  - injection h as <- <-. apply quiet; [|cbn [lost_of]; rewrite Z.add_0_r|reflexivity|cbn [sent_of]; rewrite Z.add_0_r]; try (unfold same_th; destruct e; repeat split; reflexivity); destruct e; reflexivity.
  - injection h as <- <-. apply quiet; cbn [lost_of sent_of]; rewrite ?Z.add_0_r; reflexivity || (repeat split; reflexivity).
  - injection h as <- <-. apply quiet; cbn [lost_of sent_of]; rewrite ?Z.add_0_r; reflexivity || (repeat split; reflexivity).
  - injection h as <- <-. apply quiet; cbn [lost_of sent_of]; rewrite ?Z.add_0_r; reflexivity || (repeat split; reflexivity).
  - injection h as <- <-. apply quiet; cbn [lost_of sent_of]; rewrite ?Z.add_0_r; reflexivity || (repeat split; reflexivity).
Qed.

Fixpoint sum_of {A} (f : A -> Z) (l : list A) : Z := match l with [] => 0 | x :: l => f x + sum_of f l end.
Fixpoint lost_sum (ops : list rop) (xs : list rout) : Z :=
  match ops, xs with o :: ops, x :: xs => lost_of o x + lost_sum ops xs | _, _ => 0 end.

Lemma grun_stat fl r ops : forall v v' xs, grec_run fl ops v = Ok (v', xs) -> tinv r v ->
  tinv r v' /\ tmono v v' /\ gv_lost v' = gv_lost v + lost_sum ops xs /\ gv_spur v' = gv_spur v + sum_of spur_of xs /\ gv_bytes_sent v' = gv_bytes_sent v + sum_of sent_of ops.
Proof.
  induction ops as [|o ops IH]; intros v v' xs h ht; cbn [grec_run] in h.
  - injection h as <- <-. cbn [lost_sum sum_of]. rewrite !Z.add_0_r. split; [exact ht|]. split; [|auto]. split; [lia|]. split; [lia|]. intros t' e. exists t'. split; [exact e|lia].
  - destruct (grec_step fl o v) as [[v1 x]| |] eqn:es; cbn [bind] in h; try discriminate h.
    destruct (grec_run fl ops v1) as [[v2 xs']| |] eqn:er; cbn [bind] in h; try discriminate h. injection h as <- <-.
    destruct (gstep_stat fl r o v v1 x es ht) as (a1 & a2 & a3 & a4 & a5). destruct (IH v1 v2 xs' er a1) as (b1 & b2 & b3 & b4 & b5).
    split; [exact b1|]. split; [exact (tmono_trans _ _ _ a2 b2)|]. cbn [lost_sum sum_of]. lia.
Qed.
Lemma tinv_new t irtt mad mds rel : tinv rel (grec_new t irtt mad mds rel).
Proof.
  unfold tinv. cbn [grec_new gv_spur gv_over8 gv_thresh gv_time8]. change INITIAL_PKT_THRESH with 3. split; [lia|]. split; [destruct rel; reflexivity|]. split; [auto|].
  destruct rel; [split; [auto|]; lia|split; [|auto]]. exists 3. split; [reflexivity|lia].
Qed.

(** A call that arms the timer ends by setting it *)
Lemma garms fl o v v' x hs now : grec_step fl o v = Ok (v', x) -> arms o x = Some (hs, now) -> exists w t, v' = gset_loss_timer hs t w.
Proof.
  intros h ha. destruct o; cbn [grec_step] in h; cbn [arms] in ha; try discriminate ha.
  - unfold grec_sent in h. cbv zeta in h. destruct (match gs_q (gget e v) with [] => false | _ => p_num p <=? fst (last (gs_q (gget e v)) (0, GAcked)) end); cbn [bind] in h; [discriminate h|].
    injection h as <- <-. destruct (p_inf p); [|discriminate ha]. injection ha as <- _. eauto.
  - destruct (grec_ack fl e rs delay hs0 now0 skip v) as [[v2 o2]| |] eqn:ea; cbn [bind] in h; try discriminate h. injection h as <- <-.
    unfold grec_ack in ea. destruct (gspace_ack rs skip (gget e v)) as [[s a]| |] eqn:es; cbn [bind] in ea; try discriminate ea.
    assert (hsp : spur_ok a).
    { unfold gspace_ack in es. destruct (ranges_last rs); [|discriminate es].
      match type of es with context [gack_ranges ?q1 ?q2 ?q3 ?q4 ?q5] => destruct (gack_ranges q1 q2 q3 q4 q5) as [[l1 a1]| |] eqn:eg end; cbn [bind] in es; try discriminate es.
      injection es as _ <-. apply (gack_ranges_spur _ _ _ _ _ _ _ eg). split; [|split]; cbn [ga_spur ga_thresh ga_bytes]; [lia|congruence|reflexivity]. }
    match type of ea with bind ?m _ = _ => destruct m as [w| |] end; cbn [bind] in ea; try discriminate ea.
    destruct (ga_new a) as [|p new] eqn:en.
    + apply okinj in ea. apply pair_equal_spec in ea. destruct ea as [_ <-]. destruct hsp as (_ & _ & hb). rewrite (hb en) in ha. discriminate ha.
    + cbv zeta in ea. match type of ea with bind (grec_lose fl e now0 ?z) _ = _ => destruct (grec_lose fl e now0 z) as [[w2 nb]| |] end; cbn [bind] in ea; try discriminate ea.
      apply okinj in ea. apply pair_equal_spec in ea. destruct ea as [<- <-]. destruct (0 <? ga_bytes a); [|discriminate ha]. injection ha as <- _. eauto.
  - destruct (grec_timeout fl hs0 now0 v) as [[v2 o2]| |] eqn:ea; cbn [bind] in h; try discriminate h. injection h as <- <-. injection ha as <- _. unfold grec_timeout in ea.
    destruct (gloss_time_and_space v) as [[d|] e0].
    + destruct (grec_lose fl e0 now0 v) as [[w nb]| |]; cbn [bind] in ea; try discriminate ea. injection ea as <- _. eauto.
    + cbv zeta in ea. injection ea as <- _. eauto.
  - injection h as <- <-. injection ha as <- _. unfold grec_discard. eauto.
Qed.
