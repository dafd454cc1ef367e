(** The delivery rate estimator: its counts and its samples. *)
Require Import Verif.Base Verif.Assoc Verif.BwModel Verif.RateModel Verif.RateSpec.

Lemma sizes_app a b : sizes (a ++ b) = sizes a ++ sizes b.
Proof. induction a as [|e a IH]; cbn; auto. destruct e; cbn; rewrite IH; auto. Qed.
Lemma acked_app a b : acked (a ++ b) = acked a ++ acked b.
Proof. induction a as [|e a IH]; cbn; auto. destruct e; cbn; rewrite IH; auto using app_assoc. Qed.
Lemma bytes_app ss a b : bytes_of ss (a ++ b) = bytes_of ss a + bytes_of ss b.
Proof. induction a as [|e a IH]; cbn; auto. unfold bytes_of in *. rewrite IH. lia. Qed.
Lemma bytes_more ss x ids : Forall (fun id => 0 <= id < zlen ss) ids -> bytes_of (ss ++ x) ids = bytes_of ss ids.
Proof.
  induction 1 as [|id ids h _ IH]; cbn; auto. unfold bytes_of in IH. rewrite IH. f_equal. unfold size_of. apply app_nth1. unfold zlen in h. lia.
Qed.
Lemma last_news_app a b t : last_news t (a ++ b) = last_news (last_news t a) b.
Proof. revert t. induction a as [|e a IH]; intros t; cbn; auto. destruct e as [n s x [|]|[|i l] n m|i|v]; apply IH. Qed.
Lemma r_run_app a b r : r_run (a ++ b) r = let* r := r_run a r in r_run b r.
Proof. revert r. induction a as [|e a IH]; intros r; cbn [app r_run bind]; auto. destruct (r_step e r); cbn [bind]; auto. Qed.

(** The sizes are not negative. *)
Lemma orderly_sizes t evs : orderly t evs -> Forall (fun s => 0 <= s) (sizes evs).
Proof. revert t. induction evs as [|e evs IH]; intros t h; cbn; [constructor|]. destruct e; cbn in h; [constructor; [tauto|]|..]; eapply IH; try apply h; apply (proj2 (proj2 h)). Qed.
Lemma size_nonneg ss id : Forall (fun s => 0 <= s) ss -> 0 <= size_of ss id.
Proof. intros h. unfold size_of. rewrite Forall_forall in h. destruct (nth_in_or_default (Z.to_nat id) ss 0) as [k|k]; [auto|lia]. Qed.
Lemma bytes_nonneg ss ids : Forall (fun s => 0 <= s) ss -> 0 <= bytes_of ss ids.
Proof. intros h. induction ids as [|id ids IH]; cbn; [lia|]. pose proof (size_nonneg ss id h). unfold bytes_of in IH. lia. Qed.

(** What a packet in flight carries: where it was sent, and its marks. *)
Definition marked (t0 : Z) (evs : list rate_event) (id : Z) (p : dpkt) : Prop :=
  exists pre num size t idle mid r0, evs = pre ++ RvSend num size t idle :: mid /\ id = zlen (sizes pre) /\ r_run pre (r_new t0) = Ok r0 /\
    dp_time p = t /\ dp_size p = size /\ dp_num p = num /\ dp_delivered p = acked_bytes pre pre /\ dp_app p = r_app_limited r0 /\
    dp_first p = (if idle then t else r_first r0) /\ dp_dtime p = (if idle then t else last_news t0 pre) /\ dp_dtime p <= t /\ dp_first p <= t /\
    Forall (fun a => 0 <= a < zlen (sizes pre)) (acked pre).
Lemma marked_more t0 evs more id p : marked t0 evs id p -> marked t0 (evs ++ more) id p.
Proof.
  intros (pre & num & size & t & idle & mid & r0 & -> & h). exists pre, num, size, t, idle, (mid ++ more), r0. split; [|exact h].
  rewrite <- app_assoc. reflexivity.
Qed.

(** [A]: the packets acknowledged so far. *)
Record inv (t0 : Z) (evs : list rate_event) (A : list Z) (now : Z) (r : rate) : Prop := {
  j_next : r_next r = zlen (sizes evs);
  j_del : r_delivered r = bytes_of (sizes evs) A;
  j_acked : Forall (fun a => 0 <= a < zlen (sizes evs)) A;
  j_fl : forall id p, aget id (r_flight r) = Some p -> 0 <= id < r_next r /\ marked t0 evs id p /\ dp_size p = size_of (sizes evs) id /\ dp_delivered p <= r_delivered r /\ dp_time p <= now;
  j_nodup : NoDup (akeys (r_flight r));
  j_dt : r_dtime r <= now /\ r_first r <= now;
  j_prior : 0 <= s_prior r <= r_delivered r;
  j_mono : forall id p id' p', aget id (r_flight r) = Some p -> aget id' (r_flight r) = Some p' -> id <= id' -> dp_delivered p <= dp_delivered p';
  j_rule : forall id p, aget id (r_flight r) = Some p -> (forall a, In a A -> a < id) -> s_prior r <= dp_delivered p;
  j_pos : Forall (fun s => 0 <= s) (sizes evs) }.

(** What the acknowledgments of one frame do to the sample. *)
Definition sampled (r : rate) (ids : list Z) (now : Z) (r' : rate) : Prop :=
  exists id p, In id ids /\ aget id (r_flight r) = Some p /\ s_prior r' = dp_delivered p /\ s_ptime r' <> None /\ s_app r' = dp_app p /\
    s_send r' = sat_sub (dp_time p) (dp_first p) /\ s_ack r' = sat_sub now (dp_dtime p).
Definition unsampled (r r' : rate) : Prop :=
  s_prior r' = s_prior r /\ s_ptime r' = s_ptime r /\ s_app r' = s_app r /\ s_send r' = s_send r /\ s_ack r' = s_ack r.

Lemma aget_drop id id' r : aget id' (r_flight (r_drop id r)) = if id =? id' then None else aget id' (r_flight r).
Proof.
  cbn. destruct (id =? id') eqn:E; [replace id' with id by lia; apply aget_adel_same|apply aget_adel_other; lia].
Qed.

Lemma update_inv t0 evs A t now id p r : inv t0 evs A t r -> t <= now -> aget id (r_flight r) = Some p ->
  let r' := r_drop id (r_update p now r) in
  inv t0 evs (A ++ [id]) now r' /\ s_bw r' = s_bw r /\ r_eoal r' = r_eoal r /\ r_last r' = r_last r /\ r_dtime r' = now /\
  ((sampled r [id] now r') \/ (unsampled r r' /\ s_ptime r <> None /\ dp_delivered p < s_prior r)) /\
  (forall x q, aget x (r_flight r') = Some q -> aget x (r_flight r) = Some q).
Proof.
  intros h ht hg. destruct (j_fl _ _ _ _ _ h _ _ hg) as (f1 & f2 & f3 & f4 & f5). pose proof (size_nonneg (sizes evs) id (j_pos _ _ _ _ _ h)) as hs.
  pose proof (j_next _ _ _ _ _ h) as hn. pose proof (j_prior _ _ _ _ _ h) as hp.
  assert (e2 : r_flight (r_update p now r) = r_flight r) by (unfold r_update; destruct (match s_ptime r with None => _ | _ => _ end); reflexivity).
  assert (e1 : r_flight (r_drop id (r_update p now r)) = adel id (r_flight r)) by (cbn; rewrite e2; reflexivity).
  assert (ag : forall x, aget x (r_flight (r_drop id (r_update p now r))) = if id =? x then None else aget x (r_flight r)).
  { intros x. rewrite aget_drop, e2. reflexivity. }
  assert (hdel : r_delivered (r_update p now r) = r_delivered r + dp_size p) by (unfold r_update; destruct (match s_ptime r with None => _ | _ => _ end); reflexivity).
  assert (hnext : r_next (r_update p now r) = r_next r) by (unfold r_update; destruct (match s_ptime r with None => _ | _ => _ end); reflexivity).
  assert (hdt : r_dtime (r_update p now r) = now /\ r_first (r_update p now r) <= now).
  { pose proof (j_dt _ _ _ _ _ h). unfold r_update; destruct (match s_ptime r with None => _ | _ => _ end); cbn; lia. }
  assert (hpr : s_prior (r_update p now r) = dp_delivered p \/ (s_prior (r_update p now r) = s_prior r /\ dp_delivered p < s_prior r)).
  { unfold r_update. destruct (s_ptime r); [destruct (s_prior r <=? dp_delivered p) eqn:E|]; cbn; auto; right; split; auto; lia. }
  assert (hd0 : 0 <= dp_delivered p).
  { destruct f2 as (pre & num & size & x & idle & mid & r0 & ee & _ & _ & _ & _ & _ & k & _). rewrite k. apply bytes_nonneg.
    pose proof (j_pos _ _ _ _ _ h) as q. rewrite ee, sizes_app in q. apply Forall_app in q. tauto. }
  split; [|split; [|split; [|split; [|split; [|split]]]]].
  - constructor.
    + cbn. rewrite hnext. exact hn.
    + cbn. rewrite hdel, bytes_app, (j_del _ _ _ _ _ h), f3. cbn. lia.
    + apply Forall_app. split; [apply h|]. constructor; [lia|constructor].
    + intros x q hx. rewrite ag in hx. destruct (id =? x); [discriminate|]. destruct (j_fl _ _ _ _ _ h _ _ hx) as (g1 & g2 & g3 & g4 & g5).
      cbn. rewrite hnext, hdel. repeat split; auto; lia.
    + rewrite e1. apply nodup_adel. apply h.
    + cbn. lia.
    + cbn. rewrite hdel. destruct hpr as [hpr|(hpr & _)]; rewrite hpr; lia.
    + intros x q x' q' hx hx'. rewrite ag in hx, hx'. destruct (id =? x); [discriminate|]. destruct (id =? x'); [discriminate|].
      apply (j_mono _ _ _ _ _ h); auto.
    + intros x q hx hlt. rewrite ag in hx. destruct (id =? x) eqn:Ex; [discriminate|]. cbn.
      assert (id < x) by (apply hlt; apply in_or_app; right; left; auto).
      destruct hpr as [hpr|(hpr & _)]; rewrite hpr.
      * apply (j_mono _ _ _ _ _ h id p x q); auto; lia.
      * apply (j_rule _ _ _ _ _ h x q hx). intros a ha. apply hlt. apply in_or_app; auto.
    + apply h.
  - unfold r_update; destruct (match s_ptime r with None => _ | _ => _ end); reflexivity.
  - unfold r_update; destruct (match s_ptime r with None => _ | _ => _ end); reflexivity.
  - unfold r_update; destruct (match s_ptime r with None => _ | _ => _ end); reflexivity.
  - cbn. tauto.
  - unfold r_update. destruct (s_ptime r) as [pt|] eqn:Ept; [destruct (s_prior r <=? dp_delivered p) eqn:E|].
    + left. exists id, p. cbn. repeat split; auto; discriminate.
    + right. split; [unfold unsampled; cbn; repeat split; auto|]. split; [discriminate|lia].
    + left. exists id, p. cbn. repeat split; auto; discriminate.
  - intros x q hx. rewrite ag in hx. destruct (id =? x); [discriminate|exact hx].
Qed.

Lemma acks_inv t0 evs ids : forall A t now r r', inv t0 evs A t r -> t <= now -> r_acks ids now r = Ok r' ->
  inv t0 evs (A ++ ids) now r' /\ s_bw r' = s_bw r /\ r_dtime r' = (match ids with [] => r_dtime r | _ => now end) /\
  (sampled r ids now r' \/ (unsampled r r' /\ (s_ptime r = None -> ids = []) /\ forall id, In id ids -> exists a, In a A /\ id <= a)).
Proof.
  induction ids as [|id ids IH]; intros A t now r r' h ht e; cbn [r_acks] in e.
  - injection e as <-. rewrite app_nil_r. split; [|split; [auto|split; [auto|]]].
    + destruct h. constructor; auto; try lia. intros id p hg. destruct (j_fl0 _ _ hg) as (a & b & c & d & x). repeat split; auto; lia.
    + right. split; [unfold unsampled; auto|]. split; [auto|]. intros id [].
  - destruct (aget id (r_flight r)) as [p|] eqn:E; [|discriminate].
    destruct (update_inv t0 evs A t now id p r h ht E) as (h1 & b1 & _ & _ & d1 & s1 & fl).
    destruct (IH _ now now _ _ h1 ltac:(lia) e) as (h2 & b2 & d2 & s2). rewrite <- app_assoc in h2. cbn [app] in h2.
    split; [exact h2|]. split; [congruence|]. split; [destruct ids; congruence|].
    destruct s2 as [(id' & p' & q1 & q2 & q3)|(u & un & ul)].
    { left. exists id', p'. split; [right; exact q1|]. split; [apply fl; exact q2|exact q3]. }
    destruct u as (u1 & u2 & u3 & u4 & u5).
    destruct s1 as [(id' & p' & q1 & q2 & q3 & q4 & q5 & q6 & q7)|(v & vn & vl)].
    { left. destruct q1 as [<-|[]]. exists id, p'. split; [left; auto|]. split; [exact q2|]. repeat split; congruence. }
    right. destruct v as (v1 & v2 & v3 & v4 & v5). split; [unfold unsampled; repeat split; congruence|]. split; [intros; congruence|].
    assert (hid : exists a, In a A /\ id <= a).
    { assert (dd : {forall a, In a A -> a < id} + {exists a, In a A /\ id <= a}).
      { clear. induction A as [|a A IH]; [left; intros a []|]. destruct IH as [k|k]; [|right; destruct k as (b & k1 & k2); exists b; split; [right; auto|auto]].
        destruct (Z_lt_dec a id); [left; intros b [->|hb]; auto|right; exists a; split; [left; auto|lia]]. }
      destruct dd as [k|k]; auto. pose proof (j_rule _ _ _ _ _ h id p E k). lia. }
    intros x [<-|hx]; [exact hid|]. destruct (ul x hx) as (a & ha & hl). apply in_app_or in ha. destruct ha as [ha|[<-|[]]]; [eauto|].
    destruct hid as (b & hb & hl2). exists b. split; auto. lia.
Qed.

Lemma gen_fields mr r r' : r_generate mr r = Ok r' ->
  r_delivered r' = r_delivered r /\ r_flight r' = r_flight r /\ r_next r' = r_next r /\ r_dtime r' = r_dtime r /\ r_first r' = r_first r /\ s_prior r' = s_prior r /\
  s_ptime r' = s_ptime r /\ s_app r' = s_app r.
Proof.
  unfold r_generate. set (r1 := if r_app_limited r && _ then _ else r).
  assert (k : r_delivered r1 = r_delivered r /\ r_flight r1 = r_flight r /\ r_next r1 = r_next r /\ r_dtime r1 = r_dtime r /\ r_first r1 = r_first r /\ s_prior r1 = s_prior r /\
    s_ptime r1 = s_ptime r /\ s_app r1 = s_app r) by (unfold r1; destruct (_ && _); cbn; repeat split; auto).
  clearbody r1. cbv zeta. destruct (s_ptime r1) eqn:E1; [|intros e; injection e as <-; rewrite E1; exact k].
  destruct (_ <? s_prior r1); [discriminate|]. destruct (_ <? mr); [intros e; injection e as <-; cbn; exact k|].
  destruct (_ =? 0); [intros e; injection e as <-; cbn; exact k|].
  destruct (r_bandwidth _ _); cbn [bind]; try discriminate. destruct (_ || _); intros e; injection e as <-; cbn; exact k.
Qed.

Fixpoint last_time (t0 : Z) (evs : list rate_event) : Z :=
  match evs with [] => t0 | RvSend _ _ t _ :: evs => last_time t evs | RvAck _ t _ :: evs => last_time t evs | _ :: evs => last_time t0 evs end.
Lemma last_time_app a b t : last_time t (a ++ b) = last_time (last_time t a) b.
Proof. revert t. induction a as [|e a IH]; intros t; cbn; auto. destruct e; apply IH. Qed.
Lemma orderly_app a b t : orderly t (a ++ b) <-> orderly t a /\ orderly (last_time t a) b.
Proof. revert t. induction a as [|e a IH]; intros t; cbn; [tauto|]. destruct e; rewrite IH; tauto. Qed.

Lemma new_inv t0 : inv t0 [] [] t0 (r_new t0).
Proof. constructor; cbn; auto; try lia; try (intros; discriminate); constructor. Qed.

Lemma step_inv t0 evs ev r r' : inv t0 evs (acked evs) (last_time t0 evs) r -> r_run evs (r_new t0) = Ok r -> r_dtime r = last_news t0 evs ->
  orderly (last_time t0 evs) [ev] -> r_step ev r = Ok r' ->
  inv t0 (evs ++ [ev]) (acked (evs ++ [ev])) (last_time t0 (evs ++ [ev])) r' /\ r_dtime r' = last_news t0 (evs ++ [ev]).
Proof.
  intros h hrun hdt ho e. rewrite acked_app, last_time_app, last_news_app. set (now := last_time t0 evs) in *.
  destruct ev as [num size t idle|ids t mr|id|v]; cbn [r_step orderly acked last_time last_news] in *; rewrite ?app_nil_r.
  - injection e as <-. destruct ho as (o1 & o2 & _). assert (hpos : Forall (fun s => 0 <= s) (sizes (evs ++ [RvSend num size t idle]))).
    { rewrite sizes_app. apply Forall_app. split; [apply h|]. cbn. auto. }
    assert (hz : zlen (sizes (evs ++ [RvSend num size t idle])) = zlen (sizes evs) + 1) by (rewrite sizes_app, zlen_app; reflexivity).
    pose proof (j_next _ _ _ _ _ h) as hn. pose proof (j_dt _ _ _ _ _ h) as hd.
    assert (hnone : aget (r_next r) (r_flight r) = None).
    { destruct (aget (r_next r) (r_flight r)) eqn:E; auto. apply (j_fl _ _ _ _ _ h) in E. lia. }
    assert (ha : Forall (fun a => 0 <= a < zlen (sizes evs)) (acked evs)) by apply h.
    assert (hold : forall x q, aget x (r_flight (r_sent num size t idle r)) = Some q -> (x = r_next r /\ q = mkD num size t (if idle then t else r_first r) (if idle then t else r_dtime r) (r_delivered r) (r_app_limited r)) \/ (x <> r_next r /\ aget x (r_flight r) = Some q)).
    { intros x q hx. cbn in hx. destruct (Z.eq_dec (r_next r) x) as [<-|n]; [rewrite aget_aset_same in hx; injection hx as <-; auto|rewrite aget_aset_other in hx by auto; auto]. }
    split; [|cbn; destruct idle; congruence]. constructor; auto.
    + cbn. lia.
    + cbn. rewrite sizes_app, bytes_more by exact ha. apply h.
    + eapply Forall_impl; [|exact ha]. cbn. intros. lia.
    + intros x q hx. apply hold in hx. destruct hx as [(-> & ->)|(hne & hx)].
      * cbn [dp_size dp_delivered dp_time r_sent r_next r_delivered]. split; [pose proof (zlen_nonneg (sizes evs)); lia|]. split; [|split; [|lia]].
        -- exists evs, num, size, t, idle, [], r. cbn [dp_time dp_size dp_num dp_delivered dp_app dp_first dp_dtime].
           split; [reflexivity|]. split; [exact hn|]. split; [exact hrun|]. split; [reflexivity|]. split; [reflexivity|]. split; [reflexivity|]. split; [apply h|].
           split; [reflexivity|]. split; [reflexivity|]. rewrite <- hdt. split; [reflexivity|]. split; [destruct idle; lia|]. split; [destruct idle; lia|exact ha].
        -- unfold size_of. rewrite hn, sizes_app. unfold zlen. rewrite Nat2Z.id, app_nth2 by lia. rewrite Nat.sub_diag. reflexivity.
      * destruct (j_fl _ _ _ _ _ h _ _ hx) as (g1 & g2 & g3 & g4 & g5). cbn [r_sent r_next r_delivered]. split; [lia|]. split; [apply marked_more; auto|].
        split; [|lia]. rewrite g3. unfold size_of. rewrite sizes_app, app_nth1; auto. unfold zlen in hn. lia.
    + cbn. apply nodup_aset. apply h.
    + cbn. destruct idle; lia.
    + apply h.
    + intros x q x' q' hx hx' hle. apply hold in hx. apply hold in hx'. destruct hx as [(-> & ->)|(hne & hx)]; destruct hx' as [(-> & ->)|(hne' & hx')]; cbn [dp_delivered].
      * lia.
      * apply (j_fl _ _ _ _ _ h) in hx'. lia.
      * apply (j_fl _ _ _ _ _ h) in hx. lia.
      * apply (j_mono _ _ _ _ _ h x q x' q'); auto.
    + intros x q hx hlt. apply hold in hx. cbn [r_sent s_prior]. destruct hx as [(-> & ->)|(hne & hx)]; cbn [dp_delivered]; [apply h|]. apply (j_rule _ _ _ _ _ h x q hx hlt).
  - destruct (r_acks ids t r) as [r1| |] eqn:E; cbn [bind] in e; try discriminate. destruct ho as (o1 & o2 & _).
    destruct (acks_inv t0 evs ids _ _ _ _ _ h o1 E) as (h1 & b1 & d1 & _).
    destruct (gen_fields _ _ _ e) as (g1 & g2 & g3 & g4 & g5 & g6 & _).
    assert (hsz : sizes (evs ++ [RvAck ids t mr]) = sizes evs) by (rewrite sizes_app; cbn; apply app_nil_r).
    split; [|rewrite g4, d1; destruct ids; auto].
    destruct h1. constructor; rewrite ?hsz, ?g1, ?g2, ?g3, ?g4, ?g5, ?g6; auto.
    intros x q hx. destruct (j_fl0 _ _ hx) as (a & b & c & d & k). repeat split; auto; try lia. apply marked_more. auto.
  - destruct (aget id (r_flight r)) as [p|] eqn:E; [|discriminate]. injection e as <-.
    assert (hsz : sizes (evs ++ [RvLost id]) = sizes evs) by (rewrite sizes_app; cbn; apply app_nil_r).
    assert (hsub : forall x q, aget x (r_flight (r_drop id r)) = Some q -> aget x (r_flight r) = Some q).
    { intros x q hx. rewrite aget_drop in hx. destruct (id =? x); [discriminate|exact hx]. }
    split; [|exact hdt]. destruct h. constructor; rewrite ?hsz; auto.
    + intros x q hx. apply hsub in hx. destruct (j_fl0 _ _ hx) as (a & b & c & d & k). cbn [r_drop r_next r_delivered]. split; [exact a|]. split; [apply marked_more; exact b|]. auto.
    + cbn. apply nodup_adel. auto.
    + intros x q x' q' hx hx'. apply hsub in hx. apply hsub in hx'. eauto.
    + intros x q hx. apply hsub in hx. eauto.
  - injection e as <-. assert (hsz : sizes (evs ++ [RvApp v]) = sizes evs) by (rewrite sizes_app; cbn; apply app_nil_r).
    split; [|exact hdt]. destruct h. constructor; rewrite ?hsz; auto.
    intros x q hx. destruct (j_fl0 _ _ hx) as (a & b & c & d & k). split; [exact a|]. split; [apply marked_more; exact b|]. auto.
Qed.

Lemma reached_inv t0 evs r : reached t0 evs r -> inv t0 evs (acked evs) (last_time t0 evs) r /\ r_dtime r = last_news t0 evs.
Proof.
  revert r. induction evs as [|ev evs IH] using rev_ind; intros r (ho & e).
  - injection e as <-. split; [apply new_inv|reflexivity].
  - rewrite orderly_app in ho. destruct ho as (o1 & o2). rewrite r_run_app in e. destruct (r_run evs (r_new t0)) as [r0| |] eqn:E; cbn [bind] in e; try discriminate.
    destruct (IH r0 (conj o1 E)) as (h & hd). cbn [r_run] in e. destruct (r_step ev r0) as [r1| |] eqn:E1; cbn [bind] in e; try discriminate. injection e as <-.
    apply (step_inv t0 evs ev r0 r1); auto.
Qed.
