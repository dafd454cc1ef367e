(** The theorems of PropSend. *)
Require Import Verif.Base Verif.Errors Verif.RangesModel Verif.RangesProofs Verif.RangeBufModel
  Verif.RangeBufProofs Verif.SendBufModel Verif.SendBufProofs Verif.SendBufProofs2
  Verif.SendBufProofs3 Verif.SendSpec Verif.SendProofs Verif.SendProofs2 Verif.SendProofs3
  Verif.SendProofs4.

Lemma written_emits ns ops : forall outs outs2, length ops = length outs ->
  written (ops ++ map SnEmit ns) (outs ++ outs2) = written ops outs.
Proof.
  induction ops as [|op l IH]; intros [|o outs] outs2 hl; try discriminate; cbn [app written].
  - revert outs2. induction ns as [|n ns IH]; intros [|o outs2]; try reflexivity.
    cbn [map written accepted app]. destruct o; apply IH.
  - f_equal. apply IH. cbn in hl. lia.
Qed.

Section Send.
Context (md : Z) (hmd : 0 <= md <= max_varint) (ops : list sn_op) (outs : list sn_out) (st : sendst)
  (hops : Forall sn_op_ok ops) (hrun : sn_run ops (sn_new md) = Ok (outs, st)).

Let h : Hist md ops outs st := hist_of md ops outs st hmd hops hrun.

Lemma send_frames f : In f (frames outs) ->
  0 <= sf_off f /\ frame_end f <= zlen (written ops outs) /\
  sf_bytes f = slice (sf_off f) (frame_end f) (written ops outs).
Proof.
  intros hi. destruct (h_frame _ _ _ _ h f hi) as (h1 & h2 & h3).
  pose proof (i_off _ _ (h_sb _ _ _ _ h)). pose proof (i_emit _ _ (h_sb _ _ _ _ h)).
  ands; auto. lia.
Qed.

Lemma send_limit : zlen (written ops outs) <= limit md ops /\
  forall f, In f (frames outs) -> frame_end f <= limit md ops.
Proof.
  pose proof (h_wlim _ _ _ _ h). split; [auto|]. intros f hi. destruct (send_frames f hi) as (_ & k & _). lia.
Qed.

Lemma live_not_gone : ~ was_reset outs -> ~ fin_written ops outs -> ss_gone st = false.
Proof.
  intros h1 h2. destruct (ss_gone st) eqn:E; [|reflexivity]. destruct h2. apply (h_fin _ _ _ _ h h1).
  apply complete_fin. apply (h_gone _ _ _ _ h E).
Qed.

Lemma send_write op data cap fin : op = SnWrite data cap fin \/ op = SnWriteZc data cap fin ->
  0 <= cap -> ~ was_reset outs -> ~ fin_written ops outs ->
  let n := Z.min (Z.min (zlen data) cap) (limit md ops - zlen (written ops outs)) in
  exists st', sn_step op st =
    Ok (SoWrite (if (n =? 0) && (0 <? zlen data) then Err Done else Ok n), st').
Proof.
  intros hop hc h1 h2 n. pose proof (live_not_gone h1 h2) as hg.
  assert (k : forall zc, exists st', sn_write zc data cap fin st =
     Ok (SoWrite (if (n =? 0) && (0 <? zlen data) then Err Done else Ok n), st')).
  { intros zc. destruct (hist_write md ops outs st zc data cap fin h hc) as (r & st' & w1 & w2 & w3).
    exists st'. rewrite w1. destruct w3 as (_ & _ & w3 & _).
    assert (e1 : sb_error (ss_buf st) = None).
    { destruct (sb_error (ss_buf st)) eqn:E; [|reflexivity]. destruct h1. apply (h_reset _ _ _ _ h). right. congruence. }
    assert (e2 : sb_fin_off (ss_buf st) = None).
    { destruct (sb_fin_off (ss_buf st)) eqn:E; [|reflexivity]. destruct h2. apply (h_fin _ _ _ _ h h1). congruence. }
    specialize (w3 hg e1 e2). cbv zeta in w3. rewrite (live_off _ _ _ _ h h1) in w3.
    rewrite (proj2 (h_max _ _ _ _ h) hg) in w3. fold n in w3. rewrite w3. reflexivity. }
  destruct hop as [->| ->]; apply k.
Qed.

Lemma send_nothing_after op o st' : sn_op_ok op -> fin_written ops outs \/ was_reset outs ->
  sn_step op st = Ok (o, st') -> accepted op o = [].
Proof.
  intros hok hf hst.
  assert (nf : sb_fin_off (ss_buf st) <> None).
  { destruct (is_reset_dec (ss_buf st)) as [r|r].
    - destruct (i_reset _ _ (h_sb _ _ _ _ h) r) as (_ & k & _). congruence.
    - rewrite (h_reset _ _ _ _ h) in r. apply (h_fin _ _ _ _ h r). tauto. }
  destruct (hist_step md ops outs st op h hok) as (o2 & st2 & g1 & g2). rewrite hst in g1. inv g1.
  assert (k : forall zc data cap fin, 0 <= cap -> sn_write zc data cap fin st = Ok (o2, st2) ->
            o2 = SoWrite (Ok 0) \/ exists e, o2 = SoWrite (Err e)).
  { intros zc data cap fin hc hw.
    destruct (hist_write md ops outs st zc data cap fin h hc) as (r & st3 & w1 & _ & w3).
    rewrite hw in w1. injection w1 as -> <-. destruct w3 as (a1 & a2 & a3 & a4 & a5).
    destruct (ss_gone st) eqn:Eg; [rewrite a1 by auto; eauto|].
    destruct (sb_error (ss_buf st)) as [e|] eqn:Ee; [rewrite (a2 eq_refl e eq_refl); eauto|].
    destruct data as [|d data]; [|destruct (a4 eq_refl eq_refl nf ltac:(discriminate)) as [-> | ->]; eauto].
    unfold sn_write in hw. rewrite Eg, Ee in hw. change (zlen (@nil Z)) with 0 in hw.
    rewrite andb_false_r in hw. replace (cap <? 0) with false in hw by lia.
    pose proof (h_sb _ _ _ _ h) as hs.
    assert (wp : write_post (written ops outs) (ss_buf st) [] fin
      (if zc then sb_write_zc [] 0 fin (ss_buf st) else sb_write (take 0 []) fin (ss_buf st))).
    { destruct zc; [apply (sb_write_zc_spec _ _ [] 0); auto; cbn; lia|apply sb_write_spec; auto]. }
    destruct (if zc then _ else _) as [[sent s1]|e|]; [|injection hw as <- _; right; eauto|discriminate].
    destruct wp as (p1 & _). change (zlen (@nil Z)) with 0 in p1. assert (sent = 0) by lia. subst sent.
    cbn [Z.eqb Z.ltb Z.compare andb] in hw. injection hw as <- _. auto. }
  destruct op; cbn [sn_step sn_op_ok] in *; try reflexivity.
  - destruct (k _ _ _ _ hok hst) as [->|(e & ->)]; reflexivity.
  - destruct (k _ _ _ _ hok hst) as [->|(e & ->)]; reflexivity.
Qed.

Lemma send_fin_end f : In f (frames outs) -> sf_fin f = true -> ~ was_reset outs ->
  fin_written ops outs /\ frame_end f = zlen (written ops outs).
Proof.
  intros hi hf hr. pose proof (h_finf _ _ _ _ h f hi hf) as k. split.
  - apply (h_fin _ _ _ _ h hr). congruence.
  - pose proof (live_off _ _ _ _ h hr). destruct (i_fin _ _ (h_sb _ _ _ _ h)) as [q|q]; [congruence|].
    rewrite k in q. inv q. lia.
Qed.

Lemma send_one_final_size :
  (forall f1 f2, In f1 (frames outs) -> In f2 (frames outs) -> sf_fin f1 = true -> frame_end f2 <= frame_end f1) /\
  (forall final u f, In (SoReset (Some (final, u))) outs -> In f (frames outs) ->
     frame_end f <= final /\ (sf_fin f = true -> frame_end f = final)) /\
  (forall final1 u1 final2 u2, In (SoReset (Some (final1, u1))) outs ->
     In (SoReset (Some (final2, u2))) outs -> final1 = final2).
Proof.
  ands.
  - intros f1 f2 i1 i2 hf. pose proof (h_finf _ _ _ _ h f1 i1 hf) as k.
    destruct (i_fin _ _ (h_sb _ _ _ _ h)) as [q|q]; [congruence|]. rewrite k in q. inv q.
    destruct (h_frame _ _ _ _ h f2 i2) as (_ & _ & k3). pose proof (i_emit _ _ (h_sb _ _ _ _ h)). lia.
  - intros final u f hr hi. destruct (h_rfin _ _ _ _ h _ _ hr) as (k1 & k2).
    destruct (h_frame _ _ _ _ h f hi) as (_ & _ & k3). split; [lia|].
    intros hf. pose proof (h_finf _ _ _ _ h f hi hf). congruence.
  - intros f1 u1 f2 u2 h1 h2. destruct (h_rfin _ _ _ _ h _ _ h1), (h_rfin _ _ _ _ h _ _ h2). congruence.
Qed.

Lemma send_reset_size op final u st' : sn_op_ok op -> sn_step op st = Ok (SoReset (Some (final, u)), st') ->
  (forall f, In f (frames outs) -> frame_end f <= final) /\
  (final = 0 \/ exists f, In f (frames outs) /\ frame_end f = final) /\
  (~ was_reset outs -> u = zlen (written ops outs) - final).
Proof.
  intros hok hst.
  assert (k : final = sb_emit_off (ss_buf st) /\ u = sb_off (ss_buf st) - sb_emit_off (ss_buf st)).
  { destruct op; cbn [sn_step sn_op_ok] in *.
    - destruct (hist_write md ops outs st false data cap fin h hok) as (? & ? & q & _). rewrite hst in q. discriminate.
    - destruct (hist_write md ops outs st true data cap fin h hok) as (? & ? & q & _). rewrite hst in q. discriminate.
    - unfold sn_emit in hst. destruct (ss_flush st), (ss_gone st), (sb_error (ss_buf st)); cbn [negb] in hst; try discriminate.
      destruct (sb_emit max_len (ss_buf st)) as [[[a b] d]| |]; cbn [bind] in hst; discriminate.
    - discriminate.
    - destruct (hist_ack md ops outs st i h) as (? & q & _). rewrite hst in q. discriminate.
    - destruct (hist_lost md ops outs st i h) as (? & q & _). rewrite hst in q. discriminate.
    - destruct (hist_max_data md ops outs st m h hok) as (? & q & _). rewrite hst in q. discriminate.
    - destruct (hist_stop md ops outs st code h) as (r & ? & q & _ & q1 & q2). rewrite hst in q. inv q.
      destruct (ss_gone st); [specialize (q2 (or_introl eq_refl)); discriminate|].
      destruct (sb_error (ss_buf st)); [exfalso; assert (k : Some (final, u) = None) by (apply q2; right; discriminate); discriminate|].
      destruct (q1 eq_refl eq_refl) as (q & _). injection q as -> ->. auto.
    - destruct (hist_shutdown md ops outs st h) as (r & ? & q & _ & q1 & q2). rewrite hst in q. inv q.
      destruct (ss_gone st); [specialize (q2 (or_introl eq_refl)); discriminate|].
      destruct (sb_shut (ss_buf st)); [specialize (q2 (or_intror eq_refl)); discriminate|].
      specialize (q1 eq_refl eq_refl). injection q1 as -> ->. auto.
    - discriminate. }
  destruct k as (-> & ->). ands.
  - intros f hi. destruct (h_frame _ _ _ _ h f hi) as (_ & _ & k). auto.
  - apply (h_emit _ _ _ _ h).
  - intros hr. rewrite (live_off _ _ _ _ h hr). reflexivity.
Qed.

Lemma send_last_byte f : ~ was_reset outs -> fin_written_with_data ops outs ->
  In f (frames outs) -> in_frame f (zlen (written ops outs) - 1) -> sf_fin f = true.
Proof. intros h1 h2. apply (h_last _ _ _ _ h h1 h2). Qed.

Lemma send_pending x : ~ was_reset outs -> 0 <= x < zlen (written ops outs) ->
  ~ byte_acked ops outs x -> ~ byte_in_flight ops outs x ->
  ss_gone st = false /\ pending (sb_data (ss_buf st)) x.
Proof.
  intros hr hx h1 h2. rewrite <- (live_off _ _ _ _ h hr) in hx. split.
  - destruct (ss_gone st) eqn:E; [|reflexivity]. destruct h1. apply (h_acked _ _ _ _ h hr).
    apply (complete_covers _ _ _ (h_sb _ _ _ _ h) (h_gone _ _ _ _ h E) hx).
  - destruct (Sb_cover _ _ x (h_sb _ _ _ _ h) hx) as [k|[k|k]]; [|auto|].
    + destruct h1. apply (h_acked _ _ _ _ h hr). auto.
    + destruct (h_cons _ _ _ _ h hr x k); tauto.
Qed.

Lemma send_resent x ns : ~ was_reset outs -> ~ In SnNoRoom ops ->
  0 <= x < zlen (written ops outs) -> ~ byte_acked ops outs x -> ~ byte_in_flight ops outs x ->
  Forall (fun n => 1 <= n) ns -> zlen (written ops outs) <= zlen ns ->
  exists outs2 st', sn_run (map SnEmit ns) st = Ok (outs2, st') /\
    exists f, In f (frames outs2) /\ in_frame f x.
Proof.
  intros hr hn hx h1 h2 hns hl. destruct (send_pending x hr hx h1 h2) as (k1 & k2).
  apply (drain md ns ops outs st x); auto. pose proof (buffered_le _ _ (h_sb _ _ _ _ h)). lia.
Qed.

Lemma send_gone : ~ was_reset outs -> ss_gone st = true ->
  fin_written ops outs /\ forall x, 0 <= x < zlen (written ops outs) -> byte_acked ops outs x.
Proof.
  intros hr hg. pose proof (h_gone _ _ _ _ h hg) as hc. split.
  - apply (h_fin _ _ _ _ h hr). apply complete_fin. auto.
  - intros x hx. apply (h_acked _ _ _ _ h hr). apply (complete_covers _ _ _ (h_sb _ _ _ _ h) hc).
    rewrite (live_off _ _ _ _ h hr). auto.
Qed.

Lemma send_collect : ~ was_reset outs ->
  exists st', sn_step SnCollect st = Ok (SoNone, st') /\
    (ss_gone st' = true <->
     fin_written ops outs /\ (forall x, 0 <= x < zlen (written ops outs) -> byte_acked ops outs x) /\
     (written ops outs = [] -> exists i, frame_acked ops outs i)).
Proof.
  intros hr. eexists. split; [reflexivity|]. cbn [ss_gone].
  pose proof (h_sb _ _ _ _ h) as hs. pose proof (live_off _ _ _ _ h hr) as lo.
  pose proof (i_ack _ _ hs) as (a1 & a2 & a3). pose proof (i_emit _ _ hs) as ie.
  assert (k : ss_gone st || sb_is_complete (ss_buf st) = true <-> sb_is_complete (ss_buf st) = true).
  { rewrite orb_true_iff. split; [|auto]. intros [q|q]; [apply (h_gone _ _ _ _ h q)|auto]. }
  rewrite k. clear k. rewrite <- (h_fin _ _ _ _ h hr). split.
  - intros hc. ands.
    + apply complete_fin. auto.
    + intros x hx. apply (h_acked _ _ _ _ h hr). apply (complete_covers _ _ _ hs hc). lia.
    + intros hw. apply (h_anyack _ _ _ _ h hw hr). apply (complete_some _ _ hs hc). rewrite lo, hw. reflexivity.
  - intros (k1 & k2 & k3). unfold sb_is_complete. destruct (i_fin _ _ hs) as [q|q]; [congruence|]. rewrite q.
    destruct (Z.eq_dec (sb_off (ss_buf st)) 0) as [z|z].
    + rewrite z. apply (eq_range_zero _ a1); [eapply ends_weaken; eauto; lia|].
      assert (hw : written ops outs = []).
      { destruct (written ops outs) as [|b w]; [reflexivity|]. rewrite zlen_cons in lo. pose proof (zlen_nonneg w). lia. }
      apply (h_anyack _ _ _ _ h hw hr). auto.
    + apply (eq_range_iff _ _ a1 (ends_weaken _ _ (sb_off (ss_buf st)) a3 (proj2 ie)) ltac:(lia)).
      intros x hx. apply (h_acked _ _ _ _ h hr). apply k2. lia.
Qed.

Lemma send_fin_reaches ns : ~ was_reset outs -> Forall no_loss ops -> fin_written ops outs ->
  Forall (fun n => 1 <= n) ns -> zlen (written ops outs) < zlen ns ->
  exists outs2 st', sn_run (map SnEmit ns) st = Ok (outs2, st') /\
    exists f, In f (frames (outs ++ outs2)) /\ sf_fin f = true /\ frame_end f = zlen (written ops outs).
Proof.
  intros hr hno hf hns hl. destruct (fin_run md ops hmd hops hno) as (o & s & g1 & g2 & g3).
  rewrite hrun in g1. injection g1 as <- <-. pose proof (h_sb _ _ _ _ h) as hs.
  pose proof (buffered_le _ _ hs) as hb.
  assert (hnr : ~ In SnNoRoom ops) by (intros q; rewrite Forall_forall in hno; apply (hno _ q)).
  assert (hfo : sb_fin_off (ss_buf st) <> None) by (apply (h_fin _ _ _ _ h hr); auto).
  destruct (fin_drain md ns ops outs st g2 g3 hnr hr hfo hns ltac:(lia)) as (outs2 & st' & k1 & k2 & f & k3 & k4).
  exists outs2, st'. split; [auto|]. exists f. ands; auto.
  destruct (hist_extend md (map SnEmit ns) ops outs st h (emits_ok _ hns)) as (o2 & s2 & x1 & x2).
  rewrite k1 in x1. injection x1 as <- <-.
  pose proof (h_finf _ _ _ _ x2 f k3 k4) as fe. pose proof (live_off _ _ _ _ x2 k2) as lo.
  destruct (i_fin _ _ (h_sb _ _ _ _ x2)) as [q|q]; [congruence|]. rewrite fe in q. injection q as q.
  rewrite q, lo. f_equal. apply written_emits. apply (h_len _ _ _ _ h).
Qed.
End Send.

Lemma gone_no_frames ops : forall st outs st', ss_gone st = true ->
  sn_run ops st = Ok (outs, st') -> frames outs = [].
Proof.
  induction ops as [|op ops IH]; intros st outs st' hg hr; cbn [sn_run] in hr; [inv hr; reflexivity|].
  destruct (sn_step op st) as [[o s]| |] eqn:E; cbn [bind] in hr; try discriminate.
  destruct (sn_run ops s) as [[os s']| |] eqn:E2; cbn [bind] in hr; try discriminate. inv hr.
  assert (k : frames [o] = [] /\ ss_gone s = true).
  { destruct op; cbn [sn_step] in E.
    - unfold sn_write in E. rewrite hg in E. inv E. auto.
    - unfold sn_write in E. rewrite hg in E. inv E. auto.
    - unfold sn_emit in E. rewrite hg in E. destruct (ss_flush st); inv E; auto.
    - inv E. auto.
    - unfold sn_ack in E. rewrite hg in E. destruct (nth_error _ _) as [[[? ?] ?]|]; inv E; auto.
    - unfold sn_lost in E. rewrite hg in E. destruct (nth_error _ _) as [[[? ?] ?]|]; inv E; auto.
    - unfold sn_max_data in E. rewrite hg in E. inv E; auto.
    - unfold sn_stop in E. rewrite hg in E. inv E; auto.
    - unfold sn_shutdown in E. rewrite hg in E. inv E; auto.
    - inv E. cbn [ss_gone]. rewrite hg. auto. }
  destruct k as (k1 & k2). rewrite (frames_app [o] os : frames (o :: os) = _), k1, (IH _ _ _ k2 E2). reflexivity.
Qed.

Lemma idle_emits st : ss_flush st = false -> forall ns,
  sn_run (map SnEmit ns) st = Ok (map (fun _ => SoFrame None) ns, st).
Proof.
  intros h. induction ns as [|m ns IH]; [reflexivity|]. cbn [map sn_run sn_step].
  unfold sn_emit at 1. rewrite h. cbn [negb bind]. rewrite IH. reflexivity.
Qed.

Lemma frames_none ns : frames (map (fun _ : Z => SoFrame None) ns) = [].
Proof. induction ns; auto. Qed.
