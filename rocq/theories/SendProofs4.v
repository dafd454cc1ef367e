(** Progress: what is pending gets sent. *)
Require Import Verif.Base Verif.Errors Verif.RangesModel Verif.RangesProofs Verif.RangeBufModel
  Verif.RangeBufProofs Verif.SendBufModel Verif.SendBufProofs Verif.SendBufProofs2
  Verif.SendBufProofs3 Verif.SendSpec Verif.SendProofs Verif.SendProofs2 Verif.SendProofs3.

Lemma hist_extend md ops2 : forall ops outs st, Hist md ops outs st -> Forall sn_op_ok ops2 ->
  exists outs2 st', sn_run ops2 st = Ok (outs2, st') /\ Hist md (ops ++ ops2) (outs ++ outs2) st'.
Proof.
  induction ops2 as [|op ops2 IH]; intros ops outs st h hok.
  - exists [], st. rewrite !app_nil_r. auto.
  - inversion hok as [|? ? k1 k2]; subst. destruct (hist_step md ops outs st op h k1) as (o & st1 & g1 & g2).
    destruct (IH _ _ _ g2 k2) as (outs2 & st2 & g3 & g4).
    exists (o :: outs2), st2. cbn [sn_run]. rewrite g1. cbn [bind]. rewrite g3. cbn [bind].
    split; [reflexivity|]. rewrite <- !app_assoc in g4. auto.
Qed.

Lemma chain_sum_le W l : forall base e, chain W base l e -> sum_len l <= e - base.
Proof.
  induction l as [|b l IH]; intros base e h; cbn [chain] in h.
  - subst. cbn. lia.
  - destruct h as (h1 & h2 & h3). rewrite sum_len_cons. specialize (IH _ _ h3).
    pose proof (buf_ok_bounds _ _ h1).
    assert (rbM b = rbO b + rbL b) by reflexivity. lia.
Qed.

Lemma buffered_le W s : Sb W s -> 0 <= sb_buffered s <= zlen W.
Proof.
  intros h. destruct (i_chain _ _ h) as (base & h1 & h2 & _). pose proof (i_off _ _ h).
  rewrite (i_buf _ _ h). pose proof (chain_sum_le _ _ _ _ h2). pose proof (chain_sum_nonneg _ _ _ _ h2). lia.
Qed.

Lemma chain_pending_sum W l : forall base e x, chain W base l e -> pending l x -> 0 < sum_len l.
Proof.
  induction l as [|b l IH]; intros base e x h hp; [destruct (pending_nil _ hp)|].
  cbn [chain] in h. destruct h as (h1 & h2 & h3). rewrite sum_len_cons.
  pose proof (chain_sum_nonneg _ _ _ _ h3). pose proof (buf_ok_bounds _ _ h1).
  apply pending_cons in hp as [hp|hp].
  - assert (rbM b = rbO b + rbL b) by reflexivity. lia.
  - specialize (IH _ _ _ h3 hp). lia.
Qed.

Lemma pending_buffered W s x : Sb W s -> pending (sb_data s) x -> 0 < sb_buffered s.
Proof.
  intros h hp. destruct (i_chain _ _ h) as (base & h1 & h2 & _). rewrite (i_buf _ _ h).
  eapply chain_pending_sum; eauto.
Qed.

Lemma emits_ok ns : Forall (fun n => 1 <= n) ns -> Forall sn_op_ok (map SnEmit ns).
Proof. induction 1; constructor; cbn; auto; lia. Qed.

Lemma drain md ns : forall ops outs st x, Hist md ops outs st ->
  ~ In SnNoRoom ops -> ss_gone st = false -> pending (sb_data (ss_buf st)) x ->
  Forall (fun n => 1 <= n) ns -> sb_buffered (ss_buf st) <= zlen ns ->
  exists outs2 st', sn_run (map SnEmit ns) st = Ok (outs2, st') /\
    exists f, In f (frames outs2) /\ in_frame f x.
Proof.
  induction ns as [|n ns IH]; intros ops outs st x h hnr hg hp hns hb.
  { pose proof (pending_buffered _ _ _ (h_sb _ _ _ _ h) hp). change (zlen (@nil Z)) with 0 in hb. lia. }
  inversion hns as [|? ? n1 n2]; subst. rewrite zlen_cons in hb.
  pose proof (h_flush _ _ _ _ h hnr hg (ex_intro _ x hp)) as hfl.
  assert (he : sb_error (ss_buf st) = None).
  { destruct (sb_error (ss_buf st)) eqn:E; [|reflexivity]. exfalso.
    destruct (i_reset _ _ (h_sb _ _ _ _ h)) as (q & _); [right; congruence|].
    rewrite q in hp. destruct (pending_nil _ hp). }
  destruct (hist_emit md ops outs st n h ltac:(lia) hg he hfl) as
    (f & st' & e1 & e2 & e3 & e4 & e5 & e6 & e6' & e7 & e8 & e9 & e10 & e11).
  destruct (off_front_spec _ _ (h_sb _ _ _ _ h)) as (o1 & o2 & o3 & o4).
  pose proof (Sb_pending_range _ _ _ (h_sb _ _ _ _ h) hp) as rx. pose proof (o2 _ hp).
  specialize (e9 ltac:(lia) ltac:(lia)).
  cbn [map sn_run sn_step]. rewrite e1. cbn [bind].
  assert (dec : in_frame f x \/ ~ in_frame f x) by (unfold in_frame; lia).
  destruct dec as [d|d].
  - destruct (hist_extend md (map SnEmit ns) _ _ _ e2 (emits_ok _ n2)) as (outs2 & st2 & g1 & g2).
    rewrite g1. cbn [bind]. do 2 eexists. split; [reflexivity|]. exists f. split; [left; reflexivity|auto].
  - destruct (IH _ _ _ x e2) as (outs2 & st2 & g1 & g & g2 & g3); auto.
    + rewrite in_app_iff. intros [q|[q|[]]]; [auto|discriminate].
    + apply e8. auto.
    + lia.
    + rewrite g1. cbn [bind]. do 2 eexists. split; [reflexivity|]. exists g. split; [right; auto|auto].
Qed.

(** ** The FIN when nothing was lost *)
Record Fin (outs : list sn_out) (st : sendst) : Prop := {
  f_gone : ss_gone st = false;
  f_pend : forall x, pending (sb_data (ss_buf st)) x -> sb_emit_off (ss_buf st) <= x;
  f_fin : ~ was_reset outs -> sb_fin_off (ss_buf st) <> None -> ss_flush st = true \/ fin_sent outs }.

Lemma fin_sent_l a b : fin_sent a -> fin_sent (a ++ b).
Proof. intros (f & h1 & h2). exists f. rewrite frames_app, in_app_iff. auto. Qed.

Lemma not_reset_l a b : ~ was_reset (a ++ b) -> ~ was_reset a.
Proof. intros h (r & k). apply h. exists r. apply in_app_iff. auto. Qed.

Lemma fin_step md ops outs st op o st' :
  Hist md ops outs st -> Fin outs st -> ~ In SnNoRoom ops -> sn_op_ok op -> no_loss op ->
  sn_step op st = Ok (o, st') -> Fin (outs ++ [o]) st'.
Proof.
  intros h [g p k] hnr hok hno hst. pose proof (h_sb _ _ _ _ h) as hs.
  pose proof (i_emit _ _ hs) as ie. pose proof (i_off _ _ hs) as io.
  assert (wr : forall zc data cap fin, 0 <= cap -> sn_write zc data cap fin st = Ok (o, st') -> Fin (outs ++ [o]) st').
  { intros zc data cap fin hcap hw.
    destruct (hist_write md ops outs st zc data cap fin h hcap) as (r & st2 & w1 & w2 & _).
    rewrite hw in w1. injection w1 as w1 w1'. subst o st2.
    unfold sn_write in hw. rewrite g in hw.
    destruct (sb_error (ss_buf st)) as [e|] eqn:Ee.
    { injection hw as _ <-. constructor; auto. intros q1 q2. apply not_reset_l in q1.
      destruct (k q1 q2); auto using fin_sent_l. }
    destruct ((cap =? 0) && (0 <? zlen data)) eqn:Ec.
    { injection hw as _ <-. constructor; auto. intros q1 q2. apply not_reset_l in q1.
      destruct (k q1 q2); auto using fin_sent_l. }
    pose proof (zlen_nonneg data) as ld.
    destruct (if cap <? zlen data then (cap, false) else (zlen data, fin)) as [cap' fin'] eqn:Ecf.
    assert (cc : cap' = Z.min (zlen data) cap /\ (fin' = true -> cap' = zlen data)).
    { destruct (Z.ltb_spec cap (zlen data)); inv Ecf; split; try lia; discriminate. }
    destruct cc as (c1 & c2). clear Ecf.
    assert (wp : write_post (written ops outs) (ss_buf st) (take cap' data) fin'
      (if zc then sb_write_zc data cap' fin' (ss_buf st) else sb_write (take cap' data) fin' (ss_buf st))).
    { destruct zc; [apply sb_write_zc_spec; auto; lia|apply sb_write_spec; auto]. }
    assert (zD : zlen (take cap' data) = cap') by (rewrite zlen_take by lia; lia).
    destruct (if zc then _ else _) as [[sent s1]|e|] eqn:Ew; [| |destruct wp].
    2:{ injection hw as _ <-. constructor; auto. intros q1 q2. apply not_reset_l in q1.
        destruct (k q1 q2); auto using fin_sent_l. }
    cbn [write_post] in wp.
    destruct wp as (v1 & v2 & v3 & v4 & v5 & v6 & v7 & v8 & v9 & v10 & v11 & v12 & v13 & v14 & v15 & v16).
    assert (bb : exists b, (if sent <? cap' then sb_update_blocked (Some (sb_max_data s1)) s1
                 else sb_update_blocked None s1) = sb_update_blocked b s1) by (destr_if; eauto).
    destruct bb as (b & bb). rewrite bb in hw. injection hw as hw1 hw2. subst st'.
    constructor; cbn [ss_buf ss_gone ss_flush]; auto.
    - cbn. rewrite v6. intros x hx. apply v15 in hx as [hx|hx]; [auto|lia].
    - cbn [sb_update_blocked sb_fin_off]. intros q1 q2. apply not_reset_l in q1.
      destruct (sb_fin_off (ss_buf st)) as [e|] eqn:Ef.
      { destruct (k q1 ltac:(discriminate)) as [k1|k1]; [|auto using fin_sent_l]. left. rewrite k1. reflexivity. }
      rewrite (v14 eq_refl) in q2. left.
      destruct (sb_is_flushable (ss_buf st)) eqn:Efl.
      { apply (flushable_iff _ _ hs) in Efl. rewrite (h_flush _ _ _ _ h hnr g Efl). reflexivity. }
      destruct (fin' && (sent =? zlen (take cap' data))) eqn:Eq; [|congruence].
      apply andb_prop in Eq as (Eq1 & Eq2). specialize (c2 Eq1).
      destruct (Z.eq_dec (zlen data) 0) as [z|z].
      + replace (zlen data =? 0) with true by lia. rewrite Eq1. cbn [andb negb].
        rewrite orb_true_r. apply orb_true_r.
      + assert (fs : sb_is_flushable (sb_update_blocked b s1) = true).
        { apply (flushable_iff (written ops outs ++ take sent (take cap' data))); [apply sb_blocked_ok; auto|].
          exists (sb_off (ss_buf st)). apply v15. right. lia. }
        rewrite fs. cbn [orb andb negb]. apply orb_true_r. }
  destruct op as [data cap fin|data cap fin|n| |i|i|m|c| |]; cbn [sn_step sn_op_ok no_loss] in *; try tauto.
  - eapply wr; eauto.
  - eapply wr; eauto.
  - clear wr. destruct (ss_flush st) eqn:Ef.
    2:{ unfold sn_emit in hst. rewrite Ef in hst. injection hst as <- <-. constructor; auto.
        intros q1 q2. apply not_reset_l in q1. destruct (k q1 q2); [congruence|auto using fin_sent_l]. }
    destruct (sb_error (ss_buf st)) as [e|] eqn:Ee.
    { unfold sn_emit in hst. rewrite Ef, g, Ee in hst. injection hst as <- <-. constructor; auto.
      intros q1 q2. apply not_reset_l in q1. destruct q1. apply (h_reset _ _ _ _ h). right. congruence. }
    destruct (hist_emit md ops outs st n h hok g Ee Ef) as
      (f & st2 & e1 & e2 & e3 & e4 & e5 & e6 & e6' & e7 & e8 & e9 & e10 & e11).
    rewrite hst in e1. injection e1 as -> <-. pose proof (h_sb _ _ _ _ e2) as hs'.
    pose proof (i_emit _ _ hs') as ie'.
    destruct (h_frame _ _ _ _ e2 f) as (k1 & k2 & k3).
    { rewrite frames_app. apply in_app_iff. right. left. reflexivity. }
    destruct (off_front_spec _ _ hs) as (o1 & o2 & o3 & o4).
    assert (em : sb_emit_off (ss_buf st') = Z.max (sb_emit_off (ss_buf st)) (frame_end f)).
    { destruct (sb_emit_spec _ _ n hs hok) as (out & fin & s' & d1 & d2 & d3 & d4 & d5 & d6 & d7 & _).
      unfold sn_emit in hst. rewrite Ef, g, Ee, d1 in hst. cbn [negb bind] in hst. injection hst as <- <-.
      cbn [ss_buf]. rewrite d7. reflexivity. }
    constructor; auto.
    + intros x hx. pose proof hx as hx'. apply e8 in hx as (hx1 & hx2). rewrite em. pose proof (p _ hx1). pose proof (o2 _ hx1).
      unfold in_frame, frame_end in *. lia.
    + intros q1 q2. rewrite e6 in q2. rewrite e7. destruct (sb_is_flushable (ss_buf st')) eqn:Efl; [auto|]. right.
      pose proof (not_reset_l _ _ q1) as q1'.
      exists f. rewrite frames_app, in_app_iff. split; [right; left; reflexivity|]. rewrite e6'.
      destruct (i_fin _ _ hs) as [z|z]; [congruence|]. rewrite z.
      assert (np : forall x, ~ pending (sb_data (ss_buf st')) x).
      { intros x hx. assert (sb_is_flushable (ss_buf st') = true); [|congruence].
        apply (flushable_iff _ _ hs'). eauto. }
      assert (lo : sb_off (ss_buf st') = sb_off (ss_buf st)).
      { rewrite (live_off _ _ _ _ e2 q1), (live_off _ _ _ _ h q1'), written_snoc by apply h.
        rewrite app_nil_r. reflexivity. }
      assert (emo : sb_emit_off (ss_buf st') = sb_off (ss_buf st')).
      { destruct (Z.eq_dec (sb_emit_off (ss_buf st')) (sb_off (ss_buf st'))); [auto|]. exfalso.
        destruct (Sb_cover _ _ (sb_emit_off (ss_buf st')) hs' ltac:(lia)) as [c|[c|c]].
        - pose proof (i_ack _ _ hs') as (_ & _ & a3). destruct c as (s1 & s2 & c1 & c2).
          unfold ends_below in a3. rewrite Forall_forall in a3. specialize (a3 _ c1). cbn in a3. lia.
        - apply (np _ c).
        - pose proof (i_cons _ _ hs' _ c). lia. }
      assert (frame_end f = sb_off (ss_buf st)); [|lia].
      rewrite lo in *. destruct (Z.eq_dec (sb_off_front (ss_buf st)) (sb_off (ss_buf st))) as [e|e].
      * unfold frame_end in *. pose proof (zlen_nonneg (sf_bytes f)). lia.
      * pose proof (p _ (o3 ltac:(lia))). lia.
  - destruct (nth_error (ss_sent st) i) as [[[f a0] l0]|] eqn:Ei; unfold sn_ack in hst; rewrite Ei in hst.
    2:{ injection hst as <- <-. constructor; auto. intros q1 q2. apply not_reset_l in q1.
        destruct (k q1 q2); auto using fin_sent_l. }
    pose proof (sent_nth _ _ _ _ _ _ (h_sent _ _ _ _ h) Ei) as fi.
    destruct (h_frame _ _ _ _ h f (nth_error_In _ _ fi)) as (b1 & b2 & b3).
    destruct (sb_ack_and_drop_spec _ _ (sf_off f) (zlen (sf_bytes f)) hs) as
      (n & s' & r1 & r2 & (r3a & r3b & r3c & r3d & r3e & r3f) & r4 & r5 & r6 & r7 & r8 & r9 & r10); auto.
    { apply zlen_nonneg. }
    rewrite g, r1 in hst. cbn [bind] in hst. injection hst as <- <-.
    constructor; cbn [ss_buf ss_gone ss_flush]; auto.
    + rewrite r3b. auto.
    + rewrite r3d. intros q1 q2. apply not_reset_l in q1. destruct (k q1 q2); auto using fin_sent_l.
  - unfold sn_max_data in hst. rewrite g in hst. injection hst as <- <-.
    constructor; cbn [ss_buf ss_gone ss_flush]; auto. cbn [sb_update_max_data sb_fin_off].
    intros q1 q2. apply not_reset_l in q1. destruct (k q1 q2) as [z|z]; [|auto using fin_sent_l].
    left. rewrite z. reflexivity.
  - destruct (hist_stop md ops outs st c h) as (r & st2 & g1 & g2 & g3 & g4). rewrite hst in g1.
    injection g1 as -> <-. unfold sn_stop in hst. rewrite g in hst. unfold sb_stop in hst.
    destruct (sb_error (ss_buf st)) eqn:Ee.
    { injection hst as _ <-. constructor; auto. intros q1 q2. apply not_reset_l in q1.
      destruct (k q1 q2); auto using fin_sent_l. }
    destruct (g3 g eq_refl) as (-> & _).
    destruct (sb_reset (ss_buf st)) as [[[f u] s]|e|]; try discriminate. cbn [bind] in hst.
    assert (eg : ss_gone st' = false) by (injection hst; intros; subst; reflexivity). clear hst wr.
    assert (hr : was_reset (outs ++ [SoReset (Some (sb_emit_off (ss_buf st), sb_off (ss_buf st) - sb_emit_off (ss_buf st)))]))
      by (apply was_reset_snoc; eauto).
    constructor; [auto| |intros q; destruct (q hr)].
    intros x hx. destruct (i_reset _ _ (h_sb _ _ _ _ g2)) as (q & _); [apply (h_reset _ _ _ _ g2); auto|].
    rewrite q in hx. destruct (pending_nil _ hx).
  - destruct (hist_shutdown md ops outs st h) as (r & st2 & g1 & g2 & g3 & g4). rewrite hst in g1.
    injection g1 as -> <-. unfold sn_shutdown in hst. rewrite g in hst. unfold sb_shutdown in hst.
    destruct (sb_shut (ss_buf st)) eqn:Ee.
    { injection hst as _ <-. constructor; auto. intros q1 q2. apply not_reset_l in q1.
      destruct (k q1 q2); auto using fin_sent_l. }
    rewrite (g3 g eq_refl) in *.
    destruct (sb_reset _) as [[[f u] s]|e|]; try discriminate.
    assert (eg : ss_gone st' = false) by (injection hst; intros; subst; reflexivity). clear hst wr.
    assert (hr : was_reset (outs ++ [SoReset (Some (sb_emit_off (ss_buf st), sb_off (ss_buf st) - sb_emit_off (ss_buf st)))]))
      by (apply was_reset_snoc; eauto).
    constructor; [auto| |intros q; destruct (q hr)].
    intros x hx. destruct (i_reset _ _ (h_sb _ _ _ _ g2)) as (q & _); [apply (h_reset _ _ _ _ g2); auto|].
    rewrite q in hx. destruct (pending_nil _ hx).
Qed.

Lemma fin_run md ops : 0 <= md <= max_varint -> Forall sn_op_ok ops -> Forall no_loss ops ->
  exists outs st, sn_run ops (sn_new md) = Ok (outs, st) /\ Hist md ops outs st /\ Fin outs st.
Proof.
  intros hm. induction ops as [|op ops IH] using rev_ind; intros hops hno.
  - exists [], (sn_new md). split; [reflexivity|]. split; [apply hist_new; auto|].
    constructor; cbn; auto; try congruence. intros x hx. destruct (pending_nil _ hx).
  - apply Forall_app in hops as (h1 & h2). inversion h2 as [|? ? h3 _]; subst.
    apply Forall_app in hno as (n1 & n2). inversion n2 as [|? ? n3 _]; subst.
    destruct (IH h1 n1) as (outs & st & g1 & g2 & g2').
    destruct (hist_step md ops outs st op g2 h3) as (o & st' & g3 & g4).
    exists (outs ++ [o]), st'. split; [|split; [auto|]].
    + rewrite sn_run_app, g1. cbn [bind sn_run]. rewrite g3. cbn [bind]. reflexivity.
    + eapply fin_step; eauto. intros q. rewrite Forall_forall in n1. apply (n1 _ q).
Qed.

(** Draining sends the FIN: each turn sends a frame and either empties the
    queue, which needs the FIN sent, or shrinks the buffered data. *)
Lemma fin_drain md ns : forall ops outs st, Hist md ops outs st -> Fin outs st ->
  ~ In SnNoRoom ops -> ~ was_reset outs -> sb_fin_off (ss_buf st) <> None ->
  Forall (fun n => 1 <= n) ns -> sb_buffered (ss_buf st) < zlen ns ->
  exists outs2 st', sn_run (map SnEmit ns) st = Ok (outs2, st') /\
    ~ was_reset (outs ++ outs2) /\ fin_sent (outs ++ outs2).
Proof.
  induction ns as [|n ns IH]; intros ops outs st h hf hnr hr hfo hns hb.
  { pose proof (buffered_le _ _ (h_sb _ _ _ _ h)). change (zlen (@nil Z)) with 0 in hb. lia. }
  inversion hns as [|? ? n1 n2]; subst. rewrite zlen_cons in hb.
  assert (he : sb_error (ss_buf st) = None).
  { destruct (sb_error (ss_buf st)) eqn:E; [|reflexivity]. exfalso. apply hr.
    apply (h_reset _ _ _ _ h). right. congruence. }
  assert (ok1 : sn_op_ok (SnEmit n)) by (cbn; lia).
  destruct (ss_flush st) eqn:Efl.
  - destruct (hist_emit md ops outs st n h ltac:(lia) (f_gone _ _ hf) he Efl) as
      (f & st' & e1 & e2 & e3 & e4 & e5 & e6 & e6' & e7 & e8 & e9 & e10 & e11).
    pose proof (fin_step md ops outs st (SnEmit n) _ _ h hf hnr ok1 I e1) as hf'.
    assert (hr' : ~ was_reset (outs ++ [SoFrame (Some f)])).
    { rewrite was_reset_snoc. intros [q|(r & q)]; [auto|discriminate]. }
    cbn [map sn_run sn_step]. rewrite e1. cbn [bind].
    destruct (Z.eq_dec (zlen (sf_bytes f)) 0) as [z|z].
    + (* nothing was pending: this frame carries the FIN *)
      assert (fs : fin_sent (outs ++ [SoFrame (Some f)])).
      { destruct (f_fin _ _ hf' hr') as [k|k]; [congruence| |auto]. exfalso.
        rewrite e7 in k. apply (flushable_iff _ _ (h_sb _ _ _ _ e2)) in k as (x & hx).
        apply e8 in hx as (hx & _). destruct (off_front_spec _ _ (h_sb _ _ _ _ h)) as (o1 & o2 & o3 & o4).
        pose proof (o2 _ hx). pose proof (Sb_pending_range _ _ _ (h_sb _ _ _ _ h) hx).
        specialize (e9 ltac:(lia) ltac:(lia)). lia. }
      destruct (hist_extend md (map SnEmit ns) _ _ _ e2 (emits_ok _ n2)) as (outs2 & st2 & g1 & g2).
      rewrite g1. cbn [bind]. do 2 eexists. split; [reflexivity|].
      rewrite (app_assoc outs [_] outs2 : outs ++ (SoFrame (Some f) :: outs2) = _).
      split; [|apply fin_sent_l; auto].
      clear - g1 hr'. intros q. apply hr'. destruct q as (r & q). apply in_app_iff in q as [q|q]; [exists r; auto|].
      exfalso. revert st' outs2 g1 q. induction ns as [|m ns IH]; intros st' outs2 g1 q; cbn [map sn_run sn_step] in g1.
      * inv g1. destruct q.
      * destruct (sn_emit m st') as [[o s]| |] eqn:E; cbn [bind] in g1; try discriminate.
        destruct (sn_run (map SnEmit ns) s) as [[os s2]| |] eqn:E2; cbn [bind] in g1; try discriminate.
        inv g1. destruct q as [->|q]; [|eapply IH; eauto].
        unfold sn_emit in E. destruct (ss_flush st'), (ss_gone st'), (sb_error (ss_buf st')); cbn [negb] in E; try discriminate.
        destruct (sb_emit m (ss_buf st')) as [[[a b] d]| |]; cbn [bind] in E; discriminate.
    + destruct (IH _ _ _ e2 hf') as (outs2 & st2 & g1 & g2 & g3); auto.
      * rewrite in_app_iff. intros [q|[q|[]]]; [auto|discriminate].
      * congruence.
      * pose proof (zlen_nonneg (sf_bytes f)). lia.
      * rewrite g1. cbn [bind]. do 2 eexists. split; [reflexivity|].
        rewrite <- app_assoc in g2, g3. auto.
  - destruct (f_fin _ _ hf hr hfo) as [k|k]; [congruence|].
    assert (e1 : sn_emit n st = Ok (SoFrame None, st)) by (unfold sn_emit; rewrite Efl; reflexivity).
    cbn [map sn_run sn_step]. rewrite e1. cbn [bind].
    assert (all : forall ns, sn_run (map SnEmit ns) st = Ok (map (fun _ => SoFrame None) ns, st)).
    { clear - Efl. induction ns as [|m ns IH]; [reflexivity|]. cbn [map sn_run sn_step].
      unfold sn_emit at 1. rewrite Efl. cbn [negb bind]. rewrite IH. reflexivity. }
    rewrite all. cbn [bind]. do 2 eexists. split; [reflexivity|]. split.
    + intros (r & q). apply in_app_iff in q as [q|[q|q]]; [apply hr; exists r; auto|discriminate|].
      apply in_map_iff in q as (z & q & _). discriminate.
    + apply fin_sent_l. auto.
Qed.
