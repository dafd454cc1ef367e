(** Writes and resets keep the history invariant; every history does. *)
Require Import Verif.Base Verif.Errors Verif.RangesModel Verif.RangesProofs Verif.RangeBufModel
  Verif.RangeBufProofs Verif.SendBufModel Verif.SendBufProofs Verif.SendBufProofs2
  Verif.SendBufProofs3 Verif.SendSpec Verif.SendProofs Verif.SendProofs2.

Lemma hist_write_ok md ops outs st op o D fin n s1 b flush :
  Hist md ops outs st -> ss_gone st = false ->
  write_result (written ops outs) (ss_buf st) D fin n s1 ->
  accepted op o = take n D -> (fin_write op o <-> fin = true /\ n = zlen D) ->
  frames [o] = [] -> (forall m, limit m [op] = m) -> (forall r, o <> SoReset (Some r)) ->
  (forall i, op <> SnAck i) -> (forall i, op <> SnLost i) -> op <> SnNoRoom ->
  ((exists x, pending (sb_data s1) x) ->
     (~ exists x, pending (sb_data (ss_buf st)) x) \/ ss_flush st = true -> flush = true) ->
  Hist md (ops ++ [op]) (outs ++ [o]) (mkSS (sb_update_blocked b s1) flush (ss_sent st) false).
Proof.
  intros h hg (w1 & w2 & w3 & w4 & w5 & w6 & w7 & w8 & w9 & w10 & w11 & w12 & w13 & w14 & w15 & w16)
    ha hfw hf hm hr na nl nn hfl.
  pose proof (h_sb _ _ _ _ h) as hs. pose proof (h_len _ _ _ _ h) as hl.
  pose proof (i_emit _ _ hs) as ie. pose proof (i_off _ _ hs) as io.
  assert (zt : zlen (take n D) = n) by (rewrite zlen_take by lia; lia).
  assert (ew : written (ops ++ [op]) (outs ++ [o]) = written ops outs ++ take n D)
    by (rewrite written_snoc, ha by auto; reflexivity).
  assert (ef : frames (outs ++ [o]) = frames outs) by (rewrite frames_app, hf; apply app_nil_r).
  assert (er : was_reset (outs ++ [o]) <-> was_reset outs).
  { rewrite was_reset_snoc. split; [intros [q|(r & q)]; [auto|destruct (hr _ q)]|auto]. }
  assert (em : limit md (ops ++ [op]) = limit md ops) by (rewrite limit_app; apply hm).
  assert (ea : forall j, frame_acked (ops ++ [op]) (outs ++ [o]) j <-> frame_acked ops outs j).
  { intros j. unfold frame_acked. rewrite happened_snoc by auto. split; [|auto].
    intros [q|(q & q')]; [auto|destruct (na _ q)]. }
  assert (eL : forall j, frame_lost (ops ++ [op]) (outs ++ [o]) j <-> frame_lost ops outs j).
  { intros j. unfold frame_lost. rewrite happened_snoc by auto. split; [|auto].
    intros [q|(q & q')]; [auto|destruct (nl _ q)]. }
  assert (eba : forall x, byte_acked (ops ++ [op]) (outs ++ [o]) x <-> byte_acked ops outs x).
  { intros x. rewrite byte_acked_snoc by auto. split; [|auto].
    intros [q|(j & g & q & q1 & q2)]; [auto|destruct (na _ q)]. }
  constructor; cbn [ss_buf ss_flush ss_sent ss_gone]; rewrite ?ew, ?ef, ?em, ?er; auto; try discriminate.
  - rewrite !app_length. cbn. lia.
  - apply sb_blocked_ok. auto.
  - apply h.
  - intros i g a l hi. rewrite ea, eL. apply (h_flags _ _ _ _ h _ _ _ _ hi).
  - intros f hi. destruct (h_frame _ _ _ _ h f hi) as (k1 & k2 & k3). cbn. rewrite w6. ands; auto.
    rewrite slice_app_l by lia. auto.
  - cbn. rewrite w6. apply h.
  - cbn. rewrite w7. destruct (h_max _ _ _ _ h). auto.
  - rewrite zlen_app, zt. destruct (h_max _ _ _ _ h) as (k1 & k2). specialize (k2 hg).
    pose proof (h_wlim _ _ _ _ h). destruct (sb_shut (ss_buf st)) eqn:Es.
    + rewrite w3 by auto. lia.
    + assert (sb_off (ss_buf st) = zlen (written ops outs)); [|lia].
      apply (i_live _ _ hs). intros [q|q]; congruence.
  - rewrite <- (h_reset _ _ _ _ h). unfold is_reset. cbn. rewrite w8, w9, w10. tauto.
  - intros q x. cbn. rewrite eba, w11. apply h. auto.
  - intros q x hx. cbn in hx. rewrite eba. apply w16 in hx. destruct (h_cons _ _ _ _ h q x hx) as [k|k]; [|auto].
    left. destruct (in_flight_snoc ops outs op o x hl k) as [p|(j & g & p & _)]; [auto|destruct (nl _ p)].
  - intros q. cbn. rewrite fin_written_snoc, hfw by auto. rewrite <- (h_fin _ _ _ _ h q).
    destruct (sb_fin_off (ss_buf st)) as [e|] eqn:Ef.
    + destruct (w13 ltac:(discriminate)) as (p1 & p2 & p3 & p4). rewrite p4. split; [left|]; discriminate.
    + rewrite (w14 eq_refl). destruct (fin && (n =? zlen D)) eqn:Eb.
      * split; [right; lia|discriminate].
      * split; [congruence|]. intros [p|p]; [congruence|]. destruct p as (-> & ->). rewrite Z.eqb_refl in Eb. discriminate.
  - intros f hi hff. cbn. pose proof (h_finf _ _ _ _ h f hi hff) as k.
    destruct (w13 ltac:(congruence)) as (p1 & p2 & p3 & p4). congruence.
  - intros final u q. cbn. apply in_app_iff in q as [q|[q|[]]]; [|destruct (hr _ q)].
    destruct (h_rfin _ _ _ _ h _ _ q) as (k1 & k2).
    destruct (w13 ltac:(congruence)) as (p1 & p2 & p3 & p4). split; congruence.
  - rewrite fin_data_snoc by auto. intros q [k|(k & k')] f hi hin.
    + apply (h_last _ _ _ _ h q k f hi). assert (n0 : n = 0).
      { apply w13. apply (h_fin _ _ _ _ h q). apply fin_data_fin. auto. }
      rewrite n0 in hin. change (take 0 D) with (@nil Z) in hin. rewrite app_nil_r in hin. auto.
    + exfalso. destruct (h_frame _ _ _ _ h f hi) as (k1 & k2 & k3). rewrite ha in k'.
      assert (0 < n). { destruct (Z.eq_dec n 0); [|lia]. subst n. destruct k'. rewrite e. reflexivity. }
      unfold in_frame in hin. rewrite zlen_app, zt in hin. unfold frame_end in *. lia.
  - intros q1 _ q3. apply hfl; [auto|]. destruct (flushable_iff _ _ hs) as (f1 & f2).
    destruct (sb_is_flushable (ss_buf st)) eqn:E.
    + right. apply (h_flush _ _ _ _ h); auto. intros q. apply q1. apply in_app_iff. auto.
    + left. intros k. specialize (f2 k). discriminate.
  - intros q1 q2. cbn. rewrite w11. apply app_eq_nil in q1 as (q1 & _).
    rewrite (h_anyack _ _ _ _ h q1 q2). split; intros (j & q); exists j; apply ea; auto.
Qed.

Definition write_op (zc : bool) data cap fin := if zc then SnWriteZc data cap fin else SnWrite data cap fin.

(** What a write answers. *)
Definition write_answer (ops : list sn_op) (outs : list sn_out) (s : sendbuf) (gone : bool)
  (data : list Z) (cap : Z) (fin : bool) (r : res error Z) : Prop :=
  (gone = true -> r = Err Done) /\
  (gone = false -> forall e, sb_error s = Some e -> r = Err (StreamStopped e)) /\
  (gone = false -> sb_error s = None -> sb_fin_off s = None ->
     let n := Z.min (Z.min (zlen data) cap) (sb_max_data s - sb_off s) in
     r = if (n =? 0) && (0 <? zlen data) then Err Done else Ok n) /\
  (gone = false -> sb_error s = None -> sb_fin_off s <> None -> data <> [] ->
     r = Err Done \/ r = Err FinalSize) /\
  r <> Panic.

Lemma hist_write md ops outs st zc data cap fin : Hist md ops outs st -> 0 <= cap ->
  exists r st', sn_write zc data cap fin st = Ok (SoWrite r, st') /\
    Hist md (ops ++ [write_op zc data cap fin]) (outs ++ [SoWrite r]) st' /\
    write_answer ops outs (ss_buf st) (ss_gone st) data cap fin r.
Proof.
  intros h hcap. pose proof (h_sb _ _ _ _ h) as hs. pose proof (i_off _ _ hs) as io.
  pose proof (zlen_nonneg data) as ld.
  assert (quiet : forall e, Hist md (ops ++ [write_op zc data cap fin]) (outs ++ [SoWrite (Err e)]) st).
  { intros e. apply hist_quiet with (st := st); auto; try discriminate.
    - destruct zc; reflexivity.
    - destruct zc; reflexivity.
    - destruct zc, fin; cbn; tauto.
    - intros i [q|q]; destruct zc; discriminate.
    - apply h. }
  unfold sn_write, write_answer.
  destruct (ss_gone st) eqn:Eg.
  { do 2 eexists. split; [reflexivity|]. split; [apply quiet|]. ands; auto; discriminate. }
  destruct (sb_error (ss_buf st)) as [e|] eqn:Ee.
  { do 2 eexists. split; [reflexivity|]. split; [apply quiet|].
    ands; try discriminate. intros _ e' q. congruence. }
  destruct ((cap =? 0) && (0 <? zlen data)) eqn:Ec.
  { do 2 eexists. split; [reflexivity|]. split; [apply quiet|].
    ands; try discriminate; auto. intros _ _ _.
    match goal with |- _ = if ?c then _ else _ => replace c with true by lia end. reflexivity. }
  set (cf := if cap <? zlen data then (cap, false) else (zlen data, fin)).
  destruct cf as [cap' fin'] eqn:Ecf. unfold cf in Ecf. clear cf.
  assert (cc : cap' = Z.min (zlen data) cap /\ fin' = fin && (zlen data <=? cap)).
  { destruct (Z.ltb_spec cap (zlen data)) as [q|q]; inv Ecf.
    - split; [lia|]. replace (zlen data <=? cap') with false by lia. rewrite andb_false_r. reflexivity.
    - split; [lia|]. replace (zlen data <=? cap) with true by lia. rewrite andb_true_r. reflexivity. }
  destruct cc as (c1 & c2). clear Ecf.
  set (D := take cap' data).
  assert (zD : zlen D = cap') by (unfold D; rewrite zlen_take by lia; lia).
  assert (wp : write_post (written ops outs) (ss_buf st) D fin'
    (if zc then sb_write_zc data cap' fin' (ss_buf st) else sb_write D fin' (ss_buf st))).
  { destruct zc; [apply sb_write_zc_spec; auto; lia|apply sb_write_spec; auto]. }
  destruct (if zc then _ else _) as [[sent s1]|e|] eqn:Ew; [| |destruct wp].
  2:{ do 2 eexists. split; [reflexivity|]. split; [apply quiet|].
      cbn in wp. destruct e; try tauto; try congruence. destruct wp as (p1 & p2 & p3).
      ands; try discriminate; try tauto. }
  cbn [write_post] in wp. pose proof wp as (w1 & w2 & w3 & w4 & w5 & w6 & w7 & w8 & w9 & w10 & w11 & w12 & w13 & w14 & w15 & w16).
  rewrite zD in w1, w4.
  do 2 eexists. split; [reflexivity|]. split.
  2:{ ands; try discriminate.
      - intros _ _ _. fold (zlen data). rewrite <- c1. rewrite <- w4.
        destruct (sent =? 0) eqn:E0; cbn [andb]; [|reflexivity].
        replace (0 <? cap') with (0 <? zlen data) by lia. reflexivity.
      - intros _ _ q hd. destruct (w13 q) as (p1 & p2 & p3 & p4). left.
        assert (zlen D = 0) by (rewrite p3; reflexivity).
        assert (0 < zlen data). { destruct data; [congruence|]. rewrite zlen_cons. pose proof (zlen_nonneg data). lia. }
        assert (cap' = 0) by lia. assert (cap = 0) by lia. exfalso. lia.
      - destr_if; discriminate. }
  assert (takes : take sent D = take sent data) by (unfold D; rewrite take_take by lia; f_equal; lia).
  match goal with |- Hist _ _ _ (mkSS ?b _ _ _) => assert (eb : exists b', b = sb_update_blocked b' s1) end.
  { repeat destr_if; eexists; reflexivity. }
  destruct eb as (b' & ->).
  apply hist_write_ok with (D := D) (fin := fin') (n := sent); auto; try (destruct zc; discriminate).
  - destruct ((sent =? 0) && (0 <? cap')) eqn:E; destruct zc; cbn [write_op accepted]; auto;
      replace sent with 0 by lia; reflexivity.
  - assert (k : fin_write (write_op zc data cap fin)
        (SoWrite (if (sent =? 0) && (0 <? cap') then Err Done else Ok sent)) <->
        fin = true /\ ((sent =? 0) && (0 <? cap')) = false /\ sent = zlen data).
    { destruct ((sent =? 0) && (0 <? cap')), zc, fin; cbn [write_op fin_write]; intuition discriminate. }
    rewrite k, c2, zD. clear k. split.
    + intros (k1 & k2 & k3). rewrite k1. split; lia.
    + intros (k1 & k2). apply andb_prop in k1 as (k1 & k3). ands; auto; lia.
  - destruct zc; reflexivity.
  - intros hp hq. destruct hq as [hq|hq]; [|rewrite hq; reflexivity].
    assert (ff : sb_is_flushable (ss_buf st) = false).
    { destruct (sb_is_flushable (ss_buf st)) eqn:E; [|reflexivity]. destruct hq. apply (flushable_iff _ _ hs). auto. }
    rewrite ff. cbn [negb]. rewrite andb_true_r.
    assert (fs : sb_is_flushable (sb_update_blocked b' s1) = true).
    { apply (flushable_iff (written ops outs ++ take sent D)); [apply sb_blocked_ok; auto|exact hp]. }
    rewrite fs. cbn [orb]. apply orb_true_r.
Qed.

Lemma reset_Sb W s s' : Sb W s ->
  sb_data s' = [] -> sb_pos s' = O -> sb_off s' = sb_emit_off s -> sb_emit_off s' = sb_emit_off s ->
  sb_buffered s' = 0 -> sb_max_data s' = sb_max_data s -> sb_fin_off s' = Some (sb_emit_off s) ->
  rs_inv (sb_acked s') -> rs_cap (sb_acked s') = usize_max -> ends_below (sb_emit_off s) (sb_acked s') ->
  (forall x, covers (rs_ranges (sb_acked s')) x <-> 0 <= x < sb_emit_off s) ->
  is_reset s' -> Sb W s'.
Proof.
  intros h r1 r2 r3 r4 r5 r6 r7 r8 r9 r10 r11 r12. pose proof (i_off _ _ h). pose proof (i_emit _ _ h).
  constructor; rewrite ?r1, ?r2, ?r3, ?r4, ?r5, ?r6, ?r7; auto; try lia.
  - exists (sb_emit_off s). ands; try lia; [reflexivity|]. intros x hx. apply r11. auto.
  - constructor.
  - intros x hx. destruct (consumed_nil _ hx).
  - tauto.
Qed.

Lemma hist_stop md ops outs st c : Hist md ops outs st ->
  exists r st', sn_stop c st = Ok (SoReset r, st') /\
    Hist md (ops ++ [SnStop c]) (outs ++ [SoReset r]) st' /\
    (ss_gone st = false -> sb_error (ss_buf st) = None ->
       r = Some (sb_emit_off (ss_buf st), sb_off (ss_buf st) - sb_emit_off (ss_buf st)) /\
       sb_error (ss_buf st') = Some c) /\
    (ss_gone st = true \/ sb_error (ss_buf st) <> None -> r = None).
Proof.
  intros h. pose proof (h_sb _ _ _ _ h) as hs.
  assert (quiet : Hist md (ops ++ [SnStop c]) (outs ++ [SoReset None]) st).
  { apply hist_quiet with (st := st); auto; try discriminate.
    - intros i [q|q]; discriminate.
    - apply h. }
  unfold sn_stop. destruct (ss_gone st) eqn:Eg.
  { do 2 eexists. split; [reflexivity|]. ands; auto; discriminate. }
  unfold sb_stop. destruct (sb_error (ss_buf st)) as [e|] eqn:Ee.
  { do 2 eexists. split; [reflexivity|]. ands; auto; discriminate. }
  destruct (sb_reset_spec _ _ hs) as (s' & r0 & r1 & r2 & r3 & r4 & r5 & r6 & r7 & r8 & r9 & r10 & r11 & r12 & r13 & r14).
  rewrite r0. cbn [bind]. do 2 eexists. split; [reflexivity|]. ands.
  - apply hist_reset; eauto; try reflexivity.
    + eapply reset_Sb; eauto. right. discriminate.
    + right. discriminate.
  - intros _ _. ands; reflexivity.
  - intros [q|q]; congruence.
Qed.

Lemma sb_reset_shut s :
  sb_reset (mkSend (sb_data s) (sb_pos s) (sb_off s) (sb_emit_off s) (sb_buffered s)
     (sb_max_data s) (sb_blocked s) (sb_fin_off s) true (sb_acked s) (sb_error s))
  = let* '(f, u, s) := sb_reset s in
    Ok (f, u, mkSend (sb_data s) (sb_pos s) (sb_off s) (sb_emit_off s) (sb_buffered s)
     (sb_max_data s) (sb_blocked s) (sb_fin_off s) true (sb_acked s) (sb_error s)).
Proof.
  unfold sb_reset, sb_off_front, sb_ack.
  cbn [sb_data sb_pos sb_off sb_emit_off sb_buffered sb_max_data sb_blocked sb_fin_off sb_shut sb_acked sb_error].
  destruct (rs_insert _ _); reflexivity.
Qed.

Lemma hist_shutdown md ops outs st : Hist md ops outs st ->
  exists r st', sn_shutdown st = Ok (SoReset r, st') /\
    Hist md (ops ++ [SnShutdown]) (outs ++ [SoReset r]) st' /\
    (ss_gone st = false -> sb_shut (ss_buf st) = false ->
       r = Some (sb_emit_off (ss_buf st), sb_off (ss_buf st) - sb_emit_off (ss_buf st))) /\
    (ss_gone st = true \/ sb_shut (ss_buf st) = true -> r = None).
Proof.
  intros h. pose proof (h_sb _ _ _ _ h) as hs.
  assert (quiet : Hist md (ops ++ [SnShutdown]) (outs ++ [SoReset None]) st).
  { apply hist_quiet with (st := st); auto; try discriminate.
    - intros i [q|q]; discriminate.
    - apply h. }
  unfold sn_shutdown. destruct (ss_gone st) eqn:Eg.
  { do 2 eexists. split; [reflexivity|]. ands; auto; discriminate. }
  unfold sb_shutdown. destruct (sb_shut (ss_buf st)) eqn:Ee.
  { do 2 eexists. split; [reflexivity|]. ands; auto; discriminate. }
  destruct (sb_reset_spec _ _ hs) as (s' & r0 & r1 & r2 & r3 & r4 & r5 & r6 & r7 & r8 & r9 & r10 & r11 & r12 & r13 & r14).
  rewrite sb_reset_shut, r0. cbn [bind]. do 2 eexists. split; [reflexivity|]. ands.
  - apply hist_reset; eauto; try reflexivity.
    + eapply reset_Sb; eauto. left. reflexivity.
    + left. reflexivity.
  - intros _ _. reflexivity.
  - intros [q|q]; congruence.
Qed.

Lemma hist_step md ops outs st op : Hist md ops outs st -> sn_op_ok op ->
  exists o st', sn_step op st = Ok (o, st') /\ Hist md (ops ++ [op]) (outs ++ [o]) st'.
Proof.
  intros h hop. pose proof (h_sb _ _ _ _ h) as hs.
  destruct op as [data cap fin|data cap fin|n| |i|i|m|c| |]; cbn [sn_step sn_op_ok] in *.
  - destruct (hist_write md ops outs st false data cap fin h hop) as (r & st' & g1 & g2 & _). eauto.
  - destruct (hist_write md ops outs st true data cap fin h hop) as (r & st' & g1 & g2 & _). eauto.
  - destruct (ss_flush st) eqn:Ef.
    2:{ unfold sn_emit. rewrite Ef. cbn [negb]. do 2 eexists. split; [reflexivity|].
        apply hist_quiet with (st := st); auto; try discriminate.
        - intros i [q|q]; discriminate.
        - apply h. }
    destruct (ss_gone st) eqn:Eg.
    { unfold sn_emit. rewrite Ef, Eg. cbn [negb]. do 2 eexists. split; [reflexivity|].
      apply hist_quiet with (st := st); auto; try discriminate.
      - intros i [q|q]; discriminate.
      - intros _. apply h. auto. }
    destruct (sb_error (ss_buf st)) as [e|] eqn:Ee.
    { unfold sn_emit. rewrite Ef, Eg, Ee. cbn [negb]. do 2 eexists. split; [reflexivity|].
      apply hist_quiet with (st := st); auto; try discriminate.
      - intros i [q|q]; discriminate.
      - intros _ _ (x & hx) _. destruct (i_reset _ _ hs) as (q & _); [right; congruence|].
        rewrite q in hx. destruct (pending_nil _ hx). }
    destruct (hist_emit md ops outs st n) as (f & st' & g1 & g2 & _); eauto.
  - unfold sn_no_room. do 2 eexists. split; [reflexivity|].
    apply hist_quiet with (st := st); auto; try discriminate; try tauto.
    + intros i [q|q]; discriminate.
    + apply h.
  - destruct (hist_ack md ops outs st i h) as (st' & g1 & g2). eauto.
  - destruct (hist_lost md ops outs st i h) as (st' & g1 & g2). eauto.
  - destruct (hist_max_data md ops outs st m h hop) as (st' & g1 & g2). eauto.
  - destruct (hist_stop md ops outs st c h) as (r & st' & g1 & g2 & _). eauto.
  - destruct (hist_shutdown md ops outs st h) as (r & st' & g1 & g2 & _). eauto.
  - unfold sn_collect. do 2 eexists. split; [reflexivity|].
    apply hist_quiet with (st := st); auto; try discriminate; cbn [ss_gone ss_flush].
    + intros i [q|q]; discriminate.
    + intros q. apply orb_prop in q as [q|q]; [apply h|]; auto.
    + intros q. apply orb_false_elim in q. tauto.
    + intros _ -> _ ->. reflexivity.
Qed.

Lemma hist_new md : 0 <= md <= max_varint -> Hist md [] [] (sn_new md).
Proof.
  intros hm. assert (na : forall ev i, happened ev [] [] i -> False).
  { intros ev i (pre & post & e & _). destruct pre; discriminate. }
  constructor; cbn [written frames limit sn_new ss_buf ss_sent ss_gone ss_flush sb_new sb_emit_off
     sb_max_data sb_acked sb_data sb_fin_off]; auto; try discriminate; try lia.
  - apply sb_new_ok. auto.
  - intros [|i]; discriminate.
  - intros f [].
  - rewrite zlen_nil. lia.
  - unfold is_reset. cbn. split; [intros [q|q]; congruence|intros (r & [])].
  - intros _ x. split; [intros q; destruct (covers_nil _ q)|]. intros (i & f & q & _). destruct i; discriminate.
  - intros _ x hx. destruct (consumed_nil _ hx).
  - intros _. split; [congruence|]. intros (p & q & [] & _).
  - intros f [].
  - intros final u [].
  - intros _ _ (x & hx). destruct (pending_nil _ hx).
  - intros _ _. split; [cbn; congruence|]. intros (i & q). destruct (na _ _ q).
Qed.

Lemma hist_run md ops : 0 <= md <= max_varint -> Forall sn_op_ok ops ->
  exists outs st, sn_run ops (sn_new md) = Ok (outs, st) /\ Hist md ops outs st.
Proof.
  intros hm. induction ops as [|op ops IH] using rev_ind; intros hops.
  - exists [], (sn_new md). split; [reflexivity|apply hist_new; auto].
  - apply Forall_app in hops as (h1 & h2). inversion h2 as [|? ? h3 _]; subst.
    destruct (IH h1) as (outs & st & g1 & g2).
    destruct (hist_step md ops outs st op g2 h3) as (o & st' & g3 & g4).
    exists (outs ++ [o]), st'. split; [|auto].
    rewrite sn_run_app, g1. cbn [bind sn_run]. rewrite g3. cbn [bind]. reflexivity.
Qed.

Lemma hist_of md ops outs st : 0 <= md <= max_varint -> Forall sn_op_ok ops ->
  sn_run ops (sn_new md) = Ok (outs, st) -> Hist md ops outs st.
Proof. intros h1 h2 h3. destruct (hist_run md ops h1 h2) as (o & s & g1 & g2). congruence. Qed.
