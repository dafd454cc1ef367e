(** The history invariant of a send stream. *)
Require Import Verif.Base Verif.Errors Verif.RangesModel Verif.RangesProofs Verif.RangeBufModel
  Verif.RangeBufProofs Verif.SendBufModel Verif.SendBufProofs Verif.SendBufProofs2
  Verif.SendBufProofs3 Verif.SendSpec.

Ltac ands := repeat match goal with |- _ /\ _ => split end.

(** ** Histories grow on the right *)
Lemma written_snoc ops : forall outs op o, length ops = length outs ->
  written (ops ++ [op]) (outs ++ [o]) = written ops outs ++ accepted op o.
Proof.
  induction ops as [|p ops IH]; intros [|q outs] op o h; try discriminate; cbn [app written].
  - rewrite app_nil_r. reflexivity.
  - rewrite IH by (cbn in h; lia). rewrite app_assoc. reflexivity.
Qed.

Lemma frames_app a b : frames (a ++ b) = frames a ++ frames b.
Proof.
  induction a as [|o a IH]; [reflexivity|]. cbn [app frames]. rewrite IH.
  destruct o as [|[]| |]; reflexivity.
Qed.

Lemma limit_app a b md : limit md (a ++ b) = limit (limit md a) b.
Proof. revert md. induction a as [|o a IH]; intros md; [reflexivity|]. cbn [app limit]. destruct o; apply IH. Qed.

Lemma combine_snoc {A B} (a : list A) : forall (b : list B) x y, length a = length b ->
  combine (a ++ [x]) (b ++ [y]) = combine a b ++ [(x, y)].
Proof.
  induction a as [|p a IH]; intros [|q b] x y h; try discriminate; [reflexivity|].
  cbn [app combine]. rewrite IH by (cbn in h; lia). reflexivity.
Qed.

Lemma fin_written_snoc ops outs op o : length ops = length outs ->
  (fin_written (ops ++ [op]) (outs ++ [o]) <-> fin_written ops outs \/ fin_write op o).
Proof.
  intros h. unfold fin_written. rewrite combine_snoc by auto. split.
  - intros (p & q & hi & hf). apply in_app_iff in hi as [hi|[hi|[]]]; [left; eauto|].
    inv hi. auto.
  - intros [(p & q & hi & hf)|hf].
    + exists p, q. rewrite in_app_iff. auto.
    + exists op, o. rewrite in_app_iff. cbn. auto.
Qed.

Lemma fin_data_snoc ops outs op o : length ops = length outs ->
  (fin_written_with_data (ops ++ [op]) (outs ++ [o]) <->
   fin_written_with_data ops outs \/ (fin_write op o /\ accepted op o <> [])).
Proof.
  intros h. unfold fin_written_with_data. rewrite combine_snoc by auto. split.
  - intros (p & q & hi & hf). apply in_app_iff in hi as [hi|[hi|[]]]; [left; eauto|].
    inv hi. auto.
  - intros [(p & q & hi & hf)|hf].
    + exists p, q. rewrite in_app_iff. auto.
    + exists op, o. rewrite in_app_iff. cbn. auto.
Qed.

Lemma list_snoc_case {A} (l : list A) : l = [] \/ exists l' z, l = l' ++ [z].
Proof. induction l as [|x l _] using rev_ind; eauto. Qed.

Lemma happened_snoc ev ops outs op o i : length ops = length outs ->
  (happened ev (ops ++ [op]) (outs ++ [o]) i <->
   happened ev ops outs i \/ (op = ev i /\ (i < length (frames outs))%nat)).
Proof.
  intros h. unfold happened. split.
  - intros (pre & post & e & l). destruct (list_snoc_case post) as [->|(post' & z & ->)].
    + apply app_inj_tail in e as (-> & ->). right. split; [reflexivity|].
      rewrite h, firstn_app, Nat.sub_diag, firstn_all in l. cbn in l. rewrite app_nil_r in l. auto.
    + rewrite app_comm_cons, app_assoc in e. apply app_inj_tail in e as (-> & ->). left.
      exists pre, post'. split; [reflexivity|]. rewrite app_length in h. cbn in h.
      rewrite firstn_app in l. replace (length pre - length outs)%nat with O in l by lia.
      cbn [firstn] in l. rewrite app_nil_r in l. auto.
  - intros [(pre & post & -> & l)|(-> & l)].
    + exists pre, (post ++ [op]). rewrite <- app_assoc. split; [reflexivity|].
      rewrite firstn_app, frames_app, app_length. lia.
    + exists ops, []. split; [reflexivity|]. rewrite h, firstn_app, Nat.sub_diag, firstn_all. cbn.
      rewrite app_nil_r. auto.
Qed.

Lemma was_reset_snoc outs o : was_reset (outs ++ [o]) <-> was_reset outs \/ exists r, o = SoReset (Some r).
Proof.
  unfold was_reset. split.
  - intros (r & hi). apply in_app_iff in hi as [hi|[hi|[]]]; eauto.
  - intros [(r & hi)|(r & ->)]; exists r; apply in_app_iff; cbn; auto.
Qed.

Lemma sn_run_app a : forall b st,
  sn_run (a ++ b) st = let* '(o1, st) := sn_run a st in
                       let* '(o2, st) := sn_run b st in Ok (o1 ++ o2, st).
Proof.
  induction a as [|op a IH]; intros b st; cbn [app sn_run].
  - cbn [bind]. destruct (sn_run b st) as [[o s]| |]; reflexivity.
  - destruct (sn_step op st) as [[o s]| |]; cbn [bind]; auto. rewrite IH.
    destruct (sn_run a s) as [[o1 s1]| |]; cbn [bind]; auto.
    destruct (sn_run b s1) as [[o2 s2]| |]; cbn [bind]; auto.
Qed.

Lemma sn_run_len ops : forall st outs st', sn_run ops st = Ok (outs, st') -> length ops = length outs.
Proof.
  induction ops as [|op ops IH]; intros st outs st' h; cbn [sn_run] in h; [inv h; reflexivity|].
  destruct (sn_step op st) as [[o s]| |]; cbn [bind] in h; try discriminate.
  destruct (sn_run ops s) as [[o1 s1]| |] eqn:E; cbn [bind] in h; try discriminate. inv h.
  cbn. f_equal. eapply IH; eauto.
Qed.

(** ** Frames with their fate *)
Definition sent_frame (x : sframe * bool * bool) : sframe := fst (fst x).

Lemma set_nth_map {A B} (g : A -> B) n x y l : nth_error l n = Some y -> g x = g y ->
  map g (set_nth n x l) = map g l.
Proof.
  revert l. induction n as [|n IH]; intros [|a l] h e; cbn in *; try discriminate.
  - inv h. congruence.
  - f_equal. auto.
Qed.

Lemma set_nth_get {A} n m (x : A) l : (n < length l)%nat ->
  nth_error (set_nth n x l) m = if Nat.eqb n m then Some x else nth_error l m.
Proof.
  revert m l. induction n as [|n IH]; intros [|m] [|a l] h; cbn in *; try lia; auto.
  apply IH. lia.
Qed.

Lemma flushable_iff W s : Sb W s -> (sb_is_flushable s = true <-> exists x, pending (sb_data s) x).
Proof.
  intros h. destruct (off_front_spec _ _ h) as (f1 & f2 & f3 & f4). pose proof (i_off _ _ h) as io.
  unfold sb_is_flushable. split.
  - intros e. exists (sb_off_front s). apply f3. lia.
  - intros (x & hx). pose proof (Sb_pending_range _ _ _ h hx). pose proof (f2 _ hx).
    unfold sb_is_empty. destruct (sb_data s) eqn:E; [destruct (pending_nil _ hx)|]. cbn [negb andb]. lia.
Qed.

Record Hist (md : Z) (ops : list sn_op) (outs : list sn_out) (st : sendst) : Prop := {
  h_len : length ops = length outs;
  h_sb : Sb (written ops outs) (ss_buf st);
  h_sent : map sent_frame (ss_sent st) = frames outs;
  h_flags : forall i f a l, nth_error (ss_sent st) i = Some (f, a, l) ->
     (a = true <-> frame_acked ops outs i) /\ (l = true <-> frame_lost ops outs i);
  h_frame : forall f, In f (frames outs) -> 0 <= sf_off f /\
     sf_bytes f = slice (sf_off f) (frame_end f) (written ops outs) /\
     frame_end f <= sb_emit_off (ss_buf st);
  h_emit : sb_emit_off (ss_buf st) = 0 \/
     exists f, In f (frames outs) /\ frame_end f = sb_emit_off (ss_buf st);
  h_max : sb_max_data (ss_buf st) <= limit md ops /\
     (ss_gone st = false -> sb_max_data (ss_buf st) = limit md ops);
  h_wlim : zlen (written ops outs) <= limit md ops;
  h_reset : is_reset (ss_buf st) <-> was_reset outs;
  h_gone : ss_gone st = true -> sb_is_complete (ss_buf st) = true;
  h_acked : ~ was_reset outs -> forall x,
     covers (rs_ranges (sb_acked (ss_buf st))) x <-> byte_acked ops outs x;
  h_cons : ~ was_reset outs -> forall x, consumed (sb_data (ss_buf st)) x ->
     byte_in_flight ops outs x \/ byte_acked ops outs x;
  h_fin : ~ was_reset outs -> (sb_fin_off (ss_buf st) <> None <-> fin_written ops outs);
  h_finf : forall f, In f (frames outs) -> sf_fin f = true ->
     sb_fin_off (ss_buf st) = Some (frame_end f);
  h_rfin : forall final u, In (SoReset (Some (final, u))) outs ->
     sb_fin_off (ss_buf st) = Some final /\ sb_emit_off (ss_buf st) = final;
  h_last : ~ was_reset outs -> fin_written_with_data ops outs ->
     forall f, In f (frames outs) -> in_frame f (zlen (written ops outs) - 1) -> sf_fin f = true;
  h_flush : ~ In SnNoRoom ops -> ss_gone st = false ->
     (exists x, pending (sb_data (ss_buf st)) x) -> ss_flush st = true;
  h_anyack : written ops outs = [] -> ~ was_reset outs ->
     (rs_ranges (sb_acked (ss_buf st)) <> [] <-> exists i, frame_acked ops outs i) }.

Lemma happened_lt ev ops outs i : happened ev ops outs i -> (i < length (frames outs))%nat.
Proof.
  intros (pre & post & _ & l). rewrite <- (firstn_skipn (length pre) outs), frames_app, app_length. lia.
Qed.

Lemma nth_frames_l outs o i : (i < length (frames outs))%nat ->
  nth_error (frames (outs ++ [o])) i = nth_error (frames outs) i.
Proof. intros h. rewrite frames_app. apply nth_error_app1. auto. Qed.

Lemma byte_acked_snoc ops outs op o x : length ops = length outs ->
  (byte_acked (ops ++ [op]) (outs ++ [o]) x <->
   byte_acked ops outs x \/
   exists i f, op = SnAck i /\ nth_error (frames outs) i = Some f /\ in_frame f x).
Proof.
  intros hl. unfold byte_acked, frame_acked. split.
  - intros (i & f & g1 & g2 & g3). apply happened_snoc in g3 as [g3|(-> & g3)]; auto.
    + left. exists i, f. rewrite nth_frames_l in g1 by (eapply happened_lt; eauto). auto.
    + right. exists i, f. rewrite nth_frames_l in g1 by auto. auto.
  - intros [(i & f & g1 & g2 & g3)|(i & f & -> & g1 & g2)]; exists i, f.
    + rewrite nth_frames_l by (eapply happened_lt; eauto). ands; auto.
      apply happened_snoc; auto.
    + assert ((i < length (frames outs))%nat) by (apply nth_error_Some; congruence).
      rewrite nth_frames_l by auto. ands; auto. apply happened_snoc; auto.
Qed.

Lemma in_flight_snoc ops outs op o x : length ops = length outs ->
  byte_in_flight ops outs x ->
  byte_in_flight (ops ++ [op]) (outs ++ [o]) x \/
  exists i f, op = SnLost i /\ nth_error (frames outs) i = Some f /\ in_frame f x.
Proof.
  intros hl (i & f & g1 & g2 & g3).
  assert (li : (i < length (frames outs))%nat) by (apply nth_error_Some; congruence).
  assert (d : op = SnLost i \/ op <> SnLost i).
  { destruct op; try (right; discriminate). destruct (Nat.eq_dec i0 i); [left|right]; congruence. }
  destruct d as [->|d]; [right; eauto|]. left. exists i, f. rewrite nth_frames_l by auto.
  ands; auto. unfold frame_lost. rewrite happened_snoc by auto. intros [q|(q & _)]; auto.
Qed.

Lemma in_flight_new ops outs op f x : length ops = length outs -> in_frame f x ->
  byte_in_flight (ops ++ [op]) (outs ++ [SoFrame (Some f)]) x.
Proof.
  intros hl hx. exists (length (frames outs)), f. rewrite frames_app. cbn [frames].
  rewrite nth_error_app2, Nat.sub_diag by lia. ands; auto.
  unfold frame_lost. rewrite happened_snoc by auto. intros [q|(_ & q)]; [|lia].
  apply happened_lt in q. lia.
Qed.

(** A step that neither writes, sends, acknowledges, loses nor resets. *)
Lemma hist_quiet md ops outs st op o st' :
  Hist md ops outs st -> accepted op o = [] -> frames [o] = [] ->
  (forall m, limit m [op] = m) -> ~ fin_write op o -> (forall r, o <> SoReset (Some r)) ->
  (forall i, op = SnAck i \/ op = SnLost i -> (length (frames outs) <= i)%nat) ->
  ss_buf st' = ss_buf st -> ss_sent st' = ss_sent st ->
  (ss_gone st' = true -> sb_is_complete (ss_buf st) = true) ->
  (ss_gone st' = false -> ss_gone st = false) ->
  (op <> SnNoRoom -> ss_gone st' = false -> (exists x, pending (sb_data (ss_buf st)) x) ->
    ss_flush st = true -> ss_flush st' = true) ->
  Hist md (ops ++ [op]) (outs ++ [o]) st'.
Proof.
  intros h ha hf hm hw hr hi eb es hg hg' hfl. pose proof (h_len _ _ _ _ h) as hl.
  assert (ew : written (ops ++ [op]) (outs ++ [o]) = written ops outs)
    by (rewrite written_snoc, ha, app_nil_r by auto; reflexivity).
  assert (ef : frames (outs ++ [o]) = frames outs) by (rewrite frames_app, hf, app_nil_r; reflexivity).
  assert (em : limit md (ops ++ [op]) = limit md ops) by (rewrite limit_app, hm; reflexivity).
  assert (er : was_reset (outs ++ [o]) <-> was_reset outs).
  { rewrite was_reset_snoc. split; [intros [q|(r & q)]; [auto|destruct (hr _ q)]|auto]. }
  assert (ea : forall i, frame_acked (ops ++ [op]) (outs ++ [o]) i <-> frame_acked ops outs i).
  { intros i. unfold frame_acked. rewrite happened_snoc by auto. split; [|auto].
    intros [q|(q & q')]; [auto|]. specialize (hi i (or_introl q)). lia. }
  assert (eL : forall i, frame_lost (ops ++ [op]) (outs ++ [o]) i <-> frame_lost ops outs i).
  { intros i. unfold frame_lost. rewrite happened_snoc by auto. split; [|auto].
    intros [q|(q & q')]; [auto|]. specialize (hi i (or_intror q)). lia. }
  assert (eba : forall x, byte_acked (ops ++ [op]) (outs ++ [o]) x <-> byte_acked ops outs x).
  { intros x. unfold byte_acked. rewrite ef. split; intros (i & f & g1 & g2 & g3); exists i, f;
      (ands; auto); apply ea; auto. }
  assert (ebf : forall x, byte_in_flight ops outs x -> byte_in_flight (ops ++ [op]) (outs ++ [o]) x).
  { intros x. unfold byte_in_flight. rewrite ef. intros (i & f & g1 & g2 & g3); exists i, f.
    ands; auto. rewrite eL. auto. }
  assert (efw : fin_written (ops ++ [op]) (outs ++ [o]) <-> fin_written ops outs)
    by (rewrite fin_written_snoc by auto; tauto).
  assert (efd : fin_written_with_data (ops ++ [op]) (outs ++ [o]) <-> fin_written_with_data ops outs)
    by (rewrite fin_data_snoc by auto; tauto).
  constructor; rewrite ?ew, ?ef, ?em, ?eb, ?es; try apply h.
  - rewrite !app_length. cbn. lia.
  - intros i f a l g. rewrite ea, eL. apply (h_flags _ _ _ _ h _ _ _ _ g).
  - split; [apply h|]. intros q. apply h. auto.
  - rewrite er. apply h.
  - auto.
  - rewrite er. intros q x. rewrite eba. apply h. auto.
  - rewrite er. intros q x g. rewrite eba. destruct (h_cons _ _ _ _ h q x g); auto.
  - rewrite er. intros q. rewrite efw. apply h. auto.
  - intros final u q. apply in_app_iff in q as [q|[q|[]]]; [|destruct (hr _ q)].
    apply (h_rfin _ _ _ _ h _ _ q).
  - rewrite er, efd. apply h.
  - intros q1 q2 q3. rewrite in_app_iff in q1. apply hfl; auto.
    + intros ->. apply q1. right. cbn. auto.
    + apply (h_flush _ _ _ _ h); auto.
  - intros q1. rewrite er. intros q2. rewrite (h_anyack _ _ _ _ h q1 q2).
    split; intros (i & q); exists i; apply ea; auto.
Qed.
