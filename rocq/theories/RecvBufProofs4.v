(** The history invariant of a receive stream. *)
Require Import Verif.Base Verif.Errors Verif.FlowControlModel Verif.RangeBufModel
  Verif.RangeBufProofs Verif.RecvBufModel Verif.RecvBufProofs Verif.RecvBufProofs2
  Verif.RecvSpec Verif.RecvBufProofs3.

Definition came (ops : list rv_op) (o x : Z) : Prop := exists op, In op ops /\ carries op o x.

Record rv_hist (initial : Z) (past : list rv_op) (outs : list rv_out) (st : recvbuf) : Prop := {
  h_inv : rv_inv st;
  h_read : zlen (read_bytes outs) <= rv_off st;
  h_read_eq : rv_drain st = false -> rv_error st = None -> zlen (read_bytes outs) = rv_off st;
  h_bytes : forall i x, zget (read_bytes outs) i = Some x -> came past i x;
  h_look : forall o x, look (rv_data st) o = Some x -> came past o x;
  h_arrived : rv_drain st = false -> rv_error st = None ->
              forall o, rv_off st <= o -> arrived past o -> look (rv_data st) o <> None;
  h_fin1 : forall op f, In op past -> final_size_of op f -> rv_fin_off st = Some f;
  h_fin2 : forall f, rv_fin_off st = Some f -> exists op, In op past /\ final_size_of op f;
  h_len1 : forall op e, In op past -> uses_up_to op e -> e <= rv_len st;
  h_len2 : rv_len st = 0 \/ exists op, In op past /\ uses_up_to op (rv_len st);
  h_drain : rv_drain st = true <-> In RvShutdown past;
  h_error : rv_error st <> None <-> exists op, In op past /\ is_reset op;
  h_credit : Forall not_empty_frame past -> sum_of out_credit outs = rv_off st;
  h_charge : Forall not_empty_frame past -> sum_of out_charge outs = rv_len st;
  h_consumed : fc_consumed (rv_fc st) = zlen (read_bytes outs);
  h_limit : last_limit initial outs = fc_max_data (rv_fc st) }.

Lemma read_bytes_app a b : read_bytes (a ++ b) = read_bytes a ++ read_bytes b.
Proof.
  induction a as [|o a IH]; cbn [app read_bytes]; auto.
  destruct o as [| [ [bytes f] | e |]| | |]; auto. now rewrite IH, app_assoc.
Qed.

Lemma sum_of_app {A} (f : A -> Z) a b : sum_of f (a ++ b) = sum_of f a + sum_of f b.
Proof. induction a; cbn [app sum_of]; lia. Qed.

Lemma last_limit_app i a b : last_limit i (a ++ b) = last_limit (last_limit i a) b.
Proof. revert i; induction a as [|o a IH]; intros i; cbn; auto. destruct o as [ | | | |[l|]]; auto. Qed.

Lemma came_app past op o x : came (past ++ [op]) o x <-> came past o x \/ carries op o x.
Proof.
  unfold came; split.
  - intros (p & h & c). apply in_app_iff in h as [h|[<-|[]]]; eauto.
  - intros [(p & h & c)|c]; [exists p|exists op]; rewrite in_app_iff; cbn; auto.
Qed.

Lemma arrived_app past op o : arrived (past ++ [op]) o <-> arrived past o \/ exists x, carries op o x.
Proof.
  unfold arrived; split.
  - intros (p & x & h & c). apply in_app_iff in h as [h|[<-|[]]]; eauto.
  - intros [(p & x & h & c)|(x & c)]; [exists p, x|exists op, x]; rewrite in_app_iff; cbn; auto.
Qed.

Lemma in_snoc {A} (l : list A) x y : In y (l ++ [x]) <-> In y l \/ y = x.
Proof. rewrite in_app_iff; cbn. intuition. Qed.

Lemma snoc_ex {A} (P : A -> Prop) l x :
  (exists y, In y (l ++ [x]) /\ P y) <-> (exists y, In y l /\ P y) \/ P x.
Proof.
  split.
  - intros (y & h & p). apply in_snoc in h as [h| ->]; eauto.
  - intros [(y & h & p)|p]; [exists y|exists x]; rewrite in_snoc; auto.
Qed.

Lemma touches_iff data fin : touches data fin = true <-> (data <> [] \/ fin = true).
Proof.
  unfold touches. destruct fin; cbn [orb]; [tauto|]. destruct data as [|x data].
  - split; [discriminate|intros [h|h]; congruence].
  - rewrite zlen_cons. pose proof (zlen_nonneg data). split; [left; discriminate|]. lia.
Qed.

Lemma inv_look_range st o x :
  rv_inv st -> look (rv_data st) o = Some x -> rv_off st <= o < rv_len st.
Proof.
  intros h hx. exact (look_range _ _ _ _ _ (i_chain _ h) (i_below _ h) hx).
Qed.

Lemma rv_hist_step initial past outs st op o st' :
  rv_hist initial past outs st -> rv_op_ok op -> rv_step op st = Ok (o, st') ->
  rv_hist initial (past ++ [op]) (outs ++ [o]) st'.
Proof.
  intros H hok hs.
  destruct H as [hinv hread hreq hby hlk harr hf1 hf2 hl1 hl2 hdr herr hcr hch hcon hlim].
  destruct op as [off data fin | cap | code final | | now rtt fits]; cbn [rv_step rv_op_ok] in *.
  - (* frame *)
    pose proof (rv_write_spec data off fin st hinv hok) as W. cbv zeta in W.
    destruct (rb_from_views data off fin) as (_ & _ & vM & _).
    destruct (rv_write (rb_from data off fin) st) as [s1| |]; cbn [bind] in hs; try discriminate.
    oki hs. inv hs. rewrite vM.
    destruct W as (winv & wd & we & wfc & wmax & wfo & wlen & wfin & wl & wnd & wdr).
    pose proof (zlen_nonneg data) as hz.
    assert (hrb : read_bytes (outs ++ [OFrame (sat_sub (off + zlen data) (rv_len st))
                   (if rv_drain st then sat_sub (off + zlen data) (rv_len st) else 0)]) = read_bytes outs).
    { rewrite read_bytes_app. cbn. apply app_nil_r. }
    assert (hoff : rv_off st <= rv_off st').
    { destruct (rv_drain st) eqn:Ed.
      - rewrite wdr by auto. rewrite wl. pose proof (i_off _ hinv). destr_if; lia.
      - destruct wnd as (q & _); auto. lia. }
    assert (hlk' : forall o x, look (rv_data st') o = Some x -> came (past ++ [RvFrame off data fin]) o x).
    { intros o x hx. rewrite came_app. destruct (rv_drain st) eqn:Ed.
      - destruct (i_drain _ winv) as (q & _); [congruence|]. rewrite q in hx. discriminate.
      - destruct wnd as (q & q2); auto.
        assert (rv_off st <= o).
        { pose proof (inv_look_range _ _ _ winv hx). lia. }
        rewrite q2 in hx by auto. destruct (look (rv_data st) o) eqn:E; [inv hx; left; auto|right; exact hx]. }
    constructor; rewrite ?hrb, ?we, ?wd; auto; try lia.
    + intros i x hx. rewrite came_app. left; auto.
    + intros hd he o ho ha. destruct wnd as (q & q2); auto. rewrite q2 by lia.
      apply arrived_app in ha as [ha|(x & ha)].
      * specialize (harr hd he o ltac:(lia) ha). destruct (look (rv_data st) o); congruence.
      * cbn in ha. rewrite ha. destruct (look (rv_data st) o); congruence.
    + intros op f hin hff. rewrite wfin. apply in_snoc in hin as [hin| ->].
      * specialize (hf1 op f hin hff). destruct fin; auto. destruct (wfo f hf1) as (_ & q). now rewrite q.
      * cbn in hff. destruct fin; [|tauto]. now subst f.
    + intros f hf. rewrite wfin in hf. apply snoc_ex. destruct fin.
      * right. cbn. congruence.
      * left. auto.
    + intros op e hin hu. rewrite wl. apply in_snoc in hin as [hin| ->].
      * specialize (hl1 op e hin hu). destr_if; lia.
      * cbn in hu. destruct hu as (-> & hu). apply touches_iff in hu. rewrite hu. lia.
    + rewrite wl. destruct (touches data fin) eqn:Et.
      * destruct (Z.max_spec (rv_len st) (off + zlen data)) as [(q & ->)|(q & ->)].
        -- right. apply snoc_ex. right. cbn. split; auto. now apply touches_iff.
        -- destruct hl2 as [l0|l2]; [left; auto|right]. apply snoc_ex. left; auto.
      * destruct hl2 as [l0|l2]; [left; auto|right]. apply snoc_ex. left; auto.
    + rewrite hdr, in_snoc. split; [auto|]. intros [h|h]; [auto|discriminate].
    + rewrite herr, snoc_ex. cbn. tauto.
    + intros hne. apply Forall_app in hne as (hne1 & hne2). inv hne2.
      rewrite sum_of_app. cbn [sum_of out_credit]. rewrite hcr by auto.
      assert (Et : touches data fin = true) by (apply touches_iff; auto). rewrite Et in wl.
      destruct (rv_drain st) eqn:Ed.
      * rewrite wdr by auto. destruct (i_drain _ hinv Ed) as (_ & q). unfold sat_sub. lia.
      * destruct wnd as (q & _); auto. lia.
    + intros hne. apply Forall_app in hne as (hne1 & hne2). inv hne2.
      rewrite sum_of_app. cbn [sum_of out_charge]. rewrite hch by auto.
      assert (Et : touches data fin = true) by (apply touches_iff; auto). rewrite Et in wl.
      unfold sat_sub. lia.
    + now rewrite wfc.
    + rewrite last_limit_app. cbn. rewrite wfc. auto.
  - (* read *)
    pose proof (rv_emit_spec cap st hinv hok) as W.
    assert (hnew : forall o st1, rv_off st <= rv_off st1 ->
       rv_inv st1 -> rv_len st1 = rv_len st -> rv_fin_off st1 = rv_fin_off st ->
       rv_error st1 = rv_error st -> rv_drain st1 = rv_drain st ->
       fc_max_data (rv_fc st1) = fc_max_data (rv_fc st) ->
       fc_consumed (rv_fc st1) = zlen (read_bytes (outs ++ [ORead o])) ->
       zlen (read_bytes (outs ++ [ORead o])) <= rv_off st1 ->
       (rv_drain st = false -> rv_error st = None -> zlen (read_bytes (outs ++ [ORead o])) = rv_off st1) ->
       (forall i x, zget (read_bytes (outs ++ [ORead o])) i = Some x -> came past i x) ->
       (forall o x, look (rv_data st1) o = Some x -> came past o x) ->
       (rv_drain st = false -> rv_error st = None -> forall o, rv_off st1 <= o -> look (rv_data st) o <> None -> look (rv_data st1) o <> None) ->
       rv_off st1 = rv_off st + out_credit (ORead o) ->
       rv_hist initial (past ++ [RvRead cap]) (outs ++ [ORead o]) st1).
    { intros r s1 n1 n2 n3 n4 n5 n6 n7 nc n8 n9 n10 n11 n12 n13.
      constructor; rewrite ?n3, ?n4, ?n5, ?n6; auto.
      - intros i x hx. rewrite came_app. left; auto.
      - intros i x hx. rewrite came_app. left; auto.
      - intros hd he o1 ho ha. apply n12; auto. apply harr; auto; try lia.
        apply arrived_app in ha as [ha|(x & [])]. auto.
      - intros op f hin hff. apply in_snoc in hin as [hin| ->]; [eauto|destruct hff].
      - intros f hf. apply snoc_ex. left; auto.
      - intros op e hin hu. apply in_snoc in hin as [hin| ->]; [eauto|destruct hu].
      - destruct hl2 as [l0|l2]; [left; auto|right]. apply snoc_ex. left; auto.
      - rewrite hdr, in_snoc. split; [auto|]. intros [h|h]; [auto|discriminate].
      - rewrite herr, snoc_ex. cbn. tauto.
      - intros hne. apply Forall_app in hne as (hne1 & hne2). rewrite sum_of_app, hcr by auto. cbn [sum_of]. lia.
      - intros hne. apply Forall_app in hne as (hne1 & hne2). rewrite sum_of_app, hch by auto. cbn [sum_of out_charge]. lia.
      - rewrite last_limit_app, n7. cbn. auto. }
    destruct (rv_emit cap st) as [[ [bytes f] | e |] s1]; try contradiction.
    + destruct W as (w1 & w2 & w3 & w4 & w5 & w6 & w7 & w8 & w9 & w10 & w11 & w12 & w13 & w14 & w15).
      inv hs. pose proof (zlen_nonneg bytes).
      assert (hrb : read_bytes (outs ++ [ORead (Ok (bytes, rv_is_fin st'))]) = read_bytes outs ++ bytes).
      { rewrite read_bytes_app. cbn. now rewrite app_nil_r. }
      assert (hold : zlen (read_bytes outs) = rv_off st) by auto.
      apply hnew; rewrite ?hrb, ?zlen_app, ?w11; cbn [fc_max_data fc_consumed fc_add_consumed out_credit]; auto; try lia; try congruence.
      * intros i x hx. pose proof (zget_some_range _ _ _ hx) as hr. rewrite zlen_app in hr.
        destruct (Z_lt_ge_dec i (zlen (read_bytes outs))).
        -- rewrite zget_app_l in hx by lia. auto.
        -- rewrite zget_app_r in hx by lia. rewrite w13 in hx by lia. rewrite hold in hx.
           replace (rv_off st + (i - rv_off st)) with i in hx by lia. auto.
      * intros o x hx. apply hlk. rewrite <- w14; auto.
        pose proof (inv_look_range _ _ _ w4 hx). lia.
      * intros _ _ o ho. now rewrite w14.
    + destruct W as (w1 & w2 & w3 & w4 & w5 & w6 & w7 & w8).
      inv hs.
      assert (hrb : read_bytes (outs ++ [ORead (Err e)]) = read_bytes outs).
      { rewrite read_bytes_app. cbn. now rewrite app_nil_r. }
      apply hnew; rewrite ?hrb, ?w4; cbn [out_credit]; auto; try lia; try congruence.
      * intros o x hx. destruct w8 as [(_ & _ & ->)|(c & -> & hr & he)]; auto.
        destruct (i_error _ w1 c) as (a & b); [congruence|].
        pose proof (inv_look_range _ _ _ w1 hx). lia.
      * intros h1 h2 o ho hx. destruct w8 as [(_ & _ & ->)|(c & -> & hr & he)]; auto. congruence.
  - (* reset *)
    pose proof (rv_reset_spec code final st hinv hok) as W.
    destruct (rv_reset code final st) as [[ [d c] | e |] s1]; try discriminate.
    inv hs.
    destruct W as (w1 & w2 & w3 & w4 & w5 & w6 & w7 & w8 & w9 & w10 & w11 & w12 & w13).
    pose proof (i_off _ hinv).
    assert (hrb : read_bytes (outs ++ [OReset (d, c)]) = read_bytes outs).
    { rewrite read_bytes_app. cbn. apply app_nil_r. }
    constructor; rewrite ?hrb, ?w2; auto; try lia; try congruence.
    + intros i x hx. rewrite came_app. left; auto.
    + intros o x hx. rewrite came_app. left.
      destruct (rv_error st) eqn:Ee; [rewrite w13 in hx by congruence; auto|rewrite w12 in hx by auto; discriminate].
    + intros op f hin hff. apply in_snoc in hin as [hin| ->].
      * specialize (hf1 op f hin hff). rewrite (w5 f hf1). auto.
      * cbn in hff. now subst f.
    + intros f hf. apply snoc_ex. right. cbn. congruence.
    + intros op e hin hu. apply in_snoc in hin as [hin| ->].
      * specialize (hl1 op e hin hu). lia.
      * cbn in hu. lia.
    + right. apply snoc_ex. right. cbn. auto.
    + rewrite hdr, in_snoc. split; [auto|]. intros [h|h]; [auto|discriminate].
    + rewrite snoc_ex. cbn. tauto.
    + intros hne. apply Forall_app in hne as (hne1 & hne2). rewrite sum_of_app, hcr by auto. cbn [sum_of out_credit]. lia.
    + intros hne. apply Forall_app in hne as (hne1 & hne2). rewrite sum_of_app, hch by auto. cbn [sum_of out_charge]. lia.
    + rewrite last_limit_app, w3. cbn. auto.
  - (* shutdown *)
    pose proof (rv_shutdown_spec st hinv) as W. pose proof (i_off _ hinv).
    assert (hcommon : forall r s1, rv_inv s1 -> rv_off s1 = rv_off st + out_credit (OShutdown r) ->
       rv_off st <= rv_off s1 -> rv_len s1 = rv_len st -> rv_fin_off s1 = rv_fin_off st ->
       rv_error s1 = rv_error st -> rv_drain s1 = true -> rv_fc s1 = rv_fc st -> rv_data s1 = [] ->
       rv_hist initial (past ++ [RvShutdown]) (outs ++ [OShutdown r]) s1).
    { intros r s1 n1 n2 n3 n4 n5 n6 n7 n8 n9.
      assert (hrb : read_bytes (outs ++ [OShutdown r]) = read_bytes outs).
      { rewrite read_bytes_app. cbn. apply app_nil_r. }
      constructor; rewrite ?hrb, ?n4, ?n5, ?n6, ?n7, ?n9; auto; try lia; try congruence.
      - intros i x hx. rewrite came_app. left; auto.
      - intros o1 x hx. discriminate.
      - intros op f hin hff. apply in_snoc in hin as [hin| ->]; [eauto|destruct hff].
      - intros f hf. apply snoc_ex. left; auto.
      - intros op e hin hu. apply in_snoc in hin as [hin| ->]; [eauto|destruct hu].
      - destruct hl2 as [l0|l2]; [left; auto|right]. apply snoc_ex. left; auto.
      - rewrite in_snoc. tauto.
      - rewrite herr, snoc_ex. cbn. tauto.
      - intros hne. apply Forall_app in hne as (hne1 & hne2). rewrite sum_of_app, hcr by auto. cbn [sum_of]. lia.
      - intros hne. apply Forall_app in hne as (hne1 & hne2). rewrite sum_of_app, hch by auto. cbn [sum_of out_charge]. lia.
      - rewrite last_limit_app, n8. cbn. auto. }
    destruct (rv_shutdown st) as [ [n s1] | e |]; try contradiction; inv hs.
    + destruct W as (w1 & w2 & w3 & w4 & w5 & w6 & w7 & w8 & w9 & w10).
      apply hcommon; auto; cbn [out_credit]; lia.
    + destruct W as (w1 & w2). destruct (i_drain _ hinv w2) as (a & b).
      apply hcommon; auto; cbn [out_credit]; lia.
  - (* limit *)
    pose proof (rv_limit_spec now rtt fits st hinv) as W.
    destruct (rv_limit now rtt fits st) as [ [l s1] | |]; cbn [bind] in hs; try contradiction.
    inv hs. destruct W as (w1 & (f & ->) & w3 & w4 & w5 & w6).
    assert (hrb : read_bytes (outs ++ [OLimit l]) = read_bytes outs).
    { rewrite read_bytes_app. cbn. apply app_nil_r. }
    constructor; rewrite ?hrb; cbn [rv_set_fc rv_data rv_off rv_len rv_fin_off rv_error rv_drain]; auto.
    + intros i x hx. rewrite came_app. left; auto.
    + intros i x hx. rewrite came_app. left; auto.
    + intros hd he o1 ho ha. apply harr; auto.
      apply arrived_app in ha as [ha|(x & [])]. auto.
    + intros op f1 hin hff. apply in_snoc in hin as [hin| ->]; [eauto|destruct hff].
    + intros f1 hf. apply snoc_ex. left; auto.
    + intros op e hin hu. apply in_snoc in hin as [hin| ->]; [eauto|destruct hu].
    + destruct hl2 as [l0|l2]; [left; auto|right]. apply snoc_ex. left; auto.
    + rewrite hdr, in_snoc. split; [auto|]. intros [h|h]; [auto|discriminate].
    + rewrite herr, snoc_ex. cbn. tauto.
    + intros hne. apply Forall_app in hne as (hne1 & hne2). rewrite sum_of_app, hcr by auto. cbn [sum_of out_credit]. lia.
    + intros hne. apply Forall_app in hne as (hne1 & hne2). rewrite sum_of_app, hch by auto. cbn [sum_of out_charge]. lia.
    + now rewrite <- hcon, <- w4.
    + rewrite last_limit_app. cbn. cbn in w6. destruct l; cbn in *; lia.
Qed.

Lemma rv_hist_new md w mw :
  0 <= md -> 0 <= w -> 0 <= mw -> rv_hist md [] [] (rv_new md w mw).
Proof.
  intros. constructor; try (apply rv_new_inv; auto); cbn; try lia; try tauto; try discriminate; auto.
  - intros i x h. unfold zget in h. destr_if; try discriminate. destruct (Z.to_nat i); discriminate.
  - intros _ _ o _ (op & x & [] & _).
  - split; [congruence|]. intros (op & [] & _).
Qed.

Lemma rv_run_hist initial : forall ops past pouts st outs st',
  rv_hist initial past pouts st -> Forall rv_op_ok ops -> rv_run ops st = Ok (outs, st') ->
  rv_hist initial (past ++ ops) (pouts ++ outs) st'.
Proof.
  induction ops as [|op ops IH]; intros past pouts st outs st' H hok hr; cbn [rv_run] in hr.
  - inv hr. now rewrite !app_nil_r.
  - inv hok. destruct (rv_step op st) as [ [o s1] | |] eqn:Es; cbn [bind] in hr; try discriminate.
    destruct (rv_run ops s1) as [ [os s2] | |] eqn:Er; cbn [bind] in hr; try discriminate.
    inv hr. apply (rv_hist_step initial past pouts st op o s1) in Es; auto.
    specialize (IH _ _ _ _ _ Es H3 Er). rewrite <- !app_assoc in IH. exact IH.
Qed.

(** No history makes the code panic. *)
Lemma rv_step_no_panic op st : rv_inv st -> rv_op_ok op -> rv_step op st <> Panic.
Proof.
  intros hinv hok. destruct op as [off data fin | cap | code final | | now rtt fits]; cbn [rv_step rv_op_ok] in *.
  - pose proof (rv_write_spec data off fin st hinv hok) as W. cbv zeta in W.
    destruct (rv_write _ st); cbn [bind]; try contradiction; discriminate.
  - pose proof (rv_emit_spec cap st hinv hok) as W.
    destruct (rv_emit cap st) as [[ [bytes f] | e |] s1]; try contradiction; discriminate.
  - pose proof (rv_reset_spec code final st hinv hok) as W.
    destruct (rv_reset code final st) as [[ [d c] | e |] s1]; try contradiction; discriminate.
  - pose proof (rv_shutdown_spec st hinv) as W.
    destruct (rv_shutdown st) as [ [n s1] | e |]; try contradiction; discriminate.
  - pose proof (rv_limit_spec now rtt fits st hinv) as W.
    destruct (rv_limit now rtt fits st) as [ [l s1] | |]; cbn [bind]; try contradiction; discriminate.
Qed.

Lemma rv_run_no_panic initial : forall ops past outs st,
  rv_hist initial past outs st -> Forall rv_op_ok ops -> rv_run ops st <> Panic.
Proof.
  induction ops as [|op ops IH]; intros past outs st H hok hr; cbn [rv_run] in hr; [discriminate|].
  inv hok. destruct (rv_step op st) as [ [o s1] | |] eqn:Es; cbn [bind] in hr; try discriminate.
  - apply (rv_hist_step initial past outs) in Es; auto.
    specialize (IH _ _ _ Es H3). destruct (rv_run ops s1) as [ [os s2] | |]; cbn [bind] in hr; try discriminate.
    congruence.
  - revert Es. apply rv_step_no_panic; auto. apply H.
Qed.
