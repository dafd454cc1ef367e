(** Control frames over histories: announced limits are not forgotten. *)
Require Import Verif.Base Verif.Errors Verif.Assoc Verif.OctetsModel Verif.FlowControlModel Verif.RangeBufModel
  Verif.RangesModel Verif.RangesProofs Verif.RecvBufModel Verif.RecvBufProofs2 Verif.RecvBufProofs3
  Verif.SendBufModel Verif.SendSpec Verif.SendBufProofs Verif.SendBufProofs2 Verif.SendBufProofs3
  Verif.StreamsModel Verif.StreamsSpec Verif.StreamsSpec3 Verif.StreamsProofs
  Verif.StreamsEffects Verif.StreamsShape Verif.StreamsShape2 Verif.StreamsRecv Verif.StreamsTx Verif.StreamsTx2 Verif.StreamsTx3 Verif.StreamsTx4 Verif.StreamsBlk Verif.StreamsCtl Verif.StreamsCtl2 Verif.StreamsCtl3.

Section P.
Variable P : params.

Lemma limit_frame op c o c' : cn_step P op c = Ok (o, c') ->
  (match op with CnSendMaxStreams _ _ | CnLost _ => True
   | _ => (forall b, l_should (lim_of b c') = l_should (lim_of b c)) /\ ~ says_ms o end) /\
  (match op with CnSendMaxData _ _ _ | CnLost _ => True
   | _ => c_maxdata c' = c_maxdata c /\ fc_max_data (c_fc c') = fc_max_data (c_fc c) /\ ~ says_md o end) /\
  (match op with CnSendMaxStreamData _ _ _ _ => True
   | _ => almost_le c c' /\ ~ says_msd o end).
Proof.
  intros h. destruct (step_keep P _ _ _ _ h) as (_ & hq).
  assert (Q : quiet c o c' -> ((forall b, l_should (lim_of b c') = l_should (lim_of b c)) /\ ~ says_ms o) /\
     (c_maxdata c' = c_maxdata c /\ fc_max_data (c_fc c') = fc_max_data (c_fc c) /\ ~ says_md o) /\ (almost_le c c' /\ ~ says_msd o)).
  { intros q. pose proof (quiet_parts _ _ _ q) as (e1 & e2 & e3 & e4 & e5). destruct q as (q1 & q2 & q3). apply mute_says in q3 as (m1 & m2 & m3 & m4 & m5).
    ands; auto. intros b. apply e5. }
  destruct op; try (apply Q in hq; exact hq); clear Q hq; cbn [cn_step] in h.
  - pose proof (stop_out _ _ _ _ _ _ h) as hm. apply mute_says in hm as (m1 & m2 & m3 & m4 & m5).
    apply stop_ok in h as [(-> & -> & _)|(s & c1 & hg & -> & _ & h)]; [unfold almost_le; ands; auto|].
    assert (e : forall b, l_should (lim_of b c1) = l_should (lim_of b c)).
    { intros b. pose proof (proj1 (ctl_gocs P b _ _ _ _ _ hg)) as q. unfold ctl in q. congruence. }
    destruct (gocs_rest _ _ _ _ _ _ hg).
    destruct h as [(e0 & hst & ->)|(fi & un & b' & hst & ->)]; unfold almost_le; cbn [c_almost c_maxdata c_fc set_c_streams set_c_tx set_c_txbuf set_c_reset set_c_wq]; rewrite gr_almost, gr_maxdata, gr_fc; ands; auto.
  - pose proof (shut_out _ _ _ _ _ _ _ _ h) as hm. apply mute_says in hm as (m1 & m2 & m3 & m4 & m5).
    apply shutdown_ok in h as [(-> & _)|(s & he & -> & [(n & r & _ & _ & ->)|(fi & un & b' & cap & q & _ & _ & _ & _ & ->)])]; unfold almost_le; ands; auto.
  - unfold cn_send_max_streams in h. cbv zeta in h. dif h; injection h as <- <-; unfold almost_le; (ands; auto; try (unfold set_kind; destruct bidi; reflexivity)).
    unfold set_kind. destruct bidi; auto.
  - apply send_max_stream_data_ok in h as [(-> & ->)|[(-> & _ & ->)|(s & full & he & hf & hm & h)]]; try (ands; auto; cbn; tauto).
    cbv zeta in h. destruct h as [(-> & -> & ->)|(-> & -> & ->)]; (ands; auto; try (cbn; tauto)).
    cbn. unfold fc_ensure_lower, fc_set_window. destr_if; reflexivity.
  - apply send_max_data_ok in h as (f & b' & [(-> & ->)|(-> & ->)]); unfold almost_le; (ands; auto; cbn; tauto).
  - unfold cn_send_stop in h. destruct (aget sid (c_stopped c)); [destruct fits|]; injection h as <- <-; unfold almost_le; (ands; auto; cbn; tauto).
  - unfold cn_send_reset in h. destruct (aget sid (c_reset c)) as [[code fi]|] eqn:E; [destruct fits|]; injection h as <- <-; unfold almost_le; (ands; auto; cbn; tauto).
  - apply lost_ok in h as (-> & h). ands; auto; try (cbn; tauto).
    destruct h as [->|[(sid & f & s & n & b & e & _ & _ & _ & ->)|[(sid & code & fi & e & ->)|[(sid & code & s & e & _ & _ & ->)|[(sid & s & e & _ & ->)|[(e & ->)|[(bi & e & ->)|(bi & l & e & _ & ->)]]]]]]]; unfold almost_le; auto.
    + intros x hx. cbn. apply in_set_add. auto.
    + unfold set_kind. destruct bi; auto.
    + unfold set_kind. destruct bi; auto.
Qed.

Lemma adv_snoc b i outs o : advertised b i (outs ++ [o]) = match o with CoMaxStreams b' m => if Bool.eqb b b' then m else advertised b i outs | _ => advertised b i outs end.
Proof. unfold advertised. rewrite fold_left_app. destruct o; reflexivity. Qed.
Lemma data_snoc i outs o : told_data i (outs ++ [o]) = match o with CoMaxData m => m | _ => told_data i outs end.
Proof. unfold told_data. rewrite fold_left_app. destruct o; reflexivity. Qed.
Lemma on_snoc x outs o : told_on x (outs ++ [o]) = match o with CoMaxStreamData y m => if y =? x then Some m else told_on x outs | _ => told_on x outs end.
Proof. unfold told_on. rewrite fold_left_app. destruct o; reflexivity. Qed.

Definition MxS (i : start) (b : bool) ops outs (c : conn) : Prop :=
  advertised b i outs = first_local b i \/ l_should (lim_of b c) = true \/ on_the_way (SfMaxStreams b) (Some (advertised b i outs)) ops outs.

Theorem mxs_history i b ops outs c : history P i ops outs c -> MxS i b ops outs c.
Proof.
  revert ops outs c. apply history_ind.
  - intros hp hi. left. reflexivity.
  - intros ops outs c op o c' hist H hok h.
    destruct (tx_history _ _ _ _ _ hist) as (T & hsent & _). pose proof hist as (_ & _ & _ & hr). pose proof (run_length _ _ _ _ _ hr) as hl.
    assert (keep : advertised b i (outs ++ [o]) = advertised b i outs -> (l_should (lim_of b c) = true -> l_should (lim_of b c') = true) ->
       (forall k, op = CnLost k -> nth_error (c_sent c) k = Some (SfMaxStreams b) -> l_should (lim_of b c') = true) -> MxS i b (ops ++ [op]) (outs ++ [o]) c').
    { intros q1 q2 q3. unfold MxS. rewrite q1. destruct H as [q|[q|q]]; auto. destruct (way_step _ _ _ _ op o hl q) as [w|(k & e1 & e2)]; auto.
      rewrite <- hsent in e2. right. left. eauto. }
    assert (quietly : (forall k, op <> CnLost k) -> l_should (lim_of b c') = l_should (lim_of b c) -> ~ says_ms o -> MxS i b (ops ++ [op]) (outs ++ [o]) c').
    { intros q1 q2 q3. apply keep; [|rewrite q2; auto|intros k e; elim (q1 k e)]. rewrite adv_snoc. destruct o; auto. elim q3. exact I. }
    destruct (limit_frame _ _ _ _ h) as (hfr & _ & _).
    destruct op; try (destruct hfr as (hf1 & hf2); apply quietly; [discriminate|auto|auto]); cbn [cn_step] in h.
    + unfold cn_send_max_streams in h. cbv zeta in h. dif h; injection h as <- <-; [|apply quietly; [discriminate|auto|cbn; tauto]].
      destruct (Bool.eqb b bidi) eqn:Eb.
      * right. right. rewrite adv_snoc, Eb. apply Bool.eqb_prop in Eb. subst bidi. apply way_new; auto. discriminate.
      * apply keep; [rewrite adv_snoc, Eb; auto| |discriminate]. unfold set_kind, lim_of. destruct b, bidi; auto; discriminate.
    + pose proof (lost_ok _ _ _ _ h) as (-> & _). unfold cn_lost in h. apply keep; [apply adv_snoc| |].
      * intros hs. destruct (nth_error (c_sent c) i0) as [[sid f|sid code fi|sid code|sid| |bi|bi l]|] eqn:En.
        -- destruct (cn_get sid c) as [s|]; [|injection h as <-; auto]. dif h; [injection h as <-; auto|].
           destruct (sb_retransmit _ _ _) as [[n b']| |]; try discriminate. cbn [bind] in h. injection h as <-. destr_if; auto.
        -- injection h as <-. auto.
        -- destruct (cn_get sid c) as [s|]; [dif h|]; injection h as <-; auto.
        -- destruct (cn_get sid c) as [s|]; injection h as <-; auto.
        -- injection h as <-. auto.
        -- injection h as <-. unfold set_kind, lim_of in *. destruct bi, b; auto.
        -- destruct (l_blk_sent _); injection h as <-; auto. destr_if; auto. unfold set_kind, lim_of in *. destruct bi, b; auto.
        -- injection h as <-. auto.
      * intros k e1 e2. injection e1 as <-. rewrite e2 in h. injection h as <-. unfold set_kind, lim_of. destruct b; reflexivity.
Qed.

Definition MxD (i : start) ops outs (c : conn) : Prop :=
  fc_max_data (c_fc c) = told_data i outs /\
  (told_data i outs = i_rx i \/ c_maxdata c = true \/ on_the_way SfMaxData (Some (told_data i outs)) ops outs).

Theorem mxd_history i ops outs c : history P i ops outs c -> MxD i ops outs c.
Proof.
  revert ops outs c. apply history_ind.
  - intros hp hi. split; [reflexivity|]. left. reflexivity.
  - intros ops outs c op o c' hist (H0 & H) hok h.
    destruct (tx_history _ _ _ _ _ hist) as (T & hsent & _). pose proof hist as (_ & _ & _ & hr). pose proof (run_length _ _ _ _ _ hr) as hl.
    assert (keep : told_data i (outs ++ [o]) = told_data i outs -> fc_max_data (c_fc c') = fc_max_data (c_fc c) -> (c_maxdata c = true -> c_maxdata c' = true) ->
       (forall k, op = CnLost k -> nth_error (c_sent c) k = Some SfMaxData -> c_maxdata c' = true) -> MxD i (ops ++ [op]) (outs ++ [o]) c').
    { intros q1 q1' q2 q3. unfold MxD. rewrite q1, q1'. split; auto. destruct H as [q|[q|q]]; auto. destruct (way_step _ _ _ _ op o hl q) as [w|(k & e1 & e2)]; auto.
      rewrite <- hsent in e2. right. left. eauto. }
    destruct (limit_frame _ _ _ _ h) as (_ & hfr & _).
    destruct op; try (destruct hfr as (hf1 & hf2 & hf3); apply keep; [rewrite data_snoc; destruct o; auto; elim hf3; exact I|auto|rewrite hf1; auto|discriminate]); cbn [cn_step] in h.
    + unfold cn_send_max_data in h. destruct (fc_should_update (c_fc c)) as [due| |]; try discriminate. cbn [bind] in h. cbv zeta in h. dif h; injection h as <- <-.
      * split; [rewrite data_snoc; reflexivity|]. right. right. rewrite data_snoc. apply way_new; auto. discriminate.
      * apply keep; [apply data_snoc| | |discriminate].
        -- cbn. destr_if; auto. unfold fc_autotune. destruct (fc_last_update (c_fc c)); [destr_if|]; reflexivity.
        -- cbn. intros ->. apply orb_true_r.
    + pose proof (lost_ok _ _ _ _ h) as (-> & _). unfold cn_lost in h.
      assert (e : fc_max_data (c_fc c') = fc_max_data (c_fc c) /\ (c_maxdata c = true -> c_maxdata c' = true)).
      { destruct (nth_error (c_sent c) i0) as [[sid f|sid code fi|sid code|sid| |bi|bi l]|] eqn:En.
        -- destruct (cn_get sid c) as [s|]; [|injection h as <-; auto]. dif h; [injection h as <-; auto|].
           destruct (sb_retransmit _ _ _) as [[n b']| |]; try discriminate. cbn [bind] in h. injection h as <-. destr_if; auto.
        -- injection h as <-. auto.
        -- destruct (cn_get sid c) as [s|]; [dif h|]; injection h as <-; auto.
        -- destruct (cn_get sid c) as [s|]; injection h as <-; auto.
        -- injection h as <-. auto.
        -- injection h as <-. unfold set_kind. destruct bi; auto.
        -- destruct (l_blk_sent _); injection h as <-; auto. destr_if; auto. unfold set_kind. destruct bi; auto.
        -- injection h as <-. auto. }
      destruct e as (e1 & e2). apply keep; [apply data_snoc|auto|auto|].
      intros k e3 e4. injection e3 as <-. rewrite e4 in h. injection h as <-. reflexivity.
Qed.

Definition MxSD ops outs (c : conn) : Prop := forall x m, told_on x outs = Some m ->
  exists s f, ent x c = Some (s, f) /\ fc_max_data (rv_fc (st_recv s)) = m /\
    (f = true \/ In x (c_almost c) \/ on_the_way (SfMaxStreamData x) (Some m) ops outs).

Lemma in_set_del x y l : In x (set_del y l) <-> In x l /\ x <> y.
Proof. unfold set_del. rewrite filter_In. split; intros (h1 & h2); split; auto; lia. Qed.

Theorem mxsd_history i ops outs c : history P i ops outs c -> MxSD ops outs c.
Proof.
  revert ops outs c. apply history_ind.
  - intros hp hi x m h. discriminate.
  - intros ops outs c op o c' hist H hok h.
    destruct (tx_history _ _ _ _ _ hist) as (T & hsent & _). pose proof hist as (_ & _ & _ & hr). pose proof (run_length _ _ _ _ _ hr) as hl.
    destruct (step_keep P _ _ _ _ h) as (hk & _).
    assert (keep : forall x m, told_on x outs = Some m ->
       (match op with CnSendMaxStreamData y _ _ true => y <> x | _ => True end) ->
       (In x (c_almost c) -> exists s f, ent x c' = Some (s, f) /\ (f = true \/ In x (c_almost c'))) ->
       (forall k, op = CnLost k -> nth_error (c_sent c) k = Some (SfMaxStreamData x) -> exists s f, ent x c' = Some (s, f) /\ (f = true \/ In x (c_almost c'))) ->
       exists s f, ent x c' = Some (s, f) /\ fc_max_data (rv_fc (st_recv s)) = m /\
         (f = true \/ In x (c_almost c') \/ on_the_way (SfMaxStreamData x) (Some m) (ops ++ [op]) (outs ++ [o]))).
    { intros x m q1 q2 q3 q4. destruct (H x m q1) as (s & f & e & em & hd). destruct (hk x s f e) as (s' & f' & e' & k1 & k2 & k3 & k4).
      exists s', f'. split; auto. split; [rewrite k4; auto; destruct op; try discriminate; destruct fits; try discriminate; congruence|].
      assert (to : (exists s f, ent x c' = Some (s, f) /\ (f = true \/ In x (c_almost c'))) -> f' = true \/ In x (c_almost c') \/ on_the_way (SfMaxStreamData x) (Some m) (ops ++ [op]) (outs ++ [o])).
      { intros (s1 & f1 & e1 & q). rewrite e' in e1. injection e1 as <- <-. tauto. }
      destruct hd as [hd|[hd|hd]]; auto. destruct (way_step _ _ _ _ op o hl hd) as [w|(k & z1 & z2)]; auto.
      rewrite <- hsent in z2. apply to. eauto. }
    assert (simple : (forall k, op <> CnLost k) -> (forall y n r f, op <> CnSendMaxStreamData y n r f) -> almost_le c c' -> ~ says_msd o -> MxSD (ops ++ [op]) (outs ++ [o]) c').
    { intros q1 q2 q3 q4 x m hx. rewrite on_snoc in hx. assert (hx' : told_on x outs = Some m) by (destruct o; auto; elim q4; exact I).
      destruct (H x m hx') as (s & f & e & _). destruct (hk x s f e) as (s' & f' & e' & _).
      apply keep; auto; [destruct op; auto; elim (q2 sid now rtt fits); auto| |intros k e1; elim (q1 k e1)]. intros q. exists s', f'. auto. }
    destruct (limit_frame _ _ _ _ h) as (_ & _ & hfr).
    destruct op; try (destruct hfr as (hf1 & hf2); apply simple; [discriminate|discriminate|auto|auto]); cbn [cn_step] in h.
    + (* CnSendMaxStreamData *)
      apply send_max_stream_data_ok in h as [(-> & ->)|[(-> & hne & ->)|(s & full & he & hf & hm & h)]].
      * intros x m hx. rewrite on_snoc in hx. destruct (H x m hx) as (s & f & e & em & hd). exists s, f. ands; auto. destruct hd as [hd|[hd|hd]]; auto.
        destruct (way_step _ _ _ _ (CnSendMaxStreamData sid now rtt fits) (CoSent None) hl hd) as [w|(k & z1 & _)]; auto. discriminate.
      * intros x m hx. rewrite on_snoc in hx. destruct (H x m hx) as (s & f & e & em & hd). exists s, f. ands; auto. destruct hd as [hd|[hd|hd]]; auto.
        -- cbn. rewrite in_set_del. destruct (Z.eq_dec x sid) as [->|n]; auto. destruct f; auto. elim (hne s). auto.
        -- destruct (way_step _ _ _ _ (CnSendMaxStreamData sid now rtt fits) (CoSent None) hl hd) as [w|(k & z1 & _)]; auto. discriminate.
      * cbv zeta in h. destruct h as [(-> & -> & ->)|(-> & -> & ->)].
        -- intros x m hx. rewrite on_snoc in hx. destruct (sid =? x) eqn:Ex.
           ++ assert (sid = x) by lia. subst x. injection hx as <-. eexists _, _. unfold ent. cbn [c_streams set_c_streams]. rewrite aget_aset_same. split; [reflexivity|].
              split; [reflexivity|]. right. right. apply way_new; auto. discriminate.
           ++ apply keep; auto; [lia| |discriminate]. intros hin. destruct (H x m hx) as (s1 & f1 & e1 & _). exists s1, f1. unfold ent in *. cbn [c_streams set_c_streams c_almost set_c_almost set_c_fc set_c_sent].
              rewrite aget_aset_other by lia. split; auto. right. apply in_set_del. split; auto. lia.
        -- intros x m hx. rewrite on_snoc in hx. destruct (H x m hx) as (s1 & f1 & e1 & _). destruct (hk x s1 f1 e1) as (s' & f' & e' & _). apply keep; auto; [|discriminate]. intros hin. exists s', f'. auto.
    + (* CnLost *)
      destruct hfr as (hf1 & hf2). pose proof (lost_ok _ _ _ _ h) as (-> & _). intros x m hx. rewrite on_snoc in hx.
      destruct (H x m hx) as (s1 & f1 & e1 & _). destruct (hk x s1 f1 e1) as (s' & f' & e' & kf & _). apply keep; auto; [intros hin; exists s', f'; auto|].
      intros k z1 z2. injection z1 as <-. unfold cn_lost in h. rewrite z2 in h. exists s', f'. split; auto.
      destruct (cn_get x c) as [s|] eqn:Eg.
      * right. injection h as <-. cbn. unfold set_add. destr_if; [|apply in_app_iff; right; left; auto].
        match goal with E : existsb _ _ = true |- _ => apply existsb_exists in E as (y & y1 & y2); replace x with y by lia; auto end.
      * left. apply kf. destruct f1; auto. elim (proj1 (get_none _ _) Eg _ e1).
Qed.
End P.
