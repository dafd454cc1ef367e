(** Control frames over histories: resets and requests to stop are not forgotten. *)
Require Import Verif.Base Verif.Errors Verif.Assoc Verif.OctetsModel Verif.FlowControlModel Verif.RangeBufModel
  Verif.RangesModel Verif.RangesProofs Verif.RecvBufModel Verif.RecvBufProofs2 Verif.RecvBufProofs3
  Verif.SendBufModel Verif.SendSpec Verif.SendBufProofs Verif.SendBufProofs2 Verif.SendBufProofs3
  Verif.StreamsModel Verif.StreamsSpec Verif.StreamsSpec3 Verif.StreamsProofs
  Verif.StreamsEffects Verif.StreamsShape Verif.StreamsShape2 Verif.StreamsRecv Verif.StreamsTx Verif.StreamsTx2 Verif.StreamsTx3 Verif.StreamsTx4 Verif.StreamsBlk Verif.StreamsCtl.

(** ** Frames on the way *)
Lemma put_logged o : map fst (put o) = logged o.
Proof. destruct o as [ | | | | | | | |[f|]| | | | | ]; reflexivity. Qed.
Lemma all_put_sent outs : map fst (all_put outs) = sent_frames outs.
Proof. unfold all_put, sent_frames. induction outs as [|o outs IH]; cbn; auto. rewrite map_app, put_logged, IH. auto. Qed.
Lemma all_put_snoc outs o : all_put (outs ++ [o]) = all_put outs ++ put o.
Proof. unfold all_put. rewrite flat_map_app. cbn. rewrite app_nil_r. auto. Qed.

Lemma lost_at_snoc k ops outs op o : length ops = length outs -> lost_at k (ops ++ [op]) (outs ++ [o]) ->
  lost_at k ops outs \/ (op = CnLost k /\ (k < length (all_put outs))%nat).
Proof.
  intros hl (n & h1 & h2). assert (hn : (n < length (ops ++ [op]))%nat) by (apply nth_error_Some; congruence).
  rewrite app_length in hn. cbn in hn. destruct (Nat.eq_dec n (length ops)) as [->|ne].
  - right. rewrite nth_error_app2, Nat.sub_diag in h1 by lia. injection h1 as ->. split; auto.
    rewrite hl, firstn_app, Nat.sub_diag, firstn_all, app_nil_r in h2. auto.
  - left. exists n. rewrite nth_error_app1 in h1 by lia. split; auto.
    rewrite firstn_app in h2. replace (n - length outs)%nat with O in h2 by lia. rewrite app_nil_r in h2. auto.
Qed.
Lemma lost_at_lt k ops outs : length ops = length outs -> lost_at k ops outs -> (k < length (all_put outs))%nat.
Proof.
  intros hl (n & h1 & h2). rewrite <- (firstn_skipn n outs). unfold all_put in *. rewrite flat_map_app, app_length. lia.
Qed.

Lemma way_step f v ops outs op o : length ops = length outs -> on_the_way f v ops outs ->
  on_the_way f v (ops ++ [op]) (outs ++ [o]) \/ exists k, op = CnLost k /\ nth_error (sent_frames outs) k = Some f.
Proof.
  intros hl (k & h1 & h2).
  assert (hd : op = CnLost k \/ op <> CnLost k).
  { destruct op; try (right; discriminate). destruct (Nat.eq_dec i k) as [->|n]; [auto|]. right. congruence. }
  destruct hd as [->|n].
  - right. exists k. split; auto. rewrite <- all_put_sent. apply (map_nth_error fst) in h1. exact h1.
  - left. exists k. split.
    + rewrite all_put_snoc, nth_error_app1; auto. apply nth_error_Some. congruence.
    + intros q. apply lost_at_snoc in q as [q|(q & _)]; auto.
Qed.
Lemma way_new f v ops outs op o : length ops = length outs -> put o = [(f, v)] -> (forall k, op <> CnLost k) ->
  on_the_way f v (ops ++ [op]) (outs ++ [o]).
Proof.
  intros hl hp hn. exists (length (all_put outs)). split.
  - rewrite all_put_snoc, hp, nth_error_app2, Nat.sub_diag by lia. reflexivity.
  - intros q. apply lost_at_snoc in q as [q|(q & _)]; auto; [|eapply hn; eauto]. apply lost_at_lt in q; auto. lia.
Qed.

Section P.
Variable P : params.

Lemma quiet_parts c o c' : quiet c o c' -> c_reset c' = c_reset c /\ c_stopped c' = c_stopped c /\ c_maxdata c' = c_maxdata c /\
  fc_max_data (c_fc c') = fc_max_data (c_fc c) /\ forall b, l_should (lim_of b c') = l_should (lim_of b c) /\ l_local_max (lim_of b c') = l_local_max (lim_of b c).
Proof.
  intros (h & _). pose proof (h true) as h1. unfold ctl in h1. injection h1 as _ _ e3 e4 e5 e6. ands; auto.
  intros b. specialize (h b). unfold ctl in h. injection h as e1 e2 _ _ _ _. auto.
Qed.

Definition says_reset (o : cn_out) : Prop := match o with CoSent (Some (SfReset _ _ _)) => True | _ => False end.
Definition says_stop (o : cn_out) : Prop := match o with CoSent (Some (SfStop _ _)) => True | _ => False end.
Definition says_ms (o : cn_out) : Prop := match o with CoMaxStreams _ _ => True | _ => False end.
Definition says_md (o : cn_out) : Prop := match o with CoMaxData _ => True | _ => False end.
Definition says_msd (o : cn_out) : Prop := match o with CoMaxStreamData _ _ => True | _ => False end.
Lemma say_reset x code fi o : In (SfReset x code fi) (logged o) -> says_reset o.
Proof. destruct o as [ | | | | | | | |[f|]| | | | | ]; cbn; try tauto; intros [h|[]]; subst; try discriminate; exact I. Qed.
Lemma say_stop x code o : In (SfStop x code) (logged o) -> says_stop o.
Proof. destruct o as [ | | | | | | | |[f|]| | | | | ]; cbn; try tauto; intros [h|[]]; subst; try discriminate; exact I. Qed.

Lemma mute_says o : mute o -> ~ says_reset o /\ ~ says_stop o /\ ~ says_ms o /\ ~ says_md o /\ ~ says_msd o.
Proof. destruct o as [ | | | | | | | |[[]|]| | | | | ]; cbn; tauto. Qed.

Ltac nosay := cbn; tauto.

Lemma shut_out sid d code cwnd c o c' : cn_shutdown P sid d code cwnd c = Ok (o, c') -> mute o.
Proof. intros h. apply shutdown_ok in h as [(-> & (e & ->))|(s & he & -> & _)]; cbn; auto. Qed.
Lemma stop_out sid code c o c' : cn_stop P sid code c = Ok (o, c') -> mute o.
Proof. intros h. apply stop_ok in h as [(-> & _)|(s & c1 & hg & -> & _)]; cbn; auto. Qed.

(** Where resets are recorded and said. *)
Lemma reset_frame op c o c' : cn_step P op c = Ok (o, c') ->
  match op with
  | CnStop _ _ | CnShutdown _ ShutWrite _ _ | CnSendReset _ _ | CnLost _ => True
  | _ => c_reset c' = c_reset c /\ ~ says_reset o
  end.
Proof.
  intros h. destruct (step_keep P _ _ _ _ h) as (_ & hq).
  destruct op; auto; try (destruct hq as (hq1 & hq2 & hq3); split; [apply (quiet_parts c o c'); repeat split; auto|apply mute_says; auto]); cbn [cn_step] in h.
  - destruct d; auto. split; [|apply mute_says; eapply shut_out; eauto].
    apply shutdown_ok in h as [(-> & _)|(s & he & -> & [(n & r & _ & _ & ->)|(fi & un & b' & cap & q & _)])]; auto. discriminate.
  - unfold cn_send_max_streams in h. cbv zeta in h. dif h; injection h as <- <-; (split; [unfold set_kind; destruct bidi; reflexivity|nosay]).
  - apply send_max_stream_data_ok in h as [(-> & ->)|[(-> & _ & ->)|(s & full & he & hf & hm & h)]]; try (split; [reflexivity|nosay]).
    cbv zeta in h. destruct h as [(-> & -> & ->)|(-> & -> & ->)]; (split; [reflexivity|nosay]).
  - apply send_max_data_ok in h as (f & b' & [(-> & ->)|(-> & ->)]); (split; [reflexivity|nosay]).
  - unfold cn_send_stop in h. destruct (aget sid (c_stopped c)); [destruct fits|]; injection h as <- <-; (split; [reflexivity|nosay]).
Qed.
Lemma stop_frame op c o c' : cn_step P op c = Ok (o, c') ->
  match op with
  | CnShutdown _ ShutRead _ _ | CnSendStop _ _ | CnLost _ => True
  | _ => c_stopped c' = c_stopped c /\ ~ says_stop o
  end.
Proof.
  intros h. destruct (step_keep P _ _ _ _ h) as (_ & hq).
  destruct op; auto; try (destruct hq as (hq1 & hq2 & hq3); split; [apply (quiet_parts c o c'); repeat split; auto|apply mute_says; auto]); cbn [cn_step] in h.
  - split; [|apply mute_says; eapply stop_out; eauto].
    apply stop_ok in h as [(-> & -> & _)|(s & c1 & hg & -> & _ & h)]; auto. pose proof (gr_stopped _ _ (gocs_rest _ _ _ _ _ _ hg)).
    destruct h as [(e & hst & ->)|(fi & un & b' & hst & ->)]; auto.
  - destruct d; auto. split; [|apply mute_says; eapply shut_out; eauto].
    apply shutdown_ok in h as [(-> & _)|(s & he & -> & [(n & r & q & _)|(fi & un & b' & cap & q & _ & _ & _ & _ & ->)])]; auto. discriminate.
  - unfold cn_send_max_streams in h. cbv zeta in h. dif h; injection h as <- <-; (split; [unfold set_kind; destruct bidi; reflexivity|nosay]).
  - apply send_max_stream_data_ok in h as [(-> & ->)|[(-> & _ & ->)|(s & full & he & hf & hm & h)]]; try (split; [reflexivity|nosay]).
    cbv zeta in h. destruct h as [(-> & -> & ->)|(-> & -> & ->)]; (split; [reflexivity|nosay]).
  - apply send_max_data_ok in h as (f & b' & [(-> & ->)|(-> & ->)]); (split; [reflexivity|nosay]).
  - unfold cn_send_reset in h. destruct (aget sid (c_reset c)) as [[code fi]|] eqn:E; [destruct fits|]; injection h as <- <-; (split; [reflexivity|nosay]).
Qed.

(** ** Resets *)
Record Rst (ops : list cn_op) (outs : list cn_out) (c : conn) : Prop := {
  r_due : forall x, cut_on x ops outs -> aget x (c_reset c) <> None \/ exists code fi, on_the_way (SfReset x code fi) None ops outs;
  r_src : forall x code fi, resets c x code fi -> given x code ops outs }.

Lemma cut_snoc x ops outs op o : length ops = length outs -> cut_on x (ops ++ [op]) (outs ++ [o]) -> cut_on x ops outs \/ cut x op o.
Proof.
  intros hl (e & h1 & h2). rewrite events_snoc in h1 by auto. apply in_app_iff in h1 as [h1|[<-|[]]]; auto. left. exists e. auto.
Qed.
Lemma given_snoc x code ops outs op o : length ops = length outs -> given x code ops outs -> given x code (ops ++ [op]) (outs ++ [o]).
Proof.
  intros hl [(cw & h)|h]; [left; exists cw|right]; rewrite events_snoc by auto; apply in_app_iff; auto.
Qed.

Theorem rst_history i ops outs c : history P i ops outs c -> Rst ops outs c.
Proof.
  revert ops outs c. apply history_ind.
  - intros hp hi. constructor.
    + intros x (e & [] & _).
    + intros x code fi [h|[]]. discriminate.
  - intros ops outs c op o c' hist H hok h. pose proof (history_step _ _ _ _ _ _ _ _ hist hok h) as hist'.
    destruct (tx_history _ _ _ _ _ hist) as (T & hsent & _). destruct (tx_history _ _ _ _ _ hist') as (_ & hsent' & _).
    rewrite sent_snoc, <- hsent in hsent'. pose proof hist as (_ & _ & _ & hr). pose proof (run_length _ _ _ _ _ hr) as hl.
    assert (keep_due : forall x, (forall code fi k, op = CnLost k -> nth_error (c_sent c) k = Some (SfReset x code fi) -> aget x (c_reset c') <> None) ->
              (aget x (c_reset c) <> None -> aget x (c_reset c') <> None \/ exists code fi, on_the_way (SfReset x code fi) None (ops ++ [op]) (outs ++ [o])) ->
              cut_on x ops outs -> aget x (c_reset c') <> None \/ exists code fi, on_the_way (SfReset x code fi) None (ops ++ [op]) (outs ++ [o])).
    { intros x q1 q2 hc. destruct (r_due _ _ _ H x hc) as [q|(code & fi & q)]; auto.
      destruct (way_step _ _ _ _ op o hl q) as [w|(k & e1 & e2)]; [right; eauto|]. left. rewrite <- hsent in e2. eauto. }
    assert (keep_src : forall x code fi, (aget x (c_reset c') = Some (code, fi) -> given x code (ops ++ [op]) (outs ++ [o])) ->
              (In (SfReset x code fi) (logged o) -> given x code (ops ++ [op]) (outs ++ [o])) -> resets c' x code fi -> given x code (ops ++ [op]) (outs ++ [o])).
    { intros x code fi q1 q2 [q|q]; auto. rewrite hsent' in q. apply in_app_iff in q as [q|q]; auto. apply given_snoc; auto. apply (r_src _ _ _ H x code fi). right. auto. }
    assert (old_src : forall x code fi, aget x (c_reset c) = Some (code, fi) -> given x code (ops ++ [op]) (outs ++ [o])).
    { intros x code fi q. apply given_snoc; auto. apply (r_src _ _ _ H x code fi). left. auto. }
    assert (quietly : (forall k, op <> CnLost k) -> (forall x, ~ cut x op o) -> c_reset c' = c_reset c -> ~ says_reset o -> Rst (ops ++ [op]) (outs ++ [o]) c').
    { intros q1 q2 q3 q4. constructor.
      - intros x hc. apply cut_snoc in hc as [hc|hc]; auto; [|elim (q2 x hc)]. apply keep_due; auto; [intros code fi k e; elim (q1 k e)|]. rewrite q3. auto.
      - intros x code fi. apply keep_src; [rewrite q3; apply old_src|]. intros q. elim q4. eapply say_reset; eauto. }
    assert (setting : forall sid code fi, c_reset c' = aset sid (code, fi) (c_reset c) -> ~ says_reset o ->
              (forall x, cut x op o -> x = sid) -> given sid code (ops ++ [op]) (outs ++ [o]) ->
              (forall k x code fi, op = CnLost k -> nth_error (c_sent c) k = Some (SfReset x code fi) -> x = sid) -> Rst (ops ++ [op]) (outs ++ [o]) c').
    { intros sid code fi q1 q2 q3 q4 q5. constructor.
      - intros x hc. destruct (Z.eq_dec sid x) as [<-|n]; [left; rewrite q1, aget_aset_same; discriminate|].
        apply cut_snoc in hc as [hc|hc]; auto; [|elim n; symmetry; auto]. apply keep_due; auto; [intros code0 fi0 k e1 e2; elim n; symmetry; eapply q5; eauto|].
        rewrite q1, aget_aset_other by auto. auto.
      - intros x code0 fi0. apply keep_src; [|intros q; elim q2; eapply say_reset; eauto]. destruct (Z.eq_dec sid x) as [<-|n].
        + rewrite q1, aget_aset_same. intros e. injection e as <- <-. auto.
        + rewrite q1, aget_aset_other by auto. apply old_src. }
    pose proof (reset_frame _ _ _ _ h) as hfr.
    destruct op; try (destruct hfr as (hf1 & hf2); apply quietly; [discriminate|intros x hc; exact hc|auto|auto]); cbn [cn_step] in h.
    + (* CnStop *)
      pose proof (mute_says o (stop_out _ _ _ _ _ h)) as (hm & _).
      apply stop_ok in h as [(-> & -> & _)|(s & c1 & hg & -> & _ & h)]; [apply quietly; [discriminate|intros x hc; exact hc|auto|auto]|].
      pose proof (gr_reset _ _ (gocs_rest _ _ _ _ _ _ hg)) as er. destruct h as [(e & hst & ->)|(fi & un & b' & hst & ->)].
      * constructor.
        -- intros x hc. assert (hc0 : cut_on x ops outs).
           { apply cut_snoc in hc as [hc|hc]; auto. cbn in hc. subst x. apply stop_err in hst.
             destruct hg as [hg|hg1 hg2 hg3 ->]; [|elim hst; unfold fresh, new_limits; destruct (is_local sid (p_server P)), (is_bidi sid); reflexivity].
             apply (t_isr _ _ _ T _ _ _ hg). right. auto. }
           apply keep_due; auto; [discriminate|]. rewrite er. auto.
        -- intros x code0 fi0. apply keep_src; [rewrite er; apply old_src|cbn; tauto].
      * cbn in hok. apply (setting sid code fi); auto; try discriminate.
        -- cbn [c_reset set_c_streams set_c_tx set_c_txbuf set_c_reset set_c_wq]. rewrite er. reflexivity.
        -- right. rewrite events_snoc by auto. apply in_app_iff. right. left. auto.
    + (* CnShutdown *)
      pose proof (mute_says o (shut_out _ _ _ _ _ _ _ h)) as (hm & _).
      destruct d; [destruct hfr as (hf1 & hf2); apply quietly; [discriminate|intros x hc; exact hc|auto|auto]|].
      apply shutdown_ok in h as [(-> & (e & ->))|(s & he & -> & [(n & r & q & _)|(fi & un & b' & cap & q & _ & _ & _ & _ & ->)])].
      * apply quietly; [discriminate|intros x hc; exact hc|auto|auto].
      * discriminate.
      * apply (setting sid code fi); auto; try discriminate. left. exists cwnd. rewrite events_snoc by auto. apply in_app_iff. right. left. auto.
    + (* CnSendReset *)
      unfold cn_send_reset in h. destruct (aget sid (c_reset c)) as [[code fi]|] eqn:E;
        [destruct fits|]; injection h as <- <-; try (apply quietly; [discriminate|intros x hc; exact hc|auto|cbn; tauto]).
      constructor.
      * intros x hc. apply (cut_snoc _ _ _ _ _ hl) in hc as [hc|[]]. apply keep_due; auto; [discriminate|].
        intros hx. destruct (Z.eq_dec x sid) as [->|n].
        -- right. exists code, fi. apply way_new; auto. discriminate.
        -- left. cbn. rewrite aget_adel_other by auto. auto.
      * intros x code0 fi0. apply keep_src.
        -- cbn. intros q. destruct (Z.eq_dec x sid) as [->|n]; [rewrite aget_adel_same in q; discriminate|]. rewrite aget_adel_other in q by auto. eapply old_src; eauto.
        -- cbn. intros [q|[]]. injection q as <- <- <-. eapply old_src; eauto.
    + (* CnLost *)
      pose proof (lost_ok _ _ _ _ h) as (-> & hh).
      assert (hn : ~ says_reset CoOk) by (cbn; tauto).
      destruct (nth_error (c_sent c) i0) as [fr|] eqn:En.
      2:{ assert (c_reset c' = c_reset c).
          { destruct hh as [->|[(sid & f & s & n & b & e & _)|[(sid & code & fi & e & _)|[(sid & code & s & e & _)|[(sid & s & e & _)|[(e & _)|[(bi & e & _)|(bi & l & e & _)]]]]]]]; auto; discriminate. }
          constructor; [intros x hc; apply (cut_snoc _ _ _ _ _ hl) in hc as [hc|[]]; apply keep_due; auto; [intros code fi k e1 e2; injection e1 as <-; congruence|rewrite H0; auto]|].
          intros x code fi. apply keep_src; [rewrite H0; apply old_src|cbn; tauto]. }
      assert (hcase : (exists sid code fi, fr = SfReset sid code fi /\ c_reset c' = aset sid (code, fi) (c_reset c)) \/
                      ((forall sid code fi, fr <> SfReset sid code fi) /\ c_reset c' = c_reset c)).
      { unfold cn_lost in h. rewrite En in h. destruct fr as [sid f|sid code fi|sid code|sid| |bi|bi l].
        - right. split; [discriminate|]. destruct (cn_get sid c) as [s|]; [|injection h as <-; auto]. dif h; [injection h as <-; auto|].
          destruct (sb_retransmit _ _ _) as [[n b']| |]; try discriminate. cbn [bind] in h. injection h as <-. destr_if; reflexivity.
        - left. injection h as <-. exists sid, code, fi. auto.
        - right. split; [discriminate|]. destruct (cn_get sid c) as [s|]; [dif h|]; injection h as <-; reflexivity.
        - right. split; [discriminate|]. destruct (cn_get sid c) as [s|]; injection h as <-; reflexivity.
        - right. split; [discriminate|]. injection h as <-. reflexivity.
        - right. split; [discriminate|]. injection h as <-. unfold set_kind. destruct bi; reflexivity.
        - right. split; [discriminate|]. destruct (l_blk_sent _); injection h as <-; auto. destr_if; auto. unfold set_kind. destruct bi; reflexivity. }
      destruct hcase as [(sid & code & fi & -> & e)|(hne & e)].
      * apply (setting sid code fi); auto.
        -- intros x [].
        -- apply given_snoc; auto. apply (r_src _ _ _ H sid code fi). right. eapply nth_error_In; eauto.
        -- intros k x code0 fi0 e1 e2. injection e1 as <-. congruence.
      * constructor.
        -- intros x hc. apply (cut_snoc _ _ _ _ _ hl) in hc as [hc|[]]. apply keep_due; auto.
           ++ intros code fi k e1 e2. injection e1 as <-. rewrite En in e2. injection e2 as ->. elim (hne x code fi). auto.
           ++ rewrite e. auto.
        -- intros x code fi. apply keep_src; [rewrite e; apply old_src|cbn; tauto].
Qed.
End P.
