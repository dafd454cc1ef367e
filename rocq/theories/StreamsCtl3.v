(** Control frames over histories: requests to stop, and limits, are not forgotten. *)
Require Import Verif.Base Verif.Errors Verif.Assoc Verif.OctetsModel Verif.FlowControlModel Verif.RangeBufModel
  Verif.RangesModel Verif.RangesProofs Verif.RecvBufModel Verif.RecvBufProofs2 Verif.RecvBufProofs3
  Verif.SendBufModel Verif.SendSpec Verif.SendBufProofs Verif.SendBufProofs2 Verif.SendBufProofs3
  Verif.StreamsModel Verif.StreamsSpec Verif.StreamsSpec3 Verif.StreamsProofs
  Verif.StreamsEffects Verif.StreamsShape Verif.StreamsShape2 Verif.StreamsRecv Verif.StreamsTx Verif.StreamsTx2 Verif.StreamsTx3 Verif.StreamsTx4 Verif.StreamsBlk Verif.StreamsCtl Verif.StreamsCtl2.

Definition settled (x : Z) (c : conn) : Prop := exists s f, ent x c = Some (s, f) /\ (f = true \/ rv_fin_off (st_recv s) <> None).
Record Stp (ops : list cn_op) (outs : list cn_out) (c : conn) : Prop := {
  s_src : forall x code, aget x (c_stopped c) = Some code \/ In (SfStop x code) (c_sent c) -> asked_stop x code ops outs;
  s_drain : forall x code, asked_stop x code ops outs -> exists s f, ent x c = Some (s, f) /\ rv_drain (st_recv s) = true;
  s_uniq : forall x a b, asked_stop x a ops outs -> asked_stop x b ops outs -> a = b;
  s_due : forall x code, asked_stop x code ops outs ->
     settled x c \/ aget x (c_stopped c) = Some code \/ on_the_way (SfStop x code) None ops outs }.

Lemma asked_snoc x code ops outs op o : length ops = length outs -> asked_stop x code (ops ++ [op]) (outs ++ [o]) ->
  asked_stop x code ops outs \/ (o = CoOk /\ exists cwnd, op = CnShutdown x ShutRead code cwnd).
Proof.
  intros hl (cw & h1). rewrite events_snoc in h1 by auto. apply in_app_iff in h1 as [h1|[h1|[]]]; [left; exists cw; auto|].
  right. injection h1 as -> ->. eauto.
Qed.
Lemma asked_mono x code ops outs op o : length ops = length outs -> asked_stop x code ops outs -> asked_stop x code (ops ++ [op]) (outs ++ [o]).
Proof. intros hl (cw & h). exists cw. rewrite events_snoc by auto. apply in_app_iff. auto. Qed.
Lemma settled_keep ex x c c' : skeep ex c c' -> settled x c -> settled x c'.
Proof.
  intros hk (s & f & h1 & h2). destruct (hk x s f h1) as (s' & f' & e & q1 & q2 & q3 & _). exists s', f'. split; auto.
  destruct h2 as [->|h2]; auto. right. destruct (rv_fin_off (st_recv s)) as [n|] eqn:E; [rewrite (q3 n); auto; discriminate|congruence].
Qed.

Section P.
Variable P : params.

Theorem stp_history i ops outs c : history P i ops outs c -> Stp ops outs c.
Proof.
  revert ops outs c. apply history_ind.
  - intros hp hi. constructor.
    + intros x code [h|[]]. discriminate.
    + intros x code (cw & []).
    + intros x a b (cw & []).
    + intros x code (cw & []).
  - intros ops outs c op o c' hist H hok h. pose proof (history_step _ _ _ _ _ _ _ _ hist hok h) as hist'.
    destruct (tx_history _ _ _ _ _ hist) as (T & hsent & _). destruct (tx_history _ _ _ _ _ hist') as (_ & hsent' & _).
    rewrite sent_snoc, <- hsent in hsent'. pose proof hist as (_ & _ & _ & hr). pose proof (run_length _ _ _ _ _ hr) as hl.
    destruct (step_keep P _ _ _ _ h) as (hk & _).
    assert (drains : forall x code, asked_stop x code ops outs -> exists s f, ent x c' = Some (s, f) /\ rv_drain (st_recv s) = true).
    { intros x code q. destruct (s_drain _ _ _ H x code q) as (s & f & e & d). destruct (hk x s f e) as (s' & f' & e' & _ & d' & _). eauto. }
    assert (keep_due : forall x code, (forall k, op = CnLost k -> nth_error (c_sent c) k = Some (SfStop x code) -> settled x c' \/ aget x (c_stopped c') = Some code) ->
              (aget x (c_stopped c) = Some code -> settled x c' \/ aget x (c_stopped c') = Some code \/ on_the_way (SfStop x code) None (ops ++ [op]) (outs ++ [o])) ->
              asked_stop x code ops outs -> settled x c' \/ aget x (c_stopped c') = Some code \/ on_the_way (SfStop x code) None (ops ++ [op]) (outs ++ [o])).
    { intros x code q1 q2 hc. destruct (s_due _ _ _ H x code hc) as [q|[q|q]]; auto; [left; eapply settled_keep; eauto|].
      destruct (way_step _ _ _ _ op o hl q) as [w|(k & e1 & e2)]; auto. rewrite <- hsent in e2. destruct (q1 k e1 e2); auto. }
    assert (keep_src : forall x code, (aget x (c_stopped c') = Some code -> asked_stop x code (ops ++ [op]) (outs ++ [o])) ->
              (In (SfStop x code) (logged o) -> asked_stop x code (ops ++ [op]) (outs ++ [o])) ->
              aget x (c_stopped c') = Some code \/ In (SfStop x code) (c_sent c') -> asked_stop x code (ops ++ [op]) (outs ++ [o])).
    { intros x code q1 q2 [q|q]; auto. rewrite hsent' in q. apply in_app_iff in q as [q|q]; auto. apply asked_mono; auto. apply (s_src _ _ _ H). auto. }
    assert (old_src : forall x code, aget x (c_stopped c) = Some code -> asked_stop x code (ops ++ [op]) (outs ++ [o])).
    { intros x code q. apply asked_mono; auto. apply (s_src _ _ _ H). auto. }
    assert (old : (forall x code cwnd, op = CnShutdown x ShutRead code cwnd -> o <> CoOk) ->
              (forall x code, aget x (c_stopped c') = Some code \/ In (SfStop x code) (c_sent c') -> asked_stop x code (ops ++ [op]) (outs ++ [o])) ->
              (forall x code, asked_stop x code ops outs -> settled x c' \/ aget x (c_stopped c') = Some code \/ on_the_way (SfStop x code) None (ops ++ [op]) (outs ++ [o])) ->
              Stp (ops ++ [op]) (outs ++ [o]) c').
    { intros q1 q2 q3. assert (q4 : forall x code, asked_stop x code (ops ++ [op]) (outs ++ [o]) -> asked_stop x code ops outs).
      { intros x code q. apply (asked_snoc _ _ _ _ _ _ hl) in q as [q|(e1 & cw & e2)]; auto. elim (q1 _ _ _ e2 e1). }
      constructor; auto.
      - intros x code q. apply q4 in q. eauto.
      - intros x a b qa qb. eapply (s_uniq _ _ _ H); eauto. }
    assert (quietly : (forall k, op <> CnLost k) -> (forall x code cwnd, op = CnShutdown x ShutRead code cwnd -> o <> CoOk) -> c_stopped c' = c_stopped c -> ~ says_stop o -> Stp (ops ++ [op]) (outs ++ [o]) c').
    { intros q1 q2 q3 q4. apply old; auto.
      - intros x code. apply keep_src; [rewrite q3; apply old_src|]. intros q. elim q4. eapply say_stop; eauto.
      - intros x code. apply keep_due; [intros k e; elim (q1 k e)|rewrite q3; auto]. }
    pose proof (stop_frame _ _ _ _ _ h) as hfr.
    destruct op; try (destruct hfr as (hf1 & hf2); apply quietly; [discriminate|discriminate|auto|auto]); cbn [cn_step] in h.
    + (* CnShutdown *)
      destruct d; [|destruct hfr as (hf1 & hf2); apply quietly; [discriminate|discriminate|auto|auto]].
      apply shutdown_ok in h as [(-> & (e & ->))|(s & he & -> & [(n & r & _ & hs & ->)|(fi & un & b' & cap & q & _)])].
      * apply quietly; [discriminate|discriminate|auto|cbn; tauto].
      * apply rv_shutdown_keep in hs as (hs & hd' & hd).
        set (c1 := set_c_streams _ _) in *.
        assert (hent : ent sid c1 = Some (set_recv r s, false)) by (unfold ent, c1; cbn; apply aget_aset_same).
        assert (hst : c_stopped c1 = if rv_is_fin r then c_stopped c else aset sid code (c_stopped c)) by reflexivity.
        assert (hno : forall a, ~ asked_stop sid a ops outs).
        { intros a q. destruct (s_drain _ _ _ H _ _ q) as (s' & f' & e1 & e2). rewrite he in e1. injection e1 as <- <-. congruence. }
        assert (hnew : asked_stop sid code (ops ++ [CnShutdown sid ShutRead code cwnd]) (outs ++ [CoOk])).
        { exists cwnd. rewrite events_snoc by auto. apply in_app_iff. right. left. auto. }
        clearbody c1. constructor.
        -- intros x code0. apply keep_src; [|cbn; tauto]. rewrite hst. destruct (rv_is_fin r); [apply old_src|].
           destruct (Z.eq_dec sid x) as [<-|n0]; [rewrite aget_aset_same; intros q; injection q as <-; auto|rewrite aget_aset_other by auto; apply old_src].
        -- intros x code0 q. apply (asked_snoc _ _ _ _ _ _ hl) in q as [q|(_ & cw & q)]; [eauto|]. injection q as <- <- <-. exists (set_recv r s), false. auto.
        -- intros x a b qa qb. apply (asked_snoc _ _ _ _ _ _ hl) in qa as [qa|(_ & cw & qa)]; apply (asked_snoc _ _ _ _ _ _ hl) in qb as [qb|(_ & cw' & qb)].
           ++ eapply (s_uniq _ _ _ H); eauto.
           ++ injection qb as <- <- <-. elim (hno _ qa).
           ++ injection qa as <- <- <-. elim (hno _ qb).
           ++ congruence.
        -- intros x code0 q. apply (asked_snoc _ _ _ _ _ _ hl) in q as [q|(_ & cw & q)].
           ++ assert (n0 : sid <> x) by (intros <-; eapply hno; eauto). revert q. apply keep_due; [discriminate|].
              rewrite hst. destruct (rv_is_fin r); auto. rewrite aget_aset_other by auto. auto.
           ++ injection q as <- <- <-. rewrite hst. destruct (rv_is_fin r) eqn:Ef.
              ** left. exists (set_recv r s), false. split; auto. right. cbn. unfold rv_is_fin in Ef. destruct (rv_fin_off r); [discriminate|congruence].
              ** right. left. apply aget_aset_same.
      * discriminate.
    + (* CnSendStop *)
      unfold cn_send_stop in h. destruct (aget sid (c_stopped c)) as [code|] eqn:E;
        [destruct fits|]; injection h as <- <-; try (apply quietly; [discriminate|discriminate|auto|cbn; tauto]).
      apply old; [discriminate| |].
      * intros x code0. apply keep_src.
        -- cbn. intros q. destruct (Z.eq_dec x sid) as [->|n]; [rewrite aget_adel_same in q; discriminate|]. rewrite aget_adel_other in q by auto. auto.
        -- cbn. intros [q|[]]. injection q as <- <-. auto.
      * intros x code0. apply keep_due; [discriminate|]. intros q. right. destruct (Z.eq_dec x sid) as [->|n].
        -- right. rewrite E in q. injection q as <-. apply way_new; auto. discriminate.
        -- left. cbn. rewrite aget_adel_other by auto. auto.
    + (* CnLost *)
      pose proof (lost_ok _ _ _ _ h) as (-> & _).
      assert (hcase : (exists sid code s, nth_error (c_sent c) i0 = Some (SfStop sid code) /\ ent sid c = Some (s, false) /\ c_stopped c' = aset sid code (c_stopped c)) \/
                      ((forall sid code s, nth_error (c_sent c) i0 = Some (SfStop sid code) -> ent sid c = Some (s, false) -> rv_fin_off (st_recv s) <> None) /\ c_stopped c' = c_stopped c)).
      { unfold cn_lost in h. destruct (nth_error (c_sent c) i0) as [[sid f|sid code fi|sid code|sid| |bi|bi l]|] eqn:En.
        - right. split; [discriminate|]. destruct (cn_get sid c) as [s|]; [|injection h as <-; auto]. dif h; [injection h as <-; auto|].
          destruct (sb_retransmit _ _ _) as [[n b']| |]; try discriminate. cbn [bind] in h. injection h as <-. destr_if; reflexivity.
        - right. injection h as <-. split; [discriminate|reflexivity].
        - destruct (cn_get sid c) as [s|] eqn:Eg.
          + apply get_ent in Eg. destruct (rv_is_fin (st_recv s)) eqn:Ef; injection h as <-.
            * right. split; auto. intros sid0 code0 s0 q1 q2. injection q1 as -> ->. rewrite Eg in q2. injection q2 as ->.
              unfold rv_is_fin in Ef. destruct (rv_fin_off (st_recv s0)); [discriminate|congruence].
            * left. exists sid, code, s. auto.
          + right. injection h as <-. split; auto. intros sid0 code0 s0 q1 q2. injection q1 as -> ->. elim (proj1 (get_none _ _) Eg _ q2).
        - right. split; [discriminate|]. destruct (cn_get sid c) as [s|]; injection h as <-; reflexivity.
        - right. split; [discriminate|]. injection h as <-. reflexivity.
        - right. split; [discriminate|]. injection h as <-. unfold set_kind. destruct bi; reflexivity.
        - right. split; [discriminate|]. destruct (l_blk_sent _); injection h as <-; auto. destr_if; auto. unfold set_kind. destruct bi; reflexivity.
        - right. split; [discriminate|]. injection h as <-. reflexivity. }
      destruct hcase as [(sid & code & s & En & he & e)|(hne & e)].
      * assert (hask : asked_stop sid code ops outs) by (apply (s_src _ _ _ H); right; eapply nth_error_In; eauto).
        apply old; [discriminate| |].
        -- intros x code0. apply keep_src; [|cbn; tauto]. rewrite e. destruct (Z.eq_dec sid x) as [<-|n]; [rewrite aget_aset_same; intros q; injection q as <-; apply asked_mono; auto|rewrite aget_aset_other by auto; apply old_src].
        -- intros x code0 hc. rewrite e. destruct (Z.eq_dec sid x) as [<-|n].
           ++ right. left. rewrite aget_aset_same. f_equal. eapply (s_uniq _ _ _ H); eauto.
           ++ rewrite <- e. revert hc. apply keep_due; [intros k e1 e2; injection e1 as <-; congruence|]. rewrite e, aget_aset_other by auto. auto.
      * apply old; [discriminate| |].
        -- intros x code0. apply keep_src; [rewrite e; apply old_src|cbn; tauto].
        -- intros x code0 hc. pose proof hc as hc0. revert hc. apply keep_due; [|rewrite e; auto]. intros k e1 e2. injection e1 as <-. left. eapply settled_keep; [exact hk|].
           destruct (s_drain _ _ _ H _ _ hc0) as (s & f & e3 & _). exists s, f. split; auto. destruct f; auto. right. eapply hne; eauto.
Qed.

Lemma settled_finished i ops outs c x code : history P i ops outs c -> asked_stop x code ops outs -> settled x c -> q_stream_finished x c = true.
Proof.
  intros hist ha (s & f & he & hs). destruct (s_drain _ _ _ (stp_history _ _ _ _ hist) _ _ ha) as (s' & f' & he' & hd).
  rewrite he in he'. injection he' as <- <-. unfold q_stream_finished, cn_get. unfold ent in he. rewrite he. destruct f; auto.
  destruct hs as [hs|hs]; [discriminate|]. destruct (rx_ent _ _ _ _ (rx_hist _ _ _ _ _ hist) he) as (hinv & _).
  unfold rv_is_fin. destruct (rv_fin_off (st_recv s)) as [n|] eqn:E; [|congruence].
  pose proof (proj2 (i_drain _ hinv hd)). pose proof (RecvBufProofs2.i_fin _ hinv _ E). lia.
Qed.
End P.
