(** What is still to be said is said by the next packet with room. *)
Require Import Verif.Base Verif.Errors Verif.Assoc Verif.OctetsModel Verif.FlowControlModel Verif.RangeBufModel
  Verif.RangesModel Verif.RangesProofs Verif.RecvBufModel Verif.RecvBufProofs2 Verif.RecvBufProofs3
  Verif.SendBufModel Verif.SendSpec Verif.SendBufProofs Verif.SendBufProofs2 Verif.SendBufProofs3
  Verif.StreamsModel Verif.StreamsSpec Verif.StreamsSpec3 Verif.StreamsProofs
  Verif.StreamsEffects Verif.StreamsShape Verif.StreamsShape2 Verif.StreamsRecv Verif.StreamsTx Verif.StreamsTx2 Verif.StreamsTx3 Verif.StreamsTx4 Verif.StreamsTx6 Verif.StreamsBlk Verif.StreamsCtl Verif.StreamsCtl2 Verif.StreamsCtl3 Verif.StreamsCtl4.

Section H.
Variables (P : params) (i : start) (ops : list cn_op) (outs : list cn_out) (c : conn).
Hypothesis hist : history P i ops outs c.

Lemma highest_same x o : stream_frames x [o] = [] -> highest_sent x (outs ++ [o]) = highest_sent x outs.
Proof.
  intros h. unfold highest_sent, stream_frames, sent_frames in *. rewrite flat_map_app, frames_on_app. rewrite h, app_nil_r. auto.
Qed.

Lemma reset_due x : cut_on x ops outs -> exists code, given x code ops outs /\
  ((exists c', cn_step P (CnSendReset x true) c = Ok (CoSent (Some (SfReset x code (highest_sent x outs))), c')) \/
   on_the_way (SfReset x code (highest_sent x outs)) None ops outs).
Proof.
  intros hc. pose proof (rst_history _ _ _ _ _ hist) as H. destruct (tx_history _ _ _ _ _ hist) as (T & hsent & _).
  destruct (r_due _ _ _ H x hc) as [q|(code & fi & q)].
  - destruct (aget x (c_reset c)) as [[code fi]|] eqn:E; [|congruence]. exists code. split; [apply (r_src _ _ _ H x code fi); left; auto|]. left.
    assert (hs : cn_step P (CnSendReset x true) c = Ok (CoSent (Some (SfReset x code fi)), log (SfReset x code fi) (set_c_reset (adel x (c_reset c)) c))).
    { cbn [cn_step]. unfold cn_send_reset. rewrite E. reflexivity. }
    destruct (t_rst _ _ _ T x code fi (or_introl E)) as (s & f & he & _).
    assert (hx : 0 <= x). { apply (sh_pos _ _ _ _ _ (shape_history _ _ _ _ _ hist)). unfold known, sk. rewrite he. discriminate. }
    pose proof (history_step _ _ _ _ _ (CnSendReset x true) _ _ hist hx hs) as hist'.
    destruct (conn_reset _ _ _ _ _ hist' x code fi) as (_ & e & _).
    { rewrite sent_snoc. apply in_app_iff. right. left. auto. }
    rewrite highest_same in e by reflexivity. subst fi. eauto.
  - exists code. assert (hin : In (SfReset x code fi) (sent_frames outs)).
    { destruct q as (k & q & _). rewrite <- all_put_sent. apply (map_nth_error fst) in q. eapply nth_error_In. exact q. }
    split; [apply (r_src _ _ _ H x code fi); right; rewrite hsent; auto|]. right.
    destruct (conn_reset _ _ _ _ _ hist x code fi hin) as (_ & <- & _). auto.
Qed.

Lemma reset_code x code fi : In (SfReset x code fi) (sent_frames outs) -> given x code ops outs.
Proof.
  intros h. destruct (tx_history _ _ _ _ _ hist) as (T & hsent & _). apply (r_src _ _ _ (rst_history _ _ _ _ _ hist) x code fi). right. rewrite hsent. auto.
Qed.

Lemma stop_due x code : asked_stop x code ops outs ->
  q_stream_finished x c = true \/
  (exists c', cn_step P (CnSendStop x true) c = Ok (CoSent (Some (SfStop x code)), c')) \/
  on_the_way (SfStop x code) None ops outs.
Proof.
  intros ha. destruct (s_due _ _ _ (stp_history _ _ _ _ _ hist) x code ha) as [q|[q|q]]; auto.
  - left. eapply settled_finished; eauto.
  - right. left. cbn [cn_step]. unfold cn_send_stop. rewrite q. eauto.
Qed.
Lemma stop_code x code : In (SfStop x code) (sent_frames outs) -> asked_stop x code ops outs.
Proof.
  intros h. destruct (tx_history _ _ _ _ _ hist) as (T & hsent & _). apply (s_src _ _ _ (stp_history _ _ _ _ _ hist)). right. rewrite hsent. auto.
Qed.
Lemma stop_once x a b : asked_stop x a ops outs -> asked_stop x b ops outs -> a = b.
Proof. apply (s_uniq _ _ _ (stp_history _ _ _ _ _ hist)). Qed.

Lemma streams_due b : let m := advertised b i outs in
  m = first_local b i \/ on_the_way (SfMaxStreams b) (Some m) ops outs \/
  exists m' c', m <= m' /\ cn_step P (CnSendMaxStreams b true) c = Ok (CoMaxStreams b m', c').
Proof.
  cbv zeta. destruct (mxs_history _ _ b _ _ _ hist) as [q|[q|q]]; auto. right. right.
  pose proof (shape_history _ _ _ _ _ hist) as hsh. pose proof (sh_le _ _ _ _ _ hsh b) as h1. rewrite (sh_adv _ _ _ _ _ hsh b) in h1.
  exists (l_local_next (lim_of b c)). eexists. split; [exact h1|].
  cbn [cn_step]. unfold cn_send_max_streams. cbv zeta. fold (lim_of b c). rewrite q, orb_true_r. reflexivity.
Qed.

Lemma data_due now rtt : let m := told_data i outs in
  m = i_rx i \/ on_the_way SfMaxData (Some m) ops outs \/
  exists m' c', m <= m' /\ cn_step P (CnSendMaxData now rtt true) c = Ok (CoMaxData m', c').
Proof.
  cbv zeta. destruct (mxd_history _ _ _ _ _ hist) as (e & [q|[q|q]]); auto. right. right.
  pose proof (rx_hist _ _ _ _ _ hist) as hrx. pose proof (rx_offs _ _ _ _ _ _ hrx) as (_ & hle).
  pose proof (rx_due _ _ _ _ _ _ hrx (or_introl q)) as hdue. pose proof (rx_win _ _ _ _ _ _ hrx) as hw.
  cbn [cn_step]. unfold cn_send_max_data, fc_should_update. destruct (fc_max_data (c_fc c) <? fc_consumed (c_fc c)) eqn:E; [lia|]. cbn [bind]. cbv zeta.
  rewrite q, orb_true_r. cbn [andb]. eexists _, _. split; [|reflexivity]. cbn [fc_update_max_data fc_max_data]. rewrite <- e. unfold due, fc_max_data_next in *.
  destr_if; [|lia]. destruct (fc_autotune_spec now rtt (c_fc c) hw) as (a1 & a2 & a3 & _). lia.
Qed.

Lemma stream_data_due x m now rtt : told_on x outs = Some m ->
  over x c \/ on_the_way (SfMaxStreamData x) (Some m) ops outs \/
  exists m' c', m <= m' /\ cn_step P (CnSendMaxStreamData x now rtt true) c = Ok (CoMaxStreamData x m', c').
Proof.
  intros ht. destruct (mxsd_history _ _ _ _ _ hist x m ht) as (s & f & he & e & [q|[q|q]]); auto.
  - left. subst f. unfold over, collected. unfold ent in he. rewrite he. auto.
  - destruct f; [left; unfold over, collected; unfold ent in he; rewrite he; auto|]. right. right.
    pose proof (rx_hist _ _ _ _ _ hist) as hrx. destruct (rx_ent _ _ _ _ hrx he) as (hinv & hg).
    destruct (rx_sdue _ _ _ _ _ _ hrx x (or_introl q)) as (r & hr & hdue). rewrite hg in hr. injection hr as <-.
    cbn [cn_step]. unfold cn_send_max_stream_data. assert (hm : set_mem x (c_almost c) = true) by (apply existsb_exists; exists x; split; auto; lia).
    rewrite hm. cbn [negb]. assert (hget : cn_get x c = Some s) by (unfold cn_get; unfold ent in he; rewrite he; auto). rewrite hget.
    pose proof (i_consumed _ hinv) as k1. pose proof (RecvBufProofs2.i_off _ hinv) as k2. pose proof (i_limit _ hinv) as k3. pose proof (i_window _ hinv) as k4.
    assert (hf : exists full, rv_almost_full (st_recv s) = Ok full).
    { unfold rv_almost_full, fc_should_update. destruct (rv_fin_off (st_recv s)); [eauto|]. destruct (fc_max_data (rv_fc (st_recv s)) <? fc_consumed (rv_fc (st_recv s))) eqn:E; [lia|]. eauto. }
    destruct hf as (full & hf). rewrite hf. cbn [bind]. cbv zeta. eexists _, _. split; [|reflexivity]. unfold due, fc_max_data_next in *.
    destruct full; [|lia]. unfold rv_autotune, rv_set_fc. cbn. destruct (fc_autotune_spec now rtt (rv_fc (st_recv s)) k4) as (a1 & a2 & a3 & _). lia.
Qed.
End H.
