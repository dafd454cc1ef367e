(** Flow control: limits are monotone and always grow again (C16, C17, C40). *)
Require Import Verif.Base Verif.Errors Verif.Assoc Verif.FlowControlModel Verif.RangeBufModel
  Verif.RangeBufProofs Verif.RecvBufModel Verif.RecvBufProofs Verif.RecvBufProofs2
  Verif.RecvSpec Verif.RecvBufProofs3 Verif.RecvBufProofs4 Verif.RecvBufProofs5
  Verif.ConnRecvModel Verif.ConnRecvSpec Verif.ConnRecvProofs.
From Coq Require Import Sorting.Sorted.

Lemma rv_step_window op st o st' :
  rv_inv st -> rv_op_ok op -> rv_step op st = Ok (o, st') -> fc_window (rv_fc st) <= fc_window (rv_fc st').
Proof.
  intros hinv hok hs. destruct op as [off data fin | cap | code final | | now rtt fits]; cbn [rv_step rv_op_ok] in *.
  - pose proof (rv_write_spec data off fin st hinv hok) as W. cbv zeta in W.
    destruct (rv_write _ st); cbn [bind] in hs; try discriminate. inv hs.
    destruct W as (_ & _ & _ & -> & _). lia.
  - pose proof (rv_emit_spec cap st hinv hok) as W.
    destruct (rv_emit cap st) as [[ [bytes f] | e |] s1]; try discriminate; inv hs.
    + destruct W as (_ & _ & _ & _ & _ & _ & _ & _ & _ & _ & -> & _). cbn; lia.
    + destruct W as (_ & _ & _ & -> & _). lia.
  - pose proof (rv_reset_spec code final st hinv hok) as W.
    destruct (rv_reset code final st) as [[ [d c] | e |] s1]; try discriminate; inv hs.
    destruct W as (_ & _ & -> & _). lia.
  - pose proof (rv_shutdown_spec st hinv) as W.
    destruct (rv_shutdown st) as [ [n s1] | e |]; try discriminate; inv hs; [|lia].
    destruct W as (_ & _ & _ & _ & _ & _ & _ & -> & _). lia.
  - pose proof (rv_limit_spec now rtt fits st hinv) as W.
    destruct (rv_limit now rtt fits st) as [ [l s1] | |]; cbn [bind] in hs; try discriminate. inv hs. lia.
Qed.

Lemma rv_run_window md : forall ops past pouts st outs st',
  rv_hist md past pouts st -> Forall rv_op_ok ops -> rv_run ops st = Ok (outs, st') ->
  fc_window (rv_fc st) <= fc_window (rv_fc st').
Proof.
  induction ops as [|op ops IH]; intros past pouts st outs st' H hok hr; cbn [rv_run] in hr.
  - inv hr. lia.
  - inv hok. destruct (rv_step op st) as [ [o s1] | |] eqn:Es; cbn [bind] in hr; try discriminate.
    destruct (rv_run ops s1) as [ [os s2] | |] eqn:Er; cbn [bind] in hr; try discriminate.
    inv hr. pose proof (rv_step_window _ _ _ _ (h_inv _ _ _ _ H) H2 Es).
    pose proof (rv_hist_step md past pouts st op o s1 H H2 Es) as H'.
    specialize (IH _ _ _ _ _ H' H3 Er). lia.
Qed.

Lemma stream_unblocked md w mw ops outs st now rtt :
  0 <= md -> 2 <= w -> 2 <= mw -> Forall rv_op_ok ops ->
  rv_run ops (rv_new md w mw) = Ok (outs, st) ->
  (forall op f, In op ops -> ~ final_size_of op f) ->
  zlen (read_bytes outs) = last_limit md outs -> 0 <= now -> 0 <= rtt ->
  exists l st', rv_step (RvLimit now rtt true) st = Ok (OLimit (Some l), st') /\
    last_limit md outs < l.
Proof.
  intros hmd hw hmw hok hr hfin heq hn ht.
  pose proof (run_hist md w mw hmd ltac:(lia) ltac:(lia) _ _ _ hok hr) as H.
  pose proof (rv_run_window md ops [] [] _ _ _ (rv_hist_new md w mw hmd ltac:(lia) ltac:(lia)) hok hr) as hwin.
  cbn [rv_new rv_fc fc_new fc_window] in hwin.
  pose proof (h_inv _ _ _ _ H) as hinv. pose proof (i_window _ hinv) as hiw.
  rewrite (h_limit _ _ _ _ H) in *. rewrite <- (h_consumed _ _ _ _ H) in heq.
  assert (hno : rv_fin_off st = None).
  { destruct (rv_fin_off st) eqn:E; auto. destruct (h_fin2 _ _ _ _ H _ E) as (op & i1 & i2).
    exfalso. apply (hfin op z); auto. }
  cbn [rv_step]. unfold rv_limit, rv_almost_full, fc_should_update. rewrite hno.
  replace (fc_max_data (rv_fc st) <? fc_consumed (rv_fc st)) with false by lia. cbn [bind].
  replace (fc_max_data (rv_fc st) - fc_consumed (rv_fc st) <? fc_window (rv_fc st) / 2) with true by lia.
  cbn [orb andb]. eexists _, _. split; [reflexivity|].
  unfold rv_update_max_data, rv_autotune. cbn [rv_fc rv_set_fc].
  destruct (fc_autotune_spec now rtt (rv_fc st) hiw) as (a1 & a2 & a3 & a4 & a5).
  destruct (fc_update_committed now (fc_autotune now rtt (rv_fc st))) as (u1 & _).
  rewrite u1. unfold fc_max_data_next. lia.
Qed.

Section Conn.
Variable params : Z -> Z * Z * Z.
Hypothesis params_ok : forall s, let '(md, w, mw) := params s in 0 <= md /\ 0 <= w /\ 0 <= mw.
Variables (md0 mw0 : Z).
Hypotheses (hmd0 : 0 <= md0) (hmw0 : 0 <= mw0).

Lemma conn_hist ops outs st :
  Forall cr_op_ok ops -> cr_run params ops (cr_new md0 mw0) = Ok (outs, st) ->
  cr_hist md0 mw0 (combine ops outs) st /\ length outs = length ops.
Proof.
  intros hok hr.
  pose proof (cr_run_hist params params_ok md0 mw0 ops [] _ (cr_new_hist params params_ok md0 mw0 hmd0 hmw0) hok) as H.
  rewrite hr in H. tauto.
Qed.

Lemma conn_no_panic ops : Forall cr_op_ok ops -> cr_run params ops (cr_new md0 mw0) <> Panic.
Proof.
  intros hok hr.
  pose proof (cr_run_hist params params_ok md0 mw0 ops [] _ (cr_new_hist params params_ok md0 mw0 hmd0 hmw0) hok) as H.
  rewrite hr in H. exact H.
Qed.

Lemma map_snd_combine {A B} (a : list A) (b : list B) : length b = length a -> map snd (combine a b) = b.
Proof. revert b; induction a as [|x a IH]; intros [|y b] h; cbn in *; try discriminate; auto. f_equal. auto. Qed.

Lemma sum_over_le : forall l (m : list (Z * (recvbuf * bool))),
  NoDup l -> NoDup (akeys m) -> (forall k v, In (k, v) m -> 0 <= len_of v) ->
  sum_over l (fun s => len_at s m) <= asum len_of m.
Proof.
  induction l as [|s l IH]; intros m hl hm hp; cbn [sum_over].
  - apply asum_nonneg; auto.
  - inv hl. specialize (IH (adel s m) H2 (nodup_adel s m hm)).
    rewrite asum_adel in IH by auto. fold (len_at s m) in IH.
    assert (heq : forall l0, ~ In s l0 -> sum_over l0 (fun s0 => len_at s0 (adel s m)) = sum_over l0 (fun s0 => len_at s0 m)).
    { induction l0 as [|x l0 IH0]; cbn [sum_over]; auto. intros hn. cbn in hn.
      rewrite IH0 by tauto. unfold len_at. rewrite aget_adel_other by (intros ->; tauto). reflexivity. }
    rewrite heq in IH by auto.
    assert (forall k v, In (k, v) (adel s m) -> 0 <= len_of v).
    { intros k v hin. apply filter_In in hin as (hin & _). eauto. }
    specialize (IH H). lia.
Qed.

Lemma conn_recv_limit ops outs st l :
  Forall cr_op_ok ops -> cr_run params ops (cr_new md0 mw0) = Ok (outs, st) -> NoDup l ->
  sum_over l (fun s => top s (combine ops outs)) <= conn_limit md0 outs.
Proof.
  intros hok hr hl. destruct (conn_hist _ _ _ hok hr) as (H & hlen).
  pose proof (c_limit _ _ _ _ H) as hlim. rewrite map_snd_combine in hlim by auto. rewrite hlim.
  transitivity (asum len_of (cr_streams st)).
  2:{ pose proof (c_sum _ _ _ _ H). pose proof (c_rx _ _ _ _ H). lia. }
  transitivity (sum_over l (fun s => len_at s (cr_streams st))).
  { apply Z.eq_le_incl. clear hl. induction l as [|s l IH]; cbn [sum_over]; auto.
    rewrite IH, (c_top _ _ _ _ H). reflexivity. }
  apply sum_over_le; auto.
  - apply (c_nodup _ _ _ _ H).
  - intros k v hin. pose proof (i_off _ (c_inv _ _ _ _ H k v hin)). unfold len_of. lia.
Qed.

(** The frame would take the total over [l] past the limit. *)
Lemma conn_recv_reject ops outs st l sid off data fin :
  Forall cr_op_ok ops -> cr_run params ops (cr_new md0 mw0) = Ok (outs, st) -> NoDup l -> ~ In sid l ->
  conn_limit md0 outs <
    sum_over l (fun s => top s (combine ops outs)) +
    Z.max (top sid (combine ops outs)) (off + zlen data) ->
  (exists r, cr_get_or_create params sid st = Some r) ->
  cr_step params (CrFrame sid off data fin) st = Err FlowControlE.
Proof.
  intros hok hr hl hs hover (r & hg). destruct (conn_hist _ _ _ hok hr) as (H & hlen).
  pose proof (conn_recv_limit ops outs st (sid :: l) hok hr ltac:(constructor; auto)) as hbase.
  cbn [sum_over] in hbase.
  pose proof (c_limit _ _ _ _ H) as hlim. rewrite map_snd_combine in hlim by auto. rewrite hlim in *.
  cbn [cr_step]. unfold cr_frame.
  pose proof (c_rx _ _ _ _ H). replace (fc_max_data (cr_fc st) <? cr_rx st) with false by lia.
  rewrite hg. destruct (rb_from_views data off fin) as (_ & _ & -> & _).
  rewrite (c_top _ _ _ _ H sid) in *.
  assert (hr' : len_at sid (cr_streams st) = rv_len r).
  { unfold cr_get_or_create in hg. unfold len_at. destruct (aget sid (cr_streams st)) as [[q b]|].
    - destruct b; [discriminate|]. inv hg. reflexivity.
    - inv hg. symmetry. apply (new_recv_len params). }
  rewrite hr' in *.
  assert (hsum : sum_over l (fun s => top s (combine ops outs)) + rv_len r <= cr_rx st).
  { transitivity (asum len_of (cr_streams st)); [|apply (c_sum _ _ _ _ H)].
    transitivity (sum_over (sid :: l) (fun s => len_at s (cr_streams st))).
    { cbn [sum_over]. rewrite hr'. assert (sum_over l (fun s => top s (combine ops outs)) = sum_over l (fun s => len_at s (cr_streams st))); [|lia].
      clear -H. induction l as [|s l IH]; cbn [sum_over]; auto. rewrite IH, (c_top _ _ _ _ H). reflexivity. }
    apply sum_over_le; [constructor; auto|apply (c_nodup _ _ _ _ H)|].
    intros k v hin. pose proof (i_off _ (c_inv _ _ _ _ H k v hin)). unfold len_of. lia. }
  replace (fc_max_data (cr_fc st) - cr_rx st <? sat_sub (off + zlen data) (rv_len r)) with true; auto.
  unfold sat_sub. lia.
Qed.

Lemma conn_limits_sorted : forall ops past st outs st',
  cr_hist md0 mw0 past st -> Forall cr_op_ok ops -> cr_run params ops st = Ok (outs, st') ->
  Sorted Z.le (conn_limit md0 (map snd past) :: conn_limits outs).
Proof.
  induction ops as [|op ops IH]; intros past st outs st' H hok hr; cbn [cr_run] in hr.
  - inv hr. constructor; constructor.
  - inv hok. pose proof (cr_step_hist params params_ok md0 mw0 past st op H H2) as S.
    destruct (cr_step params op st) as [ [o s1] | |] eqn:Es; cbn [bind] in hr; try discriminate.
    destruct (cr_run params ops s1) as [ [os s2] | |] eqn:Er; cbn [bind] in hr; try discriminate.
    inv hr. specialize (IH _ _ _ _ S H3 Er).
    rewrite map_app, conn_limit_app in IH.
    destruct o as [| | |[l|]|]; cbn [map snd conn_limit conn_limits] in *; auto.
    constructor; auto. constructor.
    pose proof (c_limit _ _ _ _ S) as q. rewrite map_app, conn_limit_app in q. cbn in q.
    rewrite (c_limit _ _ _ _ H), q.
    destruct op as [sid off data fin | sid code final | sid cap | sid | sid now rtt fits | now rtt fits | | sid];
      cbn [cr_step] in Es; unfold cr_frame, cr_reset, cr_read, cr_shutdown, cr_stream_limit, cr_lost, cr_collect in Es;
      try solve [repeat match goal with
                 | E : bind ?x _ = _ |- _ => destruct x; cbn [bind] in E
                 | E : (let '(_, _) := ?x in _) = _ |- _ => destruct x
                 | E : match ?x with _ => _ end = _ |- _ => destruct x
                 end; discriminate].
    unfold cr_limit, fc_should_update in Es.
    pose proof (consumed_le_max params params_ok _ _ _ _ H) as hcm. pose proof (c_rx _ _ _ _ H).
    replace (fc_max_data (cr_fc st) <? fc_consumed (cr_fc st)) with false in Es by lia. cbn [bind] in Es.
    set (organic := (fc_max_data (cr_fc st) - fc_consumed (cr_fc st) <? fc_window (cr_fc st) / 2) &&
                    (fc_max_data (cr_fc st) <? fc_max_data_next (cr_fc st))) in *.
    destruct ((organic || cr_pending st) && fits) eqn:E; [|discriminate].
    inv Es. cbn [cr_fc]. apply andb_true_iff in E as (E & _).
    destruct (fc_update_committed now (if organic then fc_autotune now rtt (cr_fc st) else cr_fc st)) as (u1 & _).
    rewrite u1. unfold fc_max_data_next.
    pose proof (fc_autotune_spec now rtt (cr_fc st) (c_window _ _ _ _ H)) as (a1 & a2 & a3 & a4 & a5).
    destruct organic eqn:Eo.
    + unfold organic, fc_max_data_next in Eo. lia.
    + cbn in E. pose proof (c_committed _ _ _ _ H (or_intror E)). unfold fc_max_data_next in *. lia.
Qed.

Lemma conn_unblocked ops outs st now rtt :
  2 <= md0 -> 2 <= mw0 ->
  Forall cr_op_ok ops -> cr_run params ops (cr_new md0 mw0) = Ok (outs, st) ->
  sum_of conn_credit outs = conn_limit md0 outs -> 0 <= now -> 0 <= rtt ->
  exists l st', cr_step params (CrLimit now rtt true) st = Ok (CoLimit (Some l), st') /\
    conn_limit md0 outs < l.
Proof.
  intros h2 h3 hok hr heq hn ht. destruct (conn_hist _ _ _ hok hr) as (H & hlen).
  pose proof (c_limit _ _ _ _ H) as hlim. rewrite map_snd_combine in hlim by auto. rewrite hlim in *.
  pose proof (c_credit _ _ _ _ H) as hcr. rewrite map_snd_combine in hcr by auto. rewrite <- hcr in heq.
  pose proof (c_minw _ _ _ _ H). pose proof (c_window _ _ _ _ H) as hw.
  cbn [cr_step]. unfold cr_limit, fc_should_update.
  replace (fc_max_data (cr_fc st) <? fc_consumed (cr_fc st)) with false by lia. cbn [bind].
  replace (fc_max_data (cr_fc st) - fc_consumed (cr_fc st) <? fc_window (cr_fc st) / 2) with true by lia.
  replace (fc_max_data (cr_fc st) <? fc_max_data_next (cr_fc st)) with true
    by (unfold fc_max_data_next; lia).
  cbn [orb andb]. eexists _, _. split; [reflexivity|].
  destruct (fc_autotune_spec now rtt (cr_fc st) hw) as (a1 & a2 & a3 & a4 & a5).
  destruct (fc_update_committed now (fc_autotune now rtt (cr_fc st))) as (u1 & _).
  rewrite u1. unfold fc_max_data_next. lia.
Qed.

Lemma conn_windows ops outs st :
  Forall cr_op_ok ops -> cr_run params ops (cr_new md0 mw0) = Ok (outs, st) ->
  fc_window (cr_fc st) <= mw0 /\ fc_consumed (cr_fc st) <= conn_limit md0 outs.
Proof.
  intros hok hr. destruct (conn_hist _ _ _ hok hr) as (H & hlen).
  pose proof (c_limit _ _ _ _ H) as hlim. rewrite map_snd_combine in hlim by auto. rewrite hlim in *.
  pose proof (c_window _ _ _ _ H). pose proof (c_maxw _ _ _ _ H). pose proof (consumed_le_max params params_ok _ _ _ _ H).
  pose proof (c_rx _ _ _ _ H). lia.
Qed.

(** With no empty frames the received count is exact. *)
Lemma conn_rx_exact ops outs st l :
  Forall cr_op_ok ops -> Forall cr_not_empty ops ->
  cr_run params ops (cr_new md0 mw0) = Ok (outs, st) ->
  NoDup l -> (forall s, top s (combine ops outs) <> 0 -> In s l) ->
  cr_rx st = sum_over l (fun s => top s (combine ops outs)).
Proof.
  intros hok hne hr hl hall. destruct (conn_hist _ _ _ hok hr) as (H & hlen).
  assert (hp : forall k v, In (k, v) (cr_streams st) -> 0 <= len_of v).
  { intros k v hin. pose proof (i_off _ (c_inv _ _ _ _ H k v hin)). unfold len_of. lia. }
  rewrite (c_exact _ _ _ _ H).
  2:{ clear -hne hlen. revert outs hlen. induction hne as [|op ops h1 h2 IH]; intros [|o outs] hl; cbn in *; auto; try discriminate.
      }
  assert (heq : forall l0, sum_over l0 (fun s => top s (combine ops outs)) = sum_over l0 (fun s => len_at s (cr_streams st))).
  { induction l0 as [|s l0 IH]; cbn [sum_over]; auto. rewrite IH, (c_top _ _ _ _ H). reflexivity. }
  rewrite heq. assert (hall' : forall s, len_at s (cr_streams st) <> 0 -> In s l).
  { intros s hs. apply hall. rewrite (c_top _ _ _ _ H). exact hs. }
  pose proof (c_nodup _ _ _ _ H) as hnd. clear -hl hall' hnd hp.
  revert l hl hall'. induction (cr_streams st) as [|[k v] m IH]; intros l hl hall.
  - cbn [asum]. clear. induction l as [|s l IH]; cbn [sum_over]; auto.
  - cbn [asum]. inv hnd. assert (hpm : forall k0 v0, In (k0, v0) m -> 0 <= len_of v0) by (intros; eapply hp; right; eauto).
    specialize (IH hpm H2).
    assert (hk : len_at k m = 0).
    { unfold len_at. destruct (aget k m) eqn:E; auto. exfalso. apply H1. apply (aget_in_key _ _ _ E). }
    assert (hsplit : sum_over l (fun s => len_at s ((k, v) :: m)) =
       (if in_dec Z.eq_dec k l then len_of v else 0) + sum_over l (fun s => len_at s m)).
    { clear -hl hk. induction l as [|s l IH]; cbn [sum_over].
      - destruct (in_dec Z.eq_dec k []) as [[]|]; lia.
      - inv hl. rewrite (IH H2). unfold len_at at 1. cbn [aget].
        destruct (in_dec Z.eq_dec k l) as [i|i]; destruct (in_dec Z.eq_dec k (s :: l)) as [j|j].
        + destruct (s =? k) eqn:E; [exfalso; apply H1; replace s with k by lia; auto|]. fold (len_at s m). lia.
        + exfalso. apply j. right; auto.
        + destruct j as [j|j]; [|tauto]. subst s. rewrite Z.eqb_refl. lia.
        + destruct (s =? k) eqn:E; [exfalso; apply j; left; lia|]. fold (len_at s m). lia. }
    rewrite hsplit. rewrite IH with (l := l); auto.
    + destruct (in_dec Z.eq_dec k l) as [i|i]; [lia|].
      destruct (Z.eq_dec (len_of v) 0); [lia|]. exfalso. apply i. apply hall. unfold len_at. cbn. rewrite Z.eqb_refl. auto.
    + intros s hs. apply hall. unfold len_at in *. cbn [aget]. destruct (s =? k) eqn:E; auto.
      exfalso. apply hs. replace s with k by lia. exact hk.
Qed.
End Conn.
