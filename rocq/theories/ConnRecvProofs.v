(** Connection-level receive flow control: invariant over every history. *)
Require Import Verif.Base Verif.Errors Verif.Assoc Verif.FlowControlModel Verif.RangeBufModel
  Verif.RangeBufProofs Verif.RecvBufModel Verif.RecvBufProofs Verif.RecvBufProofs2
  Verif.RecvSpec Verif.RecvBufProofs3 Verif.RecvBufProofs4 Verif.ConnRecvModel Verif.ConnRecvSpec.
From Coq Require Import Sorting.Sorted.

Definition len_of (e : recvbuf * bool) : Z := rv_len (fst e).
Definition off_of (e : recvbuf * bool) : Z := rv_off (fst e).
Definition len_at (s : Z) (m : list (Z * (recvbuf * bool))) : Z :=
  match aget s m with Some e => len_of e | None => 0 end.

Section Params.
Variable params : Z -> Z * Z * Z.
Hypothesis params_ok : forall s, let '(md, w, mw) := params s in 0 <= md /\ 0 <= w /\ 0 <= mw.
Variables (md0 mw0 : Z).
Hypotheses (hmd0 : 0 <= md0) (hmw0 : 0 <= mw0).

Record cr_hist (past : list (cr_op * cr_out)) (st : connrecv) : Prop := {
  c_nodup : NoDup (akeys (cr_streams st));
  c_inv : forall s e, In (s, e) (cr_streams st) -> rv_inv (fst e);
  c_sum : asum len_of (cr_streams st) <= cr_rx st;
  c_rx : cr_rx st <= fc_max_data (cr_fc st);
  c_cons : fc_consumed (cr_fc st) + asum len_of (cr_streams st) <=
           cr_rx st + asum off_of (cr_streams st);
  c_cons0 : 0 <= fc_consumed (cr_fc st);
  c_exact : Forall (fun ev => cr_not_empty (fst ev)) past -> cr_rx st = asum len_of (cr_streams st);
  c_window : 0 <= fc_window (cr_fc st) <= fc_max_window (cr_fc st);
  c_maxw : fc_max_window (cr_fc st) = mw0;
  c_minw : Z.min md0 mw0 <= fc_window (cr_fc st);
  c_committed : fc_last_update (cr_fc st) <> None \/ cr_pending st = true ->
                fc_max_data (cr_fc st) <= fc_max_data_next (cr_fc st);
  c_top : forall s, top s past = len_at s (cr_streams st);
  c_credit : fc_consumed (cr_fc st) = sum_of conn_credit (map snd past);
  c_limit : conn_limit md0 (map snd past) = fc_max_data (cr_fc st) }.

Lemma new_recv_inv s : rv_inv (new_recv params s).
Proof.
  unfold new_recv. specialize (params_ok s). destruct (params s) as [[md w] mw].
  apply rv_new_inv; tauto.
Qed.

Lemma new_recv_len s : rv_len (new_recv params s) = 0 /\ rv_off (new_recv params s) = 0.
Proof. unfold new_recv. destruct (params s) as [[md w] mw]. auto. Qed.

Lemma top_snoc s h ev : top s (h ++ [ev]) = Z.max (top s h) (Z.max (reach s ev) 0).
Proof. induction h as [|x h IH]; cbn [app top]; lia. Qed.

Lemma conn_limit_app i a b : conn_limit i (a ++ b) = conn_limit (conn_limit i a) b.
Proof. revert i; induction a as [|o a IH]; intros i; cbn; auto. destruct o as [| | |[l|]|]; auto. Qed.

Lemma off_le_len past st : cr_hist past st -> asum off_of (cr_streams st) <= asum len_of (cr_streams st).
Proof.
  intros H. apply asum_le. intros k v hin. pose proof (i_off _ (c_inv _ _ H k v hin)).
  unfold off_of, len_of. lia.
Qed.

(** A step that rewrites one open stream. *)
Lemma hist_put past st sid r r' rx f ev :
  cr_hist past st ->
  (cr_get sid st = Some r \/ cr_get_or_create params sid st = Some r) ->
  rv_inv r' ->
  let dl := rv_len r' - rv_len r in let dof := rv_off r' - rv_off r in
  cr_rx st <= rx -> 0 <= dl <= rx - cr_rx st ->
  rx <= fc_max_data f -> fc_max_data f = fc_max_data (cr_fc st) ->
  fc_consumed (cr_fc st) <= fc_consumed f ->
  fc_consumed f - fc_consumed (cr_fc st) + dl <= rx - cr_rx st + dof ->
  (cr_not_empty (fst ev) -> rx - cr_rx st = dl) ->
  fc_window (cr_fc st) <= fc_window f <= fc_max_window f -> fc_max_window f = fc_max_window (cr_fc st) ->
  fc_last_update f = fc_last_update (cr_fc st) ->
  (forall s, reach s ev <= (if sid =? s then rv_len r' else 0)) ->
  (0 < dl -> reach sid ev = rv_len r') ->
  fc_consumed f = fc_consumed (cr_fc st) + conn_credit (snd ev) ->
  (match snd ev with CoLimit (Some _) => False | _ => True end) ->
  cr_hist (past ++ [ev]) (cr_put sid r' rx f st).
Proof.
  intros H hget hr' dl dof h1 h2 h3 h4 h5 h6 h7 h8 h9 h10 h11 h12 h13 h14.
  assert (hold : len_at sid (cr_streams st) = rv_len r /\
     match aget sid (cr_streams st) with Some e => off_of e | None => 0 end = rv_off r /\
     0 <= rv_len r).
  { destruct hget as [hg|hg].
    - unfold cr_get in hg. unfold len_at. destruct (aget sid (cr_streams st)) as [[q b]|] eqn:E; [|discriminate].
      destruct b; [discriminate|]. inv hg. repeat split. pose proof (i_off _ (c_inv _ _ H _ _ (aget_in _ _ _ E))). cbn in *. lia.
    - unfold cr_get_or_create in hg. unfold len_at. destruct (aget sid (cr_streams st)) as [[q b]|] eqn:E.
      + destruct b; [discriminate|]. inv hg. repeat split. pose proof (i_off _ (c_inv _ _ H _ _ (aget_in _ _ _ E))). cbn in *. lia.
      + inv hg. destruct (new_recv_len sid) as (a & b). rewrite a, b. lia. }
  destruct hold as (hl & ho & hpos).
  assert (hsl : asum len_of (aset sid (r', false) (cr_streams st)) = asum len_of (cr_streams st) + dl).
  { rewrite asum_aset. unfold len_at in hl. rewrite hl. unfold len_of; cbn [fst]. lia. }
  assert (hso : asum off_of (aset sid (r', false) (cr_streams st)) = asum off_of (cr_streams st) + dof).
  { rewrite asum_aset. rewrite ho. unfold off_of; cbn [fst]. lia. }
  pose proof H as [q1 q2 q3 q4 q5 q6 q7 q8 q8b q8c q9 q10 q11 q12].
  constructor; unfold cr_put; cbn [cr_streams cr_rx cr_fc cr_pending]; rewrite ?hsl, ?hso; try lia.
  - apply nodup_aset; auto.
  - intros s e hin. apply in_aset in hin as [(-> & ->)|hin]; eauto.
  - intros hf. apply Forall_app in hf as (hf1 & hf2). inv hf2. rewrite q7 in * by auto.
    specialize (h7 H2). lia.
  - rewrite h10. intros hc. specialize (q9 hc). unfold fc_max_data_next in *. lia.
  - intros s. rewrite top_snoc, q10. unfold len_at. specialize (h11 s).
    destruct (sid =? s) eqn:E.
    + replace s with sid by lia. rewrite aget_aset_same. unfold len_at in hl. rewrite hl.
      unfold len_of; cbn [fst]. replace s with sid in h11 by lia.
      destruct (Z.eq_dec dl 0); [lia|]. rewrite h12 by lia. lia.
    + rewrite aget_aset_other by lia.
      assert (0 <= len_at s (cr_streams st)).
      { unfold len_at. destruct (aget s (cr_streams st)) eqn:Es; [|lia]. apply aget_in in Es.
        pose proof (i_off _ (q2 _ _ Es)). unfold len_of. lia. }
      unfold len_at in *. lia.
  - rewrite map_app, sum_of_app. cbn [map sum_of]. lia.
  - rewrite map_app, conn_limit_app, q12. cbn [map conn_limit].
    destruct (snd ev) as [| | |[l|]|]; try contradiction; lia.
Qed.

(** A step that leaves streams, [rx] and consumed alone. *)
Lemma hist_same past st ev f p :
  cr_hist past st -> (forall s, reach s ev = 0) -> conn_credit (snd ev) = 0 ->
  fc_consumed f = fc_consumed (cr_fc st) -> fc_max_data (cr_fc st) <= fc_max_data f ->
  fc_window (cr_fc st) <= fc_window f <= fc_max_window f -> fc_max_window f = fc_max_window (cr_fc st) ->
  (fc_last_update f <> None \/ p = true -> fc_max_data f <= fc_max_data_next f) ->
  fc_max_data f = match snd ev with CoLimit (Some l) => l | _ => fc_max_data (cr_fc st) end ->
  cr_hist (past ++ [ev]) (mkCR (cr_streams st) (cr_rx st) f p).
Proof.
  intros H h1 h2 h3 h4 h5 h6 h7 h8.
  pose proof H as [q1 q2 q3 q4 q5 q6 q7 q8 q8b q8c q9 q10 q11 q12].
  constructor; cbn [cr_streams cr_rx cr_fc cr_pending]; auto; try lia.
  - intros hf. apply Forall_app in hf as (hf1 & hf2). auto.
  - intros s. rewrite top_snoc, h1, q10.
    assert (0 <= len_at s (cr_streams st)); [|lia].
    unfold len_at. destruct (aget s (cr_streams st)) eqn:Es; [|lia]. apply aget_in in Es.
    pose proof (i_off _ (q2 _ _ Es)). unfold len_of. lia.
  - rewrite map_app, sum_of_app. cbn [map sum_of]. lia.
  - rewrite map_app, conn_limit_app, q12. cbn [map conn_limit].
    destruct (snd ev) as [| | |[l|]|]; lia.
Qed.

Lemma hist_id past st ev :
  cr_hist past st -> (forall s, reach s ev = 0) -> conn_credit (snd ev) = 0 ->
  match snd ev with CoLimit (Some _) => False | _ => True end ->
  cr_hist (past ++ [ev]) st.
Proof.
  intros H h1 h2 h3. pose proof (hist_same past st ev (cr_fc st) (cr_pending st) H h1 h2) as q.
  replace st with (mkCR (cr_streams st) (cr_rx st) (cr_fc st) (cr_pending st)) by (destruct st; auto).
  pose proof (c_window _ _ H). apply q; auto; try lia.
  - apply (c_committed _ _ H).
  - destruct (snd ev) as [| | |[l|]|]; tauto.
Qed.

Lemma get_inv past st sid r : cr_hist past st ->
  (cr_get sid st = Some r \/ cr_get_or_create params sid st = Some r) -> rv_inv r.
Proof.
  intros H [hg|hg]; unfold cr_get, cr_get_or_create in hg;
    destruct (aget sid (cr_streams st)) as [[q b]|] eqn:E; try discriminate; try (destruct b; [discriminate|]).
  - inv hg. apply (c_inv _ _ H _ _ (aget_in _ _ _ E)).
  - inv hg. apply (c_inv _ _ H _ _ (aget_in _ _ _ E)).
  - inv hg. apply new_recv_inv.
Qed.

Lemma fc_ensure_spec m f :
  0 <= fc_window f <= fc_max_window f ->
  let f' := fc_ensure_lower m f in
  fc_max_data f' = fc_max_data f /\ fc_consumed f' = fc_consumed f /\
  fc_window f <= fc_window f' <= fc_max_window f' /\ fc_max_window f' = fc_max_window f /\
  fc_last_update f' = fc_last_update f.
Proof.
  intros h. cbv zeta. unfold fc_ensure_lower. destr_if; cbn; repeat split; auto; lia.
Qed.

Lemma consumed_le_max past st : cr_hist past st -> fc_consumed (cr_fc st) <= cr_rx st.
Proof. intros H. pose proof (off_le_len _ _ H). pose proof (c_cons _ _ H). lia. Qed.

Lemma cr_step_hist past st op :
  cr_hist past st -> cr_op_ok op ->
  match cr_step params op st with
  | Ok (o, st') => cr_hist (past ++ [(op, o)]) st'
  | Err _ => True
  | Panic => False
  end.
Proof.
  intros H hok. pose proof (c_rx _ _ H) as hrx. pose proof (c_window _ _ H) as hwin.
  destruct op as [sid off data fin | sid code final | sid cap | sid | sid now rtt fits | now rtt fits | | sid];
    cbn [cr_step cr_op_ok] in *.
  - (* frame *)
    unfold cr_frame. replace (fc_max_data (cr_fc st) <? cr_rx st) with false by lia.
    destruct (cr_get_or_create params sid st) as [r|] eqn:Eg.
    2:{ apply hist_id; auto; cbn; auto. }
    destruct (rb_from_views data off fin) as (_ & _ & vM & _). rewrite vM.
    destr_if; auto.
    pose proof (get_inv _ _ _ _ H (or_intror Eg)) as hinv.
    pose proof (rv_write_spec data off fin r hinv hok) as W. cbv zeta in W.
    destruct (rv_write (rb_from data off fin) r) as [r'| |]; cbn [bind]; auto.
    destruct W as (winv & wd & we & wfc & wmax & wfo & wlen & wfin & wl & wnd & wdr).
    pose proof (zlen_nonneg data) as hz. pose proof (i_off _ hinv) as hro.
    set (delta := sat_sub (off + zlen data) (rv_len r)) in *.
    assert (hdelta : delta = Z.max 0 (off + zlen data - rv_len r)) by reflexivity.
    assert (hdl : rv_len r' - rv_len r = if touches data fin then delta else 0).
    { rewrite wl. destruct (touches data fin); lia. }
    assert (hdof : if rv_drain r then rv_off r' - rv_off r = rv_len r' - rv_len r else rv_off r' = rv_off r).
    { destruct (rv_drain r) eqn:Ed.
      - destruct (i_drain _ hinv Ed) as (_ & a). rewrite wdr by auto. lia.
      - apply wnd; auto. }
    assert (hfd : fc_consumed (if rv_drain r then fc_add_consumed delta (cr_fc st) else cr_fc st) =
                  fc_consumed (cr_fc st) + if rv_drain r then delta else 0).
    { destruct (rv_drain r); cbn; lia. }
    assert (hfm : forall g : flowctl -> Z, g (fc_add_consumed delta (cr_fc st)) = g (cr_fc st) ->
        g (if rv_drain r then fc_add_consumed delta (cr_fc st) else cr_fc st) = g (cr_fc st)).
    { intros g hg. destruct (rv_drain r); auto. }
    apply (hist_put past st sid r r' _ _ _ H (or_intror Eg) winv);
      cbn [fst snd cr_not_empty conn_credit out_credit].
    all: rewrite ?hfd; try rewrite (hfm fc_max_data) by reflexivity;
      try rewrite (hfm fc_window) by reflexivity; try rewrite (hfm fc_max_window) by reflexivity; try lia.
    + rewrite hdl. destruct (touches data fin); lia.
    + destruct (rv_drain r); rewrite hdl; rewrite ?hdl in hdof; destruct (touches data fin); lia.
    + intros hne. apply touches_iff in hne. rewrite hdl, hne. lia.
    + destruct (rv_drain r); reflexivity.
    + intros s. cbn [reach]. fold (touches data fin). destruct (sid =? s); cbn [andb]; [|lia].
      rewrite wl. destruct (touches data fin); [lia|lia].
    + intros hpos. cbn [reach]. fold (touches data fin). rewrite Z.eqb_refl. cbn [andb].
      rewrite hdl in hpos. rewrite wl. destruct (touches data fin); lia.
  - (* reset *)
    unfold cr_reset. replace (fc_max_data (cr_fc st) <? cr_rx st) with false by lia.
    destruct (cr_get_or_create params sid st) as [r|] eqn:Eg.
    2:{ apply hist_id; auto; cbn; auto. }
    pose proof (get_inv _ _ _ _ H (or_intror Eg)) as hinv.
    pose proof (rv_reset_spec code final r hinv hok) as W. pose proof (i_off _ hinv) as hro.
    destruct (rv_reset code final r) as [[ [d c] | e |] r']; auto.
    destr_if; auto.
    destruct W as (w1 & w2 & w3 & w4 & w5 & w6 & w7 & w8 & w9 & w10 & w11 & w12 & w13).
    apply (hist_put past st sid r r' _ _ _ H (or_intror Eg) w1);
      cbn [fst snd cr_not_empty conn_credit out_credit fc_add_consumed fc_consumed fc_max_data fc_window
           fc_max_window fc_last_update]; auto; try lia.
    + intros s. cbn [reach]. destruct (sid =? s); lia.
    + intros _. cbn [reach]. rewrite Z.eqb_refl. lia.
  - (* read *)
    unfold cr_read. destruct (cr_get sid st) as [r|] eqn:Eg.
    2:{ apply hist_id; auto; cbn; auto. }
    destruct (rv_ready r); cbn [negb]; [|apply hist_id; auto; cbn; auto].
    pose proof (get_inv _ _ _ _ H (or_introl Eg)) as hinv.
    pose proof (rv_emit_spec cap r hinv hok) as W.
    destruct (rv_emit cap r) as [[ [bytes f] | e |] r']; auto.
    + destruct W as (w1 & w2 & w3 & w4 & w5 & w6 & w7 & w8 & w9 & w10 & w11 & w12 & w13 & w14 & w15).
      pose proof (zlen_nonneg bytes).
      apply (hist_put past st sid r r' _ _ _ H (or_introl Eg) w4);
        cbn [fst snd cr_not_empty conn_credit out_credit fc_add_consumed fc_consumed fc_max_data fc_window
             fc_max_window fc_last_update]; auto; try lia.
      intros s. cbn [reach]. pose proof (i_off _ w4). destruct (sid =? s); lia.
    + destruct W as (w1 & w2 & w3 & w4 & w5 & w6 & w7 & w8).
      apply (hist_put past st sid r r' _ _ _ H (or_introl Eg) w1);
        cbn [fst snd cr_not_empty conn_credit out_credit]; auto; try lia.
      intros s. cbn [reach]. pose proof (i_off _ w1). destruct (sid =? s); lia.
  - (* shutdown *)
    unfold cr_shutdown. destruct (cr_get sid st) as [r|] eqn:Eg.
    2:{ apply hist_id; auto; cbn; auto. }
    pose proof (get_inv _ _ _ _ H (or_introl Eg)) as hinv.
    pose proof (rv_shutdown_spec r hinv) as W. pose proof (i_off _ hinv).
    destruct (rv_shutdown r) as [ [n r'] | e |]; auto.
    + destruct W as (w1 & w2 & w3 & w4 & w5 & w6 & w7 & w8 & w9 & w10).
      apply (hist_put past st sid r r' _ _ _ H (or_introl Eg) w1);
        cbn [fst snd cr_not_empty conn_credit out_credit fc_add_consumed fc_consumed fc_max_data fc_window
             fc_max_window fc_last_update]; auto; try lia.
      intros s. cbn [reach]. pose proof (i_off _ w1). destruct (sid =? s); lia.
    + apply hist_id; auto; cbn; auto.
  - (* stream limit *)
    unfold cr_stream_limit. destruct (cr_get sid st) as [r|] eqn:Eg.
    2:{ apply hist_id; auto; cbn; auto. }
    pose proof (get_inv _ _ _ _ H (or_introl Eg)) as hinv.
    pose proof (rv_limit_spec now rtt fits r hinv) as W.
    destruct (rv_limit now rtt fits r) as [ [l r'] | |]; cbn [bind]; auto.
    destruct W as (w1 & (f & ->) & w3 & w4 & w5 & w6).
    pose proof (fc_ensure_spec (fc_window (rv_fc (rv_set_fc f r)) * 3 / 2) (cr_fc st) hwin) as E. cbv zeta in E.
    pose proof (i_off _ hinv).
    apply (hist_put past st sid r (rv_set_fc f r) _ _ _ H (or_introl Eg) w1);
      cbn [rv_set_fc rv_len rv_off fst snd cr_not_empty conn_credit out_credit];
      auto; try (destruct l; try lia; try tauto).
    + intros s. cbn [reach]. destruct (sid =? s); lia.
    + intros s. cbn [reach]. destruct (sid =? s); lia.
  - (* conn limit *)
    unfold cr_limit, fc_should_update.
    pose proof (consumed_le_max _ _ H) as hcm.
    replace (fc_max_data (cr_fc st) <? fc_consumed (cr_fc st)) with false by lia. cbn [bind].
    set (organic := (fc_max_data (cr_fc st) - fc_consumed (cr_fc st) <? fc_window (cr_fc st) / 2) &&
                    (fc_max_data (cr_fc st) <? fc_max_data_next (cr_fc st))).
    set (f := if organic then fc_autotune now rtt (cr_fc st) else cr_fc st).
    assert (hf : fc_max_data f = fc_max_data (cr_fc st) /\ fc_consumed f = fc_consumed (cr_fc st) /\
       fc_window (cr_fc st) <= fc_window f <= fc_max_window f /\ fc_max_window f = fc_max_window (cr_fc st) /\
       fc_last_update f = fc_last_update (cr_fc st)).
    { unfold f. destruct organic; [|repeat split; lia]. apply fc_autotune_spec; auto. }
    destruct hf as (a1 & a2 & a3 & a4 & a5).
    assert (hcommit : organic || cr_pending st = true -> fc_max_data f <= fc_max_data_next f).
    { intros hp. destruct organic eqn:Eo.
      - unfold organic in Eo. unfold fc_max_data_next in *. lia.
      - cbn in hp. pose proof (c_committed _ _ H (or_intror hp)). unfold fc_max_data_next in *. lia. }
    destruct ((organic || cr_pending st) && fits) eqn:E.
    + apply andb_true_iff in E as (E & _). specialize (hcommit E).
      destruct (fc_update_committed now f) as (u1 & u2 & u3 & u4 & u5).
      apply hist_same; auto; cbn [snd]; try lia.
      intros _. unfold fc_max_data_next in *. lia.
    + apply hist_same; auto; cbn [snd]; try lia.
      intros [hp|hp]; [|auto].
      rewrite a5 in hp. pose proof (c_committed _ _ H (or_introl hp)). unfold fc_max_data_next in *. lia.
  - (* lost *)
    unfold cr_lost. destruct (fc_last_update (cr_fc st)) eqn:El.
    + apply hist_same; auto; cbn; auto; try lia.
      intros _. apply (c_committed _ _ H). left. congruence.
    + apply hist_id; auto; cbn; auto.
  - (* collect *)
    unfold cr_collect. destruct (cr_get sid st) as [r|] eqn:Eg.
    2:{ apply hist_id; auto; cbn; auto. }
    destr_if; [|apply hist_id; auto; cbn; auto].
    unfold cr_get in Eg. destruct (aget sid (cr_streams st)) as [[q b]|] eqn:Ea; [|discriminate].
    destruct b; [discriminate|]. inv Eg.
    pose proof H as [q1 q2 q3 q4 q5 q6 q7 q8 q8b q8c q9 q10 q11 q12].
    assert (hs : forall g, (forall a b b', g (a, b) = g (a, b')) ->
       asum g (aset sid (r, true) (cr_streams st)) = asum g (cr_streams st)).
    { intros g hg. rewrite asum_aset, Ea. rewrite (hg r true false). lia. }
    constructor; cbn [cr_streams cr_rx cr_fc cr_pending]; rewrite ?(hs len_of), ?(hs off_of) by reflexivity; auto.
    + apply nodup_aset; auto.
    + intros s e hin. apply in_aset in hin as [(-> & ->)|hin]; eauto. apply aget_in in Ea. apply (q2 _ _ Ea).
    + intros hf. apply Forall_app in hf as (hf1 & hf2). auto.
    + intros s. rewrite top_snoc, q10. cbn [reach]. unfold len_at.
      destruct (Z.eq_dec sid s) as [<-|hn].
      * rewrite aget_aset_same, Ea. pose proof (i_off _ (q2 _ _ (aget_in _ _ _ Ea))). unfold len_of; cbn in *. lia.
      * rewrite aget_aset_other by auto. destruct (aget s (cr_streams st)) eqn:Es; [|lia].
        pose proof (i_off _ (q2 _ _ (aget_in _ _ _ Es))). unfold len_of. lia.
    + rewrite map_app, sum_of_app. cbn. lia.
    + rewrite map_app, conn_limit_app. cbn. auto.
Qed.

Lemma cr_new_hist : cr_hist [] (cr_new md0 mw0).
Proof.
  constructor; cbn; try lia; try tauto; auto.
  - constructor.
  - intros [h|h]; congruence.
Qed.

Lemma cr_run_hist : forall ops past st,
  cr_hist past st -> Forall cr_op_ok ops ->
  match cr_run params ops st with
  | Ok (outs, st') => length outs = length ops /\ cr_hist (past ++ combine ops outs) st'
  | Err _ => True
  | Panic => False
  end.
Proof.
  induction ops as [|op ops IH]; intros past st H hok; cbn [cr_run].
  - cbn. rewrite app_nil_r. auto.
  - inv hok. pose proof (cr_step_hist past st op H H2) as S.
    destruct (cr_step params op st) as [ [o s1] | |]; cbn [bind]; auto.
    specialize (IH _ _ S H3). destruct (cr_run params ops s1) as [ [os s2] | |]; cbn [bind]; auto.
    destruct IH as (l & IH). split; [cbn; lia|]. rewrite <- app_assoc in IH. exact IH.
Qed.
End Params.
