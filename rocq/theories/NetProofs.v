(** The invariant of a sender and a receiver joined by a network. *)
Require Import Verif.Base Verif.Errors Verif.FlowControlModel Verif.RecvBufModel Verif.RecvBufProofs2
  Verif.RecvSpec Verif.RecvBufProofs4 Verif.RecvBufProofs5 Verif.SendBufModel Verif.SendBufProofs
  Verif.SendBufProofs2 Verif.SendSpec Verif.SendProofs Verif.SendProofs3 Verif.SendProofs5
  Verif.NetModel.
From Coq Require Import Sorting.Sorted.

Definition to_recv (f : sframe) : rv_op := RvFrame (sf_off f) (sf_bytes f) (sf_fin f).

Record Net (md w mw : Z) (n : net) : Prop := {
  t_sok : Forall sn_op_ok (n_sops n);
  t_srun : sn_run (n_sops n) (sn_new md) = Ok (n_souts n, n_snd n);
  t_rok : Forall rv_op_ok (n_rops n);
  t_rrun : rv_run (n_rops n) (rv_new md w mw) = Ok (n_routs n, n_rcv n);
  t_frame : forall off d fin, In (RvFrame off d fin) (n_rops n) ->
    In (mkFrame off d fin) (frames (n_souts n));
  t_reset : forall c final, In (RvReset c final) (n_rops n) -> In final (resets (n_souts n));
  t_lim : forall m, In (SnMaxData m) (n_sops n) -> In m (limits (n_routs n));
  t_got : forall i, In i (n_got n) ->
    exists f, nth_error (frames (n_souts n)) i = Some f /\ In (to_recv f) (n_rops n);
  t_ack : forall i, In (SnAck i) (n_sops n) -> In i (n_got n) }.

Lemma resets_app a b : resets (a ++ b) = resets a ++ resets b.
Proof.
  induction a as [|o a IH]; [reflexivity|]. cbn [app resets]. rewrite IH.
  destruct o as [| |[ [] | ]|]; reflexivity.
Qed.

Lemma limits_app a b : limits (a ++ b) = limits a ++ limits b.
Proof.
  induction a as [|o a IH]; [reflexivity|]. cbn [app limits]. rewrite IH.
  destruct o as [| | | |[]]; reflexivity.
Qed.

Lemma in_resets outs final : In final (resets outs) <-> exists u, In (SoReset (Some (final, u))) outs.
Proof.
  induction outs as [|o outs IH]; cbn [resets].
  - split; [intros []|intros (u & [])].
  - assert (k : In final (resets outs) <-> exists u, In (SoReset (Some (final, u))) outs) by exact IH.
    destruct o as [| |[[f u]|]|]; cbn [In]; rewrite k; clear IH k; split.
    all: try (intros (v & h); exists v; auto; fail).
    all: try (intros (v & [h|h]); [discriminate|exists v; auto]; fail).
    + intros [<-|(v & h)]; [exists u|exists v]; auto.
    + intros (v & [h|h]); [injection h as -> ->; auto|right; eauto].
Qed.

Lemma last_limit_max outs : forall i, Sorted Z.le (i :: limits outs) ->
  i <= last_limit i outs /\ forall m, In m (limits outs) -> m <= last_limit i outs.
Proof.
  induction outs as [|o outs IH]; intros i hs; cbn [limits last_limit] in *.
  - split; [lia|intros m []].
  - destruct o as [| | | |[l|]]; try (apply IH; assumption).
    inv hs. inv H2. destruct (IH l H1) as (a & b). split; [lia|].
    intros m [<-|h]; auto.
Qed.

Lemma limit_le B ops : forall md, md <= B -> (forall m, In (SnMaxData m) ops -> m <= B) ->
  limit md ops <= B.
Proof.
  induction ops as [|op ops IH]; intros md h1 h2; cbn [limit]; [auto|].
  assert (k : forall m, In (SnMaxData m) ops -> m <= B) by (intros m h; apply h2; right; auto).
  destruct op; try (apply IH; solve [auto]). apply IH; auto. pose proof (h2 m (or_introl eq_refl)). lia.
Qed.

Lemma sn_run_snoc ops st outs s op o s' :
  sn_run ops st = Ok (outs, s) -> sn_step op s = Ok (o, s') ->
  sn_run (ops ++ [op]) st = Ok (outs ++ [o], s').
Proof. intros h1 h2. rewrite sn_run_app, h1. cbn [bind sn_run]. rewrite h2. reflexivity. Qed.

Lemma rv_run_snoc ops st outs s op o s' :
  rv_run ops st = Ok (outs, s) -> rv_step op s = Ok (o, s') ->
  rv_run (ops ++ [op]) st = Ok (outs ++ [o], s').
Proof. intros h1 h2. rewrite rv_run_app, h1. cbn [bind rv_run]. rewrite h2. reflexivity. Qed.

Section Fixed.
Context (md w mw : Z) (hmd : 0 <= md <= max_varint) (hw : 0 <= w) (hmw : 0 <= mw).
Let hmd0 : 0 <= md := proj1 hmd.

Lemma net_limit n : Net md w mw n -> limit md (n_sops n) <= last_limit md (n_routs n).
Proof.
  intros h.
  pose proof (limits_sorted md (n_rops n) [] [] _ _ _ (rv_hist_new md w mw hmd0 hw hmw) (t_rok _ _ _ _ h) (t_rrun _ _ _ _ h)) as hs.
  cbn [last_limit] in hs. destruct (last_limit_max _ _ hs) as (a & b).
  apply limit_le; auto. intros m hm. apply b, (t_lim _ _ _ _ h), hm.
Qed.

(** Every byte the receiver was given lies where the sender put it. *)
Lemma net_used n op u : Net md w mw n -> In op (n_rops n) -> uses_up_to op u ->
  match op with
  | RvFrame off d fin => In (mkFrame off d fin) (frames (n_souts n)) /\ u = frame_end (mkFrame off d fin)
  | RvReset _ f => u = f /\ exists c, In (SoReset (Some (f, c))) (n_souts n)
  | _ => False
  end.
Proof.
  intros h hi hu. destruct op; cbn [uses_up_to] in hu; try contradiction.
  - destruct hu as (-> & _). split; [apply (t_frame _ _ _ _ h); auto|reflexivity].
  - subst u. split; auto. apply in_resets. eapply t_reset; eauto.
Qed.

Lemma net_final n op f : Net md w mw n -> In op (n_rops n) -> final_size_of op f ->
  match op with
  | RvFrame off d fin => fin = true /\ In (mkFrame off d true) (frames (n_souts n)) /\ f = frame_end (mkFrame off d true)
  | RvReset _ g => f = g /\ exists c, In (SoReset (Some (g, c))) (n_souts n)
  | _ => False
  end.
Proof.
  intros h hi hu. destruct op; cbn [final_size_of] in hu; try contradiction.
  - destruct fin; [|contradiction]. subst f. split; auto. split; [apply (t_frame _ _ _ _ h); auto|reflexivity].
  - subst f. split; auto. apply in_resets. eapply t_reset; eauto.
Qed.

Lemma accept_frame n f : Net md w mw n -> In f (frames (n_souts n)) ->
  exists o r, rv_step (to_recv f) (n_rcv n) = Ok (o, r).
Proof.
  intros h hi. pose proof (t_sok _ _ _ _ h) as h2. pose proof (t_srun _ _ _ _ h) as h3.
  destruct (send_frames md hmd _ _ _ h2 h3 f hi) as (q1 & q2 & _).
  destruct (send_limit md hmd _ _ _ h2 h3) as (_ & q4). specialize (q4 f hi).
  destruct (send_one_final_size md hmd _ _ _ h2 h3) as (s1 & s2 & s3).
  pose proof (net_limit n h) as hl.
  destruct (recv_frame_accepted md w mw hmd0 hw hmw _ _ _ (sf_off f) (sf_bytes f) (sf_fin f)
    (t_rok _ _ _ _ h) (t_rrun _ _ _ _ h) q1) as (_ & k).
  cbv zeta in k. fold (frame_end f) in k. destruct (k ltac:(lia)) as (k1 & _). apply k1. clear k k1. split.
  - intros op g ho hg. pose proof (net_final n op g h ho hg) as nf. destruct op; try contradiction.
    + destruct nf as (-> & nf & ->). split; [apply (s1 _ _ nf hi eq_refl)|].
      intros hf. apply Z.le_antisymm; [apply (s1 _ _ nf hi eq_refl)|apply (s1 _ _ hi nf hf)].
    + destruct nf as (-> & c & nf). apply (s2 _ _ _ nf hi).
  - intros hf op u ho hu. pose proof (net_used n op u h ho hu) as nf. destruct op; try contradiction.
    + destruct nf as (nf & ->). apply (s1 _ _ hi nf hf).
    + destruct nf as (-> & c & nf). destruct (s2 _ _ _ nf hi) as (_ & e). rewrite e; auto. lia.
Qed.

Lemma reset_below n final : Net md w mw n -> In final (resets (n_souts n)) ->
  0 <= final <= limit md (n_sops n).
Proof.
  intros h hi. apply in_resets in hi as (u & hi).
  pose proof (hist_of md _ _ _ hmd (t_sok _ _ _ _ h) (t_srun _ _ _ _ h)) as H.
  destruct (h_rfin _ _ _ _ H _ _ hi) as (_ & e). pose proof (h_wlim _ _ _ _ H).
  pose proof (SendBufProofs3.i_off _ _ (h_sb _ _ _ _ H)). pose proof (SendBufProofs3.i_emit _ _ (h_sb _ _ _ _ H)). lia.
Qed.

Lemma accept_reset n code final : Net md w mw n -> In final (resets (n_souts n)) ->
  exists o r, rv_step (RvReset code final) (n_rcv n) = Ok (o, r).
Proof.
  intros h hi. pose proof (reset_below n final h hi) as hb. pose proof (net_limit n h) as hl.
  apply in_resets in hi as (c0 & hi).
  destruct (send_one_final_size md hmd _ _ _ (t_sok _ _ _ _ h) (t_srun _ _ _ _ h)) as (s1 & s2 & s3).
  destruct (recv_reset_accepted md w mw hmd0 hw hmw _ _ _ code final (t_rok _ _ _ _ h) (t_rrun _ _ _ _ h) (proj1 hb)) as (k & _).
  apply k; [|lia]. clear k. split.
  - intros op g ho hg. pose proof (net_final n op g h ho hg) as nf. destruct op; try contradiction.
    + destruct nf as (-> & nf & ->). symmetry. apply (s2 _ _ _ hi nf). reflexivity.
    + destruct nf as (-> & c & nf). apply (s3 _ _ _ _ hi nf).
  - intros op g ho hg. pose proof (net_used n op g h ho hg) as nf. destruct op; try contradiction.
    + destruct nf as (nf & ->). apply (s2 _ _ _ hi nf).
    + destruct nf as (-> & c & nf). rewrite (s3 _ _ _ _ hi nf). lia.
Qed.

Lemma net_sender n op : Net md w mw n -> sn_op_ok op ->
  (forall m, op = SnMaxData m -> In m (limits (n_routs n))) ->
  (forall i, op = SnAck i -> In i (n_got n)) ->
  exists n' o, nt_sender op n = Ok n' /\ Net md w mw n' /\
    n_sops n' = n_sops n ++ [op] /\ n_souts n' = n_souts n ++ [o] /\
    sn_step op (n_snd n) = Ok (o, n_snd n') /\
    n_rcv n' = n_rcv n /\ n_rops n' = n_rops n /\ n_routs n' = n_routs n /\ n_got n' = n_got n.
Proof.
  intros h hok hm ha. pose proof (hist_of md _ _ _ hmd (t_sok _ _ _ _ h) (t_srun _ _ _ _ h)) as H.
  destruct (hist_step md _ _ _ op H hok) as (o & s & k & _). unfold nt_sender. rewrite k. cbn [bind].
  eexists _, o. split; [reflexivity|]. cbn [n_sops n_souts n_rops n_routs n_snd n_rcv n_got]. split; [|ands; auto].
  constructor; cbn [n_sops n_souts n_rops n_routs n_snd n_rcv n_got].
  - apply Forall_app. split; [apply h|auto].
  - eapply sn_run_snoc; [apply h|exact k].
  - apply h.
  - apply h.
  - intros off d fin hi. rewrite frames_app. apply in_app_iff. left. eapply t_frame; eauto.
  - intros c f hi. rewrite resets_app. apply in_app_iff. left. eapply t_reset; eauto.
  - intros m hi. apply in_app_iff in hi as [hi|[hi|[]]]; [eapply t_lim; eauto|auto].
  - intros i hi. destruct (t_got _ _ _ _ h i hi) as (f & q1 & q2). exists f. split; auto.
    rewrite frames_app, nth_error_app1; auto. apply nth_error_Some. congruence.
  - intros i hi. apply in_app_iff in hi as [hi|[hi|[]]]; [eapply t_ack; eauto|auto].
Qed.

Lemma net_receiver n op got : Net md w mw n -> rv_op_ok op ->
  (exists o r, rv_step op (n_rcv n) = Ok (o, r)) ->
  (forall off d fin, op = RvFrame off d fin -> In (mkFrame off d fin) (frames (n_souts n))) ->
  (forall c f, op = RvReset c f -> In f (resets (n_souts n))) ->
  (forall i, In i got -> exists f, nth_error (frames (n_souts n)) i = Some f /\ op = to_recv f) ->
  exists n' o, nt_receiver op got n = Ok n' /\ Net md w mw n' /\
    n_sops n' = n_sops n /\ n_souts n' = n_souts n /\ n_snd n' = n_snd n /\
    rv_step op (n_rcv n) = Ok (o, n_rcv n') /\
    n_rops n' = n_rops n ++ [op] /\ n_routs n' = n_routs n ++ [o] /\ n_got n' = n_got n ++ got.
Proof.
  intros h hok (o & r & k) hf hr hg. unfold nt_receiver. rewrite k. cbn [bind].
  eexists _, o. split; [reflexivity|]. cbn [n_sops n_souts n_rops n_routs n_snd n_rcv n_got]. split; [|ands; auto].
  constructor; cbn [n_sops n_souts n_rops n_routs n_snd n_rcv n_got].
  - apply h.
  - apply h.
  - apply Forall_app. split; [apply h|auto].
  - eapply rv_run_snoc; [apply h|exact k].
  - intros off d fin hi. apply in_app_iff in hi as [hi|[hi|[]]]; [eapply t_frame; eauto|auto].
  - intros c f hi. apply in_app_iff in hi as [hi|[hi|[]]]; [eapply t_reset; eauto|eauto].
  - intros m hi. rewrite limits_app. apply in_app_iff. left. eapply t_lim; eauto.
  - intros i hi. apply in_app_iff in hi as [hi|hi].
    + destruct (t_got _ _ _ _ h i hi) as (f & q1 & q2). exists f. split; auto. apply in_app_iff. auto.
    + destruct (hg i hi) as (f & q1 & ->). exists f. split; auto. apply in_app_iff. cbn. auto.
  - intros i hi. apply in_app_iff. left. eapply t_ack; eauto.
Qed.

Lemma quiet_recv n op : Net md w mw n -> rv_op_ok op ->
  (forall off d fin, op <> RvFrame off d fin) -> (forall c f, op <> RvReset c f) ->
  exists o r, rv_step op (n_rcv n) = Ok (o, r).
Proof.
  intros h hok n1 n2.
  pose proof (run_hist md w mw hmd0 hw hmw _ _ _ (t_rok _ _ _ _ h) (t_rrun _ _ _ _ h)) as H.
  pose proof (rv_step_no_panic op (n_rcv n) (h_inv _ _ _ _ H) hok) as np.
  destruct op as [off data fin|cap|code final| |now rtt fits]; cbn [rv_step] in *.
  - exfalso. eapply n1; eauto.
  - destruct (rv_emit cap (n_rcv n)) as [[ | |] s]; eauto. congruence.
  - exfalso. eapply n2; eauto.
  - destruct (rv_shutdown (n_rcv n)) as [[] | |]; eauto. congruence.
  - pose proof (RecvBufProofs3.rv_limit_spec now rtt fits (n_rcv n) (h_inv _ _ _ _ H)) as W.
    destruct (rv_limit now rtt fits (n_rcv n)) as [[] | |]; try contradiction. cbn [bind]. eauto.
Qed.

Lemma net_step n op : Net md w mw n -> nt_op_ok op ->
  exists n', nt_step op n = Ok n' /\ Net md w mw n'.
Proof.
  intros h hok. destruct op as [op|op|i|i code|i|i]; cbn [nt_step].
  - destruct (net_sender n op h) as (n' & o & k1 & k2 & _); [| | |eauto].
    + destruct op; cbn in *; tauto.
    + intros m ->. cbn in hok. tauto.
    + intros m ->. cbn in hok. tauto.
  - assert (h1 : forall off d fin, op <> RvFrame off d fin) by (intros ? ? ? ->; cbn in hok; tauto).
    assert (h2 : forall c f, op <> RvReset c f) by (intros ? ? ->; cbn in hok; tauto).
    assert (h3 : rv_op_ok op) by (destruct op; cbn in *; tauto).
    destruct (net_receiver n op [] h h3) as (n' & o & k1 & k2 & _); [| | | |eauto].
    + apply (quiet_recv n op h h3 h1 h2).
    + intros. exfalso. eapply h1; eauto.
    + intros. exfalso. eapply h2; eauto.
    + intros i [].
  - destruct (nth_error (frames (n_souts n)) i) as [f|] eqn:E; [|eauto].
    pose proof (nth_error_In _ _ E) as hi.
    destruct (send_frames md hmd _ _ _ (t_sok _ _ _ _ h) (t_srun _ _ _ _ h) f hi) as (q1 & _).
    destruct (net_receiver n (to_recv f) [i] h) as (n' & o & k1 & k2 & _); [| | | | |eauto].
    + cbn. auto.
    + apply accept_frame; auto.
    + intros off d fin e. unfold to_recv in e. inv e. destruct f; auto.
    + unfold to_recv. intros. discriminate.
    + intros j [<-|[]]. eauto.
  - destruct (nth_error (resets (n_souts n)) i) as [f|] eqn:E; [|eauto].
    pose proof (nth_error_In _ _ E) as hi.
    destruct (net_receiver n (RvReset code f) [] h) as (n' & o & k1 & k2 & _); [| | | | |eauto].
    + cbn. apply (reset_below n f h hi).
    + apply accept_reset; auto.
    + intros. discriminate.
    + intros c g e. inv e. auto.
    + intros j [].
  - destruct (nth_error (limits (n_routs n)) i) as [l|] eqn:E; [|eauto].
    destruct (l <=? max_varint) eqn:El; [|eauto].
    pose proof (nth_error_In _ _ E) as hi.
    destruct (net_sender n (SnMaxData l) h) as (n' & o & k1 & k2 & _); [| | |eauto].
    + cbn. pose proof (limits_sorted md (n_rops n) [] [] _ _ _ (rv_hist_new md w mw hmd0 hw hmw) (t_rok _ _ _ _ h) (t_rrun _ _ _ _ h)) as hs.
      cbn [last_limit] in hs. apply Sorted_StronglySorted in hs; [|intros a b c; apply Z.le_trans].
      inv hs. rewrite Forall_forall in H2. specialize (H2 l hi). lia.
    + intros m e. inv e. auto.
    + intros m e. discriminate.
  - destruct (existsb (Nat.eqb i) (n_got n)) eqn:E; [|eauto].
    destruct (net_sender n (SnAck i) h) as (n' & o & k1 & k2 & _); [cbn; auto| | |eauto].
    + intros m e. discriminate.
    + intros m e. inv e. apply existsb_exists in E as (x & q1 & q2). apply Nat.eqb_eq in q2. subst; auto.
Qed.

Lemma net_new : Net md w mw (nt_new md w mw).
Proof. constructor; cbn; auto; try contradiction. Qed.

Lemma net_run ops : forall n, Net md w mw n -> Forall nt_op_ok ops ->
  exists n', nt_run ops n = Ok n' /\ Net md w mw n'.
Proof.
  induction ops as [|op ops IH]; intros n h hok; cbn [nt_run]; [eauto|]. inv hok.
  destruct (net_step n op h H1) as (n1 & k1 & k2). rewrite k1. cbn [bind]. auto.
Qed.

Lemma net_of ops n : Forall nt_op_ok ops -> nt_run ops (nt_new md w mw) = Ok n -> Net md w mw n.
Proof.
  intros h1 h2. destruct (net_run ops _ net_new h1) as (n' & k1 & k2). rewrite h2 in k1. inv k1. auto.
Qed.

Lemma net_cut n : Net md w mw n -> Forall (cut_from (written (n_sops n) (n_souts n))) (n_rops n).
Proof.
  intros h. apply Forall_forall. intros op hi o x hc. destruct op as [off d fin| | | |]; cbn [carries] in hc; try contradiction.
  pose proof (t_frame _ _ _ _ h _ _ _ hi) as hf.
  destruct (send_frames md hmd _ _ _ (t_sok _ _ _ _ h) (t_srun _ _ _ _ h) _ hf) as (q1 & q2 & q3).
  cbn [sf_off sf_bytes frame_end] in *. pose proof (zget_some_range _ _ _ hc) as hr.
  unfold frame_end in *. cbn [sf_off sf_bytes] in *. rewrite q3 in hc. unfold slice in hc.
  rewrite zget_take in hc by lia. rewrite zget_drop in hc by lia. rewrite <- hc. f_equal. lia.
Qed.

Lemma net_prefix n : Net md w mw n ->
  exists rest, written (n_sops n) (n_souts n) = read_bytes (n_routs n) ++ rest.
Proof.
  intros h. eapply (recv_prefix md w mw hmd0 hw hmw); [apply (t_rok _ _ _ _ h)|apply net_cut; auto|apply h].
Qed.
End Fixed.
