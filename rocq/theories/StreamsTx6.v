(** What a connection sends on its streams, over every history. *)
Require Import Verif.Base Verif.Errors Verif.Assoc Verif.OctetsModel Verif.FlowControlModel Verif.RangeBufModel
  Verif.RangesModel Verif.RangesProofs Verif.RecvBufModel
  Verif.SendBufModel Verif.SendSpec Verif.SendBufProofs Verif.SendBufProofs2 Verif.SendBufProofs3
  Verif.SendProofs Verif.SendProofs2 Verif.SendProofs3
  Verif.StreamsModel Verif.StreamsSpec Verif.StreamsProofs
  Verif.StreamsEffects Verif.StreamsShape Verif.StreamsShape2 Verif.StreamsRecv Verif.StreamsTx Verif.StreamsTx2 Verif.StreamsTx3 Verif.StreamsTx4 Verif.StreamsTx5.

Lemma in_adel {A} k (v : A) a m : In (k, v) (adel a m) -> In (k, v) m.
Proof. unfold adel. intros h. apply filter_In in h. tauto. Qed.

Lemma total_le {A} (f : A -> Z) l : forall m, NoDup (akeys m) -> (forall k v, In (k, v) m -> 0 <= f v) -> NoDup l ->
  total (fun x => match aget x m with Some v => f v | None => 0 end) l <= asum f m.
Proof.
  induction l as [|a l IH]; intros m h1 h2 h3; cbn [total fold_right].
  { apply asum_nonneg. auto. }
  inversion h3 as [|? ? h4 h5]; subst.
  assert (q : total (fun x => match aget x m with Some v => f v | None => 0 end) l =
              total (fun x => match aget x (adel a m) with Some v => f v | None => 0 end) l).
  { clear IH h5 h3. induction l as [|b l IH2]; [reflexivity|]. cbn [total fold_right].
    rewrite aget_adel_other by (intros ->; apply h4; left; auto). unfold total in IH2. rewrite IH2; auto. intros h; apply h4; right; auto. }
  unfold total in q. rewrite q.
  specialize (IH (adel a m)). unfold total in IH.
  assert (k1 : NoDup (akeys (adel a m))) by (apply nodup_adel; auto).
  specialize (IH k1 ltac:(intros k v h; apply (h2 k v); eapply in_adel; eauto) h5).
  rewrite (asum_adel f a m h1) in IH. lia.
Qed.

Lemma total_mono v w l : (forall x, In x l -> v x <= w x) -> total v l <= total w l.
Proof.
  induction l as [|a l IH]; intros h; cbn [total fold_right]; [lia|]. pose proof (h a (or_introl eq_refl)).
  specialize (IH ltac:(intros; apply h; right; auto)). unfold total in IH. lia.
Qed.

Lemma total_all {A} (f : A -> Z) l : forall m, NoDup (akeys m) -> NoDup l -> (forall k v, In (k, v) m -> f v <> 0 -> In k l) ->
  total (fun x => match aget x m with Some v => f v | None => 0 end) l = asum f m.
Proof.
  induction l as [|a l IH]; intros m h1 h3 h2; cbn [total fold_right].
  { clear h1 h3. induction m as [|[k v] m IHm]; [reflexivity|]. cbn [asum]. rewrite <- IHm by (intros k0 v0 h; apply (h2 k0 v0); right; auto).
    destruct (Z.eq_dec (f v) 0); [lia|]. destruct (h2 k v (or_introl eq_refl) n). }
  inversion h3 as [|? ? h4 h5]; subst.
  assert (q : total (fun x => match aget x m with Some v => f v | None => 0 end) l =
              total (fun x => match aget x (adel a m) with Some v => f v | None => 0 end) l).
  { clear IH h5 h3 h2. induction l as [|b l IH2]; [reflexivity|]. cbn [total fold_right].
    rewrite aget_adel_other by (intros ->; apply h4; left; auto). unfold total in IH2. rewrite IH2; auto. intros h; apply h4; right; auto. }
  unfold total in q. rewrite q. specialize (IH (adel a m)). unfold total in IH.
  rewrite IH.
  - rewrite (asum_adel f a m h1). lia.
  - apply nodup_adel; auto.
  - auto.
  - intros k v h hz. assert (hi : In (k, v) m) by (eapply in_adel; eauto). destruct (h2 k v hi hz) as [->|]; auto.
    exfalso. apply in_aget in h; [|apply nodup_adel; auto]. rewrite aget_adel_same in h. discriminate.
Qed.

Lemma chain_sum_le W l : forall base e, chain W base l e -> sum_len l <= e - base.
Proof.
  induction l as [|b tl IH]; cbn [chain]; intros base e h; [cbn; lia|].
  destruct h as (h1 & h2 & h3). rewrite sum_len_cons. pose proof (buf_ok_bounds _ _ h1).
  specialize (IH _ _ h3). unfold rbM in *. lia.
Qed.
Lemma buffered_le W s : Sb W s -> sb_buffered s <= sb_off s.
Proof. intros h. destruct (i_chain _ _ h) as (base & h1 & h2 & _). rewrite (i_buf _ _ h). pose proof (chain_sum_le _ _ _ _ h2). lia. Qed.

Section H.
Context (P : params) (i : start) (ops : list cn_op) (outs : list cn_out) (c : conn) (H : history P i ops outs c).

Let T : TxC P (ghost P ops outs) c := proj1 (tx_history _ _ _ _ _ H).
Let hsent : c_sent c = sent_frames outs := proj1 (proj2 (tx_history _ _ _ _ _ H)).
Let hmax : c_max_tx c = limit_all i ops := proj2 (proj2 (tx_history _ _ _ _ _ H)).
Let hn : NoDup (akeys (c_streams c)) := sh_nodup _ _ _ _ _ (shape_history _ _ _ _ _ H).
Let hk : kinds P c := shape_kinds _ _ _ _ _ (shape_history _ _ _ _ _ H).

(** Every stream with anything in its history has a send side explained by a
    history of its own. *)
Lemma of_stream x : (ent x c = None /\ accepted_on x ops outs = [] /\ limit_on P x ops outs = first_limit P x /\ ~ finished_on x ops outs /\
    ~ cut_on x ops outs /\ stream_frames x outs = []) \/
  exists s f so su st, ent x c = Some (s, f) /\ Hist (first_limit P x) so su st /\ ss_buf st = st_send s /\
    frames su = stream_frames x outs /\ written so su = accepted_on x ops outs /\ limit (first_limit P x) so = limit_on P x ops outs /\
    (fin_written so su <-> finished_on x ops outs) /\ (forall y, byte_acked so su y -> acked_byte x y ops outs) /\
    (was_reset su <-> cut_on x ops outs) /\ alldone (st_send s).
Proof.
  destruct (ent x c) as [[s f]|] eqn:E.
  - right. destruct (t_tin _ _ _ T _ _ _ E) as (so & su & st & h1 & h2 & h3 & h4 & h5 & h6 & h7 & h8 & h9 & h10).
    exists s, f, so, su, st. rewrite hsent in h4, h8. cbn [ghost g_w g_l g_fin] in *. ands; auto.
    rewrite <- (h_reset _ _ _ _ h1), h3. apply (t_isr _ _ _ T _ _ _ E).
  - left. destruct (t_none _ _ _ T _ E) as (h1 & h2 & h3 & h4 & h5 & h6). rewrite hsent in h5. ands; auto.
Qed.

Lemma conn_frames x f : In f (stream_frames x outs) ->
  0 <= sf_off f /\ frame_end f <= zlen (accepted_on x ops outs) /\
  sf_bytes f = slice (sf_off f) (frame_end f) (accepted_on x ops outs).
Proof.
  intros hi. destruct (of_stream x) as [(_ & _ & _ & _ & _ & h)|(s & fl & so & su & st & h1 & h2 & h3 & h4 & h5 & h6 & h7 & h8 & h9 & h10)].
  { rewrite h in hi. destruct hi. }
  rewrite <- h4 in hi. destruct (h_frame _ _ _ _ h2 f hi) as (k1 & k2 & k3).
  pose proof (i_off _ _ (h_sb _ _ _ _ h2)). pose proof (i_emit _ _ (h_sb _ _ _ _ h2)). rewrite h5 in *. ands; auto. lia.
Qed.

Lemma conn_limit x : zlen (accepted_on x ops outs) <= limit_on P x ops outs.
Proof.
  destruct (of_stream x) as [(_ & h1 & h2 & _ & _ & h)|(s & fl & so & su & st & h1 & h2 & h3 & h4 & h5 & h6 & h7 & h8 & h9 & h10)].
  { rewrite h1, h2. pose proof (new_limit_ok P (proj1 H) x). cbn. lia. }
  pose proof (h_wlim _ _ _ _ h2). rewrite h5, h6 in *. auto.
Qed.

Lemma conn_fin x f : In f (stream_frames x outs) -> sf_fin f = true ->
  (forall f', In f' (stream_frames x outs) -> frame_end f' <= frame_end f) /\
  (~ cut_on x ops outs -> finished_on x ops outs /\ frame_end f = zlen (accepted_on x ops outs)).
Proof.
  intros hi hf. destruct (of_stream x) as [(_ & _ & _ & _ & _ & h)|(s & fl & so & su & st & h1 & h2 & h3 & h4 & h5 & h6 & h7 & h8 & h9 & h10)].
  { rewrite h in hi. destruct hi. }
  rewrite <- h4 in *. pose proof (h_finf _ _ _ _ h2 f hi hf) as k. pose proof (h_sb _ _ _ _ h2) as hs. pose proof (i_emit _ _ hs) as he.
  destruct (i_fin _ _ hs) as [q|q]; [congruence|]. rewrite k in q. injection q as q. split.
  - intros f' hi'. destruct (h_frame _ _ _ _ h2 f' hi') as (_ & _ & k3). lia.
  - intros hc. rewrite <- h9 in hc. rewrite <- h7, <- h5. split; [apply (h_fin _ _ _ _ h2 hc); congruence|].
    rewrite <- (live_off _ _ _ _ h2 hc). auto.
Qed.

Lemma highest_ge x f : In f (stream_frames x outs) -> frame_end f <= highest_sent x outs.
Proof.
  unfold highest_sent. induction (stream_frames x outs) as [|a l IH]; intros hi; [destruct hi|]. destruct hi as [->|hi]; cbn [fold_right]; [lia|]. specialize (IH hi). lia.
Qed.
Lemma highest_le x m : 0 <= m -> (forall f, In f (stream_frames x outs) -> frame_end f <= m) -> highest_sent x outs <= m.
Proof.
  intros h0. unfold highest_sent. induction (stream_frames x outs) as [|a l IH]; intros h; cbn [fold_right]; [lia|].
  pose proof (h a (or_introl eq_refl)). specialize (IH ltac:(intros; apply h; right; auto)). lia.
Qed.

Lemma emit_highest md so su st x : Hist md so su st -> frames su = stream_frames x outs -> sb_emit_off (ss_buf st) = highest_sent x outs.
Proof.
  intros h2 h4. pose proof (i_emit _ _ (h_sb _ _ _ _ h2)).
  assert (highest_sent x outs <= sb_emit_off (ss_buf st)).
  { apply highest_le; [lia|]. intros f hi. rewrite <- h4 in hi. apply (h_frame _ _ _ _ h2 f hi). }
  assert (0 <= highest_sent x outs). { unfold highest_sent. clear. induction (stream_frames x outs); cbn [fold_right]; lia. }
  destruct (h_emit _ _ _ _ h2) as [q|(f & q1 & q2)]; [lia|]. rewrite h4 in q1. pose proof (highest_ge x f q1). lia.
Qed.

Lemma conn_reset x code final : In (SfReset x code final) (sent_frames outs) ->
  cut_on x ops outs /\ final = highest_sent x outs /\
  forall f, In f (stream_frames x outs) -> sf_fin f = true -> frame_end f = final.
Proof.
  intros hi. assert (hr : resets c x code final) by (right; rewrite hsent; auto).
  destruct (t_rst _ _ _ T _ _ _ hr) as (s & f & he & h1 & h2).
  destruct (of_stream x) as [(h & _)|(s' & fl & so & su & st & k1 & k2 & k3 & k4 & k5 & k6 & k7 & k8 & k9 & k10)]; [congruence|].
  rewrite k1 in he. injection he as -> ->. rewrite <- k3 in *. pose proof (h_sb _ _ _ _ k2) as hs.
  destruct (i_reset _ _ hs h1) as (r1 & r2 & r3). split; [apply k9, (h_reset _ _ _ _ k2); auto|]. split.
  - rewrite <- (emit_highest _ _ _ _ _ k2 k4). lia.
  - intros f0 hi0 hf0. rewrite <- k4 in hi0. pose proof (h_finf _ _ _ _ k2 f0 hi0 hf0) as q. rewrite r2 in q. injection q as q. lia.
Qed.

Lemma conn_over x : over x c -> sendable P x -> ~ cut_on x ops outs ->
  finished_on x ops outs /\ forall y, 0 <= y < zlen (accepted_on x ops outs) -> acked_byte x y ops outs.
Proof.
  intros ho hsd hc. apply collected_ent in ho as (s & he).
  destruct (of_stream x) as [(h & _)|(s' & fl & so & su & st & k1 & k2 & k3 & k4 & k5 & k6 & k7 & k8 & k9 & k10)]; [congruence|].
  rewrite k1 in he. injection he as -> ->. pose proof (t_over _ _ _ T _ _ k1) as hcomp. pose proof (h_sb _ _ _ _ k2) as hs.
  assert (hsc : sb_is_complete (ss_buf st) = true).
  { rewrite k3. destruct (hk _ _ _ k1) as (e1 & e2 & _).
    assert (hx : 0 <= x). { apply (sh_pos _ _ _ _ _ (shape_history _ _ _ _ _ H)). unfold known, sk. rewrite k1. discriminate. }
    unfold st_complete in hcomp. rewrite e1, e2 in hcomp. rewrite bidi_spec, local_own in hcomp by auto.
    destruct (bidirectional x) eqn:E1; [apply andb_true_iff in hcomp; tauto|]. destruct hsd as [hsd|hsd]; [congruence|]. rewrite hsd in hcomp. auto. }
  rewrite <- k9 in hc. rewrite <- k7, <- k5. split.
  - apply (h_fin _ _ _ _ k2 hc). apply complete_fin. auto.
  - intros y hy. apply k8. apply (h_acked _ _ _ _ k2 hc). apply (complete_covers _ _ _ hs hsc). rewrite (live_off _ _ _ _ k2 hc). auto.
Qed.

Lemma conn_after_end x zc data fin n c' : finished_on x ops outs \/ cut_on x ops outs -> 0 <= x ->
  cn_step P (CnSend zc x data fin) c = Ok (CoWrote n, c') -> n = 0 /\ data = [] /\ fin = true.
Proof.
  intros hfc hx h. cbn [cn_step] in h. apply send_ok in h as [(h & _)|(_ & _ & h)]; [discriminate|]. cbv zeta in h.
  destruct (of_stream x) as [(_ & _ & _ & q1 & q2 & _)|(s' & fl & so & su & st & k1 & k2 & k3 & k4 & k5 & k6 & k7 & k8 & k9 & k10)]; [tauto|].
  destruct h as [(h & _)|[(h & _)|[(h & _)|(s & c1 & hg & h)]]]; try discriminate.
  destruct hg as [hg|hg _ _ _]; [|unfold ent in hg, k1; cn_in hg; congruence]. unfold ent in hg, k1. cn_in hg. rewrite k1 in hg. injection hg as -> ->.
  assert (nf : sb_fin_off (st_send s) <> None).
  { rewrite <- k3. destruct (is_reset_dec (ss_buf st)) as [r|r].
    - destruct (i_reset _ _ (h_sb _ _ _ _ k2) r) as (_ & k & _). congruence.
    - rewrite (h_reset _ _ _ _ k2) in r. apply (h_fin _ _ _ _ k2 r). tauto. }
  destruct h as [(e & _ & h & _)|[(n0 & _ & _ & _ & h & _)|(n0 & hc & hnz & [(e & _ & h & _)|h])]]; try discriminate.
  destruct h as (sent & b & hw & hle & ho & _). destruct (_ && _) eqn:Eo in ho; [discriminate|]. injection ho as ->.
  pose proof (h_sb _ _ _ _ k2) as hs. rewrite k3 in hs. pose proof (zlen_nonneg data) as hz. pose proof (t_cap _ _ _ T) as ht.
  assert (wp : write_post (written so su) (st_send s) (take (send_len (c_txcap c) (zlen data)) data) (send_fin (c_txcap c) (zlen data) fin) (Ok (sent, b))).
  { rewrite <- hw. assert (0 <= send_len (c_txcap c) (zlen data) <= zlen data) by (unfold send_len; destr_if; lia).
    destruct zc; [apply sb_write_zc_spec; auto|apply sb_write_spec; auto]. }
  cbn in wp. destruct wp as (w1 & _ & _ & _ & _ & _ & _ & _ & _ & _ & _ & _ & w & _). destruct (w nf) as (z1 & z2 & z3 & _).
  assert (hd : data = []).
  { unfold send_len, send_fin in *. destruct (c_txcap c <? zlen data) eqn:E; [discriminate|]. rewrite take_all in z3 by lia. auto. }
  split; [auto|]. split; [auto|]. subst data. unfold send_fin in z2. change (zlen (@nil Z)) with 0 in z2. destr_if; [discriminate|auto].
Qed.

(** ** All streams together *)
Lemma conn_buffered l : NoDup l -> (forall x, In x l <-> live x c) ->
  c_txbuf c = total (fun x => match cn_get x c with Some s => sb_buffered (st_send s) | None => 0 end) l.
Proof.
  intros h1 h2. rewrite (t_buf _ _ _ T).
  assert (hns : NoDup (akeys (sndb (c_streams c)))).
  { unfold akeys, sndb. rewrite map_map. cbn [fst]. exact hn. }
  rewrite <- (total_all sb_buffered l (sndb (c_streams c)) hns h1).
  - assert (hi : forall x, In x l -> live x c) by (intros x hx; apply h2; auto). clear -hi. induction l as [|a l IH]; [reflexivity|].
    cbn [total fold_right]. unfold total in IH. rewrite IH by (intros; apply hi; right; auto). f_equal.
    rewrite aget_sndb. destruct (hi a (or_introl eq_refl)) as (s & hs). unfold cn_get in *. destruct (aget a (c_streams c)) as [[s0 [|]]|]; try discriminate. reflexivity.
  - intros k b hb hz. apply h2. apply snd_in in hb as (s & f & he & <-); auto. destruct f.
    + exfalso. apply hz. pose proof (t_over _ _ _ T _ _ he) as hcomp. destruct (tin_sb _ _ _ _ _ _ _ _ (t_tin _ _ _ T _ _ _ he)) as (hs & hd).
      destruct (hk _ _ _ he) as (e1 & e2 & _). unfold st_complete in hcomp. rewrite e1, e2 in hcomp.
      destruct (is_bidi k) eqn:E1.
      * apply andb_true_iff in hcomp as (_ & hcomp). apply (complete_empty _ _ hs hd hcomp).
      * destruct (is_local k (p_server P)) eqn:E2; [apply (complete_empty _ _ hs hd hcomp)|].
        rewrite (t_uni _ _ _ T k E1 E2) in hs. pose proof (buffered_le _ _ hs). pose proof (buffered_nonneg _ _ hs). pose proof (i_off _ _ hs) as q. cbn in q. lia.
    + exists s. apply get_ent. auto.
Qed.

Lemma conn_nothing_waiting x y : c_txbuf c = 0 -> ~ cut_on x ops outs -> 0 <= y < zlen (accepted_on x ops outs) ->
  exists f, In f (stream_frames x outs) /\ in_frame f y.
Proof.
  intros hb hc hy.
  destruct (of_stream x) as [(_ & q1 & _)|(s' & fl & so & su & st & k1 & k2 & k3 & k4 & k5 & k6 & k7 & k8 & k9 & k10)].
  { rewrite q1 in hy. cbn in hy. lia. }
  pose proof (buf_le _ _ _ _ _ _ hn T k1) as hbl. pose proof (h_sb _ _ _ _ k2) as hs. rewrite <- k9 in hc. rewrite <- k5 in hy.
  rewrite <- (live_off _ _ _ _ k2 hc) in hy.
  destruct (Sb_cover _ _ y hs hy) as [q|[q|q]].
  - apply (h_acked _ _ _ _ k2 hc) in q as (n & f & q1 & q2 & _). exists f. split; auto. rewrite <- k4. eapply nth_error_In; eauto.
  - exfalso. assert (hz : sum_len (sb_data (ss_buf st)) = 0) by (rewrite <- (i_buf _ _ hs), k3; lia).
    destruct (i_chain _ _ hs) as (base & _ & hch & _). clear -q hz hch. revert base hch. generalize dependent (sb_data (ss_buf st)).
    intros l. induction l as [|b l IH]; intros q hz base hch; [destruct (pending_nil _ q)|].
    rewrite sum_len_cons in hz. destruct hch as (g1 & g2 & g3). pose proof (buf_ok_bounds _ _ g1). pose proof (chain_sum_nonneg _ _ _ _ g3).
    apply pending_cons in q as [q|q]; [unfold rbM in q; lia|]. eapply IH; eauto. lia.
  - destruct (h_cons _ _ _ _ k2 hc y q) as [(n & f & q1 & q2 & _)|(n & f & q1 & q2 & _)]; exists f; (split; auto; rewrite <- k4; eapply nth_error_In; eauto).
Qed.

Lemma conn_send_limit l v : p_num P <= p_den P -> NoDup l ->
  (forall x, In x l -> v x <= highest_sent x outs \/ (~ cut_on x ops outs /\ v x <= zlen (accepted_on x ops outs))) ->
  total v l <= limit_all i ops.
Proof.
  intros hf h1 h2. pose proof (t_fac _ _ _ T hf) as q1. pose proof (t_cap _ _ _ T) as q2. rewrite hmax in q1.
  assert (hns : NoDup (akeys (sndb (c_streams c)))).
  { unfold akeys, sndb. rewrite map_map. cbn [fst]. exact hn. }
  assert (hp : forall k b, In (k, b) (sndb (c_streams c)) -> 0 <= sb_off b).
  { intros k b hb. apply snd_in in hb as (s & f & he & <-); auto. apply (i_off _ _ (t_sb _ _ _ _ _ _ T he)). }
  pose proof (total_le sb_off l (sndb (c_streams c)) hns hp h1) as q3. rewrite <- (t_tx _ _ _ T) in q3.
  enough (total v l <= total (fun x => match aget x (sndb (c_streams c)) with Some b => sb_off b | None => 0 end) l) by lia.
  apply total_mono. intros x hx. rewrite aget_sndb.
  destruct (of_stream x) as [(k1 & a1 & _ & _ & _ & a5)|(s & fl & so & su & st & k1 & k2 & k3 & k4 & k5 & k6 & k7 & k8 & k9 & k10)]; unfold ent in k1; rewrite k1; cbn [option_map fst].
  - destruct (h2 x hx) as [w|(_ & w)]; [unfold highest_sent in w; rewrite a5 in w|rewrite a1 in w]; cbn in w; lia.
  - rewrite <- k3. pose proof (i_emit _ _ (h_sb _ _ _ _ k2)). destruct (h2 x hx) as [w|(hc & w)].
    + rewrite <- (emit_highest _ _ _ _ _ k2 k4) in w. lia.
    + rewrite <- k9 in hc. rewrite (live_off _ _ _ _ k2 hc), k5. auto.
Qed.
End H.
