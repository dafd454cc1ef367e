(** The send side of a connection: what its streams, counters and frames sent
    say about the history. *)
Require Import Verif.Base Verif.Errors Verif.Assoc Verif.OctetsModel Verif.FlowControlModel Verif.RangeBufModel
  Verif.RangesModel Verif.RangesProofs Verif.RecvBufModel
  Verif.SendBufModel Verif.SendSpec Verif.SendBufProofs Verif.SendBufProofs2 Verif.SendBufProofs3
  Verif.SendProofs Verif.SendProofs2 Verif.SendProofs3
  Verif.StreamsModel Verif.StreamsSpec Verif.StreamsProofs
  Verif.StreamsEffects Verif.StreamsShape Verif.StreamsShape2 Verif.StreamsRecv Verif.StreamsTx.

Definition sndb (m : list (Z * (stream * bool))) : list (Z * sendbuf) :=
  map (fun e => (fst e, st_send (fst (snd e)))) m.
Lemma aget_sndb x m : aget x (sndb m) = option_map (fun e => st_send (fst e)) (aget x m).
Proof. induction m as [|[k e] m IH]; cbn; auto. destruct (x =? k); auto. Qed.
Lemma sndb_aset x e m : sndb (aset x e m) = aset x (st_send (fst e)) (sndb m).
Proof. induction m as [|[k v] m IH]; cbn; auto. destruct (x =? k); cbn; auto. f_equal. exact IH. Qed.

(** What the history says. *)
Record gh : Type := mkGh {
  g_w : Z -> list Z;
  g_l : Z -> Z;
  g_fin : Z -> Prop;
  g_ack : nat -> Prop;
  g_rst : Z -> Prop }.
Definition g_step (op : cn_op) (o : cn_out) (c : conn) (g : gh) : gh :=
  mkGh (fun x => g_w g x ++ wrote x op o) (fun x => raised x op o (g_l g x))
       (fun x => g_fin g x \/ finishes x op o)
       (fun k => g_ack g k \/ (op = CnAck k /\ (k < length (c_sent c))%nat))
       (fun x => g_rst g x \/ cut x op o).

Definition same_at (x : Z) (g g' : gh) : Prop :=
  g_w g' x = g_w g x /\ g_l g' x = g_l g x /\ (g_fin g x <-> g_fin g' x) /\ (g_rst g x <-> g_rst g' x).
Definition more_ack (g g' : gh) : Prop := forall k, g_ack g k -> g_ack g' k.
Lemma same_at_refl x g : same_at x g g.
Proof. unfold same_at. tauto. Qed.
Lemma more_ack_step op o c g : more_ack g (g_step op o c g).
Proof. intros k h. cbn. auto. Qed.
Lemma same_at_quiet x op o c g : wrote x op o = [] -> raised x op o (g_l g x) = g_l g x -> ~ finishes x op o -> ~ cut x op o ->
  same_at x g (g_step op o c g).
Proof. intros h1 h2 h3 h4. unfold same_at. cbn. rewrite h1, h2, app_nil_r. tauto. Qed.

Definition acked_in (g : gh) (sent : list sentf) (sid : Z) (x : Z) : Prop :=
  exists k f, nth_error sent k = Some (SfStream sid f) /\ in_frame f x /\ g_ack g k.
Lemma acked_in_mono g g' sent ext sid x : more_ack g g' -> acked_in g sent sid x -> acked_in g' (sent ++ ext) sid x.
Proof.
  intros h (k & f & h1 & h2 & h3). exists k, f. ands; auto. rewrite nth_error_app1; auto.
  apply nth_error_Some. congruence.
Qed.

Lemma frames_on_app sid a b : frames_on sid (a ++ b) = frames_on sid a ++ frames_on sid b.
Proof. apply flat_map_app. Qed.
Lemma frames_on_in sid f l : In (SfStream sid f) l -> exists i, nth_error (frames_on sid l) i = Some f.
Proof.
  intros h. apply In_nth_error. unfold frames_on. apply in_flat_map. exists (SfStream sid f). split; auto.
  cbn. rewrite Z.eqb_refl. left. auto.
Qed.
Lemma in_frames_on sid f l : In f (frames_on sid l) <-> In (SfStream sid f) l.
Proof.
  unfold frames_on. rewrite in_flat_map. split.
  - intros (x & h1 & h2). destruct x; cbn in h2; try contradiction. destruct (_ =? _) eqn:E; [|contradiction].
    destruct h2 as [->|[]]. replace sid with sid0 by lia. auto.
  - intros h. exists (SfStream sid f). split; auto. cbn. rewrite Z.eqb_refl. left. auto.
Qed.

Lemma buffered_nonneg W b : Sb W b -> 0 <= sb_buffered b.
Proof.
  intros h. rewrite (i_buf _ _ h). destruct (i_chain _ _ h) as (base & _ & hc & _). revert base hc.
  induction (sb_data b) as [|r l IH]; intros base hc; cbn; [lia|]. destruct hc as (h1 & h2 & h3).
  pose proof (buf_ok_bounds _ _ h1). specialize (IH _ h3). unfold sum_len in IH. lia.
Qed.

Section P.
Variable P : params.
Hypothesis hP : params_ok P.

Definition resets (c : conn) (x code final : Z) : Prop :=
  aget x (c_reset c) = Some (code, final) \/ In (SfReset x code final) (c_sent c).

Definition kinds (c : conn) : Prop := forall x s f, ent x c = Some (s, f) ->
  st_bidi s = is_bidi x /\ st_local s = is_local x (p_server P) /\ k_id (st_key s) = x.

Record TxC (g : gh) (c : conn) : Prop := {
  t_tin : forall x s f, ent x c = Some (s, f) ->
     tin (first_limit P x) (g_w g x) (g_l g x) (g_fin g x) (acked_in g (c_sent c) x) (frames_on x (c_sent c))
         (linked x (c_fq c) && negb f) (st_send s);
  t_isr : forall x s f, ent x c = Some (s, f) -> (is_reset (st_send s) <-> g_rst g x);
  t_none : forall x, ent x c = None ->
     g_w g x = [] /\ g_l g x = first_limit P x /\ ~ g_fin g x /\ ~ g_rst g x /\
     frames_on x (c_sent c) = [] /\ linked x (c_fq c) = false;
  t_uni : forall x, is_bidi x = false -> is_local x (p_server P) = false -> g_w g x = [];
  t_buf : c_txbuf c = asum sb_buffered (sndb (c_streams c));
  t_tx : c_tx c = asum sb_off (sndb (c_streams c));
  t_cap : 0 <= c_txcap c;
  t_fac : p_num P <= p_den P -> c_tx c + c_txcap c <= c_max_tx c;
  t_rst : forall x code final, resets c x code final ->
     exists s f, ent x c = Some (s, f) /\ is_reset (st_send s) /\ sb_off (st_send s) = final;
  t_over : forall x s, ent x c = Some (s, true) -> st_complete s = true }.

Lemma t_sb g c x s f : TxC g c -> ent x c = Some (s, f) -> Sb (g_w g x) (st_send s).
Proof. intros H h. apply (tin_sb _ _ _ _ _ _ _ _ (t_tin _ _ H _ _ _ h)). Qed.

Lemma snd_in c k b : NoDup (akeys (c_streams c)) -> In (k, b) (sndb (c_streams c)) -> exists s f, ent k c = Some (s, f) /\ st_send s = b.
Proof.
  intros hn h. unfold sndb in h. apply in_map_iff in h as ([k' [s f]] & h1 & h2). cbn in h1. injection h1 as <- <-.
  exists s, f. split; auto. unfold ent. apply in_aget; auto.
Qed.
Lemma buf_le g c x s f : NoDup (akeys (c_streams c)) -> TxC g c -> ent x c = Some (s, f) -> 0 <= sb_buffered (st_send s) <= c_txbuf c.
Proof.
  intros hn H h. pose proof (t_sb _ _ _ _ _ H h) as hs. split; [eapply buffered_nonneg; eauto|].
  rewrite (t_buf _ _ H). apply (asum_get_le sb_buffered x).
  - intros k b hb. apply snd_in in hb as (s1 & f1 & h1 & <-); auto. eapply buffered_nonneg. eapply t_sb; eauto.
  - rewrite aget_sndb. unfold ent in h. rewrite h. auto.
Qed.
Lemma off_le g c x s f : NoDup (akeys (c_streams c)) -> TxC g c -> ent x c = Some (s, f) -> 0 <= sb_off (st_send s) <= c_tx c.
Proof.
  intros hn H h. pose proof (t_sb _ _ _ _ _ H h) as hs. split; [apply (i_off _ _ hs)|].
  rewrite (t_tx _ _ H). apply (asum_get_le sb_off x).
  - intros k b hb. apply snd_in in hb as (s1 & f1 & h1 & <-); auto. apply (i_off _ _ (t_sb _ _ _ _ _ H h1)).
  - rewrite aget_sndb. unfold ent in h. rewrite h. auto.
Qed.

Lemma tx_upd g g' c c' sid s s' f f' ext :
  TxC g c -> ent sid c = Some (s, f) -> c_streams c' = aset sid (s', f') (c_streams c) ->
  (forall x, x <> sid -> same_at x g g') -> more_ack g g' ->
  c_sent c' = c_sent c ++ ext -> (forall x, x <> sid -> frames_on x ext = []) ->
  (forall x, x <> sid -> linked x (c_fq c') = true -> linked x (c_fq c) = true) ->
  tin (first_limit P sid) (g_w g' sid) (g_l g' sid) (g_fin g' sid) (acked_in g' (c_sent c') sid)
      (frames_on sid (c_sent c')) (linked sid (c_fq c') && negb f') (st_send s') ->
  (is_reset (st_send s') <-> g_rst g' sid) ->
  (is_bidi sid = false -> is_local sid (p_server P) = false -> g_w g' sid = []) ->
  c_txbuf c' = c_txbuf c + (sb_buffered (st_send s') - sb_buffered (st_send s)) ->
  c_tx c' = c_tx c + (sb_off (st_send s') - sb_off (st_send s)) ->
  0 <= c_txcap c' -> (p_num P <= p_den P -> c_tx c' + c_txcap c' <= c_max_tx c') ->
  (is_reset (st_send s) -> is_reset (st_send s') /\ sb_off (st_send s') = sb_off (st_send s)) ->
  (forall x code final, resets c' x code final -> resets c x code final \/
     (x = sid /\ is_reset (st_send s') /\ sb_off (st_send s') = final)) ->
  (f' = true -> st_complete s' = true) ->
  TxC g' c'.
Proof.
  intros H he hst hg ha hsent hext hl htin hisr huni hbuf htx hcap hfac hrs hres hover.
  assert (esame : ent sid c' = Some (s', f')) by (unfold ent; rewrite hst; apply aget_aset_same).
  assert (eother : forall x, x <> sid -> ent x c' = ent x c) by (intros x hx; unfold ent; rewrite hst; apply aget_aset_other; auto).
  assert (hother : forall x, x <> sid -> frames_on x (c_sent c') = frames_on x (c_sent c)).
  { intros x hx. rewrite hsent, frames_on_app, hext by auto. apply app_nil_r. }
  constructor; auto.
  - intros x s0 f0 h. destruct (Z.eq_dec x sid) as [->|n]; [rewrite esame in h; injection h as <- <-; auto|].
    rewrite eother in h by auto. destruct (hg x n) as (-> & -> & g3 & g4). rewrite hother by auto.
    eapply tin_mono; [apply (t_tin _ _ H _ _ _ h)|auto| |].
    + intros y. rewrite hsent. apply acked_in_mono. auto.
    + intros q. apply andb_true_iff in q as (q1 & q2). rewrite hl by auto. auto.
  - intros x s0 f0 h. destruct (Z.eq_dec x sid) as [->|n]; [rewrite esame in h; injection h as <- <-; auto|].
    rewrite eother in h by auto. destruct (hg x n) as (_ & _ & g3 & g4). rewrite <- g4. eapply t_isr; eauto.
  - intros x h. destruct (Z.eq_dec x sid) as [->|n]; [congruence|].
    rewrite eother in h by auto. destruct (hg x n) as (-> & -> & g3 & g4). rewrite hother by auto.
    destruct (t_none _ _ H x h) as (q1 & q2 & q3 & q4 & q5 & q6). ands; auto; [tauto|tauto|].
    destruct (linked x (c_fq c')) eqn:E; auto. rewrite (hl x n E) in q6. discriminate.
  - intros x h1 h2. destruct (Z.eq_dec x sid) as [->|n]; auto. destruct (hg x n) as (-> & _). eapply t_uni; eauto.
  - rewrite hbuf, (t_buf _ _ H), hst, sndb_aset, asum_aset, aget_sndb. unfold ent in he. rewrite he. cbn. lia.
  - rewrite htx, (t_tx _ _ H), hst, sndb_aset, asum_aset, aget_sndb. unfold ent in he. rewrite he. cbn. lia.
  - intros x code final h. destruct (hres _ _ _ h) as [q|(-> & q1 & q2)]; [|eauto].
    destruct (t_rst _ _ H _ _ _ q) as (s0 & f0 & q1 & q2 & q3). destruct (Z.eq_dec x sid) as [->|n].
    + rewrite he in q1. injection q1 as <- <-. destruct (hrs q2) as (r1 & r2). exists s', f'. ands; auto. congruence.
    + exists s0, f0. rewrite eother; auto.
  - intros x s0 h. destruct (Z.eq_dec x sid) as [->|n]; [rewrite esame in h; injection h as <- ->; auto|].
    rewrite eother in h by auto. eapply t_over; eauto.
Qed.

Lemma tx_quiet g g' c c' ext :
  TxC g c -> c_streams c' = c_streams c ->
  (forall x, same_at x g g') -> more_ack g g' ->
  c_sent c' = c_sent c ++ ext -> (forall x, frames_on x ext = []) ->
  (forall x, linked x (c_fq c') = true -> linked x (c_fq c) = true) ->
  c_txbuf c' = c_txbuf c -> c_tx c' = c_tx c ->
  0 <= c_txcap c' -> (p_num P <= p_den P -> c_tx c' + c_txcap c' <= c_max_tx c') ->
  (forall x code final, resets c' x code final -> resets c x code final) ->
  TxC g' c'.
Proof.
  intros H hst hg ha hsent hext hl hbuf htx hcap hfac hres.
  assert (he : forall x, ent x c' = ent x c) by (intros x; unfold ent; rewrite hst; auto).
  assert (hother : forall x, frames_on x (c_sent c') = frames_on x (c_sent c)).
  { intros x. rewrite hsent, frames_on_app, hext by auto. apply app_nil_r. }
  constructor; auto.
  - intros x s0 f0 h. rewrite he in h. destruct (hg x) as (-> & -> & g3 & g4). rewrite hother by auto.
    eapply tin_mono; [apply (t_tin _ _ H _ _ _ h)|auto| |].
    + intros y. rewrite hsent. apply acked_in_mono. auto.
    + intros q. apply andb_true_iff in q as (q1 & q2). rewrite hl by auto. auto.
  - intros x s0 f0 h. rewrite he in h. destruct (hg x) as (_ & _ & g3 & g4). rewrite <- g4. eapply t_isr; eauto.
  - intros x h. rewrite he in h. destruct (hg x) as (-> & -> & g3 & g4). rewrite hother by auto.
    destruct (t_none _ _ H x h) as (q1 & q2 & q3 & q4 & q5 & q6). ands; auto; [tauto|tauto|].
    destruct (linked x (c_fq c')) eqn:E; auto. rewrite (hl x E) in q6. discriminate.
  - intros x h1 h2. destruct (hg x) as (-> & _). eapply t_uni; eauto.
  - rewrite hbuf, (t_buf _ _ H), hst. auto.
  - rewrite htx, (t_tx _ _ H), hst. auto.
  - intros x code final h. destruct (t_rst _ _ H _ _ _ (hres _ _ _ h)) as (s0 & f0 & q1 & q2). exists s0, f0. rewrite he. auto.
  - intros x s0 h. rewrite he in h. eapply t_over; eauto.
Qed.

(** Same ghost, same everything but the receive side. *)
Lemma tx_same g c c' : TxC g c -> c_streams c' = c_streams c -> c_sent c' = c_sent c ->
  (forall x, linked x (c_fq c') = true -> linked x (c_fq c) = true) ->
  c_txbuf c' = c_txbuf c -> c_tx c' = c_tx c -> c_txcap c' = c_txcap c -> c_max_tx c' = c_max_tx c -> c_reset c' = c_reset c ->
  TxC g c'.
Proof.
  intros H h1 h2 h3 h4 h5 h6 h7 h8. eapply (tx_quiet g g c c' []); eauto; try (rewrite ?h2, ?app_nil_r; auto; fail).
  - intros x. apply same_at_refl.
  - intros k. auto.
  - rewrite h6. apply H.
  - rewrite h5, h6, h7. apply H.
  - unfold resets. rewrite h2, h8. auto.
Qed.

Lemma tx_ghost g g' c : TxC g c -> (forall x, same_at x g g') -> more_ack g g' -> TxC g' c.
Proof.
  intros H h1 h2. eapply (tx_quiet g g' c c []); eauto; try (rewrite ?app_nil_r; auto; fail); apply H.
Qed.

Lemma first_limit_eq sid : 0 <= sid -> first_limit P sid = snd (new_limits P (is_local sid (p_server P)) (is_bidi sid)).
Proof.
  intros h. unfold first_limit, new_limits. rewrite local_own, bidi_spec by auto.
  destruct (own P sid), (bidirectional sid); reflexivity.
Qed.

Lemma new_limit_ok sid : 0 <= first_limit P sid <= max_varint.
Proof.
  destruct hP as (_ & _ & _ & h1 & h2 & h3 & _). unfold first_limit.
  destruct (own P sid), (bidirectional sid); auto. unfold max_varint. lia.
Qed.

Lemma fresh_snd sid : 0 <= sid -> st_send (fresh P sid) = sb_new (first_limit P sid).
Proof.
  intros h. rewrite first_limit_eq by auto. unfold fresh.
  destruct (new_limits P (is_local sid (p_server P)) (is_bidi sid)). reflexivity.
Qed.

Lemma not_reset_new m : ~ is_reset (sb_new m).
Proof. intros [h|h]; [discriminate|]. cbn in h. congruence. Qed.

Lemma tx_goc g sid local c s c1 : 0 <= sid -> TxC g c -> gocs P sid local c s c1 -> TxC g c1.
Proof.
  intros hs H [h|h1 h2 h3 h4]; auto. destruct (create_rest P sid c). pose proof (t_none _ _ H sid h1) as (n1 & n2 & n3 & n4 & n5 & n6).
  constructor; rewrite ?gr_sent, ?gr_fq, ?gr_txbuf, ?gr_tx, ?gr_txcap, ?gr_max_tx; try apply H.
  - intros x s0 f0 he. destruct (Z.eq_dec x sid) as [->|n].
    + rewrite ent_create_same in he. injection he as <- <-. rewrite n1, n2, n5, n6, fresh_snd by auto. cbn [andb].
      eapply tin_mono; [apply tin_new; apply new_limit_ok| | |]; [tauto| |auto]. intros y q. exact q.
    + rewrite ent_create_other in he by auto. eapply t_tin; eauto.
  - intros x s0 f0 he. destruct (Z.eq_dec x sid) as [->|n].
    + rewrite ent_create_same in he. injection he as <- <-. rewrite fresh_snd by auto. pose proof (not_reset_new (first_limit P sid)). tauto.
    + rewrite ent_create_other in he by auto. eapply t_isr; eauto.
  - intros x he. destruct (Z.eq_dec x sid) as [->|n]; [rewrite ent_create_same in he; discriminate|].
    rewrite ent_create_other in he by auto. eapply t_none; eauto.
  - rewrite streams_create, sndb_aset, asum_aset, aget_sndb. unfold ent in h1. rewrite h1. cbn [fst option_map].
    rewrite fresh_snd by auto. cbn. rewrite <- (t_buf _ _ H). lia.
  - rewrite streams_create, sndb_aset, asum_aset, aget_sndb. unfold ent in h1. rewrite h1. cbn [fst option_map].
    rewrite fresh_snd by auto. cbn. rewrite <- (t_tx _ _ H). lia.
  - unfold resets. rewrite gr_reset, gr_sent. intros x code final hr.
    destruct (t_rst _ _ H x code final hr) as (s0 & f0 & q1 & q2). exists s0, f0. rewrite ent_create_other; auto. congruence.
  - intros x s0 he. destruct (Z.eq_dec x sid) as [->|n]; [rewrite ent_create_same in he; discriminate|].
    rewrite ent_create_other in he by auto. eapply t_over; eauto.
Qed.

Lemma kinds_goc sid local c s c1 : kinds c -> gocs P sid local c s c1 -> kinds c1.
Proof.
  intros H [h|h1 h2 h3 h4]; auto. intros x s0 f0 he. destruct (Z.eq_dec x sid) as [->|n].
  - rewrite ent_create_same in he. injection he as <- <-. unfold fresh. destruct (new_limits _ _ _). cbn. auto.
  - rewrite ent_create_other in he by auto. eapply H; eauto.
Qed.
Lemma nodup_goc sid local c s c1 : NoDup (akeys (c_streams c)) -> gocs P sid local c s c1 -> NoDup (akeys (c_streams c1)).
Proof. intros H [h|h1 h2 h3 h4]; auto. rewrite streams_create. apply nodup_aset. auto. Qed.

(** Nothing sent changes. *)
Lemma tx_recv g c c' sid s s' f : TxC g c -> ent sid c = Some (s, f) -> c_streams c' = aset sid (s', f) (c_streams c) ->
  (st_send s' = st_send s \/ exists b, st_send s' = sb_update_blocked b (st_send s)) ->
  (forall x, linked x (c_fq c') = true -> linked x (c_fq c) = true) ->
  (exists ext, c_sent c' = c_sent c ++ ext /\ forall x, frames_on x ext = []) ->
  (forall x code final, resets c' x code final -> resets c x code final) ->
  c_txbuf c' = c_txbuf c -> c_tx c' = c_tx c -> c_txcap c' = c_txcap c -> c_max_tx c' = c_max_tx c ->
  (f = true -> st_complete s' = true) ->
  TxC g c'.
Proof.
  intros H he hst hs hl (ext & hsent & hext) hres hbuf htx hcap hmax hover.
  assert (hs1 : sb_buffered (st_send s') = sb_buffered (st_send s) /\ sb_off (st_send s') = sb_off (st_send s) /\
                (is_reset (st_send s') <-> is_reset (st_send s))).
  { destruct hs as [->|(b & ->)]; [tauto|]. ands; try reflexivity; unfold is_reset; cbn; tauto. }
  destruct hs1 as (b1 & b2 & b3).
  eapply (tx_upd g g c c' sid s s' f f ext); eauto.
  - intros. apply same_at_refl.
  - intros k; auto.
  - assert (K : tin (first_limit P sid) (g_w g sid) (g_l g sid) (g_fin g sid) (acked_in g (c_sent c) sid) (frames_on sid (c_sent c))
         (linked sid (c_fq c) && negb f) (st_send s')).
    { destruct hs as [->|(b & ->)]; [|apply tin_blocked]; eapply t_tin; eauto. }
    rewrite hsent, frames_on_app, hext, app_nil_r.
    eapply tin_mono; [exact K|tauto| |].
    + intros y q. apply acked_in_mono with (g := g); auto. intros k; auto.
    + intros q. apply andb_true_iff in q as (q1 & q2). rewrite hl by auto. auto.
  - rewrite b3. eapply t_isr; eauto.
  - eapply t_uni; eauto.
  - lia.
  - lia.
  - rewrite hcap. apply H.
  - rewrite htx, hcap, hmax. apply H.
  - rewrite b3. auto.
Qed.

Lemma tx_mcoll g b sid s c : TxC g c -> ent sid c = Some (s, false) -> (b = true -> st_complete s = true) ->
  TxC g (mcoll b sid s c).
Proof.
  intros H he hb. unfold mcoll. destruct b; auto.
  assert (K : c_streams (coll sid s c) = aset sid (s, true) (c_streams c) /\ c_fq (coll sid s c) = q_remove sid (c_fq c) /\
     c_sent (coll sid s c) = c_sent c /\ c_txbuf (coll sid s c) = c_txbuf c /\ c_tx (coll sid s c) = c_tx c /\
     c_txcap (coll sid s c) = c_txcap c /\ c_max_tx (coll sid s c) = c_max_tx c /\ c_reset (coll sid s c) = c_reset c).
  { unfold coll, set_kind. destruct (st_local s), (is_bidi sid); repeat split; reflexivity. }
  destruct K as (k1 & k2 & k3 & k4 & k5 & k6 & k7 & k8).
  eapply (tx_upd g g c _ sid s s false true []); eauto; try (rewrite k3, app_nil_r; auto; fail); try lia.
  - intros. apply same_at_refl.
  - intros k; auto.
  - intros x hx. rewrite k2, linked_remove_other by auto. auto.
  - rewrite k3. eapply tin_mono; [eapply t_tin; eauto|tauto|auto|]. rewrite k2, linked_remove_same. discriminate.
  - eapply t_isr; eauto.
  - eapply t_uni; eauto.
  - rewrite k6. apply H.
  - rewrite k5, k6, k7. apply H.
  - unfold resets. rewrite k3, k8. auto.
Qed.
End P.
