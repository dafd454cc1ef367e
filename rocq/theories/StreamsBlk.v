(** STREAMS_BLOCKED over histories. *)
Require Import Verif.Base Verif.Errors Verif.Assoc Verif.OctetsModel Verif.FlowControlModel Verif.RangeBufModel
  Verif.RangesModel Verif.RangesProofs Verif.RecvBufModel
  Verif.SendBufModel Verif.SendSpec Verif.SendBufProofs Verif.SendBufProofs2 Verif.SendBufProofs3
  Verif.StreamsModel Verif.StreamsSpec Verif.StreamsProofs
  Verif.StreamsEffects Verif.StreamsShape Verif.StreamsShape2 Verif.StreamsRecv Verif.StreamsTx Verif.StreamsTx2 Verif.StreamsTx3 Verif.StreamsTx4.

Definition blk (l : lim) : option Z * option Z := (l_blk_at l, l_blk_sent l).
Definition blks (b : bool) (c : conn) := blk (lim_of b c).

Section P.
Variable P : params.

Lemma blk_gocs sid local c s c1 b : gocs P sid local c s c1 -> blks b c1 = blks b c.
Proof.
  intros [h|h1 h2 h3 h4]; auto. unfold blks, create, set_kind, opened, kind, lim_of.
  destruct (st_writable (fresh P sid)), (is_bidi sid), b, (is_local sid (p_server P)); reflexivity.
Qed.
Lemma blk_mcoll x sid s c b : blks b (mcoll x sid s c) = blks b c.
Proof.
  unfold blks, mcoll, coll, set_kind, kind, lim_of. destruct x; auto. destruct (st_local s), (is_bidi sid), b; reflexivity.
Qed.

Lemma blk_frame op c o c' b : cn_step P op c = Ok (o, c') ->
  match op with CnSend _ _ _ _ | CnSendStreamsBlocked _ _ | CnLost _ => True | _ => blks b c' = blks b c end.
Proof.
  intros h. destruct op; cbn [cn_step] in h; auto.
  - apply stream_ok in h as [(-> & -> & _)|(s & c1 & r & hg & _ & hw & hle & -> & ->)]; auto. rewrite <- (blk_gocs _ _ _ _ _ b hg). reflexivity.
  - apply reset_ok in h as [(-> & -> & _)|(s & c1 & r & delta & credit & hg & _ & hw & hle & -> & ->)]; auto. rewrite <- (blk_gocs _ _ _ _ _ b hg). reflexivity.
  - apply stop_ok in h as [(-> & -> & _)|(s & c1 & hg & -> & _ & h)]; auto.
    destruct h as [(e & hst & ->)|(fi & un & b' & hst & ->)]; rewrite <- (blk_gocs _ _ _ _ _ b hg); reflexivity.
  - injection h as <- <-. reflexivity.
  - apply max_stream_data_ok in h as [(-> & -> & _)|(s & c1 & hg & -> & _ & ->)]; auto. rewrite <- (blk_gocs _ _ _ _ _ b hg). reflexivity.
  - unfold cn_max_streams in h. dif h; [discriminate|]. injection h as <- <-. unfold set_kind. destruct bidi, b; reflexivity.
  - unfold cn_streams_blocked in h. dif h; [discriminate|]. injection h as <- <-. reflexivity.
  - apply recv_ok in h as [(e & -> & -> & _)|h]; auto.
    destruct h as (s & r & he & hrd & [(e & hw & -> & ->)|(bytes & fin & full & hw & -> & haf & ->)]);
    match goal with |- context [mcoll ?b0 ?sid ?s ?c0] => change (blks b (mcoll b0 sid s c0) = blks b c); rewrite blk_mcoll; reflexivity end.
  - apply priority_ok in h as [(-> & _)|(s & c1 & hg & -> & h)]; auto.
    destruct h as [(-> & _)| ->]; rewrite <- (blk_gocs _ _ _ _ _ b hg); reflexivity.
  - apply shutdown_ok in h as [(-> & (e & ->))|(s & he & -> & [h|h])]; auto.
    + destruct h as (n & r & -> & _ & ->). reflexivity.
    + destruct h as (fi & un & b' & cap & -> & _ & hst & hle & hc & ->). reflexivity.
  - destruct (cn_capacity sid c) as [[r c1]| |] eqn:E; try discriminate. cbn [bind] in h.
    apply capacity_ok in E as [(-> & -> & _)|(s & he & [(e & _ & -> & ->)|(n & _ & -> & ->)])]; injection h as <- <-; auto. apply blk_mcoll.
  - apply writable_ok in h as [(-> & -> & _)|(s & he & [(e & _ & -> & ->)|(n & _ & [(_ & -> & ->)|(_ & -> & _ & bl & bs & _ & ->)])])]; auto. apply blk_mcoll.
  - apply readable_next_ok in h as [(-> & -> & _)|(k & tl & _ & -> & ->)]; auto.
  - apply writable_next_ok in h as [(-> & ->)|(sid & _ & _ & -> & ->)]; auto.
  - unfold update_tx_cap in h. destruct (c_max_tx c <? c_tx c) eqn:E; [discriminate|]. cbn in h. injection h as <- <-. auto.
  - unfold cn_send_max_streams in h. cbv zeta in h. dif h; injection h as <- <-; auto. unfold set_kind. destruct bidi, b; reflexivity.
  - unfold cn_send_data_blocked in h. destruct (c_blk c); [destruct fits|]; injection h as <- <-; auto.
  - apply send_max_stream_data_ok in h as [(-> & ->)|[(-> & _ & ->)|(s & full & he & hf & hm & h)]]; auto.
    cbv zeta in h. destruct h as [(-> & -> & ->)|(-> & -> & ->)]; auto.
  - apply send_max_data_ok in h as (f & b' & [(-> & ->)|(-> & ->)]); auto.
  - unfold cn_send_stop in h. destruct (aget sid (c_stopped c)); [destruct fits|]; injection h as <- <-; auto.
  - unfold cn_send_reset in h. destruct (aget sid (c_reset c)) as [[code fi]|] eqn:E; [destruct fits|]; injection h as <- <-; auto.
  - unfold cn_send_sdb in h. destruct (aget sid (c_blocked c)); [destruct fits|]; injection h as <- <-; auto.
  - unfold cn_send_stream in h. dif h; [injection h as <- <-; auto|].
    apply send_stream_loop_ok in h as (skips & _ & [(-> & _ & ->)|(k & tl & s & bytes & fin & b' & hq & he & hns & hroom & hem & -> & ->)]); auto.
  - apply ack_ok in h as (-> & [->|[(sid & f & s & d & b' & hi & he & hak & ->)|(sid & code & fi & s & _ & he & ->)]]); auto.
    + match goal with |- context [mcoll ?b0 ?sid ?s ?c0] => change (blks b (mcoll b0 sid s c0) = blks b c); rewrite blk_mcoll; reflexivity end.
    + apply blk_mcoll.
Qed.

Lemma blk_send zc sid data fin g c o c' b : 0 <= sid -> params_ok P -> TxC P g c -> cn_send P zc sid data fin c = Ok (o, c') ->
  (o = CoErr StreamLimit /\ is_local sid (p_server P) = true /\
   blks b c' = if p_blocked P && Bool.eqb b (is_bidi sid)
               then (Some (match l_blk_at (lim_of b c) with Some x => Z.max x (l_peer_max (lim_of b c)) | None => l_peer_max (lim_of b c) end), l_blk_sent (lim_of b c))
               else blks b c) \/
  (o <> CoErr StreamLimit /\ blks b c' = blks b c).
Proof.
  intros hs hp T h. apply send_ok in h as [(-> & -> & _)|(hd & _ & h)]; [right; split; auto; discriminate|]. cbv zeta in h.
  match type of h with context [set_c_blk ?b c] => set (c0 := set_c_blk b c) in h end.
  destruct h as [(-> & _ & hl & _ & ->)|[(-> & -> & _)|[(-> & -> & _)|h]]].
  - left. ands; auto. unfold blks, lim_of, kind, set_kind, c0, blk_update_at. destruct (p_blocked P), (is_bidi sid), b; reflexivity.
  - right. split; [discriminate|reflexivity].
  - right. split; [discriminate|reflexivity].
  - right. destruct h as (s & c1 & hg & h). pose proof (blk_gocs _ _ _ _ _ b hg) as e1. unfold c0 in e1. 
    assert (e2 : blks b c1 = blks b c) by exact e1. clear e1.
    assert (T0 : TxC P g c0) by (apply (tx_same P g c); auto).
    pose proof (tx_goc P hp _ _ _ _ _ _ hs T0 hg) as T1. pose proof (t_sb _ _ _ _ _ _ T1 (gocs_ent _ _ _ _ _ _ hg)) as hsb.
    destruct h as [(e & he & -> & ->)|[(n & _ & _ & _ & -> & ->)|(n & hc & hnz & [(e & hw & -> & ->)|h])]].
    + split; [|rewrite blk_mcoll; auto]. unfold sb_cap in he. destruct (sb_error (st_send s)); [congruence|]. destr_if; discriminate.
    + split; [discriminate|auto].
    + split; [|auto]. pose proof (t_cap _ _ _ T) as ht. pose proof (zlen_nonneg data) as hz.
      assert (wp : write_post (g_w g sid) (st_send s) (take (send_len (c_txcap c) (zlen data)) data) (send_fin (c_txcap c) (zlen data) fin) (Err e)).
      { rewrite <- hw. assert (0 <= send_len (c_txcap c) (zlen data) <= zlen data) by (unfold send_len; destr_if; lia).
        destruct zc; [apply sb_write_zc_spec; auto|apply sb_write_spec; auto]. }
      intros q. injection q as ->. cbn in wp. auto.
    + destruct h as (sent & b0 & hw & hle & -> & bl & blocked & _ & ->). split; [destr_if; discriminate|auto].
Qed.

Lemma blk_lost k c o c' b : cn_lost k c = Ok (o, c') ->
  (exists m, nth_error (c_sent c) k = Some (SfStreamsBlocked b m) /\ l_blk_sent (lim_of b c) = Some m /\ blks b c' = (l_blk_at (lim_of b c), None)) \/
  (blks b c' = blks b c /\ forall m, nth_error (c_sent c) k = Some (SfStreamsBlocked b m) -> l_blk_sent (lim_of b c) <> Some m).
Proof.
  intros h. unfold cn_lost in h. destruct (nth_error (c_sent c) k) as [[sid f|sid code fi|sid code|sid| |bi|bi l]|] eqn:Ei.
  8:{ right. injection h as <- <-. split; [reflexivity|discriminate]. }
  - right. split; [|discriminate]. destruct (cn_get sid c) as [s|]; [|injection h as <- <-; auto]. dif h; [injection h as <- <-; auto|].
    destruct (sb_retransmit _ _ _) as [[n b']| |]; try discriminate. cbn [bind] in h. injection h as <- <-. destr_if; reflexivity.
  - right. injection h as <- <-. split; [reflexivity|discriminate].
  - right. split; [|discriminate]. destruct (cn_get sid c) as [s|]; [dif h|]; injection h as <- <-; reflexivity.
  - right. split; [|discriminate]. destruct (cn_get sid c) as [s|]; injection h as <- <-; reflexivity.
  - right. injection h as <- <-. split; [reflexivity|discriminate].
  - right. injection h as <- <-. split; [unfold set_kind; destruct bi, b; reflexivity|discriminate].
  - cbv zeta in h. destruct (Bool.eqb bi b) eqn:Eb.
    + apply Bool.eqb_prop in Eb. subst bi. fold (lim_of b c) in h. destruct (l_blk_sent (lim_of b c)) as [x|] eqn:E.
      * injection h as <- <-. destruct (x =? l) eqn:El.
        -- left. exists l. ands; auto; [f_equal; lia|]. unfold set_kind, lim_of. destruct b; reflexivity.
        -- right. split; auto. intros m q. injection q as ->. intros q. injection q as ->. lia.
      * injection h as <- <-. right. split; auto. discriminate.
    + right. split.
      * destruct (l_blk_sent (if bi then c_bidi c else c_uni c)); injection h as <- <-; auto. destr_if; auto. unfold set_kind, lim_of. destruct bi, b; try reflexivity; discriminate.
      * intros m q. injection q as -> ->. destruct b; discriminate.
Qed.

Lemma blk_sendblk bi fits c o c' b : cn_send_streams_blocked bi fits c = Ok (o, c') ->
  (exists m, o = CoSent (Some (SfStreamsBlocked bi m)) /\ l_blk_at (lim_of bi c) = Some m /\ opt_lt (l_blk_sent (lim_of bi c)) (Some m) = true /\
     blks b c' = if Bool.eqb b bi then (Some m, Some m) else blks b c) \/
  (o = CoSent None /\ blks b c' = blks b c).
Proof.
  intros h. unfold cn_send_streams_blocked in h. cbv zeta in h. fold (lim_of bi c) in h.
  destruct (opt_lt (l_blk_sent (lim_of bi c)) (l_blk_at (lim_of bi c))) eqn:E; [|right; injection h as <- <-; auto].
  destruct (l_blk_at (lim_of bi c)) as [m|] eqn:Ea; [|right; injection h as <- <-; auto].
  destruct fits; [|right; injection h as <- <-; auto]. injection h as <- <-. left. exists m. ands; auto.
  unfold blks, blk, lim_of, set_kind in *. destruct bi, b; cn; rewrite ?Ea; reflexivity.
Qed.
End P.

Lemma announced_app b l l' : announced b (l ++ l') = announced b l ++ announced b l'.
Proof. apply flat_map_app. Qed.

(** Only this operation announces. *)
Lemma logged_step P op c o c' b : cn_step P op c = Ok (o, c') -> (forall bi fits, op <> CnSendStreamsBlocked bi fits) -> announced b (logged o) = [].
Proof.
  intros h hn. destruct o; try reflexivity. destruct f as [f|]; [|reflexivity]. destruct f; try reflexivity. exfalso.
  destruct op; cbn [cn_step] in h.
  - apply stream_ok in h as [(? & _)|(s & c1 & r & hg & _ & hw & hle & ? & _)]; discriminate.
  - apply reset_ok in h as [(? & _)|(s & c1 & r & delta & credit & hg & _ & hw & hle & ? & _)]; discriminate.
  - apply stop_ok in h as [(? & _)|(s & c1 & hg & ? & _)]; discriminate.
  - discriminate.
  - apply max_stream_data_ok in h as [(? & _)|(s & c1 & hg & ? & _)]; discriminate.
  - unfold cn_max_streams in h. dif h; discriminate.
  - unfold cn_streams_blocked in h. dif h; discriminate.
  - apply recv_ok in h as [(e & ? & _)|h]; [discriminate|].
    destruct h as (s & r & he & hrd & [(e & hw & ? & _)|(bytes & fin & full & hw & ? & _)]); discriminate.
  - apply send_ok in h as [(? & _)|(hd & _ & h)]; [discriminate|]. cbv zeta in h.
    destruct h as [(? & _)|[(? & _)|[(? & _)|h]]]; try discriminate. destruct h as (s & c1 & hg & h).
    destruct h as [(e & he & ? & _)|[(n & _ & _ & _ & ? & _)|(n & hc & hnz & [(e & hw & ? & _)|h])]]; try discriminate.
    destruct h as (sent & b0 & hw & hle & q & _). destr_if; discriminate.
  - apply priority_ok in h as [(_ & (e & _ & [q|(_ & q)]))|(s & c1 & hg & q & _)]; discriminate.
  - apply shutdown_ok in h as [(_ & (e & q))|(s & he & q & _)]; discriminate.
  - destruct (cn_capacity sid c) as [[[n|e|] c1]| |] eqn:E; cbn in h; discriminate.
  - apply writable_ok in h as [(q & _)|(s & he & [(e & _ & q & _)|(n & _ & [(_ & q & _)|(_ & q & _)])])]; discriminate.
  - apply readable_next_ok in h as [(q & _)|(k & tl & _ & q & _)]; discriminate.
  - apply writable_next_ok in h as [(q & _)|(sid & _ & _ & q & _)]; discriminate.
  - unfold update_tx_cap in h. dm h.
  - unfold cn_send_max_streams in h. cbv zeta in h. dif h; discriminate.
  - unfold cn_send_data_blocked in h. destruct (c_blk c); [destruct fits|]; discriminate.
  - eapply hn; eauto.
  - apply send_max_stream_data_ok in h as [(q & _)|[(q & _)|(s & full & he & hf & hm & h)]]; try discriminate.
    cbv zeta in h. destruct h as [(_ & q & _)|(_ & q & _)]; discriminate.
  - apply send_max_data_ok in h as (f & b' & [(q & _)|(q & _)]); discriminate.
  - unfold cn_send_stop in h. destruct (aget sid (c_stopped c)); [destruct fits|]; discriminate.
  - unfold cn_send_reset in h. destruct (aget sid (c_reset c)) as [[code fi]|] eqn:E; [destruct fits|]; discriminate.
  - unfold cn_send_sdb in h. destruct (aget sid (c_blocked c)); [destruct fits|]; discriminate.
  - unfold cn_send_stream in h. dif h; [discriminate|].
    apply send_stream_loop_ok in h as (skips & _ & [(q & _)|(k & tl & s & bytes & fin & b' & hq & he & hns & hroom & hem & q & _)]); discriminate.
  - apply ack_ok in h as (q & _); discriminate.
  - apply lost_ok in h as (q & _); discriminate.
Qed.

Record Blk P i (b : bool) ops outs (c : conn) : Prop := {
  k_at : p_blocked P = true -> forall m, blocked_at P i b m ops outs -> exists a, l_blk_at (lim_of b c) = Some a /\ m <= a;
  k_src : forall a, l_blk_at (lim_of b c) = Some a -> p_blocked P = true /\ blocked_at P i b a ops outs;
  k_le : forall m, In m (announced b (sent_frames outs)) -> exists a, l_blk_at (lim_of b c) = Some a /\ m <= a;
  k_sent : forall x, l_blk_sent (lim_of b c) = Some x -> In x (announced b (sent_frames outs)) /\ forall m, In m (announced b (sent_frames outs)) -> m <= x;
  k_none : l_blk_sent (lim_of b c) = None -> forall m, In m (announced b (sent_frames outs)) ->
     (forall m', In m' (announced b (sent_frames outs)) -> m' <= m) -> lost_since b m ops outs }.

Lemma sent_snoc outs o : sent_frames (outs ++ [o]) = sent_frames outs ++ logged o.
Proof. unfold sent_frames. rewrite flat_map_app. cbn. rewrite app_nil_r. auto. Qed.

Lemma blocked_snoc P i b m ops outs op o : length ops = length outs ->
  (blocked_at P i b m (ops ++ [op]) (outs ++ [o]) <->
   blocked_at P i b m ops outs \/ exists zc sid data fin, op = CnSend zc sid data fin /\ o = CoErr StreamLimit /\ own P sid = true /\ bidirectional sid = b /\ m = granted b i ops).
Proof.
  intros hl. split.
  - intros (pre & zc & sid & data & fin & post & h1 & h2 & h3 & h4 & h5). destruct post as [|y post] using rev_ind.
    + apply app_inj_tail in h1 as (<- & ->). right. exists zc, sid, data, fin. rewrite nth_error_app2, hl, Nat.sub_diag in h2 by lia. cbn in h2. ands; auto. congruence.
    + clear IHpost. rewrite app_comm_cons, app_assoc in h1. apply app_inj_tail in h1 as (-> & ->). left. exists pre, zc, sid, data, fin, post. ands; auto.
      rewrite app_length in hl. cbn in hl. rewrite nth_error_app1 in h2 by lia. auto.
  - intros [(pre & zc & sid & data & fin & post & -> & h2 & h3 & h4 & h5)|(zc & sid & data & fin & -> & -> & h3 & h4 & h5)].
    + exists pre, zc, sid, data, fin, (post ++ [op]). rewrite <- app_assoc. ands; auto. rewrite app_length in hl. cbn in hl. rewrite nth_error_app1 by lia. auto.
    + exists ops, zc, sid, data, fin, []. ands; auto. rewrite nth_error_app2, hl, Nat.sub_diag by lia. auto.
Qed.

Lemma lost_snoc b m ops outs op o : length ops = length outs -> announced b (logged o) = [] -> lost_since b m ops outs -> lost_since b m (ops ++ [op]) (outs ++ [o]).
Proof.
  intros hl h (pre & k & post & -> & h1 & h2). exists pre, k, (post ++ [op]). rewrite <- app_assoc. rewrite app_length in hl. cbn in hl. ands; auto.
  - rewrite firstn_app. replace (length pre - length outs)%nat with O by lia. rewrite app_nil_r. auto.
  - rewrite skipn_app. replace (length pre - length outs)%nat with O by lia. cbn [skipn]. rewrite sent_snoc, announced_app, h2, h. auto.
Qed.

Theorem blk_history P i b ops outs c : history P i ops outs c -> Blk P i b ops outs c.
Proof.
  revert ops outs c. apply history_ind.
  - intros hp hi. constructor; cbn [sent_frames flat_map announced]; try (intros; contradiction).
    + intros _ m (pre & zc & sid & data & fin & post & h1 & _). destruct pre; discriminate.
    + destruct b; discriminate.
    + destruct b; discriminate.
  - intros ops outs c op o c' hist H hok h. destruct (tx_history _ _ _ _ _ hist) as (T & hsent & _).
    pose proof (shape_history _ _ _ _ _ hist) as hsh. pose proof hist as (hp & hst & hf & hr). pose proof (run_length _ _ _ _ _ hr) as hl.
    assert (quiet : announced b (logged o) = [] -> blks b c' = blks b c ->
      (forall m, blocked_at P i b m (ops ++ [op]) (outs ++ [o]) -> p_blocked P = true -> blocked_at P i b m ops outs) -> Blk P i b (ops ++ [op]) (outs ++ [o]) c').
    { intros q1 q2 q3. unfold blks, blk in q2. injection q2 as e1 e2.
      constructor; rewrite ?sent_snoc, ?announced_app, ?q1, ?app_nil_r, ?e1, ?e2.
      - intros hpb m hm. apply (k_at _ _ _ _ _ _ H hpb). auto.
      - intros a ha. destruct (k_src _ _ _ _ _ _ H a ha). split; auto. apply blocked_snoc; auto.
      - apply H.
      - apply H.
      - intros hnn m h1 h2. apply lost_snoc; auto. apply (k_none _ _ _ _ _ _ H); auto. }
    assert (noblk : (forall zc sid data fin, op = CnSend zc sid data fin -> o = CoErr StreamLimit -> own P sid = true -> bidirectional sid = b -> p_blocked P = false) ->
      forall m, blocked_at P i b m (ops ++ [op]) (outs ++ [o]) -> p_blocked P = true -> blocked_at P i b m ops outs).
    { intros q m hm hpb. apply blocked_snoc in hm as [hm|(zc & sid & data & fin & -> & -> & h3 & h4 & h5)]; auto. rewrite (q zc sid data fin) in hpb; auto. discriminate. }
    pose proof (blk_frame P op c o c' b h) as hfr.
    destruct op; try (apply quiet; [eapply logged_step; eauto; discriminate|exact hfr|apply noblk; discriminate]); cbn [cn_step] in h.
    + (* CnSend *)
      cbn in hok. assert (hlog : announced b (logged o) = []) by (eapply (logged_step P (CnSend zc sid data fin)); eauto; discriminate).
      destruct (blk_send P zc sid data fin _ c o c' b hok hp T h) as [(-> & hloc & q)|(q1 & q2)].
      * destruct (p_blocked P && Bool.eqb b (is_bidi sid)) eqn:E.
        -- apply andb_true_iff in E as (E1 & E2). apply Bool.eqb_prop in E2. unfold blks, blk in q. injection q as e1 e2.
           assert (hpm : l_peer_max (lim_of b c) = granted b i ops) by (apply hsh).
           assert (hnew : blocked_at P i b (granted b i ops) (ops ++ [CnSend zc sid data fin]) (outs ++ [CoErr StreamLimit])).
           { apply blocked_snoc; auto. right. exists zc, sid, data, fin. rewrite <- local_own, <- bidi_spec by auto. ands; auto. }
           rewrite hpm in e1.
           constructor; rewrite ?sent_snoc, ?announced_app, ?hlog, ?app_nil_r, ?e1, ?e2.
           ++ intros _ m hm. apply blocked_snoc in hm as [hm|(zc0 & sid0 & data0 & fin0 & _ & _ & _ & _ & ->)]; auto.
              ** destruct (k_at _ _ _ _ _ _ H E1 m hm) as (a & ha1 & ha2). rewrite ha1. eexists. split; [reflexivity|lia].
              ** eexists. split; [reflexivity|]. destruct (l_blk_at (lim_of b c)); lia.
           ++ intros a ha. split; auto. injection ha as <-. destruct (l_blk_at (lim_of b c)) as [x|] eqn:Ex; auto.
              destruct (Z.max_spec x (granted b i ops)) as [(_ & ->)|(_ & ->)]; auto. apply blocked_snoc; auto. left. apply (k_src _ _ _ _ _ _ H). auto.
           ++ intros m hm. destruct (k_le _ _ _ _ _ _ H m hm) as (a & ha1 & ha2). rewrite ha1. eexists. split; [reflexivity|lia].
           ++ apply H.
           ++ intros hnn m h1 h2. apply lost_snoc; auto. apply (k_none _ _ _ _ _ _ H); auto.
        -- apply quiet; auto. apply noblk. intros zc0 sid0 data0 fin0 he _ hown hb. injection he as <- <- <- <-.
           rewrite bidi_spec, hb, Bool.eqb_reflx, andb_true_r in E by auto. auto.
      * apply quiet; auto. apply noblk. intros; contradiction.
    + (* CnSendStreamsBlocked *)
      destruct (blk_sendblk bidi fits c o c' b h) as [(m & -> & h1 & h2 & h3)|(-> & q2)].
      2:{ apply quiet; auto. apply noblk; discriminate. }
      destruct (Bool.eqb b bidi) eqn:E.
      * apply Bool.eqb_prop in E. subst bidi. unfold blks, blk in h3. injection h3 as e1 e2.
        assert (hann : announced b (logged (CoSent (Some (SfStreamsBlocked b m)))) = [m]) by (cbn; rewrite Bool.eqb_reflx; auto).
        constructor; rewrite ?sent_snoc, ?announced_app, ?hann, ?e1, ?e2.
        -- intros hpb m' hm. apply blocked_snoc in hm as [hm|(zc0 & sid0 & data0 & fin0 & hx & _)]; auto; [|discriminate].
           rewrite <- h1. apply (k_at _ _ _ _ _ _ H hpb). auto.
        -- intros a ha. injection ha as <-. destruct (k_src _ _ _ _ _ _ H m h1). split; auto. apply blocked_snoc; auto.
        -- intros m' hm. rewrite in_app_iff in hm. destruct hm as [hm|[<-|[]]]; [rewrite <- h1; apply (k_le _ _ _ _ _ _ H m' hm)|]. exists m. split; auto. lia.
        -- intros x hx. injection hx as <-. split; [apply in_app_iff; right; left; auto|]. intros m' hm. rewrite in_app_iff in hm. destruct hm as [hm|[<-|[]]]; [|lia].
           destruct (k_le _ _ _ _ _ _ H m' hm) as (a & ha1 & ha2). congruence.
        -- discriminate.
      * apply quiet; auto; [cbn; rewrite E; auto|]. apply noblk; discriminate.
    + (* CnLost *)
      assert (hlog : announced b (logged o) = []) by (eapply (logged_step P (CnLost i0)); eauto; discriminate).
      destruct (blk_lost _ c o c' b h) as [(m & h1 & h2 & h3)|(q & _)].
      2:{ apply quiet; auto. apply noblk; discriminate. }
      unfold blks, blk in h3. injection h3 as e1 e2. destruct (k_sent _ _ _ _ _ _ H m h2) as (w1 & w2).
      constructor; rewrite ?sent_snoc, ?announced_app, ?hlog, ?app_nil_r, ?e1, ?e2.
      * intros hpb m' hm. apply blocked_snoc in hm as [hm|(zc0 & sid0 & data0 & fin0 & hx & _)]; auto; [|discriminate]. apply (k_at _ _ _ _ _ _ H hpb). auto.
      * intros a ha. destruct (k_src _ _ _ _ _ _ H a ha). split; auto. apply blocked_snoc; auto.
      * apply H.
      * discriminate.
      * intros _ m' g1 g2. assert (m' = m) by (pose proof (g2 m w1); pose proof (w2 m' g1); lia). subst m'.
        exists ops, i0, []. rewrite hsent in h1. ands; auto.
        -- rewrite hl, firstn_app, Nat.sub_diag, firstn_all, app_nil_r. auto.
        -- rewrite hl, skipn_app, Nat.sub_diag, skipn_all. cbn [app skipn]. unfold sent_frames. cbn. rewrite app_nil_r. auto.
Qed.

Section T.
Context (P : params) (i : start) (ops : list cn_op) (outs : list cn_out) (c : conn) (H : history P i ops outs c).

Lemma blocked_frame b bi fits m c' : cn_step P (CnSendStreamsBlocked bi fits) c = Ok (CoSent (Some (SfStreamsBlocked b m)), c') ->
  p_blocked P = true /\ blocked_at P i b m ops outs /\
  forall m', In m' (announced b (sent_frames outs)) -> m' <= m /\ (m' = m -> lost_since b m ops outs).
Proof.
  intros h. pose proof (blk_history P i b ops outs c H) as K. cbn [cn_step] in h.
  destruct (blk_sendblk bi fits c _ c' b h) as [(m0 & h0 & h1 & h2 & h3)|(q & _)]; [|discriminate]. injection h0 as -> ->.
  destruct (k_src _ _ _ _ _ _ K _ h1) as (q1 & q2). ands; auto; [].
  intros m' hm. destruct (k_le _ _ _ _ _ _ K _ hm) as (a & ha1 & ha2). rewrite h1 in ha1. injection ha1 as <-. split; auto. intros ->.
  destruct (l_blk_sent (lim_of bi c)) as [x|] eqn:E.
  - destruct (k_sent _ _ _ _ _ _ K x E) as (_ & w). specialize (w _ hm). cbn in h2. lia.
  - apply (k_none _ _ _ _ _ _ K); auto. intros m' hm'. destruct (k_le _ _ _ _ _ _ K _ hm') as (a & ha1 & ha2'). rewrite h1 in ha1. injection ha1 as <-. auto.
Qed.

Lemma blocked_due b m : p_blocked P = true -> blocked_at P i b m ops outs -> (forall m', In m' (announced b (sent_frames outs)) -> m' < m) ->
  exists m' c', m <= m' /\ cn_step P (CnSendStreamsBlocked b true) c = Ok (CoSent (Some (SfStreamsBlocked b m')), c').
Proof.
  intros hp hb hm. pose proof (blk_history P i b ops outs c H) as K. destruct (k_at _ _ _ _ _ _ K hp m hb) as (a & h1 & h2).
  exists a. cbn [cn_step]. unfold cn_send_streams_blocked. cbv zeta. fold (lim_of b c). rewrite h1.
  assert (e : opt_lt (l_blk_sent (lim_of b c)) (Some a) = true).
  { destruct (l_blk_sent (lim_of b c)) as [x|] eqn:E; auto. destruct (k_sent _ _ _ _ _ _ K x E) as (w & _). specialize (hm _ w). cbn. lia. }
  rewrite e. eexists. split; auto.
Qed.

Lemma blocked_lost b m k o c' : nth_error (sent_frames outs) k = Some (SfStreamsBlocked b m) -> (forall m', In m' (announced b (sent_frames outs)) -> m' <= m) ->
  cn_step P (CnLost k) c = Ok (o, c') ->
  exists m' c'', m <= m' /\ cn_step P (CnSendStreamsBlocked b true) c' = Ok (CoSent (Some (SfStreamsBlocked b m')), c'').
Proof.
  intros hk hm h. pose proof (blk_history P i b ops outs c H) as K. destruct (tx_history _ _ _ _ _ H) as (_ & hsent & _). cbn [cn_step] in h.
  assert (hin : In m (announced b (sent_frames outs))).
  { unfold announced. apply in_flat_map. exists (SfStreamsBlocked b m). split; [eapply nth_error_In; eauto|]. rewrite Bool.eqb_reflx. left; auto. }
  destruct (k_le _ _ _ _ _ _ K m hin) as (a & h1 & h2).
  exists a. cbn [cn_step]. unfold cn_send_streams_blocked. cbv zeta. fold (lim_of b c').
  assert (e : l_blk_at (lim_of b c') = Some a /\ l_blk_sent (lim_of b c') = None).
  { destruct (blk_lost _ c o c' b h) as [(m' & g1 & g2 & g3)|(q1 & q2)].
    - unfold blks, blk in g3. injection g3 as e1 e2. rewrite e1, e2. auto.
    - unfold blks, blk in q1. injection q1 as e1 e2. rewrite e1, e2. split; auto. rewrite hsent in q2. specialize (q2 m hk).
      destruct (l_blk_sent (lim_of b c)) as [x|] eqn:E; auto. destruct (k_sent _ _ _ _ _ _ K x E) as (w1 & w2). pose proof (hm _ w1). pose proof (w2 _ hin).
      assert (x = m) by lia. congruence. }
  destruct e as (e1 & e2). rewrite e1, e2. cbn [opt_lt]. eexists. split; auto.
Qed.
End T.
