(** Reading a stream until there is nothing more to do; reading the body. *)
Require Import Verif.Base Verif.Errors Verif.OctetsModel Verif.StreamsModel Verif.QpackModel Verif.H3FrameModel Verif.H3ConnModel Verif.H3ConnSpec Verif.H3ConnProofs Verif.H3ConnProofs2 Verif.H3ConnProofs3 Verif.H3ConnProofs4.

Lemma prio_twice c c1 j o : c_server c1 = c_server c /\ c_mfss c1 = c_mfss c /\ c_maxp c1 = c_maxp c ->
  c_str c1 j = c_str c j \/ prioritized c j (c_str c1 j) -> o = c_str c1 j \/ prioritized c1 j o -> o = c_str c j \/ prioritized c j o.
Proof.
  intros (e1 & e2 & e3) h1 [-> |(h2 & h3 & v & ->)]; auto. right. split; [congruence|]. split; auto. exists v.
  destruct h1 as [h1|(_ & _ & w & h1)]; rewrite h1; auto. unfold new_stream. rewrite e2, e3. auto.
Qed.
Lemma env_trans id c c1 c2 : env id c c1 -> env id c1 c2 -> env id c c2.
Proof.
  intros [a1 a2 a3 a4 a5] [b1 b2 b3 b4 b5]. constructor.
  - destruct a1 as (? & ? & ?), b1 as (? & ? & ?). repeat split; congruence.
  - eapply moved_trans; eauto.
  - intros j h. eapply prio_twice; eauto.
  - auto.
  - congruence.
Qed.
Lemma grown_trans s s1 s2 bs bs2 : grown s s1 bs -> grown s1 s2 bs2 -> grown s s2 (bs ++ bs2).
Proof. unfold grown. rewrite zlen_app. pose proof (zlen_nonneg bs). pose proof (zlen_nonneg bs2). lia. Qed.

Section Turn.
Context (server : bool) (mfss : option Z) (loc : bool) (mfss_ok : match mfss with Some n => 0 <= n | None => True end).
Notation cfg := (cfgl server mfss loc).
Notation post := (post server mfss loc).
Notation wf := (wf server mfss loc).
Notation good := (good server mfss loc).
Notation failed := (failed server mfss loc).

Lemma post_trans polling id s s1 bs1 c c1 r c2 : env id c c1 -> data_of (c_q c) id = bs1 ++ data_of (c_q c1) id -> grown s s1 bs1 -> good polling id s s1 bs1 c c1 [] ->
  post polling id s1 c1 (Stop r, c2) -> post polling id s c (Stop r, c2).
Proof.
  intros e1 d1 g1 (w1 & q1 & k1) (bs & s2 & h & e2 & d2 & g2 & p).
  exists (bs1 ++ bs), s2. split; auto. split; [eapply env_trans; eauto|]. split; [rewrite d1, d2, app_assoc; auto|]. split; [eapply grown_trans; eauto|].
  assert (HG : forall tl, good polling id s1 s2 bs c1 c2 tl -> good polling id s s2 (bs1 ++ bs) c c2 tl).
  { intros tl (w2 & q2 & k2). split; auto. split; [congruence|]. intros hb more. rewrite <- app_assoc, k1 by auto. apply k2; auto. }
  destruct r as [ev|e|]; auto.
  - destruct p as (p1 & p2 & p3 & p4). split; auto.
  - destruct p as [(p1 & p2)|p].
    + left. split; auto. destruct p2 as [-> |(t & -> & p2)]; auto. right. exists t. split; auto. intros hb hex. apply p2; auto. eapply exists_moved; [apply (ev_q _ _ _ e1)|auto].
    + right. destruct p as (h1 & h2 & h3 & h4 & h5). rewrite q1 in *. split; auto. split; auto. split; auto. split; auto.
      intros hb. destruct (h5 hb) as (e0 & h6 & h7). exists e0. split; auto. intros more. rewrite <- app_assoc, k1 by auto. apply h6.
Qed.

Lemma turns_post polling id : forall fuel s c, c_str c id = Some s -> wf id s -> tr_ok (c_q c) -> q_down (c_q c) = false ->
  c_server c = server -> c_mfss c = mfss -> q_err (c_q c) = None \/ polling = false -> mu s c id < Z.of_nat fuel ->
  post polling id s c (let '(r, c') := turns fuel polling id c in (Stop r, c')).
Proof.
  induction fuel as [|fuel IH]; intros s c hs0 hw hk hd hsv hmf hpe hf.
  - unfold mu in hf. pose proof (zlen_nonneg (data_of (c_q c) id)). destruct (h_len s =? 0); lia.
  - cbn [turns]. rewrite hs0. pose proof (step_post server mfss loc mfss_ok polling id s c hs0 hw hk hd hsv hmf hpe) as P.
    destruct (step polling id s c) as [[|r] c1]; [|exact P].
    destruct P as (bs & s1 & h & e & d & g & gd & hmu). destruct (turns fuel polling id c1) as [r c2] eqn:T.
    eapply post_trans; eauto. specialize (IH s1 c1). rewrite T in IH. apply IH; auto.
    + apply gd.
    + apply (mv_ok _ _ _ (ev_q _ _ _ e)). auto.
    + rewrite (proj1 (mv_cfg _ _ _ (ev_q _ _ _ e))). auto.
    + rewrite (proj1 (ev_cfg _ _ _ e)). auto.
    + rewrite (proj1 (proj2 (ev_cfg _ _ _ e))). auto.
    + rewrite (proj1 (proj2 gd)). auto.
    + lia.
Qed.

Definition stream_at (c : conn) (id : Z) : hs := match c_str c id with Some s => s | None => new_stream c id false end.
Lemma readable_post polling id c : wf id (stream_at c id) -> tr_ok (c_q c) -> q_down (c_q c) = false ->
  c_server c = server -> c_mfss c = mfss -> q_err (c_q c) = None \/ polling = false ->
  post polling id (stream_at c id) c (let '(r, c') := process_readable polling id c in (Stop r, c')).
Proof.
  intros hw hk hd hsv hmf hpe. unfold process_readable. set (c1 := match c_str c id with Some _ => c | None => _ end).
  assert (hq : c_q c1 = c_q c) by (unfold c1; destruct (c_str c id); auto).
  assert (hs1 : c_str c1 id = Some (stream_at c id)) by (unfold c1, stream_at; destruct (c_str c id) eqn:E; auto; cbn; apply upd_same).
  assert (he : env id c c1).
  { unfold c1. destruct (c_str c id) eqn:E.
    - eapply env_at; [apply at_refl; eauto|apply moved_refl].
    - constructor; cbn; auto; [apply moved_refl|]. intros j hj. rewrite upd_other by auto. auto. }
  destruct (turns _ polling id c1) as [r c2] eqn:T.
  eapply (post_trans polling id (stream_at c id) (stream_at c id) [] c c1); auto.
  - rewrite hq. auto.
  - apply grown_refl.
  - split; auto. split; [congruence|]. auto.
  - pose proof (turns_post polling id (4 + 2 * match q_str (c_q c1) id with Some t => length (t_data t) | None => 0%nat end) (stream_at c id) c1 hs1 hw) as P.
    rewrite T in P. apply P; rewrite ?hq; auto.
    + rewrite (proj1 (ev_cfg _ _ _ he)). auto.
    + rewrite (proj1 (proj2 (ev_cfg _ _ _ he))). auto.
    + unfold mu, data_of. rewrite hq. destruct (q_str (c_q c) id) as [t|]; unfold zlen; cbn [length]; destruct (h_len (stream_at c id) =? 0); lia.
Qed.

(** Reading what a DATA frame holds *)
Lemma consume_spec id s q n r s' q' : wf id s -> h_st s = StData -> tr_ok q -> 0 <= n -> consume_data id s q n = (r, s', q') ->
  moved id q q' /\ q_err q' = q_err q /\ wf id s' /\ h_buf s' = [] /\ h_cap s' <= Z.max (h_cap s) 8192 /\
  match r with
  | Ok (bs, fin) => data_of q id = bs ++ data_of q' id /\ zlen bs <= n /\ fin = stream_finished q' id /\
      (forall more, resume (cfg id) s (bs ++ more) = map KByte bs ++ resume (cfg id) s' more)
  | Err e => data_of q' id = data_of q id /\ (forall more, resume (cfg id) s more = resume (cfg id) s' more) /\
      (e = HDone \/ exists t, e = HTransport t /\ (exists_in q id = true -> over q' id /\ data_of q' id = []))
  | Panic => False
  end.
Proof.
  intros hw hst hk hn h. pose proof hw as (wc & wp). unfold wf_pos in wp. rewrite hst in wp. destruct wp as (hb & hbuf & hpt). unfold consume_data in h.
  destruct (stream_recv q id (Z.min n (h_len s - h_off s))) as [r1 q1] eqn:R.
  destruct (recv_spec q id (Z.min n (h_len s - h_off s)) _ _ hk ltac:(unfold part in hpt; lia) R) as (m1 & e1 & sp). clear R.
  destruct r1 as [[bs fin]|e|]; [| |destruct sp].
  - destruct sp as (d1 & b1 & z1 & f1 & ht & hfin). pose proof (zlen_nonneg bs).
    set (s1 := set_pos s (h_st s) (h_buf s) (h_cap s) (h_len s) (h_off s + zlen bs)) in *.
    set (s2 := if stream_readable q1 id then s1 else set_trig s1 false) in *.
    assert (k1 : h_st s2 = h_st s /\ h_buf s2 = h_buf s /\ h_cap s2 = h_cap s /\ h_len s2 = h_len s /\ h_off s2 = h_off s + zlen bs /\ phase_of s2 = phase_of s /\ h_fty s2 = h_fty s).
    { unfold s2. destruct (stream_readable q1 id); cbn; repeat split; auto. }
    assert (wc2 : wf_cfg server mfss loc id s2) by (unfold s2; destruct wc; destruct (stream_readable q1 id); constructor; auto).
    destruct k1 as (k1 & k2 & k3 & k4 & k5 & k6 & k7). unfold complete in h. destruct (h_off s2 =? h_len s2) eqn:E.
    + rewrite goto_ok in h by (intros; unfold MAX_STATE_BUF; lia). injection h as <- <- <-. split; auto. split; auto.
      split; [apply wf_next; [auto|destruct (wc_bidi _ _ _ _ _ wc hb) as (ht1 & _); destruct (wc_bidi _ _ _ _ _ wc2 hb) as (ht2 & _); unfold framed; rewrite ht2; auto]|].
      split; [reflexivity|]. split; [cbn [set_pos h_cap]; rewrite k3; apply cap_goto|].
      split; auto. split; [lia|]. split; auto. intros more. rewrite resume_next, k6. unfold resume. rewrite hst, data_split by lia. f_equal. unfold on_skip.
      pose proof (zlen_nonneg more). unfold on_data, on_skip. replace (h_len s - h_off s - zlen bs) with 0 by lia. rewrite take_0. replace (zlen more <? 0) with false by lia. auto.
    + injection h as <- <- <-. split; auto. split; auto. split; [split; [auto|unfold wf_pos; rewrite k1, hst; split; auto; split; [congruence|unfold part in *; lia]]|].
      split; [congruence|]. split; [lia|]. split; auto. split; [lia|]. split; auto. intros more. unfold resume. rewrite k1, hst, data_split, k6, k4, k5 by lia. rewrite Z.sub_add_distr. auto.
  - assert (sp2 : (e = Done /\ q1 = q) \/ (e <> Done /\ data_of q1 id = data_of q id /\ ((exists code, e = StreamReset code /\ over q id /\ data_of q id = []) \/ (q1 = q /\ (is_bidi id = true -> q_str q id = None))))).
    { destruct e; try (right; split; [discriminate|]; exact sp). left. tauto. }
    destruct sp2 as [(-> & ->)|(hne & hdata & hcase)].
    + injection h as <- <- <-. split; auto. split; auto. split; [destruct wc as [w1 w2 w3]; split; [constructor; auto|unfold wf_pos; cbn; rewrite hst; auto]|]. cbn. split; auto. split; [lia|]. split; auto.
    + assert (hh : exists e', r = Err (HTransport e) /\ s' = s /\ q' = q1 /\ e' = e) by (destruct e; injection h as <- <- <-; eexists; repeat split; try congruence; auto).
      destruct hh as (_ & -> & -> & -> & _). split; auto. split; auto. split; auto. split; auto. split; [lia|]. split; auto. split; auto. right. exists e. split; auto. intros hex.
      destruct hcase as [(code & -> & ho & hda)|(-> & hno)].
      * split; [eapply over_moved; eauto|congruence].
      * unfold over, exists_in in *. rewrite (hno hb) in *. cbn in hex. split; auto. unfold data_of. rewrite (hno hb). auto.
Qed.

(** A well-formed stream says nothing by itself *)
Lemma wf_quiet id s : wf id s -> is_bidi id = true -> quiet (resume (cfg id) s []).
Proof.
  intros (wc & wp) hb. unfold wf_pos in wp. unfold resume, quiet.
  assert (hp : forall p, parsed (cfg id) p [] = []) by (intros p; reflexivity).
  assert (hv : vpos s -> rd_varint (h_buf s ++ []) = None).
  { rewrite app_nil_r. intros (v1 & v2 & v3 & [(v4 & v5)|(x & tl & v4 & v5)]); rewrite v4 in *; auto. eapply rd_varint_wait; eauto. lia. }
  assert (hs : forall n, 0 <= n -> on_skip (parsed (cfg id)) (phase_of s) n [] = []).
  { intros n h. unfold on_skip. unfold drop; rewrite skipn_nil, hp. destruct (zlen [] <? n); auto. }
  destruct (h_st s) eqn:E; auto.
  - left. unfold on_type. rewrite hv by tauto. auto.
  - destruct (h_fty s); auto. left. unfold on_len. rewrite hv by tauto. auto.
  - destruct wp as (w1 & w2 & w3 & w4 & w5 & ty & w6 & w7 & w8). rewrite w6. unfold on_payload. rewrite app_nil_r. destruct w4 as [w4|(w4 & w9)].
    { replace (zlen (h_buf s) <? h_len s) with true by lia. auto. }
    rewrite w9. replace (h_buf s) with (@nil Z) by (destruct (h_buf s) as [|y l]; auto; rewrite zlen_cons in w3; pose proof (zlen_nonneg l); lia). change (zlen [] <? 0) with false. cbv iota. change (take 0 (@nil Z)) with (@nil Z). change (drop 0 (@nil Z)) with (@nil Z).
    destruct (ty =? 1).
    + unfold read_section. destruct (_ && _); eauto. change (qpack_decode [] (match r_mfss (cfg id) with Some n => n | None => u64_max end)) with (@Err qerr (list header) QTooShort). eauto.
    + destruct (read_promise (cfg id) []); eauto.
  - left. unfold on_data. rewrite hs by (unfold part in wp; lia). unfold take. rewrite firstn_nil. auto.
  - left. apply hs. unfold part in wp. lia.
Qed.
End Turn.
