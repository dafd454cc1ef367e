(** Reading a stream until there is nothing more to do. *)
Require Import Verif.Base Verif.Errors Verif.OctetsModel Verif.StreamsModel Verif.QpackModel Verif.H3FrameModel Verif.H3ConnModel Verif.H3ConnSpec Verif.H3ConnProofs Verif.H3ConnProofs2 Verif.H3ConnProofs3.

Lemma skip_split nx p n bs more : zlen bs <= n -> on_skip nx p n (bs ++ more) = on_skip nx p (n - zlen bs) more.
Proof.
  intros h. unfold on_skip. rewrite zlen_app. destruct (zlen bs + zlen more <? n) eqn:E.
  - replace (zlen more <? n - zlen bs) with true by lia. auto.
  - replace (zlen more <? n - zlen bs) with false by lia. rewrite drop_app_ge by lia. auto.
Qed.
Lemma data_split nx p n bs more : zlen bs <= n -> on_data nx p n (bs ++ more) = map KByte bs ++ on_data nx p (n - zlen bs) more.
Proof. intros h. unfold on_data. rewrite take_app_ge, map_app, skip_split, app_assoc by lia. auto. Qed.
Lemma critical_eq s fin : critical s fin = fin && is_critical (h_ty s).
Proof. reflexivity. Qed.

Section Turn.
Context (server : bool) (mfss : option Z) (loc : bool) (mfss_ok : match mfss with Some n => 0 <= n | None => True end).
Notation cfg := (cfgl server mfss loc).
Notation post := (post server mfss loc).
Notation wf := (wf server mfss loc).
Notation wf_cfg := (wf_cfg server mfss loc).
Notation good := (good server mfss loc).
Notation failed := (failed server mfss loc).

Lemma skip_post polling id s c : c_str c id = Some s -> wf id s -> h_st s = StSkip -> tr_ok (c_q c) -> q_down (c_q c) = false ->
  post polling id s c (step polling id s c).
Proof.
  intros hs0 hw hst hk hd. pose proof hw as (wc & wp). unfold step. rewrite hst. unfold wf_pos in wp. rewrite hst in wp. destruct wp as (hfr & hbuf & hpt).
  assert (hcr : is_bidi id = true -> is_critical (h_ty s) = false) by (intros hb; rewrite (proj1 (wc_bidi _ _ _ _ _ wc hb)); auto).
  assert (hres : forall bs more, zlen bs <= h_len s - h_off s -> resume (cfg id) s (bs ++ more) = on_skip (parsed (cfg id)) (phase_of s) (h_len s - h_off s - zlen bs) more).
  { intros bs more h. unfold resume. rewrite hst. apply skip_split; auto. }
  (* the frame is over *)
  assert (HD : forall bs q1 s1, moved id (c_q c) q1 -> q_err q1 = q_err (c_q c) -> data_of (c_q c) id = bs ++ data_of q1 id -> zlen bs = h_len s - h_off s ->
     (zlen bs = 0 -> h_len s = 0) -> (exists t off, s1 = set_pos (set_trig s t) (h_st s) (h_buf s) (h_cap s) (h_len s) off) ->
     post polling id s c (let '(r, s2) := goto (set_trig s1 false) StFrame 1 true in
        match r with Ok _ => (if stream_finished q1 id then Stop (Err HDone) else Again, with_str c id (Some s2) q1)
        | Err e => (Stop (Err e), with_str c id (Some s2) q1) | Panic => (Stop Panic, with_str c id (Some s2) q1) end)).
  { intros bs q1 s1 hm he hda hz hz0 (t & off & ->). rewrite goto_ok by (intros; unfold MAX_STATE_BUF; lia). set (s2 := set_pos _ _ _ _ _ _).
    assert (hat : at_id id c (with_str c id (Some s2) q1) s2 q1) by (eapply at_with, at_refl; eauto).
    assert (hw2 : wf id s2) by (apply wf_next; [destruct wc; constructor; auto|auto]).
    assert (hg2 : grown s s2 bs) by (eapply grown_goto; [|reflexivity|]; [|apply (cap_goto (h_cap s) 1)]; unfold grown; pose proof (zlen_nonneg bs); lia).
    assert (G : good polling id s s2 bs c (with_str c id (Some s2) q1) []).
    { split; [exact hw2|]. split; [exact he|]. intros _ more. rewrite hres by lia. cbn [app]. unfold s2. rewrite resume_next. rewrite hz. unfold on_skip.
      pose proof (zlen_nonneg more). replace (zlen more <? _) with false by lia. replace (h_len s - h_off s - (h_len s - h_off s)) with 0 by lia. auto. }
    exists bs, s2. split; [apply (at_self _ _ _ _ _ hat)|]. split; [eapply env_at; eauto|]. split; [exact hda|]. split; [exact hg2|].
    destruct (stream_finished q1 id); [left; auto|]. split; [exact G|]. unfold mu. cbn [c_q with_str]. rewrite hda, zlen_app. cbn [s2 set_pos h_len]. change (1 =? 0) with false. cbv iota.
    pose proof (zlen_nonneg bs). destruct (h_len s =? 0) eqn:L0; [lia|]. assert (zlen bs <> 0) by (intros h; specialize (hz0 h); lia). lia. }
  (* nothing changed but the transport *)
  assert (HN : forall q1 e s1, moved id (c_q c) q1 -> q_err q1 = q_err (c_q c) -> data_of q1 id = data_of (c_q c) id -> (s1 = s \/ s1 = set_trig s false) ->
     (e = HDone \/ exists t, e = HTransport t /\ (is_bidi id = true -> exists_in (c_q c) id = true -> over q1 id /\ data_of q1 id = [])) ->
     post polling id s c (Stop (Err e), with_str c id (Some s1) q1)).
  { intros q1 e s1 hm he hda hs1 hee. assert (hat : at_id id c (with_str c id (Some s1) q1) s1 q1) by (eapply at_with, at_refl; eauto).
    exists [], s1. split; [apply (at_self _ _ _ _ _ hat)|]. split; [eapply env_at; eauto|]. split; [cbn; auto|]. split; [destruct hs1 as [-> | ->]; apply (grown_refl s)|].
    left. split; [|exact hee]. split; [destruct hs1 as [-> | ->]; [auto|]; destruct hw as ([w1 w2 w3] & w4); split; [constructor; auto|exact w4]|]. split; [exact he|]. intros _ more. destruct hs1 as [-> | ->]; reflexivity. }
  unfold skip_frame, complete. destruct (h_off s =? h_len s) eqn:EC.
  - specialize (HD [] (c_q c) s (moved_refl _ _) eq_refl eq_refl). rewrite zlen_nil in HD. specialize (HD ltac:(lia) ltac:(unfold part in hpt; lia)).
    assert (HX : exists t off, s = set_pos (set_trig s t) (h_st s) (h_buf s) (h_cap s) (h_len s) off) by (exists (h_trig s), (h_off s); destruct s; auto).
    specialize (HD HX). destruct (goto (set_trig s false) StFrame 1 true) as [[]  s2]; exact HD.
  - destruct (stream_recv (c_q c) id (h_len s - h_off s)) as [r1 q1] eqn:R.
    destruct (recv_spec (c_q c) id (h_len s - h_off s) _ _ hk ltac:(unfold part in hpt; lia) R) as (m1 & e1 & sp). clear R.
    assert (hd1 : q_down q1 = false) by (rewrite (proj1 (mv_cfg _ _ _ m1)); auto).
    assert (HC : forall bs, data_of (c_q c) id = bs ++ data_of q1 id -> is_critical (h_ty s) = true -> post polling id s c (let '(e, q) := h_close HClosedCriticalStream q1 in (Stop (Err e), with_str c id (Some s) q))).
    { intros bs hda hct. destruct (h_close HClosedCriticalStream q1) as [e q2] eqn:CL. destruct (close_spec _ _ _ _ _ hd1 CL) as (x & -> & hx).
      assert (hat : at_id id c (with_str c id (Some s) (set_err q1 (Some x))) s (set_err q1 (Some x))) by (eapply at_with, at_refl; eauto).
      exists bs, s. split; [apply (at_self _ _ _ _ _ hat)|]. split; [eapply env_at; [eauto|eapply moved_trans; [exact m1|apply moved_err]]|]. split; [exact hda|].
      split; [unfold grown; pose proof (zlen_nonneg bs); lia|]. right. split; [discriminate|]. split; [congruence|]. split; [|split].
      - intros hn. destruct hx as [(_ & -> & _)|(hx & _)]; auto. congruence.
      - intros hn. destruct hx as [(hx & _)|(hx & ->)]; [congruence|]. split; auto. cbn. congruence.
      - intros hb. rewrite (hcr hb) in hct. discriminate hct. }
    destruct r1 as [[bs fin]|e|]; [| |destruct sp].
    + destruct sp as (d1 & b1 & z1 & f1 & ht & hfin). rewrite critical_eq. destruct (fin && is_critical (h_ty s)) eqn:C.
      { apply andb_true_iff in C as (_ & C). specialize (HC bs d1 C). destruct (h_close HClosedCriticalStream q1). exact HC. }
      cbn [set_pos h_off h_len]. destruct (h_off s + zlen bs =? h_len s) eqn:E2.
      * specialize (HD bs q1 (set_pos s (h_st s) (h_buf s) (h_cap s) (h_len s) (h_off s + zlen bs)) m1 e1 d1 ltac:(lia) ltac:(lia)).
        assert (HX : exists t off, set_pos s (h_st s) (h_buf s) (h_cap s) (h_len s) (h_off s + zlen bs) = set_pos (set_trig s t) (h_st s) (h_buf s) (h_cap s) (h_len s) off) by (exists (h_trig s), (h_off s + zlen bs); destruct s; auto).
        specialize (HD HX). destruct (goto _ StFrame 1 true) as [[] s2]; exact HD.
      * set (s1 := set_trig (set_pos s (h_st s) (h_buf s) (h_cap s) (h_len s) (h_off s + zlen bs)) false).
        assert (hat : at_id id c (with_str c id (Some s1) q1) s1 q1) by (eapply at_with, at_refl; eauto). pose proof (zlen_nonneg bs).
        exists bs, s1. split; [apply (at_self _ _ _ _ _ hat)|]. split; [eapply env_at; eauto|]. split; [exact d1|]. split; [unfold grown; cbn; lia|]. left. split; auto.
        split; [|split; [exact e1|]].
        -- split; [destruct wc; constructor; auto|]. unfold wf_pos. cbn [s1 set_trig set_pos h_st]. rewrite hst. split; auto. split; auto. left. unfold part in hpt. unfold s1; cbn [set_trig set_pos h_off h_len]. lia.
        -- intros _ more. rewrite hres by lia. cbn [app]. unfold resume. cbn [s1 set_trig set_pos h_st h_len h_off]. rewrite hst. replace (phase_of s1) with (phase_of s) by reflexivity. f_equal. lia.
    + assert (sp2 : (e = Done /\ q1 = c_q c) \/ (e <> Done /\ data_of q1 id = data_of (c_q c) id /\ ((exists code, e = StreamReset code /\ over (c_q c) id /\ data_of (c_q c) id = []) \/ (q1 = c_q c /\ (is_bidi id = true -> q_str (c_q c) id = None))))).
      { destruct e; try (right; split; [discriminate|]; exact sp). left. tauto. }
      destruct sp2 as [(-> & ->)|(hne & hdata & hcase)].
      { apply HN; auto. }
      assert (HE : post polling id s c (Stop (Err (HTransport e)), with_str c id (Some s) q1)).
      { apply HN; auto. right. exists e. split; auto. intros hb hex. destruct hcase as [(code & -> & ho & hda)|(-> & hno)].
        - split; [eapply over_moved; eauto|congruence].
        - unfold over, exists_in in *. rewrite (hno hb) in *. cbn in hex. split; auto. unfold data_of. rewrite (hno hb). auto. }
      destruct e; try exact HE; [congruence|]. rewrite critical_eq. cbn [andb]. destruct (is_critical (h_ty s)) eqn:C; [|exact HE].
      specialize (HC [] (eq_sym hdata) eq_refl). destruct (h_close HClosedCriticalStream q1). exact HC.
Qed.

Lemma data_post polling id s c : c_str c id = Some s -> wf id s -> h_st s = StData -> post polling id s c (step polling id s c).
Proof.
  intros hs0 hw hst. unfold step. rewrite hst. destruct polling; cbn [negb]; [|apply post_stay; auto].
  destruct (h_trig s); [apply post_stay; auto|].
  assert (hat : at_id id c (with_str c id (Some (set_trig s true)) (c_q c)) (set_trig s true) (c_q c)) by (eapply at_with, at_refl; eauto).
  exists [], (set_trig s true). split; [apply (at_self _ _ _ _ _ hat)|]. split; [eapply env_at; [eauto|apply moved_refl]|]. split; auto. split; [apply (grown_refl s)|]. split; auto. split; [|split; cbn; auto].
  split; [destruct hw as ([w1 w2 w3] & w4); split; [constructor; auto|exact w4]|]. split; auto.
Qed.

Lemma instr_spec id ty : forall fuel c r c', tr_ok (c_q c) -> q_down (c_q c) = false -> ty = Some TEncoder \/ ty = Some TDecoder -> (length (data_of (c_q c) id) + 1 < fuel)%nat ->
  instr_loop fuel id ty c = (r, c') ->
  exists bs, data_of (c_q c) id = bs ++ data_of (c_q c') id /\ moved id (c_q c) (c_q c') /\ c_str c' = c_str c /\ c_server c' = c_server c /\ c_mfss c' = c_mfss c /\ c_maxp c' = c_maxp c /\
    c_fin c' = c_fin c /\ c_ctl c' = c_ctl c /\ c_enc c' = c_enc c /\ c_dec c' = c_dec c /\
    match r with
    | Err e => (q_err (c_q c') = q_err (c_q c) /\ (e = HDone \/ exists t, e = HTransport t)) \/
               (q_err (c_q c') <> None /\ (q_err (c_q c) = None -> kind e = true) /\ (q_err (c_q c) <> None -> e = HDone /\ q_err (c_q c') = q_err (c_q c)))
    | _ => False
    end.
Proof.
  induction fuel as [|fuel IH]; intros c r c' hk hd hty hf h; [lia|]. cbn [instr_loop] in h.
  destruct (stream_recv (c_q c) id 4096) as [r1 q1] eqn:R. destruct (recv_spec (c_q c) id 4096 _ _ hk ltac:(lia) R) as (m1 & e1 & sp). clear R.
  assert (hd1 : q_down q1 = false) by (rewrite (proj1 (mv_cfg _ _ _ m1)); auto).
  destruct r1 as [[bs fin]|e|]; [| |destruct sp].
  - destruct sp as (d1 & b1 & z1 & f1 & ht & hfin).
    assert (exists c2, (forall X (a b : X), (match ty with Some TEncoder | Some TDecoder => a | _ => b end) = a) /\ c2 = match ty with Some TEncoder => with_qpack (with_q c q1) (c_encb (with_q c q1) + zlen bs) (c_decb (with_q c q1)) | _ => with_qpack (with_q c q1) (c_encb (with_q c q1)) (c_decb (with_q c q1) + zlen bs) end /\
       (if fin then fail HClosedCriticalStream c2 else instr_loop fuel id ty c2) = (r, c') /\ c_q c2 = q1 /\ c_str c2 = c_str c /\ c_server c2 = c_server c /\ c_mfss c2 = c_mfss c /\ c_maxp c2 = c_maxp c /\
    c_fin c2 = c_fin c /\ c_ctl c2 = c_ctl c /\ c_enc c2 = c_enc c /\ c_dec c2 = c_dec c) as (c2 & _ & _ & h2 & k0 & k1 & k2 & k3 & k4 & k5 & k6 & k7 & k8).
    { destruct hty as [-> | ->]; eexists; (split; [reflexivity|]); (split; [reflexivity|]); split; try exact h; repeat split; auto. }
    clear h. destruct fin.
    + unfold fail, fail_as in h2. rewrite k0 in h2. destruct (close_with _ _ q1) as [e' q2] eqn:CL. injection h2 as <- <-.
      destruct (close_spec _ _ _ _ _ hd1 CL) as (x & -> & hx). exists bs. split; [exact d1|]. split; [eapply moved_trans; [exact m1|apply moved_err]|]. cbn [with_q c_str c_server c_mfss c_maxp c_fin c_ctl c_enc c_dec c_q].
      do 8 (split; [auto|]). right. split; [discriminate|]. split.
      * intros hn. destruct hx as [(_ & -> & _)|(hx & _)]; auto. congruence.
      * intros hn. destruct hx as [(hx & _)|(hx & ->)]; [congruence|]. split; auto. cbn. congruence.
    + assert (hpos : 1 <= zlen bs) by (pose proof (zlen_nonneg bs); destruct bs; [specialize (hfin eq_refl ltac:(lia)); discriminate hfin|rewrite zlen_cons in *; pose proof (zlen_nonneg bs); lia]).
      destruct (IH c2 r c') as (bs2 & d2 & m2 & j1 & j2 & j3 & j4 & j5 & j6 & j7 & j8 & j9); auto.
      { rewrite k0. apply (mv_ok _ _ _ m1). auto. }
      { rewrite k0. auto. }
      { rewrite k0. assert (zlen (data_of (c_q c) id) = zlen bs + zlen (data_of q1 id)) by (rewrite d1, zlen_app; auto). unfold zlen in *. lia. }
      rewrite k0 in *. exists (bs ++ bs2). split; [rewrite d1, d2, app_assoc; auto|]. split; [eapply moved_trans; eauto|].
      do 8 (split; [congruence|]). rewrite e1 in j9. exact j9.
  - injection h as <- <-. exists []. split; [|split; [exact m1|]].
    + cbn [c_q with_q app]. destruct e; try exact (eq_sym (proj1 sp)). destruct sp as (-> & _). auto.
    + cbn. do 8 (split; [auto|]). left. split; auto. destruct e; cbn; eauto.
Qed.
Lemma instr_post polling id s c : c_str c id = Some s -> wf id s -> h_st s = StInstr -> tr_ok (c_q c) -> q_down (c_q c) = false ->
  post polling id s c (step polling id s c).
Proof.
  intros hs0 hw hst hk hd. pose proof hw as (wc & wp). unfold step. rewrite hst. unfold wf_pos in wp. rewrite hst in wp.
  assert (hb : is_bidi id = false). { destruct (is_bidi id) eqn:B; auto. destruct (wc_bidi _ _ _ _ _ wc B) as (h & _). destruct wp as ([?|?] & _); congruence. }
  destruct wp as (wp & _).
  destruct (instr_loop _ id (h_ty s) c) as [r c'] eqn:I. apply instr_spec in I; auto.
  2:{ unfold data_of. destruct (q_str (c_q c) id); cbn; lia. }
  destruct I as (bs & d1 & m1 & j1 & j2 & j3 & j4 & j5 & j6 & j7 & j8 & j9).
  exists bs, s. split; [rewrite j1; auto|]. split; [constructor; auto|].
  - intros j _. rewrite j1. auto.
  - intros hu i. rewrite j6, j7, j8. apply hu.
  - split; [exact d1|]. split; [unfold grown; pose proof (zlen_nonneg bs); lia|]. destruct r as [|e|]; try destruct j9.
    + left. destruct H as (h1 & h2). split; [split; [auto|split; [auto|rewrite hb; discriminate]]|]. destruct h2 as [-> |(t & ->)]; auto. right. exists t. split; auto. rewrite hb. discriminate.
    + right. destruct H as (h1 & h2 & h3). split; auto. split; [congruence|]. split; auto. split; auto. rewrite hb. discriminate.
Qed.

Lemma drain_post polling id s c : c_str c id = Some s -> wf id s -> h_st s = StDrain -> post polling id s c (step polling id s c).
Proof.
  intros hs0 hw hst. pose proof hw as (wc & wp). unfold step. rewrite hst. unfold wf_pos in wp. rewrite hst in wp.
  assert (hm : moved id (c_q c) (stream_stop (c_q c) id) /\ q_err (stream_stop (c_q c) id) = q_err (c_q c) /\ exists bs, data_of (c_q c) id = bs ++ data_of (stream_stop (c_q c) id) id).
  { unfold stream_stop. destruct (q_str (c_q c) id) as [t|] eqn:E; [|split; [apply moved_refl|split; [auto|exists []; auto]]].
    destruct (t_drain t); [split; [apply moved_refl|split; [auto|exists []; auto]]|]. split; [|split; [auto|exists (t_data t); unfold data_of; cbn; rewrite upd_same, E; cbn; rewrite app_nil_r; auto]].
    constructor; cbn; auto.
    - intros j hj. rewrite upd_other by auto. auto.
    - rewrite E, upd_same. auto.
    - intros hk j tj hj. cbn in hj. unfold upd in hj. destruct (j =? id) eqn:J; [|eauto]. injection hj as <-. destruct (hk _ _ E) as [k1 k2 k3]. constructor; cbn; auto; try discriminate.
      + intros h. split; auto. apply k1. auto.
      + constructor. }
  destruct hm as (hm & he & bs & hda).
  assert (hat : at_id id c (with_q c (stream_stop (c_q c) id)) s (stream_stop (c_q c) id)) by (eapply at_withq, at_refl; eauto).
  exists bs, s. split; [exact hs0|]. split; [eapply env_at; eauto|]. split; [exact hda|]. split; [unfold grown; pose proof (zlen_nonneg bs); lia|]. left. split; auto. split; auto. split; auto. rewrite (proj1 wp). discriminate.
Qed.

Lemma type_of_cases v : type_of v <> TRequest.
Proof. unfold type_of. repeat match goal with |- context [if ?b then _ else _] => destruct b end; discriminate. Qed.
Lemma open_post polling id s c : c_str c id = Some s -> wf id s -> h_st s = StType -> tr_ok (c_q c) -> q_down (c_q c) = false ->
  post polling id s c (step polling id s c).
Proof.
  intros hs0 hw hst hk hd. pose proof hw as (wc & wp). unfold step. rewrite hst. pose proof wp as wp0. unfold wf_pos in wp. rewrite hst in wp. destruct wp as (hb & hty & hvp).
  pose proof (varint_spec server mfss loc polling id s c hs0 hw ltac:(unfold waiting; rewrite hst; auto) hk hd ltac:(congruence)) as V.
  destruct (read_varint id s c) as [o|[[v s1] c1]]; auto.
  destruct V as (bs & trig & cap & len & hbs & es & hat & hm & he & hz & hl & hda & hg & hv & hrd).
  assert (hd1 : q_down (c_q c1) = false) by (rewrite (proj1 (mv_cfg _ _ _ hm)); auto).
  assert (exists s2, set_ty s1 (type_of v) = (Ok tt, s2) /\ h_buf s2 = [] /\ h_cap s2 <= Z.max (h_cap s1) 8192 /\ h_st s2 <> StData /\
     (type_of v <> TPush -> wf id s2)) as (s2 & -> & g1 & g2 & g3 & g4).
  { pose proof (type_of_cases v) as ht. unfold set_ty. destruct (type_of v); [| congruence| | | |]; rewrite goto_ok by (intros; unfold MAX_STATE_BUF; lia); eexists; (split; [reflexivity|]);
      (split; [reflexivity|]); (split; [cbn [set_pos set_type h_cap]; apply cap_goto|]); (split; [discriminate|]); intros hp; try congruence; (split; [destruct wc as [w1 w2 w3]; subst s1; constructor; cbn; [exact w1|rewrite hb; discriminate|split; discriminate]|]); unfold wf_pos; cbn [set_pos h_st].
    - split; auto. unfold vpos. cbn. split; [constructor|]. split; auto. split; [lia|]. auto.
    - cbn. auto.
    - cbn. auto.
    - auto. }
  unfold advance. set (c2 := with_str c1 id (Some s2) (c_q c1)).
  assert (hat2 : at_id id c c2 s2 (c_q c1)) by (eapply at_with; eauto). assert (hq2 : c_q c2 = c_q c1) by reflexivity.
  assert (hg2 : grown s s2 bs) by (eapply grown_goto; eauto).
  assert (HF : forall e0, kind e0 = true -> post polling id s c (let '(e, q) := h_close e0 (c_q c2) in (Stop (Err e), with_q c2 q))).
  { intros e0 hk0. rewrite hq2. destruct (h_close e0 (c_q c1)) as [e q] eqn:CL. destruct (close_spec _ _ _ _ _ hd1 CL) as (x & -> & hx).
    assert (hat3 : at_id id c (with_q c2 (set_err (c_q c1) (Some x))) s2 (set_err (c_q c1) (Some x))) by (eapply at_withq; eauto).
    exists bs, s2. split; [apply (at_self _ _ _ _ _ hat3)|]. split; [eapply env_at; [eauto|eapply moved_trans; [exact hm|apply moved_err]]|]. split; [exact hda|]. split; [exact hg2|].
    right. split; [discriminate|]. split; auto. split; [|split].
    - intros hn. destruct hx as [(_ & -> & _)|(hx & _)]; auto. congruence.
    - intros hn. destruct hx as [(hx & _)|(hx & ->)]; [congruence|]. split; auto. cbn. congruence.
    - rewrite hb. discriminate. }
  assert (HG : forall c3, c_str c3 = c_str c2 -> c_q c3 = c_q c2 -> c_server c3 = c_server c2 /\ c_mfss c3 = c_mfss c2 /\ c_maxp c3 = c_maxp c2 -> c_fin c3 = c_fin c2 -> (uni_ids c2 -> uni_ids c3) -> type_of v <> TPush -> post polling id s c (Again, c3)).
  { intros c3 k1 k2 (k3 & k4 & k5) k6 k7 k8. destruct hat2 as [a1 a2 a3 (a4 & a5 & a6) (f1 & f2 & f3 & f4 & f5 & f6)]. exists bs, s2. split; [congruence|]. split.
    - constructor; [repeat split; congruence|rewrite k2, hq2; exact hm|intros j hj; left; rewrite k1; auto| |congruence].
      intros hu. apply k7. intros i. rewrite f3, f4, f5. apply hu.
    - rewrite k2. split; [exact hda|]. split; auto. split.
      + split; auto. split; [rewrite k2; exact he|rewrite hb; discriminate].
      + unfold mu. rewrite k2, hq2, hda, zlen_app. destruct (h_len s2 =? 0), (h_len s =? 0); lia. }
  assert (HU : forall c3, type_of v <> TPush -> c_str c3 = c_str c2 -> c_q c3 = c_q c2 -> c_server c3 = c_server c2 /\ c_mfss c3 = c_mfss c2 /\ c_maxp c3 = c_maxp c2 -> c_fin c3 = c_fin c2 -> (uni_ids c2 -> uni_ids c3) ->
     post polling id s c (match (if stream_finished (c_q c2) id then let '(e, q) := h_close HClosedCriticalStream (c_q c2) in (Err e, with_q c2 q) else (Ok tt, c3)) with
       | (Ok _, c) => (Again, c) | (Err e, c) => (Stop (Err e), c) | (Panic, c) => (Stop Panic, c) end)).
  { intros c3 k0 k1 k2 k3 k4 k5. destruct (stream_finished (c_q c2) id); [|apply HG; auto]. specialize (HF HClosedCriticalStream eq_refl). destruct (h_close HClosedCriticalStream (c_q c2)). exact HF. }
  assert (HR : post polling id s c (match (let '(e, q) := h_close HStreamCreationError (c_q c2) in (Err e, with_q c2 q) : res herr unit * conn) with
       | (Ok _, c) => (Again, c) | (Err e, c) => (Stop (Err e), c) | (Panic, c) => (Stop Panic, c) end)).
  { specialize (HF HStreamCreationError eq_refl). destruct (h_close HStreamCreationError (c_q c2)). exact HF. }
  pose proof (type_of_cases v) as ht. unfold open_peer. destruct (type_of v); [| congruence| | | |].
  - destruct (is_some (c_ctl c2)); [exact HR|]. apply HU; auto; [discriminate|]. intros hu i [hi|hi]; [cbn in hi; congruence|apply hu; auto].
  - exact HR.
  - destruct (is_some (c_enc c2)); [exact HR|]. apply HU; auto; [discriminate|]. intros hu i [hi|[hi|hi]]; [apply hu; auto|cbn in hi; congruence|apply hu; auto].
  - destruct (is_some (c_dec c2)); [exact HR|]. apply HU; auto; [discriminate|]. intros hu i [hi|[hi|hi]]; [apply hu; auto|apply hu; auto|cbn in hi; congruence].
  - apply HG; auto. discriminate.
Qed.

Theorem step_post polling id s c : c_str c id = Some s -> wf id s -> tr_ok (c_q c) -> q_down (c_q c) = false ->
  c_server c = server -> c_mfss c = mfss -> q_err (c_q c) = None \/ polling = false -> post polling id s c (step polling id s c).
Proof.
  intros hs0 hw hk hd hsv hmf hpe. destruct (h_st s) eqn:E.
  - apply open_post; auto.
  - apply type_post; auto.
  - apply len_post; auto.
  - apply payload_post; auto.
  - apply data_post; auto.
  - destruct hw as (_ & wp). unfold wf_pos in wp. rewrite E in wp. destruct wp.
  - apply instr_post; auto.
  - apply skip_post; auto.
  - apply drain_post; auto.
  - unfold step. rewrite E. apply post_stay; auto.
Qed.
End Turn.
