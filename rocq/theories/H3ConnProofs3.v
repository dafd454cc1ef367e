(** The other states of an HTTP/3 stream. *)
Require Import Verif.Base Verif.Errors Verif.OctetsModel Verif.OctetsSpec Verif.OctetsProofs Verif.StreamsModel Verif.HuffmanModel Verif.QpackModel Verif.QpackProofs Verif.H3FrameModel Verif.H3FrameProofs Verif.H3ConnModel Verif.H3ConnSpec Verif.H3ConnProofs Verif.H3ConnProofs2.

Ltac dif h := match type of h with context [if ?b then _ else _] => let E := fresh "E" in destruct b eqn:E end.
Lemma hv_err b e : hv b = Err e -> kind e = true.
Proof. unfold hv. destruct (rd_varint b); intros h; inversion h; auto. Qed.
Lemma hn_err n b e : hn n b = Err e -> kind e = true.
Proof. unfold hn. destruct (rd_bytes n b); intros h; inversion h; auto. Qed.
Lemma one_setting_err a v s e : one_setting a v s = Err e -> kind e = true.
Proof. unfold one_setting. intros h. repeat (dif h; try discriminate h); inversion h; auto. Qed.
Lemma settings_loop_err fuel : forall l b s e, settings_loop fuel l b s = Err e -> kind e = true.
Proof.
  induction fuel as [|fuel IH]; intros l b s e h; cbn [settings_loop] in h; destruct (l <=? 0); try discriminate h.
  destruct (hv b) as [[i b1]|e1|] eqn:E1; cbn [bind] in h; try discriminate h; [|injection h as <-; eapply hv_err; eauto].
  destruct (hv b1) as [[v b2]|e1|] eqn:E2; cbn [bind] in h; try discriminate h; [|injection h as <-; eapply hv_err; eauto].
  destruct (one_setting i v s) as [s2|e1|] eqn:E3; cbn [bind] in h; try discriminate h; [|injection h as <-; eapply one_setting_err; eauto]. eauto.
Qed.
Lemma rest_err n b e : parse_varint_rest n b = Err e -> kind e = true.
Proof.
  unfold parse_varint_rest. destruct (hv b) as [[i b1]|e1|] eqn:E1; cbn [bind]; intros h; try discriminate h; [|injection h as <-; eapply hv_err; eauto].
  dif h; [discriminate h|]. destruct (hn _ b1) as [[r x]|e1|] eqn:E2; cbn [bind] in h; try discriminate h. injection h as <-. eapply hn_err; eauto.
Qed.
Lemma from_bytes_err ty n b e : h3_from_bytes ty n b = Err e -> kind e = true.
Proof.
  tynum. unfold parse_settings. intros h. repeat (dif h; try (injection h as <-; reflexivity));
  match type of h with bind ?r _ = _ => destruct r as [x|e1|] eqn:R; cbn [bind] in h; try discriminate h end;
  try (destruct x; discriminate h); try (injection h as <-); first [eapply hv_err; eauto; fail|eapply hn_err; eauto; fail|eapply rest_err; eauto; fail|eapply settings_loop_err; eauto].
Qed.
Definition frame_ty (ty : Z) (f : hframe) : Prop :=
  match f with HHeaders _ => ty = 1 | HData _ => ty = 0 | HPushPromise _ _ => ty = 5 | _ => True end.
Lemma from_bytes_ty ty n b f : h3_from_bytes ty n b = Ok f -> frame_ty ty f.
Proof.
  tynum. unfold parse_settings. intros h. repeat (dif h; try discriminate h);
  match type of h with bind ?r _ = _ => destruct r as [x|e1|] eqn:R; cbn [bind] in h; try discriminate h end;
  try (destruct x as [x1 x2]); injection h as <-; cbn; auto; lia.
Qed.

Lemma mod4_bits i : i mod 4 = 0 -> is_bidi i = true /\ is_local i true = false.
Proof.
  intros h. assert (e : Z.land i 3 = 0) by (change 3 with (Z.ones 2); rewrite Z.land_ones by lia; exact h).
  assert (b0 : Z.testbit i 0 = false). { pose proof (Z.land_spec i 3 0) as x. rewrite e, Z.bits_0 in x. change (Z.testbit 3 0) with true in x. rewrite andb_true_r in x. auto. }
  assert (b1 : Z.testbit i 1 = false). { pose proof (Z.land_spec i 3 1) as x. rewrite e, Z.bits_0 in x. change (Z.testbit 3 1) with true in x. rewrite andb_true_r in x. auto. }
  unfold is_bidi, is_local. split.
  - replace (Z.land i 2) with 0; auto. symmetry. apply Z.bits_inj_0. intros n. rewrite Z.land_spec. destruct (Z.eq_dec n 1) as [-> |hn].
    + rewrite b1. auto.
    + replace (Z.testbit 2 n) with false; [apply andb_false_r|]. change 2 with (2 ^ 1). symmetry. apply Z.pow2_bits_false. auto.
  - replace (Z.land i 1) with 0; auto. symmetry. apply Z.bits_inj_0. intros n. rewrite Z.land_spec. destruct (Z.eq_dec n 0) as [-> |hn].
    + rewrite b0. auto.
    + replace (Z.testbit 1 n) with false; [apply andb_false_r|]. change 1 with (2 ^ 0) at 1. symmetry. apply Z.pow2_bits_false. auto.
Qed.

Section Turn.
Context (server : bool) (mfss : option Z) (loc : bool) (mfss_ok : match mfss with Some n => 0 <= n | None => True end).
Notation cfg := (cfgl server mfss loc).
Notation post := (post server mfss loc).
Notation wf := (wf server mfss loc).
Notation wf_cfg := (wf_cfg server mfss loc).

Lemma grown_refl s : grown s s [].
Proof. unfold grown. rewrite zlen_nil. lia. Qed.
Lemma post_stay polling id s c : c_str c id = Some s -> wf id s -> post polling id s c (Stop (Err HDone), c).
Proof.
  intros h hw. exists [], s. split; auto. split; [eapply env_at; [apply at_refl; eauto|apply moved_refl]|]. split; auto. split; [apply grown_refl|].
  left. split; [|auto]. split; [exact hw|]. split; auto.
Qed.
(** A new frame begins *)
Lemma wf_next id s : wf_cfg id s -> framed s = true -> wf id (set_pos s StFrame [] (reserve (h_cap s) 0 (Z.min 1 MAX_ALLOC)) 1 0).
Proof.
  intros hc hf. split; [apply wfc_pos; auto|]. unfold wf_pos. cbn [h_st set_pos]. split; auto. unfold vpos. cbn. split; [constructor|]. split; auto. split; [lia|]. auto.
Qed.
Lemma resume_next id s cap more : resume (cfg id) (set_pos s StFrame [] cap 1 0) more = parsed (cfg id) (phase_of s) more.
Proof. unfold resume. cbn [h_st set_pos h_buf app]. symmetry. apply parsed_eq. Qed.
(** Failing *)
Lemma fail_post polling id s c c1 s1 bs wire e : at_id id c c1 s1 (c_q c1) -> moved id (c_q c) (c_q c1) -> q_err (c_q c1) = q_err (c_q c) ->
  data_of (c_q c) id = bs ++ data_of (c_q c1) id -> q_down (c_q c) = false -> grown s s1 bs -> kind e = true -> h_st s1 <> StData ->
  (is_bidi id = true -> wire = to_wire e /\ forall more, resume (cfg id) s (bs ++ more) = [KFail e]) ->
  post polling id s c (let '(r, c2) := fail_as wire e c1 in (Stop r, c2)).
Proof.
  intros hat hm he hda hd hg hkd hst hr. assert (hd1 : q_down (c_q c1) = false) by (rewrite (proj1 (mv_cfg _ _ _ hm)); auto).
  unfold fail_as. destruct (close_with wire e (c_q c1)) as [e' q'] eqn:CL. destruct (close_spec _ _ _ _ _ hd1 CL) as (x & -> & hx).
  assert (hat3 : at_id id c (with_q c1 (set_err (c_q c1) (Some x))) s1 (set_err (c_q c1) (Some x))) by (eapply at_withq; eauto).
  exists bs, s1. split; [apply (at_self _ _ _ _ _ hat3)|]. split; [eapply env_at; [eauto|eapply moved_trans; [exact hm|apply moved_err]]|].
  split; [exact hda|]. split; auto. right. split; [discriminate|]. split; auto. split; [|split].
  - intros hn. destruct hx as [(_ & -> & _)|(hx & _)]; auto. congruence.
  - intros hn. destruct hx as [(hx & _)|(hx & ->)]; [congruence|]. split; auto. cbn. congruence.
  - intros hb. destruct (hr hb) as (-> & hr1). exists e. split; auto. intros hn. destruct hx as [(_ & -> & ->)|(hx & _)]; auto. congruence.
Qed.
Lemma fail_as_done wire e c : kind e = true -> q_down (c_q c) = false -> forall r c', fail_as wire e c = (r, c') -> exists e', r = Err e' /\ (q_err (c_q c) = None -> e' = e).
Proof.
  intros hk hd r c' h. unfold fail_as in h. destruct (close_with wire e (c_q c)) as [e' q'] eqn:CL. destruct (close_spec _ _ _ _ _ hd CL) as (x & -> & hx). injection h as <- <-.
  exists e'. split; auto. intros hn. destruct hx as [(_ & -> & _)|(hx & _)]; auto. congruence.
Qed.

(** Filling the buffer for a frame *)
Lemma fill_frame id s q r s' q' : tr_ok q -> q_down q = false -> bytes_ok (h_buf s) -> zlen (h_buf s) = h_off s -> part s ->
  try_fill id s q = (r, s', q') ->
  exists bs cap trig, s' = filled s trig cap bs /\ bytes_ok bs /\ h_off s + zlen bs <= h_len s /\ data_of q id = bs ++ data_of q' id /\
    moved id q q' /\ grown s s' bs /\
    match r with
    | Ok _ => h_off s + zlen bs = h_len s /\ q_err q' = q_err q
    | Err e =>
        (is_critical (h_ty s) = true /\ q_err q' <> None /\ (q_err q = None -> e = HClosedCriticalStream) /\ (q_err q <> None -> e = HDone /\ q_err q' = q_err q)) \/
        (q_err q' = q_err q /\
         ((e = HDone /\ h_off s + zlen bs < h_len s) \/
          (h_off s + zlen bs < h_len s /\ exists t, e = HTransport t /\ (is_bidi id = true -> exists_in q id = true -> over q' id /\ data_of q' id = []))))
    | Panic => False
    end.
Proof.
  intros hk hd hb hz hp h. unfold try_fill, complete in h. destruct (h_off s =? h_len s) eqn:E.
  - injection h as <- <- <-. exists [], (h_cap s), (h_trig s). rewrite zlen_nil. split; [|split; [constructor|]].
    + unfold filled. rewrite app_nil_r, zlen_nil, Z.add_0_r. destruct s; auto.
    + split; [lia|]. split; auto. split; [apply moved_refl|]. split; [apply grown_refl|]. split; [lia|auto].
  - destruct (fill_spec id (S (S (Z.to_nat (h_len s - h_off s)))) s q r s' q' hk hd hb hz ltac:(unfold part in hp; lia) ltac:(lia) h) as (bs & cap & trig & es & b1 & l1 & d1 & m1 & c1 & sp).
    exists bs, cap, trig. split; auto. split; auto. split; auto. split; auto. split; auto. split; auto.
    subst s'. unfold grown, filled. cbn [set_pos set_trig h_buf h_cap]. rewrite zlen_app, hz. lia.
Qed.

(** Frames of the control stream *)
Lemma control_frame polling id s c c1 s1 bs f : is_bidi id = false -> at_id id c c1 s1 (c_q c1) -> moved id (c_q c) (c_q c1) -> q_err (c_q c1) = q_err (c_q c) ->
  data_of (c_q c) id = bs ++ data_of (c_q c1) id -> q_down (c_q c) = false -> grown s s1 bs -> wf id s1 -> h_st s1 <> StData -> mu s1 c1 id < mu s c id -> polling = true ->
  c_server c = server -> match f with HHeaders _ => False | _ => True end ->
  post polling id s c (match process_frame id f c1 with (Err HDone, c2) => (if stream_finished (c_q c2) id then Stop (Err HDone) else Again, c2) | (r, c2) => (Stop r, c2) end).
Proof.
  intros hb hat hm he hda hd hg hw hst hmu hpol hsv hf. assert (hd1 : q_down (c_q c1) = false) by (rewrite (proj1 (mv_cfg _ _ _ hm)); auto).
  assert (hfail : forall wire e c2, kind e = true -> at_id id c c2 s1 (c_q c2) -> c_q c2 = c_q c1 -> forall r c3, fail_as wire e c2 = (r, c3) ->
     post polling id s c (match (r, c3) with (Err HDone, c2) => (if stream_finished (c_q c2) id then Stop (Err HDone) else Again, c2) | (r, c2) => (Stop r, c2) end)).
  { intros wire e c2 hke hat2 hq2 r c3 hfa. pose proof (fail_post polling id s c c2 s1 bs wire e) as FP. rewrite hq2 in FP.
    destruct (fail_as_done wire e c2 hke ltac:(congruence) r c3 hfa) as (e' & -> & he'). rewrite hfa in FP.
    rewrite hq2 in hat2. specialize (FP hat2 hm he hda hd hg hke hst ltac:(rewrite hb; discriminate)).
    assert (P : post polling id s c (Stop (Err e'), c3)) by (exact FP). clear FP.
    destruct e'; try exact P. destruct (stream_finished (c_q c3) id); auto. destruct (q_err (c_q c)) as [w|] eqn:Q.
    2:{ specialize (he' ltac:(congruence)). subst e. discriminate hke. }
    destruct P as (bs' & s' & p1 & p2 & p3 & p4 & p5). exists bs', s'. split; auto. split; auto. split; auto. split; auto.
    unfold fail_as in hfa. destruct (close_with wire e (c_q c2)) as [ee qq] eqn:CL. rewrite hq2 in CL. destruct (close_spec _ _ _ _ _ hd1 CL) as (x & -> & hx). injection hfa as _ <-. clear p5.
    rewrite (at_self _ _ _ _ _ (at_withq _ _ _ _ _ (set_err (c_q c1) (Some x)) hat2)) in p1. injection p1 as <-. split; [split; [exact hw|split; [|rewrite hb; discriminate]]|exact hmu].
    cbn. destruct hx as [(hx & _)|(hx & _)]; congruence. }
  assert (hok : forall c2, at_id id c c2 s1 (c_q c1) -> forall e, e = HDone -> post polling id s c (if stream_finished (c_q c2) id then Stop (Err e) else Again, c2)).
  { intros c2 hat2 e ->. assert (P : exists bs0 s', c_str c2 id = Some s' /\ env id c c2 /\ data_of (c_q c) id = bs0 ++ data_of (c_q c2) id /\ grown s s' bs0 /\ good server mfss loc polling id s s' bs0 c c2 [] /\ mu s' c2 id < mu s c id).
    { exists bs, s1. split; [apply (at_self _ _ _ _ _ hat2)|]. split; [eapply env_at; eauto|]. unfold good, mu. rewrite (at_q _ _ _ _ _ hat2). split; auto. split; auto. split; [|exact hmu]. split; auto. split; auto. rewrite hb. discriminate. }
    destruct P as (bs0 & s' & p1 & p2 & p3 & p4 & p5 & p6). exists bs0, s'. split; auto. split; auto. split; auto. split; auto.
    destruct (stream_finished (c_q c2) id); auto. }
  pose proof hat as [a1 a2 a3 a4 a5].
  destruct f as [p|block|p|st|pid block|gid|p|pid v|pid v|t p]; cbn [process_frame].
  - apply hok; auto.
  - destruct hf.
  - apply hok; auto.
  - assert (HS : forall cc, cc = with_peer c1 st -> post polling id s c (if stream_finished (c_q cc) id then Stop (Err HDone) else Again, cc)).
    { intros cc ->. exists bs, s1. split; [exact a1|]. split.
      - constructor; [exact a4|exact hm|intros j hj; left; apply a2; auto|intros hu i; cbn; destruct a5 as (f1 & f2 & f3 & f4 & f5 & f6); rewrite f3, f4, f5; apply hu|exact (proj1 a5)].
      - split; [exact hda|]. split; [exact hg|]. assert (G : good server mfss loc polling id s s1 bs c (with_peer c1 st) []) by (split; [auto|split; [auto|rewrite hb; discriminate]]).
        destruct (stream_finished (c_q (with_peer c1 st)) id); [left; auto|split; [exact G|exact hmu]]. }
    destruct (s_dgram st) as [[|[]|]|]; try (apply HS; reflexivity).
    destruct (q_dgram (c_q (with_peer c1 st))) eqn:QD; [apply HS; reflexivity|].
    unfold fail. destruct (fail_as (to_wire HSettingsError) HSettingsError (with_peer c1 st)) as [r c3] eqn:FA.
    unfold fail_as in FA. cbn [c_q with_peer] in FA. destruct (close_with (to_wire HSettingsError) HSettingsError (c_q c1)) as [e' q'] eqn:CL. injection FA as <- <-.
    destruct (close_spec _ _ _ _ _ hd1 CL) as (x & -> & hx).
    assert (EN : env id c (with_q (with_peer c1 st) (set_err (c_q c1) (Some x)))).
    { constructor; [exact a4|eapply moved_trans; [exact hm|apply moved_err]|intros j hj; left; apply a2; auto|intros hu i; cbn; destruct a5 as (f1 & f2 & f3 & f4 & f5 & f6); rewrite f3, f4, f5; apply hu|exact (proj1 a5)]. }
    assert (FF : q_err (c_q c) = None -> failed server mfss loc id s s1 bs c (with_q (with_peer c1 st) (set_err (c_q c1) (Some x))) e').
    { intros hn. split; [discriminate|]. split; auto. split; [intros _; destruct hx as [(_ & -> & _)|(hx & _)]; [auto|congruence]|]. split; [congruence|]. rewrite hb. discriminate. }
    assert (GG : q_err (c_q c) <> None -> e' = HDone /\ good server mfss loc polling id s s1 bs c (with_q (with_peer c1 st) (set_err (c_q c1) (Some x))) []).
    { intros hn. destruct hx as [(hx & _)|(hx & ->)]; [congruence|]. split; auto. split; [auto|]. split; [cbn; congruence|rewrite hb; discriminate]. }
    assert (K : e' = HDone -> q_err (c_q c) <> None) by (intros -> hn; destruct hx as [(_ & hx & _)|(hx & _)]; congruence).
    destruct (q_err (c_q c)) as [w|] eqn:Q.
    + destruct (GG ltac:(discriminate)) as (-> & G). exists bs, s1. split; [exact a1|]. split; [exact EN|]. split; [exact hda|]. split; [exact hg|].
      destruct (stream_finished _ id); [left; auto|split; [exact G|exact hmu]].
    + specialize (FF eq_refl). assert (hne : e' <> HDone) by (intros h; apply K in h; congruence).
      assert (P : post polling id s c (Stop (Err e'), with_q (with_peer c1 st) (set_err (c_q c1) (Some x)))).
      { exists bs, s1. split; [exact a1|]. split; [exact EN|]. split; [exact hda|]. split; [exact hg|]. right. exact FF. }
      destruct e'; try exact P. congruence.
  - destruct (c_server c1); [unfold fail; destruct (fail_as _ _ c1) as [r c3] eqn:FA; eapply hfail; eauto; auto|].
    destruct (negb (id mod 4 =? 0)); [unfold fail; destruct (fail_as _ _ c1) as [r c3] eqn:FA; eapply hfail; eauto; auto|]. apply hok; auto.
  - destruct (negb (c_server c1) && negb (gid mod 4 =? 0)); [destruct (fail_as _ _ c1) as [r c3] eqn:FA; eapply hfail; eauto; auto|].
    destruct (match c_goaway c1 with Some r => r <? gid | None => false end); [unfold fail; destruct (fail_as _ _ c1) as [r c3] eqn:FA; eapply hfail; eauto; auto|].
    exists bs, s1. split; [exact a1|]. split.
    + constructor; [exact a4|exact hm|intros j hj; left; apply a2; auto|intros hu i; cbn; destruct a5 as (f1 & f2 & f3 & f4 & f5 & f6); rewrite f3, f4, f5; apply hu|exact (proj1 a5)].
    + split; [exact hda|]. split; [exact hg|]. split; auto. split; [split; [auto|split; [auto|rewrite hb; discriminate]]|]. split; cbn; auto.
  - destruct (negb (c_server c1)); [unfold fail; destruct (fail_as _ _ c1) as [r c3] eqn:FA; eapply hfail; eauto; auto|].
    destruct (p <? c_push c1); [unfold fail; destruct (fail_as _ _ c1) as [r c3] eqn:FA; eapply hfail; eauto; auto|].
    apply hok; auto. constructor; auto.
  - destruct (negb (c_server c1)) eqn:SV; [unfold fail; destruct (fail_as _ _ c1) as [r c3] eqn:FA; eapply hfail; eauto; auto|].
    destruct (negb (pid mod 4 =? 0)) eqn:M4; [unfold fail; destruct (fail_as _ _ c1) as [r c3] eqn:FA; eapply hfail; eauto; auto|].
    destruct (q_bidi (c_q c1) * 4 <? pid); [unfold fail; destruct (fail_as _ _ c1) as [r c3] eqn:FA; eapply hfail; eauto; auto|].
    destruct (stream_closed (c_q c1) pid); [apply hok; auto|].
    assert (hm4 : pid mod 4 = 0) by lia. destruct (mod4_bits pid hm4) as (hbp & _). assert (hne : pid <> id) by congruence.
    set (sp := match c_str c1 pid with Some s0 => s0 | None => new_stream c1 pid false end).
    set (c2 := with_str c1 pid (Some (set_prio sp (Some v))) (c_q c1)).
    assert (EN : env id c c2).
    { destruct a4 as (g1 & g2 & g3). constructor; [split; [exact g1|split; [exact g2|exact g3]]|exact hm| |intros hu i; cbn; destruct a5 as (f1 & f2 & f3 & f4 & f5 & f6); rewrite f3, f4, f5; apply hu|exact (proj1 a5)].
      intros j hj. destruct (Z.eq_dec j pid) as [-> |hjp].
      - right. split; [destruct (c_server c1); [congruence|discriminate SV]|]. split; auto. exists v. cbn. rewrite upd_same. f_equal. unfold sp. rewrite (a2 pid hne). destruct (c_str c pid); auto.
        unfold new_stream. rewrite g2, g3. auto.
      - left. cbn. rewrite upd_other by auto. auto. }
    assert (S2 : c_str c2 id = Some s1) by (cbn; rewrite upd_other by auto; exact a1).
    assert (G : good server mfss loc polling id s s1 bs c c2 []) by (split; [auto|split; [auto|rewrite hb; discriminate]]).
    destruct (is_some (h_prio sp)).
    + exists bs, s1. split; auto. split; auto. split; [exact hda|]. split; [exact hg|]. destruct (stream_finished (c_q c2) id); [left; auto|split; [exact G|exact hmu]].
    + exists bs, s1. split; auto. split; auto. split; [exact hda|]. split; [exact hg|]. split; [auto|split; [exact G|split; cbn; auto]].
  - destruct (negb (c_server c1)); [unfold fail; destruct (fail_as _ _ c1) as [r c3] eqn:FA; eapply hfail; eauto; auto|].
    destruct (negb (pid mod 3 =? 0)); [unfold fail; destruct (fail_as _ _ c1) as [r c3] eqn:FA; eapply hfail; eauto; auto|]. apply hok; auto.
  - apply hok; auto.
Qed.

(** Whole frames *)
Lemma promise_spec id s p block : process_frame id (HPushPromise p block) s =
  (if c_server s || negb (id mod 4 =? 0) then fail HFrameUnexpected s else (Err HDone, s)).
Proof. cbn [process_frame]. destruct (c_server s); auto. Qed.

Lemma payload_post polling id s c : c_str c id = Some s -> wf id s -> h_st s = StPayload -> tr_ok (c_q c) -> q_down (c_q c) = false ->
  c_server c = server -> c_mfss c = mfss -> q_err (c_q c) = None \/ polling = false ->
  post polling id s c (step polling id s c).
Proof.
  intros hs0 hw hst hk hd hsv hmf hpe. pose proof hw as (wc & wp). unfold step. rewrite hst. destruct polling; cbn [negb]; [|apply post_stay; auto].
  destruct hpe as [hpe|hpe]; [|discriminate hpe].
  assert (hcr : is_bidi id = true -> is_critical (h_ty s) = false) by (intros hb; rewrite (proj1 (wc_bidi _ _ _ _ _ wc hb)); auto).
  unfold wf_pos in wp. rewrite hst in wp. destruct wp as (hfr & hbk & hz & hpt & hmax & ty & hty & hon & hpl).
  destruct (try_fill id s (c_q c)) as [[r s1] q1] eqn:F.
  destruct (fill_frame id s (c_q c) r s1 q1 hk hd hbk hz hpt F) as (bs & cap & trig & es & b1 & l1 & d1 & m1 & hg & sp).
  assert (hat : at_id id c (with_str c id (Some s1) q1) s1 q1) by (eapply at_with, at_refl; eauto).
  assert (hmore : forall more, resume (cfg id) s (bs ++ more) = resume (cfg id) s1 more).
  { intros more. subst s1. unfold resume, filled. cbn [set_pos set_trig h_st h_fty h_len h_buf]. rewrite hst, hty, app_assoc. auto. }
  assert (wc1 : wf_cfg id s1) by (subst s1; apply wfc_filled; auto).
  destruct r as [u|e|]; [| |destruct sp].
  2:{ exists bs, s1. split; [apply (at_self _ _ _ _ _ hat)|]. split; [eapply env_at; eauto|]. split; [exact d1|]. split; [exact hg|].
      destruct sp as [(sp1 & sp2 & sp3 & sp4)|(sp1 & sp2)].
      - right. split; [exact sp2|]. split; [subst s1; cbn; congruence|]. split; [intros h; rewrite (sp3 h); auto|]. split; [exact sp4|]. intros hb. rewrite (hcr hb) in sp1. discriminate sp1.
      - left. assert (hoff1 : h_off s + zlen bs < h_len s) by (destruct sp2 as [(_ & h)|(h & _)]; auto). split.
        + split; [split; [auto|]|split; [exact sp1|auto]]. subst s1. unfold wf_pos, filled. cbn [h_st set_pos]. rewrite hst. split; auto. cbn [set_pos set_trig h_buf h_off h_len h_fty].
          split; [apply bytes_ok_app; auto|]. split; [rewrite zlen_app; lia|]. split; [left; cbn [set_pos set_trig h_off h_len]; pose proof (zlen_nonneg bs); pose proof (zlen_nonneg (h_buf s)); lia|]. split; auto. exists ty. auto.
        + destruct sp2 as [(-> & _)|(_ & t & -> & ht)]; auto. right. exists t. split; auto. }
  destruct sp as (sp1 & sp2). pose proof (zlen_nonneg bs) as hbs0.
  assert (hb1 : h_buf s1 = h_buf s ++ bs) by (subst s1; auto). assert (hl1 : h_len s1 = zlen (h_buf s1)) by (rewrite hb1, zlen_app; subst s1; cbn; lia).
  assert (hbo : bytes_ok (h_buf s1)) by (rewrite hb1; apply bytes_ok_app; auto).
  assert (hfr1 : framed s1 = true) by (subst s1; auto).
  assert (hpm : forall more, resume (cfg id) s1 more =
     if ty =? 1 then match read_section (cfg id) (phase_of s1) (h_buf s1) with inl l => KHeaders l :: parsed (cfg id) (counted (phase_of s1)) more | inr e => [KFail e] end
     else match read_promise (cfg id) (h_buf s1) with Some e => [KFail e] | None => parsed (cfg id) (phase_of s1) more end).
  { intros more. unfold resume. replace (h_st s1) with StPayload by (subst s1; auto). replace (h_fty s1) with (Some ty) by (subst s1; auto).
    unfold on_payload. rewrite hl1, zlen_app. pose proof (zlen_nonneg more). replace (zlen (h_buf s1) + zlen more <? zlen (h_buf s1)) with false by lia.
    rewrite take_app_exact, drop_app_exact. auto. }
  assert (hst1 : h_st s1 = StPayload) by (subst s1; auto).
  unfold consume_frame. cbn [set_trig h_fty h_len h_buf]. replace (h_fty s1) with (Some ty) by (subst s1; auto). rewrite hl1.
  destruct (h3_from_bytes ty (zlen (h_buf s1)) (h_buf s1)) as [f|e|] eqn:FB; [| |exfalso; eapply from_bytes_total; eauto].
  - rewrite goto_ok by (intros; unfold MAX_STATE_BUF; lia). set (s2 := set_pos (set_trig s1 false) StFrame [] _ 1 0).
    set (c2 := with_str (with_str c id (Some s1) q1) id (Some s2) q1). assert (hat2 : at_id id c c2 s2 q1) by (eapply at_with; eauto).
    assert (hw2 : wf id s2) by (apply wf_next; [subst s1; apply (wfc_filled server mfss loc id s false cap bs); auto|subst s1; auto]).
    assert (hg2 : grown s s2 bs) by (eapply grown_goto; [exact hg|reflexivity|]; apply (cap_goto (h_cap s1) 1)).
    assert (hst2 : h_st s2 <> StData) by discriminate.
    assert (hmu : mu s2 c2 id < mu s c id).
    { unfold mu. rewrite (at_q _ _ _ _ _ hat2), d1, zlen_app. cbn [s2 set_pos h_len]. change (1 =? 0) with false. cbv iota. destruct (h_len s =? 0) eqn:L0; [lia|]. unfold part in hpt. lia. }
    assert (hq2 : c_q c2 = q1) by apply (at_q _ _ _ _ _ hat2).
    assert (ph2 : phase_of s2 = phase_of s1) by reflexivity.
    assert (hr2 : forall more, resume (cfg id) s2 more = parsed (cfg id) (phase_of s1) more) by (intros; unfold s2; rewrite resume_next; reflexivity).
    pose proof (from_bytes_ty _ _ _ _ FB) as hft. unfold on_stream in hon. destruct (is_bidi id) eqn:B.
    2:{ apply control_frame with (s1 := s2) (bs := bs); auto; try (rewrite hq2; auto). destruct f; auto. cbn in hft. lia. }
    assert (hty15 : ty = 1 \/ ty = 5).
    { assert (hlen0 : 0 <= h_len s) by (unfold part in hpt; lia). pose proof (plan_bidi server mfss loc id s ty (h_len s) wc hon hlen0) as P. rewrite hpl in P. destruct P as (_ & _ & P & _). destruct (ty =? 0); [discriminate P|]. destruct ((ty =? 1) || (ty =? 5)) eqn:E; [lia|discriminate P]. }
    destruct hty15 as [-> | ->].
    + assert (f = HHeaders (h_buf s1)) as ->.
      { unfold h3_from_bytes, T_DATA, T_HEADERS in FB. cbn [Z.eqb Pos.eqb] in FB. rewrite hn_all in FB. cbn [bind] in FB. injection FB as <-. auto. }
      cbn [Z.eqb Pos.eqb] in hpm. cbn [process_frame]. rewrite (at_self _ _ _ _ _ hat2). cbn [read_section] in hpm. unfold read_section in hpm.
      cbn [r_server cfgl r_mfss] in hpm. assert (hcnt : h_count s2 = p_count (phase_of s1)) by reflexivity. rewrite hcnt.
      destruct (at_cfg _ _ _ _ _ hat2) as (g1 & g2 & g3). rewrite g1, hsv.
      destruct (server && (p_count (phase_of s1) =? 2)).
      * pose proof (fail_post true id s c c2 s2 bs (to_wire HFrameUnexpected) HFrameUnexpected) as FP. rewrite hq2 in FP.
        specialize (FP hat2 m1 sp2 d1 hd hg2 eq_refl hst2). unfold fail. destruct (fail_as _ _ c2) as [r3 c3] eqn:FA.
        destruct (fail_as_done (to_wire HFrameUnexpected) HFrameUnexpected c2 eq_refl) with (2 := FA) as (e' & -> & he'); [rewrite hq2, (proj1 (mv_cfg _ _ _ m1)); auto|].
        rewrite (he' ltac:(congruence)) in *. apply FP. intros _. split; auto. intros more. rewrite hmore, hpm. auto.
      * set (s3 := set_count s2 (Z.min u64_max (p_count (phase_of s1) + 1))). set (c3 := with_str c2 id (Some s3) (c_q c2)).
        assert (hat3 : at_id id c c3 s3 q1) by (rewrite <- hq2; eapply at_with; eauto). assert (hq3 : c_q c3 = q1) by apply (at_q _ _ _ _ _ hat3).
        assert (hw3 : wf id s3) by (destruct hw2 as ([w1 w2 w3] & w4); split; [constructor; auto|exact w4]).
        assert (hg3 : grown s s3 bs) by exact hg2. destruct (at_cfg _ _ _ _ _ hat3) as (i1 & i2 & i3). rewrite i2, hmf.
        destruct (qpack_decode (h_buf s1) (match mfss with Some n => n | None => u64_max end)) as [l|e|] eqn:QD.
        -- exists bs, s3. split; [apply (at_self _ _ _ _ _ hat3)|]. split; [eapply env_at; eauto|]. rewrite hq3. split; [exact d1|]. split; [exact hg3|]. split; auto. split.
           ++ split; [exact hw3|]. split; [rewrite hq3; exact sp2|]. intros _ more. unfold toks. rewrite Z.eqb_refl. rewrite hmore, hpm. cbn [app]. f_equal. rewrite parsed_eq. reflexivity.
           ++ split; [reflexivity|intros hbf; congruence].
        -- assert (FP : forall e0, kind e0 = true -> (match e with QTooLarge => HExcessiveLoad | _ => HQpackFailed end) = e0 ->
             post true id s c (match fail e0 c3 with (Err HDone, c2) => (if stream_finished (c_q c2) id then Stop (Err HDone) else Again, c2) | (r, c2) => (Stop r, c2) end)).
           { intros e0 hk0 he0. pose proof (fail_post true id s c c3 s3 bs (to_wire e0) e0) as FP. rewrite hq3 in FP. specialize (FP hat3 m1 sp2 d1 hd hg3 hk0 ltac:(discriminate)). unfold fail.
             destruct (fail_as _ _ c3) as [r3 c4] eqn:FA. destruct (fail_as_done (to_wire e0) e0 c3 hk0) with (2 := FA) as (e' & -> & he'); [rewrite hq3, (proj1 (mv_cfg _ _ _ m1)); auto|].
             rewrite (he' ltac:(congruence)) in *. assert (P : post true id s c (Stop (Err e0), c4)). { apply FP. intros _. split; auto. intros more. rewrite hmore, hpm. destruct e; subst e0; auto. }
             destruct e0; try exact P. discriminate hk0. }
           destruct e; (apply FP; [reflexivity|reflexivity]).
        -- exfalso. eapply decode_no_panic; [exact hbo| |exact QD]. destruct mfss; auto. unfold u64_max. lia.
    + cbn [Z.eqb Pos.eqb] in hpm. unfold read_promise in hpm. rewrite FB in hpm. cbn [r_server cfgl r_id] in hpm.
      assert (exists p block, f = HPushPromise p block) as (p & block & ->).
      { unfold h3_from_bytes, T_DATA, T_HEADERS, T_CANCEL_PUSH, T_SETTINGS, T_PUSH_PROMISE in FB. cbn [Z.eqb Pos.eqb] in FB. destruct (parse_varint_rest _ _) as [[p block]|e|]; cbn [bind] in FB; try discriminate FB. injection FB as <-. eauto. }
      rewrite promise_spec. destruct (at_cfg _ _ _ _ _ hat2) as (g1 & g2 & g3). rewrite g1, hsv.
      destruct (server || negb (id mod 4 =? 0)).
      * pose proof (fail_post true id s c c2 s2 bs (to_wire HFrameUnexpected) HFrameUnexpected) as FP. rewrite hq2 in FP.
        specialize (FP hat2 m1 sp2 d1 hd hg2 eq_refl hst2). unfold fail. destruct (fail_as _ _ c2) as [r3 c3] eqn:FA.
        destruct (fail_as_done (to_wire HFrameUnexpected) HFrameUnexpected c2 eq_refl) with (2 := FA) as (e' & -> & he'); [rewrite hq2, (proj1 (mv_cfg _ _ _ m1)); auto|].
        rewrite (he' ltac:(congruence)) in *. apply FP. intros _. split; auto. intros more. rewrite hmore, hpm. auto.
      * assert (G : good server mfss loc true id s s2 bs c c2 []).
        { split; [exact hw2|]. split; [rewrite hq2; exact sp2|]. intros _ more. rewrite hmore, hpm, hr2. auto. }
        exists bs, s2. split; [apply (at_self _ _ _ _ _ hat2)|]. split; [eapply env_at; eauto|]. rewrite hq2. split; [exact d1|]. split; [exact hg2|].
        destruct (stream_finished q1 id); [left; auto|split; [exact G|exact hmu]].
  - pose proof (from_bytes_err _ _ _ _ FB) as hke.
    set (c2 := with_str (with_str c id (Some s1) q1) id (Some (set_trig s1 false)) q1). assert (hat2 : at_id id c c2 (set_trig s1 false) q1) by (eapply at_with; eauto).
    assert (hq2 : c_q c2 = q1) by apply (at_q _ _ _ _ _ hat2).
    assert (P : post true id s c (let '(r, c) := fail e c2 in (Stop r, c))).
    { unfold fail. eapply fail_post with (bs := bs) (s1 := set_trig s1 false); rewrite ?hq2; auto.
      - cbn. congruence.
      - intros hb. split; auto. intros more. rewrite hmore, hpm. unfold on_stream in hon. rewrite hb in hon.
        assert (hty15 : ty = 1 \/ ty = 5).
        { assert (hlen0 : 0 <= h_len s) by (unfold part in hpt; lia). pose proof (plan_bidi server mfss loc id s ty (h_len s) wc hon hlen0) as P. rewrite hpl in P. destruct P as (_ & _ & P & _). destruct (ty =? 0); [discriminate P|]. destruct ((ty =? 1) || (ty =? 5)) eqn:E; [lia|discriminate P]. }
        destruct hty15 as [-> | ->].
        + unfold h3_from_bytes, T_DATA, T_HEADERS in FB. cbn [Z.eqb Pos.eqb] in FB. rewrite hn_all in FB. discriminate FB.
        + cbn [Z.eqb Pos.eqb]. unfold read_promise. rewrite FB. auto. }
    destruct e; try exact P. discriminate hke.
Qed.
End Turn.
