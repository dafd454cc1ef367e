(** The invariant of a connection: where every request stream is, and what the
    application got from it so far. *)
Require Import Verif.Base Verif.Errors Verif.OctetsModel Verif.StreamsModel Verif.QpackModel Verif.H3FrameModel Verif.H3ConnModel Verif.H3ConnSpec Verif.H3ConnProofs Verif.H3ConnProofs2 Verif.H3ConnProofs3 Verif.H3ConnProofs4 Verif.H3ConnProofs5.

Lemma says_nil g : says_all g [] = [].
Proof. reflexivity. Qed.
Lemma quiet_tok l x : quiet (l ++ x) -> (l = [] \/ exists h, l = [KHeaders h]) -> l = [] /\ quiet x.
Proof. intros [h|(e & h)] [-> |(hd & ->)]; cbn in h; try discriminate h; split; auto; unfold quiet; eauto. Qed.
Lemma toks_cases id ev : toks id ev = [] \/ exists h, toks id ev = [KHeaders h].
Proof. unfold toks. destruct ev as [i []]; auto. destruct (i =? id); eauto. Qed.
Lemma got_event_self got id ev : ev_of id ev -> got_event got (Ok ev) id = got id ++ toks id ev.
Proof.
  unfold ev_of, got_event, toks, add_to. destruct ev as [i []]; intros h; rewrite ?app_nil_r; auto. subst i. rewrite Z.eqb_refl. auto.
Qed.
Lemma got_event_other got id ev k : ev_of id ev -> k <> id -> got_event got (Ok ev) k = got k.
Proof. unfold ev_of, got_event, add_to. destruct ev as [i []]; auto. intros -> h. replace (k =? id) with false by lia. auto. Qed.
Lemma got_event_none got id ev k : ev_of id ev -> toks id ev = [] -> got_event got (Ok ev) k = got k.
Proof. unfold ev_of, got_event, toks, add_to. destruct ev as [i []]; auto. intros -> h. rewrite Z.eqb_refl in h. discriminate h. Qed.

Section Run.
Context (server : bool) (mfss : option Z) (mfss_ok : match mfss with Some n => 0 <= n | None => True end).
Notation cfg := (cfg_of server mfss).
Definition wfx (k : Z) (s : hs) : Prop := exists loc, wf server mfss loc k s.
Definition okstr (q : tr) (k : Z) (s : hs) : Prop := wfx k s \/ (q_err q <> None /\ h_st s <> StData).
Record glob (c : conn) (all : Z -> list Z) (bad : bool) : Prop := mkGlob {
  g_cfg : c_server c = server /\ c_mfss c = mfss;
  g_tr : tr_ok (c_q c);
  g_down : q_down (c_q c) = false;
  g_uni : uni_ids c;
  g_str : forall k s, c_str c k = Some s -> okstr (c_q c) k s;
  g_fin : forall k, In k (c_fin c) -> over (c_q c) k /\ data_of (c_q c) k = [];
  g_bad : q_err (c_q c) <> None -> bad = true;
  g_len : forall k, zlen (data_of (c_q c) k) <= zlen (all k);
  g_buf : forall k s, c_str c k = Some s -> zlen (h_buf s) + zlen (data_of (c_q c) k) <= zlen (all k) /\ h_cap s <= 8192 + 2 * zlen (all k) }.

(** A request stream is fresh, live, dead (all of it was received and read) or stuck
    (it broke the protocol and the connection is being closed) *)
Definition fresh (c : conn) (k : Z) : Prop := c_str c k = None /\ (is_local k server = true -> exists_in (c_q c) k = false).
Definition live (c : conn) (got : list tok) (all : list Z) (k : Z) : Prop :=
  exists s seen, c_str c k = Some s /\ wf server mfss (is_local k server) k s /\ all = seen ++ data_of (c_q c) k /\
    forall more, got ++ resume (cfg k) s more = says_all (cfg k) (seen ++ more).
Definition dead (c : conn) (got : list tok) (all : list Z) (reset bad : bool) (k : Z) : Prop :=
  over (c_q c) k /\ data_of (c_q c) k = [] /\ exists x, says_all (cfg k) all = got ++ x /\ (reset = false -> bad = false -> quiet x).
Definition stuck (c : conn) (got : list tok) (all : list Z) (k : Z) : Prop :=
  q_err (c_q c) <> None /\ (exists s, c_str c k = Some s /\ h_st s <> StData) /\ forall more, exists x, says_all (cfg k) (all ++ more) = got ++ x.
Definition status (c : conn) (got : list tok) (all : list Z) (reset bad : bool) (k : Z) : Prop :=
  (fresh c k /\ got = [] /\ all = data_of (c_q c) k) \/ live c got all k \/ dead c got all reset bad k \/ stuck c got all k.
Definition inv (c : conn) (got : Z -> list tok) (all : Z -> list Z) (reset : Z -> bool) (bad : bool) : Prop :=
  glob c all bad /\ forall k, is_bidi k = true -> status c (got k) (all k) (reset k) bad k.

(** Changes that do not matter *)
Definition like (s s' : hs) : Prop := exists v l, s' = mkHs (h_ty s) (h_st s) (h_buf s) (h_cap s) (h_len s) (h_off s) (h_fty s) (h_local s) (h_rinit s) (h_trig s) v (h_count s) (h_data s) (h_trail s) l (h_maxh s) (h_maxp s).
Lemma like_refl s : like s s.
Proof. exists (h_prio s), (h_lfin s). destruct s; auto. Qed.
Lemma like_prio s v : like s (set_prio s v).
Proof. eexists _, _. reflexivity. Qed.
Lemma like_lfin s : like s (set_lfin s).
Proof. eexists _, _. reflexivity. Qed.
Lemma wf_like loc k s s' : like s s' -> wf server mfss loc k s -> wf server mfss loc k s'.
Proof. intros (v & l & ->) ([w1 w2 w3] & wp). split; [constructor; auto|exact wp]. Qed.
Lemma okstr_like q k s s' : like s s' -> okstr q k s -> okstr q k s'.
Proof. intros h [(loc & w)|w]; [left; exists loc; eapply wf_like; eauto|right; destruct h as (v & l & ->); auto]. Qed.
Lemma wf_new c id local : c_mfss c = mfss -> wf server mfss local id (new_stream c id local).
Proof.
  intros h. unfold new_stream, hs_new. destruct (is_bidi id) eqn:B; split.
  - constructor; cbn; [unfold max_block; cbn; rewrite h; destruct mfss; auto|auto|congruence].
  - unfold wf_pos, vpos, framed. cbn. repeat split; auto; try lia. constructor.
  - constructor; cbn; [unfold max_block; cbn; rewrite h; destruct mfss; auto|congruence|]. intros _. split; discriminate.
  - unfold wf_pos, vpos. cbn. repeat split; auto; try lia. constructor.
Qed.
Lemma resume_at c id b local : is_bidi id = true -> resume (cfg id) (new_stream c id local) b = says_all (cfg id) b.
Proof. apply resume_new. Qed.

Lemma status_dead c got all reset bad k all_ : is_bidi k = true -> glob c all_ bad -> status c got all reset bad k -> over (c_q c) k -> data_of (c_q c) k = [] -> dead c got all reset bad k.
Proof.
  intros hb g [(h1 & -> & ->)|[(s & seen & h1 & h2 & -> & h3)|[h|(h1 & (s & h2 & h3) & h4)]]] ho hd; auto; (split; [auto|]); (split; [auto|]); rewrite ?hd.
  - exists []. rewrite says_nil. split; auto. unfold quiet. auto.
  - exists (resume (cfg k) s []). split; auto. intros _ _. eapply (wf_quiet server mfss (is_local k server)); eauto.
  - destruct (h4 []) as (x & hx). rewrite app_nil_r in hx. exists x. split; auto. intros _ hbad. rewrite (g_bad _ _ _ g h1) in hbad. discriminate hbad.
Qed.
Lemma dead_mono c c' got all reset reset' bad bad' k : dead c got all reset bad k -> over (c_q c') k -> data_of (c_q c') k = [] -> (reset = true -> reset' = true) -> (bad = true -> bad' = true) ->
  dead c' got all reset' bad' k.
Proof.
  intros (h1 & h2 & x & h3 & h4) ho hd hr hb. split; auto. split; auto. exists x. split; auto. intros hr' hb'. apply h4.
  - destruct reset; auto. rewrite hr in hr' by auto. auto.
  - destruct bad; auto. rewrite hb in hb' by auto. auto.
Qed.
(** Nothing happens to stream [k], except that it may get a priority *)
Lemma status_frame c c' got all reset reset' bad bad' k : status c got all reset bad k ->
  data_of (c_q c') k = data_of (c_q c) k -> (over (c_q c) k -> over (c_q c') k) -> (exists_in (c_q c) k = false -> exists_in (c_q c') k = false) ->
  (q_err (c_q c) <> None -> q_err (c_q c') <> None) -> (reset = true -> reset' = true) -> (bad = true -> bad' = true) ->
  match c_str c k with
  | Some s => exists s', c_str c' k = Some s' /\ like s s'
  | None => c_str c' k = None \/ (is_bidi k = true /\ is_local k server = false /\ exists s', c_str c' k = Some s' /\ like (new_stream c k false) s' /\ c_mfss c = mfss)
  end ->
  status c' got all reset' bad' k.
Proof.
  intros hs hd ho hx he hr hb hc. destruct hs as [((h0 & hf) & -> & ->)|[(s & seen & h1 & h2 & -> & h3)|[h|(h1 & (s & h2 & h3) & h4)]]].
  - rewrite h0 in hc. destruct hc as [hc|(hbi & hl & s' & hc & hlk & hm)].
    + left. split; [|auto]. split; auto.
    + right. left. exists s', []. split; auto. split; [rewrite hl; eapply wf_like; eauto; apply wf_new; auto|]. split; auto. intros more. cbn [app].
      destruct hlk as (v & l & ->). change (resume _ _ more) with (resume (cfg k) (new_stream c k false) more). apply resume_at. auto.
  - rewrite h1 in hc. destruct hc as (s' & hc & hlk). right. left. exists s', seen. split; auto. split; [eapply wf_like; eauto|]. rewrite hd. split; auto.
    destruct hlk as (v & l & ->). exact h3.
  - right. right. left. pose proof h as (h1 & h2 & _). eapply dead_mono; eauto; congruence.
  - rewrite h2 in hc. destruct hc as (s' & hc & hlk). right. right. right. split; auto. split; auto. exists s'. split; auto. destruct hlk as (v & l & ->). auto.
Qed.
(** ... because another stream was read *)
Lemma env_frame id c c' k : env id c c' -> k <> id -> c_server c = server -> c_mfss c = mfss ->
  match c_str c k with
  | Some s => exists s', c_str c' k = Some s' /\ like s s'
  | None => c_str c' k = None \/ (is_bidi k = true /\ is_local k server = false /\ exists s', c_str c' k = Some s' /\ like (new_stream c k false) s' /\ c_mfss c = mfss)
  end.
Proof.
  intros e h hsv hmf. destruct (ev_str _ _ _ e k h) as [hc|(h1 & h2 & v & hc)].
  - rewrite hc. destruct (c_str c k); auto. exists h0. split; auto. apply like_refl.
  - destruct (c_str c k) as [s|] eqn:E.
    + exists (set_prio s (Some v)). split; auto. apply like_prio.
    + right. rewrite hsv in h1. subst server. rewrite h1. destruct (mod4_bits k h2) as (b1 & b2). split; auto. split; auto. eexists. split; eauto. split; [apply like_prio|auto].
Qed.
Lemma over_other id c c' k : env id c c' -> over (c_q c) k -> over (c_q c') k.
Proof. intros e. apply over_moved with id. apply (ev_q _ _ _ e). Qed.
Lemma exists_other id q q' k : moved id q q' -> exists_in q' k = exists_in q k.
Proof.
  intros [o _ s _]. unfold exists_in. destruct (Z.eq_dec k id) as [-> |h].
  - destruct (q_str q id) as [t|].
    + destruct (q_str q' id) as [t'|]; [reflexivity|]. destruct s as (_ & ->). reflexivity.
    + destruct s as (-> & ->). auto.
  - destruct (o k h) as (-> & ->). auto.
Qed.
Lemma status_other id c c' got all reset bad bad' k : env id c c' -> k <> id -> c_server c = server -> c_mfss c = mfss -> (q_err (c_q c) <> None -> q_err (c_q c') <> None) -> (bad = true -> bad' = true) ->
  status c got all reset bad k -> status c' got all reset bad' k.
Proof.
  intros e h hsv hmf he hb hs. eapply status_frame; eauto.
  - eapply data_moved; eauto. apply (ev_q _ _ _ e).
  - intros. eapply over_other; eauto.
  - rewrite (exists_other _ _ _ k (ev_q _ _ _ e)). auto.
  - eapply env_frame; eauto.
Qed.

(** What reading leaves of the invariant *)
Lemma glob_env id c c' all bad bad' bs s s' : glob c all bad -> env id c c' -> c_str c' id = Some s' -> data_of (c_q c) id = bs ++ data_of (c_q c') id ->
  s = stream_at c id -> grown s s' bs -> okstr (c_q c') id s' -> (q_err (c_q c) <> None -> q_err (c_q c') <> None) -> (q_err (c_q c') <> None -> bad' = true) -> glob c' all bad'.
Proof.
  intros g e hs' hd hs hg hok he hb. pose proof (ev_cfg _ _ _ e) as (e1 & e2 & e3). destruct (g_cfg _ _ _ g) as (hsv & hmf). pose proof (zlen_nonneg bs).
  assert (hdk : forall k, zlen (data_of (c_q c') k) <= zlen (data_of (c_q c) k)).
  { intros k. destruct (Z.eq_dec k id) as [-> |hk]; [rewrite hd, zlen_app; lia|]. rewrite (data_moved id k _ _ (ev_q _ _ _ e)) by auto. lia. }
  constructor.
  - split; congruence.
  - apply (mv_ok _ _ _ (ev_q _ _ _ e)). apply g.
  - rewrite (proj1 (mv_cfg _ _ _ (ev_q _ _ _ e))). apply g.
  - apply (ev_ids _ _ _ e). apply g.
  - intros k sk hk. destruct (Z.eq_dec k id) as [-> |hne]; [congruence|].
    assert (HM : forall s0, okstr (c_q c) k s0 -> okstr (c_q c') k s0) by (intros s0 [w|(w1 & w2)]; [left; auto|right; auto]).
    pose proof (env_frame id c c' k e hne hsv hmf) as F. destruct (c_str c k) as [s0|] eqn:E.
    + destruct F as (s1 & h1 & h2). rewrite h1 in hk. injection hk as <-. eapply okstr_like; eauto. apply HM. eapply g_str; eauto.
    + destruct F as [F|(_ & _ & s1 & h1 & h2 & _)]; [congruence|]. rewrite h1 in hk. injection hk as <-. eapply okstr_like; eauto. left. exists false. apply wf_new. auto.
  - intros k hk. rewrite (ev_fin _ _ _ e) in hk. destruct (g_fin _ _ _ g k hk) as (h1 & h2). split; [eapply over_other; eauto|]. specialize (hdk k). rewrite h2, zlen_nil in hdk.
    destruct (data_of (c_q c') k) as [|y l]; auto. rewrite zlen_cons in hdk. pose proof (zlen_nonneg l). lia.
  - auto.
  - intros k. specialize (hdk k). pose proof (g_len _ _ _ g k). lia.
  - intros k sk hk. destruct (Z.eq_dec k id) as [-> |hne].
    + rewrite hs' in hk. injection hk as <-. pose proof (g_len _ _ _ g id). rewrite hd, zlen_app in H0. subst s. unfold grown, stream_at in hg. destruct (c_str c id) as [s0|] eqn:E.
      * destruct (g_buf _ _ _ g id s0 E) as (h1 & h2). rewrite hd, zlen_app in h1. pose proof (zlen_nonneg (data_of (c_q c') id)). lia.
      * assert (hn : h_buf (new_stream c id false) = [] /\ h_cap (new_stream c id false) = 16) by (unfold new_stream, hs_new; destruct (is_bidi id); auto).
        destruct hn as (hn0 & hn). rewrite hn, hn0, zlen_nil in hg. pose proof (zlen_nonneg (data_of (c_q c') id)). lia.
    + pose proof (env_frame id c c' k e hne hsv hmf) as F. specialize (hdk k). destruct (c_str c k) as [s0|] eqn:E.
      * destruct F as (s1 & h1 & (v & l & ->)). rewrite h1 in hk. injection hk as <-. cbn [h_buf h_cap]. pose proof (g_buf _ _ _ g k s0 E). lia.
      * destruct F as [F|(hb1 & _ & s1 & h1 & (v & l & ->) & _)]; [congruence|]. rewrite h1 in hk. injection hk as <-. unfold new_stream, hs_new. rewrite hb1. cbn [h_buf h_cap]. rewrite zlen_nil. pose proof (g_len _ _ _ g k). pose proof (zlen_nonneg (all k)). lia.
Qed.

Lemma readable_inv polling id c got all reset bad r c' : inv c got all reset bad -> (is_bidi id = true -> exists_in (c_q c) id = true) ->
  (polling = true /\ q_err (c_q c) = None) \/ (polling = false /\ is_bidi id = true /\ wfx id (stream_at c id) /\ (live c (got id) (all id) id \/ dead c (got id) (all id) (reset id) bad id)) ->
  process_readable polling id c = (r, c') ->
  env id c c' /\ c_str c' id <> None /\ zlen (data_of (c_q c') id) <= zlen (data_of (c_q c) id) /\
  match r with
  | Ok ev => polling = true /\ inv c' (got_event got (Ok ev)) all reset bad /\ q_err (c_q c') = q_err (c_q c)
  | Err e => inv c' got all reset (bad || kind e) /\ (kind e = false -> q_err (c_q c') = q_err (c_q c)) /\
      (match e with HTransport _ => is_bidi id = true -> over (c_q c') id /\ data_of (c_q c') id = [] | _ => True end) /\
      (e <> HDone -> is_bidi id = true -> forall x y, got id = x ++ y -> status c' x (all id) (reset id) true id)
  | Panic => False
  end.
Proof.
  intros (g & hst) hex hpol hr. destruct (g_cfg _ _ _ g) as (hsv & hmf).
  assert (exists loc, wf server mfss loc id (stream_at c id) /\ (is_bidi id = true ->
     (loc = is_local id server /\ exists seen, all id = seen ++ data_of (c_q c) id /\ forall more, got id ++ resume (cfg id) (stream_at c id) more = says_all (cfg id) (seen ++ more)) \/
     dead c (got id) (all id) (reset id) bad id)) as (loc & hw & hcase).
  { assert (hnl : c_str c id = None -> wf server mfss false id (stream_at c id)) by (intros h; unfold stream_at; rewrite h; apply wf_new; auto).
    assert (hws : exists loc, wf server mfss loc id (stream_at c id)).
    { destruct hpol as [(_ & hq)|(_ & _ & h & _)]; auto. destruct (c_str c id) as [s|] eqn:E; eauto. unfold stream_at. rewrite E. destruct (g_str _ _ _ g id s E) as [h|(h & _)]; [auto|congruence]. }
    destruct (is_bidi id) eqn:B; [|destruct hws as (loc & h); exists loc; split; [auto|discriminate]].
    assert (hn : (fresh c id /\ got id = [] /\ all id = data_of (c_q c) id) \/ live c (got id) (all id) id \/ dead c (got id) (all id) (reset id) bad id).
    { destruct hpol as [(_ & hq)|(_ & _ & _ & hn)]; [|tauto]. destruct (hst id B) as [h|[h|[h|(h & _)]]]; auto. congruence. }
    destruct hn as [((h1 & hf) & h2 & h3)|[(s & seen & h1 & h2 & h3 & h4)|h]].
    - assert (hl : is_local id server = false) by (destruct (is_local id server); auto; rewrite hf in hex by auto; specialize (hex eq_refl); discriminate hex).
      exists false. split; auto. intros _. left. split; auto. exists []. split; auto. intros more. rewrite h2. unfold stream_at. rewrite h1. apply resume_at. auto.
    - exists (is_local id server). unfold stream_at. rewrite h1. split; auto. intros _. left. split; auto. exists seen. auto.
    - destruct hws as (loc & h5). exists loc. split; auto. }
  pose proof (readable_post server mfss loc mfss_ok polling id c hw (g_tr _ _ _ g) (g_down _ _ _ g) hsv hmf ltac:(tauto)) as P. rewrite hr in P.
  destruct P as (bs & s' & hs' & he & hd & hg & P). split; auto. split; [congruence|]. split; [rewrite hd, zlen_app; pose proof (zlen_nonneg bs); lia|].
  assert (HG : forall bad', okstr (c_q c') id s' -> (q_err (c_q c) <> None -> q_err (c_q c') <> None) -> (q_err (c_q c') <> None -> bad' = true) -> glob c' all bad') by (intros; eapply glob_env; eauto).
  assert (HO : forall k bad' got0, is_bidi k = true -> k <> id -> (q_err (c_q c) <> None -> q_err (c_q c') <> None) -> (bad = true -> bad' = true) -> got0 = got k -> status c' got0 (all k) (reset k) bad' k).
  { intros k bad' got0 hbk hk hq hb ->. eapply status_other; eauto. }
  (* after a good turn *)
  assert (HS : forall tl bad', good server mfss loc polling id (stream_at c id) s' bs c c' tl -> (tl = [] \/ exists h, tl = [KHeaders h]) -> (bad = true -> bad' = true) -> is_bidi id = true -> status c' (got id ++ tl) (all id) (reset id) bad' id).
  { intros tl bad' (w & hq & k) htl hb B. destruct (hcase B) as [(-> & seen & h1 & h2)|h].
    - right. left. exists s', (seen ++ bs). split; auto. split; auto. split; [rewrite h1, hd, app_assoc; auto|]. intros more. rewrite <- app_assoc. change (cfg id) with (cfgl server mfss (is_local id server) id). rewrite <- (k B more). change (cfgl server mfss (is_local id server) id) with (cfg id). rewrite <- app_assoc. apply h2.
    - pose proof h as (h1 & h2 & x & h3 & h4). rewrite h2 in hd. symmetry in hd. apply app_eq_nil in hd as (-> & hd). specialize (k B []). cbn [app] in k.
      pose proof (wf_quiet server mfss loc id _ hw B) as Q. rewrite k in Q. destruct (quiet_tok _ _ Q htl) as (-> & _). rewrite app_nil_r. right. right. left. eapply dead_mono; eauto. eapply over_other; eauto. }
  destruct r as [ev|e|]; [| |destruct P].
  - destruct P as (hpl & P & hev & hun). split; auto. assert (hq : q_err (c_q c') = q_err (c_q c)) by apply P. split; auto. split.
    + apply HG; [left; exists loc; apply P|congruence|rewrite hq; apply g].
    + intros k hb. destruct (Z.eq_dec k id) as [-> |hk].
      * rewrite got_event_self by auto. apply HS; auto. apply toks_cases.
      * rewrite got_event_other with (id := id) by auto. apply HO; auto. congruence.
  - destruct P as [(P & hee)|P].
    + assert (hq : q_err (c_q c') = q_err (c_q c)) by apply P. assert (hke : kind e = false) by (destruct hee as [-> |(t & -> & _)]; auto). rewrite hke, orb_false_r. split; [split|].
      * apply HG; [left; exists loc; apply P|congruence|rewrite hq; apply g].
      * intros k hb. destruct (Z.eq_dec k id) as [-> |hk]; [|apply HO; auto; congruence]. rewrite <- (app_nil_r (got id)). apply HS; auto.
      * split; auto. split.
        { destruct hee as [-> |(t & -> & hee)]; auto. }
        intros hne hb x y hxy. destruct hee as [-> |(t & -> & hee)]; [congruence|]. destruct (hee hb (hex hb)) as (h1 & h2).
        pose proof (HS [] bad P (or_introl eq_refl) (fun h => h) hb) as S1. rewrite app_nil_r in S1.
        eapply status_dead in S1; eauto. 2:{ apply HG with (bad' := bad); [left; exists loc; apply P|congruence|rewrite hq; apply g]. }
        right. right. left. split; auto. split; auto. destruct S1 as (_ & _ & z & hz & _). exists (y ++ z). rewrite hz, hxy, app_assoc. split; auto. discriminate.
    + destruct P as (p1 & p2 & p3 & p4 & p5). assert (hbb : q_err (c_q c') <> None -> bad || kind e = true).
      { intros _. destruct (q_err (c_q c)) as [w|] eqn:Q; [rewrite (g_bad _ _ _ g) by congruence; auto|]. rewrite p3, orb_true_r; auto. }
      assert (hmb : bad = true -> bad || kind e = true) by (intros ->; auto).
      assert (SX : is_bidi id = true -> forall x y bad', (bad = true -> bad' = true) -> got id = x ++ y -> y = [] \/ bad' = true -> status c' x (all id) (reset id) bad' id).
      { intros hb x y bad' hb' hxy hyb. destruct (hcase hb) as [(-> & seen & h1 & h2)|h].
        - right. right. right. split; auto. split; [exists s'; auto|]. intros more. destruct (p5 hb) as (e0 & hf & _). exists (y ++ [KFail e0]). rewrite h1, hd, <- !app_assoc. rewrite <- h2, (app_assoc x), <- hxy. f_equal. apply hf.
        - right. right. left. destruct h as (h1 & h2 & z & h3 & h4). rewrite h2 in hd. symmetry in hd. apply app_eq_nil in hd as (_ & hd). split; [eapply over_other; eauto|]. split; auto. exists (y ++ z). rewrite h3, hxy, app_assoc. split; auto.
          intros hr0 hb0. destruct hyb as [-> |hyb]; [|congruence]. apply h4; auto. destruct bad; auto. rewrite hb' in hb0 by auto. discriminate hb0. }
      split; [split|].
      * apply HG; auto. right. auto.
      * intros k hb. destruct (Z.eq_dec k id) as [-> |hk]; [|apply HO; auto]. apply (SX hb (got id) []); auto. rewrite app_nil_r. auto.
      * split; [|split].
        { intros hke. destruct (q_err (c_q c)) as [w|] eqn:Q; [apply p4; congruence|]. rewrite p3 in hke by auto. discriminate hke. }
        { destruct e; auto. destruct (q_err (c_q c)) as [w|] eqn:Q; [destruct p4; congruence|]. specialize (p3 eq_refl). discriminate p3. }
        { intros hne hb x y hxy. apply (SX hb x y); auto. }
Qed.
End Run.
