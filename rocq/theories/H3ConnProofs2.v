(** One turn of reading an HTTP/3 stream: it keeps the stream well formed, reads from that
    stream only, and says what the reference parser says. *)
Require Import Verif.Base Verif.Errors Verif.OctetsModel Verif.OctetsSpec Verif.OctetsProofs Verif.StreamsModel Verif.HuffmanModel Verif.QpackModel Verif.QpackProofs Verif.H3FrameModel Verif.H3FrameProofs Verif.H3ConnModel Verif.H3ConnSpec Verif.H3ConnProofs.

(** The configuration of a stream; whether we opened it is kept apart, since a stream that
    was forgotten is taken for one of the peer *)
Definition cfgl (server : bool) (mfss : option Z) (loc : bool) (k : Z) : rcfg := mkRcfg server loc mfss k.

(** ** Well-formed streams *)
Definition vpos (s : hs) : Prop :=
  bytes_ok (h_buf s) /\ zlen (h_buf s) = h_off s /\ h_off s < h_len s /\
  ((h_buf s = [] /\ h_len s = 1) \/ exists x tl, h_buf s = x :: tl /\ varint_parse_len x = Some (h_len s)).
Definition part (s : hs) : Prop := 0 <= h_off s < h_len s \/ (h_off s = 0 /\ h_len s = 0).
(** Frames that can be on the stream *)
Definition on_stream (id ty : Z) : Prop :=
  if is_bidi id then control_type ty = false else ty <> 0 /\ ty <> 1 /\ ty <> 5.
Record wf_cfg (server : bool) (mfss : option Z) (loc : bool) (id : Z) (s : hs) : Prop := mkWc {
  wc_max : h_maxh s = max_block (cfgl server mfss loc id);
  wc_bidi : is_bidi id = true -> h_ty s = Some TRequest /\ h_local s = loc;
  wc_uni : is_bidi id = false -> h_ty s <> Some TRequest /\ h_ty s <> Some TPush }.
Definition wf_pos (id : Z) (s : hs) : Prop :=
  match h_st s with
  | StType => is_bidi id = false /\ h_ty s = None /\ vpos s
  | StPush => False
  | StFrame => framed s = true /\ vpos s
  | StLen => framed s = true /\ vpos s /\ exists ty, h_fty s = Some ty /\ on_stream id ty
  | StPayload => framed s = true /\ bytes_ok (h_buf s) /\ zlen (h_buf s) = h_off s /\ part s /\ h_len s <= MAX_STATE_BUF /\
                 exists ty, h_fty s = Some ty /\ on_stream id ty /\ payload_plan s ty (h_len s) = Ok (StPayload, true)
  | StData => is_bidi id = true /\ h_buf s = [] /\ part s
  | StSkip => framed s = true /\ h_buf s = [] /\ part s
  | StInstr => (h_ty s = Some TEncoder \/ h_ty s = Some TDecoder) /\ h_buf s = []
  | StDrain => is_bidi id = false /\ h_buf s = []
  | StDone => h_buf s = []
  end.
Definition wf (server : bool) (mfss : option Z) (loc : bool) (id : Z) (s : hs) : Prop := wf_cfg server mfss loc id s /\ wf_pos id s.

(** Nothing but a failure *)
Definition quiet (l : list tok) : Prop := l = [] \/ exists e, l = [KFail e].

(** ** What a turn does to the connection *)
Record at_id (id : Z) (c c' : conn) (s : hs) (q : tr) : Prop := mkAt {
  at_self : c_str c' id = Some s;
  at_other : forall j, j <> id -> c_str c' j = c_str c j;
  at_q : c_q c' = q;
  at_cfg : c_server c' = c_server c /\ c_mfss c' = c_mfss c /\ c_maxp c' = c_maxp c;
  at_rest : c_fin c' = c_fin c /\ c_peer c' = c_peer c /\ c_ctl c' = c_ctl c /\ c_enc c' = c_enc c /\ c_dec c' = c_dec c /\ c_goaway c' = c_goaway c }.
Lemma at_refl id c s : c_str c id = Some s -> at_id id c c s (c_q c).
Proof. intros. constructor; auto. repeat split; auto. Qed.
Lemma at_with id c c1 s1 q1 s2 q2 : at_id id c c1 s1 q1 -> at_id id c (with_str c1 id (Some s2) q2) s2 q2.
Proof.
  intros [a1 a2 a3 a4 a5]. constructor; cbn; auto.
  - apply upd_same.
  - intros j h. rewrite upd_other by auto. auto.
Qed.
Lemma at_withq id c c1 s1 q1 q2 : at_id id c c1 s1 q1 -> at_id id c (with_q c1 q2) s1 q2.
Proof. intros [a1 a2 a3 a4 a5]. constructor; cbn; auto. Qed.

(** Another stream may get a priority, or be created by one *)
Definition prioritized (c : conn) (j : Z) (o : option hs) : Prop :=
  c_server c = true /\ j mod 4 = 0 /\ exists v, o = Some (set_prio (match c_str c j with Some s => s | None => new_stream c j false end) (Some v)).
Definition uni_ids (c : conn) : Prop := forall i, c_ctl c = Some i \/ c_enc c = Some i \/ c_dec c = Some i -> is_bidi i = false.
Record env (id : Z) (c c' : conn) : Prop := mkEnv {
  ev_cfg : c_server c' = c_server c /\ c_mfss c' = c_mfss c /\ c_maxp c' = c_maxp c;
  ev_q : moved id (c_q c) (c_q c');
  ev_str : forall j, j <> id -> c_str c' j = c_str c j \/ prioritized c j (c_str c' j);
  ev_ids : uni_ids c -> uni_ids c';
  ev_fin : c_fin c' = c_fin c }.
Lemma env_at id c c' s q : at_id id c c' s q -> moved id (c_q c) q -> env id c c'.
Proof.
  intros [a1 a2 a3 a4 (f1 & f2 & f3 & f4 & f5 & f6)] m. constructor; auto.
  - rewrite a3. auto.
  - intros h i. rewrite f3, f4, f5. apply h.
Qed.

Definition grown (s s' : hs) (bs : list Z) : Prop :=
  zlen (h_buf s') <= zlen (h_buf s) + zlen bs /\ h_cap s' <= Z.max (h_cap s) (Z.max 8192 (2 * (zlen (h_buf s) + zlen bs) + 4096)).
Definition mu (s : hs) (c : conn) (id : Z) : Z := 2 * zlen (data_of (c_q c) id) + (if (h_len s =? 0) then 1 else 0).
Definition toks (id : Z) (ev : Z * hevent) : list tok := match ev with (i, EvHeaders l _) => if i =? id then [KHeaders l] else [] | _ => [] end.
Definition ev_of (id : Z) (ev : Z * hevent) : Prop := match ev with (i, EvHeaders _ _) => i = id | _ => True end.
Definition kind (e : herr) : bool := match e with HDone | HTransport _ => false | _ => true end.

Section Turn.
Context (server : bool) (mfss : option Z) (loc : bool) (mfss_ok : match mfss with Some n => 0 <= n | None => True end).
Notation cfg := (cfgl server mfss loc).

Definition good (polling : bool) (id : Z) (s s' : hs) (bs : list Z) (c c' : conn) (tl : list tok) : Prop :=
  wf server mfss loc id s' /\ q_err (c_q c') = q_err (c_q c) /\
  (is_bidi id = true -> forall more, resume (cfg id) s (bs ++ more) = tl ++ resume (cfg id) s' more).
Definition failed (id : Z) (s s' : hs) (bs : list Z) (c c' : conn) (e : herr) : Prop :=
  q_err (c_q c') <> None /\ h_st s' <> StData /\ (q_err (c_q c) = None -> kind e = true) /\ (q_err (c_q c) <> None -> e = HDone /\ q_err (c_q c') = q_err (c_q c)) /\
  (is_bidi id = true -> exists e0, (forall more, resume (cfg id) s (bs ++ more) = [KFail e0]) /\
     (q_err (c_q c) = None -> e = e0 /\ q_err (c_q c') = Some (to_wire e0))).
Definition post (polling : bool) (id : Z) (s : hs) (c : conn) (o : turn * conn) : Prop :=
  let '(o, c') := o in
  exists bs s', c_str c' id = Some s' /\ env id c c' /\ data_of (c_q c) id = bs ++ data_of (c_q c') id /\ grown s s' bs /\
  match o with
  | Again => good polling id s s' bs c c' [] /\ mu s' c' id < mu s c id
  | Stop (Ok ev) => polling = true /\ good polling id s s' bs c c' (toks id ev) /\ ev_of id ev /\ (is_bidi id = false -> toks id ev = [])
  | Stop (Err e) =>
      (good polling id s s' bs c c' [] /\
       (e = HDone \/ exists t, e = HTransport t /\ (is_bidi id = true -> exists_in (c_q c) id = true -> over (c_q c') id /\ data_of (c_q c') id = []))) \/
      failed id s s' bs c c' e
  | Stop Panic => False
  end.

(** *** Setting the position keeps the configuration *)
Lemma wfc_pos id s st buf cap len off : wf_cfg server mfss loc id s -> wf_cfg server mfss loc id (set_pos s st buf cap len off).
Proof. intros [a b d]. constructor; auto. Qed.
Lemma wfc_filled id s trig cap bs : wf_cfg server mfss loc id s -> wf_cfg server mfss loc id (filled s trig cap bs).
Proof. intros [a b d]. constructor; auto. Qed.
Lemma cap_ok cap len additional : additional <= 8 -> 0 <= len <= 8 -> reserve cap len additional <= Z.max cap 8192.
Proof. unfold reserve. intros. destruct (additional <=? cap - len) eqn:E; lia. Qed.
Lemma cap_goto cap len : reserve cap 0 (Z.min len MAX_ALLOC) <= Z.max cap 8192.
Proof. unfold reserve, MAX_ALLOC. destruct (Z.min len 4096 <=? cap - 0) eqn:E; lia. Qed.

Lemma parse_len_range x n : varint_parse_len x = Some n -> 1 <= n <= 8.
Proof.
  intros h. pose proof (parse_len_byte _ _ h) as hx. destruct (parse_len_spec x hx) as (e & hk). destruct (pow_split _ hk) as (p & _).
  assert (n = 2 ^ (x / 64)) by congruence. lia.
Qed.
Lemma vpos_len s : vpos s -> 1 <= h_len s <= 8 /\ 0 <= h_off s.
Proof.
  intros (hb & hz & hl & [(h1 & ->)|(x & tl & _ & h)]); (split; [|rewrite <- hz; apply zlen_nonneg]); [lia|]. eapply parse_len_range; eauto.
Qed.

(** *** Reading a varint *)
Definition waiting (s : hs) : bool := match h_st s with StType | StFrame | StLen => true | _ => false end.
Lemma resume_more id s s' bs : waiting s = true -> h_st s' = h_st s -> h_fty s' = h_fty s -> h_buf s' = h_buf s ++ bs -> phase_of s' = phase_of s ->
  forall more, resume (cfg id) s (bs ++ more) = resume (cfg id) s' more.
Proof.
  intros hw e1 e2 e3 e4 more. unfold resume. rewrite e1, e2, e3, e4. unfold waiting in hw. destruct (h_st s); try discriminate hw; auto.
  - rewrite app_assoc. auto.
  - destruct (h_fty s); auto. rewrite app_assoc. auto.
Qed.
Lemma wf_vpos id s : waiting s = true -> wf_pos id s -> vpos s.
Proof. unfold waiting, wf_pos. destruct (h_st s); try discriminate; intros _ h; tauto. Qed.
Lemma wf_vpos' id s s' : waiting s = true -> wf_pos id s -> h_st s' = h_st s -> h_fty s' = h_fty s -> h_ty s' = h_ty s -> vpos s' -> wf_pos id s'.
Proof.
  unfold waiting, wf_pos, framed. intros hw h e1 e2 e3 hv. rewrite e1, e2, e3 in *. destruct (h_st s); try discriminate; tauto.
Qed.
Definition ready (s : hs) : bool := negb (h_len s =? 0).
Lemma varint_spec polling id s c : c_str c id = Some s -> wf server mfss loc id s -> waiting s = true -> tr_ok (c_q c) -> q_down (c_q c) = false ->
  (is_bidi id = true -> is_critical (h_ty s) = false) ->
  match read_varint id s c with
  | inl o => post polling id s c o
  | inr (v, s', c') =>
      exists bs trig cap len, 1 <= zlen bs /\ s' = set_pos (set_trig s trig) (h_st s) (h_buf s ++ bs) cap len len /\ at_id id c c' s' (c_q c') /\ moved id (c_q c) (c_q c') /\
        q_err (c_q c') = q_err (c_q c) /\ zlen (h_buf s ++ bs) = len /\ len <= 8 /\
        data_of (c_q c) id = bs ++ data_of (c_q c') id /\ grown s s' bs /\ 0 <= v /\ (forall more, rd_varint ((h_buf s ++ bs) ++ more) = Some (v, more))
  end.
Proof.
  intros hs0 (wc & wp) hw hk hd hcr. pose proof (wf_vpos _ _ hw wp) as hv. pose proof (vpos_len _ hv) as (hlen & hoff).
  destruct hv as (hb & hz & hl & hsh). unfold read_varint, try_fill. unfold complete. replace (h_off s =? h_len s) with false by lia.
  destruct (fill_loop _ id s (c_q c)) as [[r s1] q1] eqn:F.
  destruct (fill_spec id (S (S (Z.to_nat (h_len s - h_off s)))) s (c_q c) r s1 q1 hk hd hb hz hl ltac:(lia) F) as (bs & cap & trig & es & b1 & l1 & d1 & m1 & c1 & sp). clear F.
  pose proof (zlen_nonneg bs) as hbs0.
  assert (hmore : forall more, resume (cfg id) s (bs ++ more) = resume (cfg id) s1 more) by (apply resume_more; subst s1; auto).
  assert (hat : at_id id c (with_str c id (Some s1) q1) s1 q1) by (eapply at_with, at_refl; eauto).
  assert (hg : grown s s1 bs) by (subst s1; unfold grown, filled; cbn [set_pos set_trig h_buf h_cap]; rewrite zlen_app, hz; lia).
  assert (hnp : forall len', h_off s + zlen bs < len' -> (len' = 1 \/ exists x tl, h_buf s ++ bs = x :: tl /\ varint_parse_len x = Some len') ->
     vpos (set_pos s1 (h_st s1) (h_buf s1) (h_cap s1) len' (h_off s1))).
  { intros len' h1 h2. subst s1. unfold vpos, filled. cbn [set_pos set_trig h_buf h_off h_len]. rewrite zlen_app, hz. split; [apply bytes_ok_app; auto|]. split; auto. split; [lia|].
    destruct h2 as [-> |(x & tl & h2 & h3)]; [left|right; eauto]. assert (zlen (h_buf s ++ bs) = 0) by (rewrite zlen_app; pose proof (zlen_nonneg (h_buf s)); lia).
    split; auto. destruct (h_buf s ++ bs); auto. rewrite zlen_cons in H. pose proof (zlen_nonneg l). lia. }
  destruct r as [u|e|]; [| |destruct sp].
  - destruct sp as (sp1 & sp2). assert (hbs : 1 <= zlen bs) by lia.
    unfold consume_varint. assert (ho1 : h_off s1 = h_off s + zlen bs) by (subst s1; auto). assert (hl1 : h_len s1 = h_len s) by (subst s1; auto).
    assert (hb1 : h_buf s1 = h_buf s ++ bs) by (subst s1; auto).
    destruct (h_buf s ++ bs) as [|x tl] eqn:EB.
    { exfalso. assert (h0 : zlen (h_buf s ++ bs) = 0) by (rewrite EB; auto). rewrite zlen_app in h0. pose proof (zlen_nonneg (h_buf s)). lia. }
    assert (hbx : bytes_ok (x :: tl)) by (rewrite <- EB; apply bytes_ok_app; auto).
    assert (hzx : zlen (x :: tl) = h_len s) by (rewrite <- EB, zlen_app; lia).
    assert (hxb : is_byte x) by (inversion hbx; auto). destruct (parse_len_spec x hxb) as (hpl & _).
    assert (exists s2, (if h_off s1 =? 1 then match h_buf s1 with [] => None | x0 :: _ => match varint_parse_len x0 with Some n => Some (set_pos s1 (h_st s1) (h_buf s1) (reserve (h_cap s1) (zlen (h_buf s1)) n) n (h_off s1)) | None => None end end else Some s1) = Some s2
       /\ (exists cap2, s2 = set_pos (set_trig s trig) (h_st s) (x :: tl) cap2 (2 ^ (x / 64)) (h_len s) /\ cap2 <= Z.max cap 8192)) as (s2 & -> & cap2 & es2 & hcap2).
    { rewrite ho1, hb1. destruct (h_off s + zlen bs =? 1) eqn:E1.
      - rewrite hpl. eexists. split; [reflexivity|]. exists (reserve (h_cap s1) (zlen (x :: tl)) (2 ^ (x / 64))). split.
        + subst s1. unfold filled, set_pos, set_trig. cbn. f_equal. lia.
        + pose proof (parse_len_range _ _ hpl). eapply Z.le_trans; [apply cap_ok; lia|]. subst s1. cbn. lia.
      - eexists. split; [reflexivity|]. exists cap. split; [|lia]. subst s1. unfold filled. rewrite sp1, EB. f_equal.
        destruct hsh as [(h1 & h2)|(y & tl' & h1 & h2)]; [lia|]. rewrite h1 in EB. cbn in EB. injection EB as -> _. congruence. }
    assert (hlen2 : h_len s <= 2 ^ (x / 64)).
    { destruct hsh as [(h1 & h2)|(y & tl' & h1 & h2)]; [pose proof (parse_len_range _ _ hpl); lia|]. rewrite h1 in EB. cbn in EB. injection EB as -> _. assert (h_len s = 2 ^ (x / 64)) by congruence. lia. }
    unfold complete. rewrite es2. cbn [set_pos h_off h_len]. destruct (h_len s =? 2 ^ (x / 64)) eqn:EL; cbn [negb].
    + cbn [h_buf]. destruct (rd_varint_done x tl (2 ^ (x / 64)) hbx hpl ltac:(lia)) as (v & hv1 & hv2 & hv3). cbn [set_trig set_pos h_buf]. rewrite hv1.
      exists bs, trig, cap2, (h_len s). rewrite EB. split; auto. split; [rewrite Z.eqb_eq in EL; rewrite <- EL; reflexivity|]. split; [rewrite Z.eqb_eq in EL; rewrite <- EL; eapply at_with; eauto|].
      split; [exact m1|]. split; [exact sp2|]. split; [lia|]. split; [lia|]. split; [exact d1|]. split; [|auto].
      unfold grown. cbn [set_pos set_trig h_buf h_cap]. rewrite <- EB, zlen_app. lia.
    + rewrite <- es2. set (c2 := with_str _ _ _ _). assert (hat2 : at_id id c c2 s2 q1) by (eapply at_with; eauto). exists bs, s2.
      destruct hat2 as [a1 a2 a3 a4 a5] eqn:Ea. clear Ea.
      split; auto. split; [eapply env_at; eauto|]. rewrite a3. split; [exact d1|]. split.
      { subst s2. unfold grown. cbn [set_pos set_trig h_buf h_cap]. rewrite <- EB, zlen_app. lia. }
      split.
      * split; [split|split].
        -- subst s2. destruct wc as [w1 w2 w3]. constructor; auto.
        -- eapply wf_vpos'; [exact hw|exact wp|subst s2; auto..]. unfold vpos. cbn [set_pos set_trig h_buf h_off h_len]. split; auto. split; auto. split; [lia|]. right. eauto.
        -- rewrite a3. exact sp2.
        -- intros _ more. cbn [app]. rewrite (resume_more id s s2 bs) by (subst s2; auto). auto.
      * unfold mu. rewrite a3, d1, zlen_app. subst s2. cbn [set_pos set_trig h_len]. destruct (2 ^ (x / 64) =? 0); destruct (h_len s =? 0); lia.
  - assert (hst : c_str (with_str c id (Some s1) q1) id = Some s1) by (cbn; apply upd_same).
    exists bs, s1. split; auto. split; [eapply env_at; eauto|]. split; [exact d1|]. split; auto.
    destruct sp as [(sp1 & sp2 & sp3)|(sp1 & sp2)].
    + right. split; [exact sp2|]. split; [subst s1; unfold waiting in hw; cbn; destruct (h_st s); congruence|].
      destruct sp3 as (sp3 & sp4). split; [intros h; rewrite (sp3 h); auto|]. split; [exact sp4|]. intros hbi. rewrite (hcr hbi) in sp1. discriminate sp1.
    + left. assert (hoff1 : h_off s + zlen bs < h_len s) by (destruct sp2 as [(_ & h)|(h & _)]; auto). split.
      * split; [split|split]; auto.
        -- subst s1. apply wfc_filled; auto.
        -- eapply wf_vpos'; [exact hw|exact wp|subst s1; auto..]. specialize (hnp (h_len s) hoff1). apply hnp.
           destruct hsh as [(h1 & h2)|(y & tl' & h1 & h2)]; auto. right. rewrite h1. cbn. eauto.
      * destruct sp2 as [(-> & _)|(_ & t & -> & ht)]; auto. right. exists t. split; auto.
Qed.

(** *** Acting on the varint *)
Lemma advance_post polling id s c s1 c1 bs r s2 : at_id id c c1 s1 (c_q c1) -> moved id (c_q c) (c_q c1) -> q_err (c_q c1) = q_err (c_q c) ->
  data_of (c_q c) id = bs ++ data_of (c_q c1) id -> 1 <= zlen bs -> q_down (c_q c) = false -> grown s s2 bs ->
  match r with
  | Ok _ => wf server mfss loc id s2 /\ (is_bidi id = true -> forall more, resume (cfg id) s (bs ++ more) = resume (cfg id) s2 more)
  | Err e => kind e = true /\ h_st s2 <> StData /\ (is_bidi id = true -> forall more, resume (cfg id) s (bs ++ more) = [KFail e])
  | Panic => False
  end -> post polling id s c (advance id (r, s2) c1).
Proof.
  intros hat hm he hda hbs hd hg h. assert (hd1 : q_down (c_q c1) = false) by (rewrite (proj1 (mv_cfg _ _ _ hm)); auto).
  assert (hat2 : at_id id c (with_str c1 id (Some s2) (c_q c1)) s2 (c_q c1)) by (eapply at_with; eauto).
  unfold advance. destruct r as [u|e|]; [| |destruct h].
  - exists bs, s2. split; [apply (at_self _ _ _ _ _ hat2)|]. split; [eapply env_at; eauto|]. split; [exact hda|]. split; auto.
    destruct h as (hw & hr). split; [split; [exact hw|split; [exact he|exact hr]]|].
    unfold mu. cbn [c_q with_str]. rewrite hda, zlen_app. destruct (h_len s2 =? 0), (h_len s =? 0); lia.
  - unfold fail, fail_as. cbn [c_q with_str]. destruct (close_with (to_wire e) e (c_q c1)) as [e' q'] eqn:CL.
    destruct (close_spec _ _ _ _ _ hd1 CL) as (x & -> & hx).
    assert (hat3 : at_id id c (with_q (with_str c1 id (Some s2) (c_q c1)) (set_err (c_q c1) (Some x))) s2 (set_err (c_q c1) (Some x))) by (eapply at_withq; eauto).
    exists bs, s2. split; [apply (at_self _ _ _ _ _ hat3)|]. split; [eapply env_at; [eauto|eapply moved_trans; [exact hm|apply moved_err]]|].
    split; [exact hda|]. split; auto. right. destruct h as (h1 & h2 & h3). split; [discriminate|]. split; auto. split; [|split].
    + intros hn. destruct hx as [(_ & -> & _)|(hx & _)]; auto. congruence.
    + intros hn. destruct hx as [(hx & _)|(hx & ->)]; [congruence|]. split; auto. cbn. congruence.
    + intros hb. exists e. split; auto. intros hn. destruct hx as [(_ & -> & ->)|(hx & _)]; auto. congruence.
Qed.

Lemma control_type_eq ty : never_on_request ty = control_type ty.
Proof. unfold never_on_request, control_type, T_CANCEL_PUSH, T_SETTINGS, T_GOAWAY, T_MAX_PUSH, T_PRIO_REQUEST, T_PRIO_PUSH. cbn [existsb]. rewrite orb_false_r, !orb_assoc. auto. Qed.
Lemma framed_uni id s : wf_cfg server mfss loc id s -> is_bidi id = false -> framed s = true -> h_ty s = Some TControl.
Proof. intros [_ _ h] hb. destruct (h hb) as (h1 & h2). unfold framed. destruct (h_ty s) as [[]|]; try discriminate; congruence. Qed.
Lemma goto_ok s st len resize : (resize = true -> len <= MAX_STATE_BUF) ->
  goto s st len resize = (Ok tt, set_pos s st [] (if resize then reserve (h_cap s) 0 (Z.min len MAX_ALLOC) else h_cap s) len 0).
Proof. intros h. unfold goto. destruct resize; cbn [andb]; auto. replace (MAX_STATE_BUF <? len) with false by (specialize (h eq_refl); lia). auto. Qed.
Lemma grown_goto s s1 s2 bs : grown s s1 bs -> h_buf s2 = [] -> h_cap s2 <= Z.max (h_cap s1) 8192 -> grown s s2 bs.
Proof. unfold grown. intros (h1 & h2) -> h3. rewrite zlen_nil. pose proof (zlen_nonneg (h_buf s)). pose proof (zlen_nonneg bs). lia. Qed.
Lemma vpos_new s : vpos (set_pos s (h_st s) [] (h_cap s) 1 0).
Proof. unfold vpos. cbn. split; [constructor|]. split; auto. split; [lia|]. auto. Qed.

(** The frame type *)
Ltac dif h := match type of h with context [if ?b then _ else _] => let E := fresh "E" in destruct b eqn:E end.
Lemma phase_id s : set_phase s (h_rinit s) (h_data s) (h_trail s) = s.
Proof. destruct s; reflexivity. Qed.
Lemma allow_spec id s v r s' : wf_cfg server mfss loc id s -> framed s = true -> allow_frame s v = (r, s') ->
  match r with
  | Ok _ => on_stream id v /\ (exists a b d, s' = set_phase s a b d) /\ (is_bidi id = true -> next_phase (cfg id) (phase_of s) v = Some (phase_of s'))
  | Err e => kind e = true /\ s' = s /\ (is_bidi id = true -> e = HFrameUnexpected /\ next_phase (cfg id) (phase_of s) v = None)
  | Panic => False
  end.
Proof.
  intros wc hf h. destruct (is_bidi id) eqn:B.
  - destruct (wc_bidi _ _ _ _ _ wc B) as (h1 & h2). unfold allow_frame in h. rewrite h1 in h. unfold request_frame in h.
    unfold next_phase, on_stream. rewrite B. cbn [r_local cfgl]. rewrite <- h2. rewrite control_type_eq in h.
    unfold T_HEADERS, T_DATA in h. cbn [p_start p_body p_trail p_count phase_of].
    destruct (control_type v). { injection h as <- <-. auto. }
    destruct (h_local s). { injection h as <- <-. split; auto. split; auto. exists (h_rinit s), (h_data s), (h_trail s). rewrite phase_id. auto. }
    destruct (v =? 1).
    + destruct (h_rinit s) eqn:I; cbn [negb] in *.
      * destruct (h_trail s) eqn:T; [injection h as <- <-; auto|].
        destruct (h_data s) eqn:D; injection h as <- <-; (split; [auto|split; [|auto]]).
        -- eauto.
        -- exists (h_rinit s), (h_data s), (h_trail s). rewrite phase_id. auto.
      * injection h as <- <-. split; auto. split; eauto.
    + destruct (v =? 0).
      * destruct (h_rinit s) eqn:I; cbn [negb orb] in *.
        -- destruct (h_trail s) eqn:T; injection h as <- <-; auto. split; auto. split; eauto.
        -- injection h as <- <-. auto.
      * injection h as <- <-. split; auto. split; auto. exists (h_rinit s), (h_data s), (h_trail s). rewrite phase_id. auto.
  - pose proof (framed_uni id s wc B hf) as h1. unfold allow_frame in h. rewrite h1 in h. unfold on_stream. rewrite B.
    unfold T_SETTINGS, T_DATA, T_HEADERS, T_PUSH_PROMISE in h.
    destruct (negb (h_rinit s)).
    + destruct (v =? 4) eqn:E; injection h as <- <-; [|split; auto; split; auto; discriminate]. split; [lia|]. split; eauto. discriminate.
    + destruct ((v =? 4) || (v =? 0) || (v =? 1) || (v =? 5)) eqn:E; injection h as <- <-; [split; auto; split; auto; discriminate|].
      split; [lia|]. split; [|discriminate]. exists (h_rinit s), (h_data s), (h_trail s). rewrite phase_id. auto.
Qed.
Lemma type_post polling id s c : c_str c id = Some s -> wf server mfss loc id s -> h_st s = StFrame -> tr_ok (c_q c) -> q_down (c_q c) = false ->
  post polling id s c (step polling id s c).
Proof.
  intros hs0 (wc & wp) hst hk hd. unfold step. rewrite hst.
  assert (hcr : is_bidi id = true -> is_critical (h_ty s) = false) by (intros hb; rewrite (proj1 (wc_bidi _ _ _ _ _ wc hb)); auto).
  pose proof (varint_spec polling id s c hs0 (conj wc wp) ltac:(unfold waiting; rewrite hst; auto) hk hd hcr) as V.
  destruct (read_varint id s c) as [o|[[v s1] c1]]; auto.
  destruct V as (bs & trig & cap & len & hbs & es & hat & hm & he & hz & hl & hda & hg & hv & hrd).
  unfold wf_pos in wp. rewrite hst in wp. destruct wp as (hfr & hvp).
  assert (hres : is_bidi id = true -> forall more, resume (cfg id) s (bs ++ more) = match next_phase (cfg id) (phase_of s) v with None => [KFail HFrameUnexpected] | Some p => on_len (cfg id) (parsed (cfg id)) p v more end).
  { intros hb more. unfold resume. rewrite hst, app_assoc. unfold on_type. rewrite hrd. auto. }
  destruct (set_frame_type s1 v) as [r s2] eqn:SF. unfold set_frame_type in SF. destruct (allow_frame s1 v) as [r3 s3] eqn:AF.
  assert (wc1 : wf_cfg server mfss loc id s1) by (subst s1; destruct wc; constructor; auto).
  pose proof (allow_spec id s1 v r3 s3 wc1 ltac:(subst s1; exact hfr) AF) as A.
  assert (hph : phase_of s1 = phase_of s) by (subst s1; auto). rewrite hph in A.
  destruct r3 as [[]|e|]; [| |destruct A].
  - destruct A as (a1 & (x & y & w & a2) & a3). rewrite goto_ok in SF by (intros; unfold MAX_STATE_BUF; lia). injection SF as <- <-.
    eapply advance_post; eauto.
    + eapply grown_goto; [exact hg|reflexivity|]. subst s3. cbn [set_pos h_cap set_fty set_phase]. apply cap_goto.
    + split.
      * split; [subst s3; destruct wc1; constructor; auto|]. unfold wf_pos. cbn [h_st set_pos]. split; [subst s3 s1; exact hfr|]. split; [|exists v; auto].
        unfold vpos. cbn. split; [constructor|]. split; auto. split; [lia|]. auto.
      * intros hb more. rewrite hres by auto. rewrite a3 by auto. reflexivity.
  - destruct A as (a1 & -> & a3). injection SF as <- <-. eapply advance_post; eauto. split; auto. split; [subst s1; cbn; congruence|].
    intros hb more. rewrite hres by auto. destruct (a3 hb) as (-> & ->). auto.
Qed.

(** The length *)
Lemma plan_kind s ty len e : payload_plan s ty len = Err e -> kind e = true.
Proof. unfold payload_plan. intros h. repeat (dif h; try discriminate h); injection h as <-; auto. Qed.
Lemma plan_total s ty len : payload_plan s ty len <> Panic.
Proof. unfold payload_plan. intros h. repeat (dif h; try discriminate h). Qed.
Ltac pb := split; [split; intros h; [try discriminate h; intros; lia|first [reflexivity|exfalso; specialize (h eq_refl); lia]]|split; [first [auto; fail|congruence]|split; [reflexivity|split; [congruence|auto]]]].
Lemma plan_bidi id s ty len : wf_cfg server mfss loc id s -> control_type ty = false -> 0 <= len ->
  match payload_plan s ty len with
  | Ok (st, resize) => (length_error (cfg id) ty len = None <-> (resize = true -> len <= MAX_STATE_BUF)) /\
       (length_error (cfg id) ty len <> None -> length_error (cfg id) ty len = Some HExcessiveLoad) /\
       st = (if ty =? 0 then StData else if (ty =? 1) || (ty =? 5) then StPayload else StSkip) /\ (st <> StPayload -> resize = false) /\ (st = StPayload -> resize = true)
  | Err e => length_error (cfg id) ty len = Some e
  | Panic => False
  end.
Proof.
  intros wc hc hl. rewrite <- control_type_eq in hc. unfold never_on_request, T_CANCEL_PUSH, T_SETTINGS, T_GOAWAY, T_MAX_PUSH, T_PRIO_REQUEST, T_PRIO_PUSH in hc.
  unfold payload_plan, length_error, T_DATA, T_HEADERS, T_CANCEL_PUSH, T_GOAWAY, T_MAX_PUSH, T_SETTINGS, T_PUSH_PROMISE, T_PRIO_REQUEST, T_PRIO_PUSH, MAX_STATE_BUF.
  rewrite (wc_max _ _ _ _ _ wc). destruct (ty =? 0) eqn:E0.
  { split; [split; auto; discriminate|]. split; [congruence|]. split; auto. split; auto. discriminate. }
  destruct (ty =? 1) eqn:E1.
  { replace (ty =? 5) with false by lia. cbn [orb]. destruct (max_block (cfg id) <? len) eqn:M.
    - destruct (Z.min (max_block (cfg id)) 16777215 <? len) eqn:N; [auto|lia].
    - destruct (Z.min (max_block (cfg id)) 16777215 <? len) eqn:N; pb. }
  replace ((ty =? 3) || (ty =? 7) || (ty =? 13)) with false by lia. replace (ty =? 4) with false by lia. replace ((ty =? 984832) || (ty =? 984833)) with false by lia.
  destruct (ty =? 5) eqn:E5; cbn [orb].
  - destruct (len =? 0) eqn:L0; auto. destruct (Z.min u64_max (max_block (cfg id) + 8) <? len) eqn:M.
    + destruct (Z.min (Z.min u64_max (max_block (cfg id) + 8)) 16777215 <? len) eqn:N; [auto|lia].
    + destruct (Z.min (Z.min u64_max (max_block (cfg id) + 8)) 16777215 <? len) eqn:N; pb.
  - destruct (16777215 <? len) eqn:M; auto. split; [split; auto; discriminate|]. split; [congruence|]. split; auto. split; auto. discriminate.
Qed.
Lemma plan_uni s ty len : ty <> 0 -> ty <> 1 -> ty <> 5 ->
  match payload_plan s ty len with
  | Ok (st, resize) => (st = StPayload /\ resize = true) \/ (st = StSkip /\ resize = false)
  | _ => True
  end.
Proof.
  intros h0 h1 h5. unfold payload_plan, T_DATA, T_HEADERS, T_PUSH_PROMISE. replace (ty =? 0) with false by lia. replace (ty =? 1) with false by lia. replace (ty =? 5) with false by lia.
  repeat match goal with |- context [if ?b then _ else _] => destruct b end; auto.
Qed.
Lemma plan_pos s st buf cap len off ty n : payload_plan (set_pos s st buf cap len off) ty n = payload_plan s ty n.
Proof. reflexivity. Qed.

Lemma len_post polling id s c : c_str c id = Some s -> wf server mfss loc id s -> h_st s = StLen -> tr_ok (c_q c) -> q_down (c_q c) = false ->
  post polling id s c (step polling id s c).
Proof.
  intros hs0 (wc & wp) hst hk hd. unfold step. rewrite hst.
  assert (hcr : is_bidi id = true -> is_critical (h_ty s) = false) by (intros hb; rewrite (proj1 (wc_bidi _ _ _ _ _ wc hb)); auto).
  pose proof (varint_spec polling id s c hs0 (conj wc wp) ltac:(unfold waiting; rewrite hst; auto) hk hd hcr) as V.
  destruct (read_varint id s c) as [o|[[v s1] c1]]; auto.
  destruct V as (bs & trig & cap & len & hbs & es & hat & hm & he & hz & hl & hda & hg & hv & hrd).
  unfold wf_pos in wp. rewrite hst in wp. destruct wp as (hfr & hvp & ty & hty & hon).
  assert (hres : is_bidi id = true -> forall more, resume (cfg id) s (bs ++ more) =
     match length_error (cfg id) ty v with Some e => [KFail e] | None =>
       if ty =? 0 then on_data (parsed (cfg id)) (phase_of s) v more else if (ty =? 1) || (ty =? 5) then on_payload (cfg id) (parsed (cfg id)) (phase_of s) ty v more else on_skip (parsed (cfg id)) (phase_of s) v more end).
  { intros hb more. unfold resume. rewrite hst, hty, app_assoc. unfold on_len. rewrite hrd. auto. }
  destruct (set_payload_len s1 v) as [r s2] eqn:SF. unfold set_payload_len in SF.
  assert (wc1 : wf_cfg server mfss loc id s1) by (subst s1; destruct wc; constructor; auto).
  replace (framed s1) with true in SF by (subst s1; auto). replace (h_fty s1) with (Some ty) in SF by (subst s1; auto). cbn [negb] in SF.
  assert (hnd : h_st s1 <> StData) by (subst s1; cbn; congruence).
  destruct (payload_plan s1 ty v) as [[st resize]|e|] eqn:PP; [| |exfalso; eapply plan_total; eauto].
  - destruct (resize && (MAX_STATE_BUF <? v)) eqn:RM.
    + unfold goto in SF. rewrite RM in SF. injection SF as <- <-. eapply advance_post; eauto.
      * eapply grown_goto; [exact hg|reflexivity|]. cbn. lia.
      * split; auto. split; auto. intros hb more. rewrite hres by auto. unfold on_stream in hon. rewrite hb in hon.
        pose proof (plan_bidi id s1 ty v wc1 hon hv) as P. rewrite PP in P. destruct P as (p1 & p2 & _).
        destruct (length_error (cfg id) ty v) as [e|]; [specialize (p2 ltac:(discriminate)); congruence|].
        exfalso. apply andb_true_iff in RM as (-> & rm). pose proof (proj1 p1 eq_refl eq_refl). lia.
    + rewrite goto_ok in SF by (intros ->; cbn [andb] in RM; lia). injection SF as <- <-. eapply advance_post; eauto.
      * eapply grown_goto; [exact hg|reflexivity|]. cbn [set_pos h_cap]. destruct resize; [apply cap_goto|lia].
      * assert (hpt : 0 <= 0 < v \/ 0 = 0 /\ v = 0) by lia. split.
        -- split; [destruct wc1; constructor; auto|]. unfold wf_pos, on_stream in *. cbn [h_st set_pos].
           destruct (is_bidi id) eqn:B.
           ++ pose proof (plan_bidi id s1 ty v wc1 hon hv) as P. rewrite PP in P. destruct P as (p1 & p2 & p3 & p4 & p5). rewrite p3 in *.
              destruct (ty =? 0); [auto|]. destruct ((ty =? 1) || (ty =? 5)).
              ** split; [subst s1; auto|]. split; [constructor|]. split; auto. split; [exact hpt|]. specialize (p5 eq_refl). subst resize. split; [cbn [h_len set_pos]; cbn [andb] in RM; lia|].
                 exists ty. split; [subst s1; auto|]. split; auto.
              ** split; [subst s1; auto|]. split; auto.
           ++ destruct hon as (o1 & o2 & o3). pose proof (plan_uni s1 ty v o1 o2 o3) as P. rewrite PP in P. destruct P as [(-> & ->)|(-> & ->)].
              ** split; [subst s1; auto|]. split; [constructor|]. split; auto. split; [exact hpt|]. split; [cbn [h_len set_pos]; cbn [andb] in RM; lia|]. exists ty. split; [subst s1; auto|]. split; auto.
              ** split; [subst s1; auto|]. split; auto.
        -- intros hb more. rewrite hres by auto. unfold on_stream in hon. rewrite hb in hon.
           pose proof (plan_bidi id s1 ty v wc1 hon hv) as P. rewrite PP in P. destruct P as (p1 & p2 & p3 & p4 & p5).
           rewrite (proj2 p1) by (intros ->; cbn [andb] in RM; lia). unfold resume. cbn [h_st set_pos h_fty h_len h_off h_buf]. replace (h_fty s1) with (Some ty) by (subst s1; auto).
           rewrite p3. replace (phase_of (set_pos _ _ _ _ _ _)) with (phase_of s) by (subst s1; reflexivity). rewrite Z.sub_0_r.
           destruct (ty =? 0); auto. destruct ((ty =? 1) || (ty =? 5)); auto.
  - injection SF as <- <-. eapply advance_post; eauto. split; [eapply plan_kind; eauto|]. split; auto.
    intros hb more. rewrite hres by auto. unfold on_stream in hon. rewrite hb in hon. pose proof (plan_bidi id s1 ty v wc1 hon hv) as P. rewrite PP in P. rewrite P. auto.
Qed.
End Turn.
