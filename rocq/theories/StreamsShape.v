(** Which streams exist, which are over, and the limits on their number. *)
Require Import Verif.Base Verif.Errors Verif.Assoc Verif.OctetsModel Verif.FlowControlModel Verif.RangeBufModel
  Verif.RecvBufModel Verif.SendBufModel Verif.StreamsModel Verif.StreamsSpec Verif.StreamsProofs
  Verif.StreamsEffects.

(** ** Stream ids *)
Lemma local_own P sid : 0 <= sid -> is_local sid (p_server P) = own P sid.
Proof.
  intros h. unfold is_local, own, opened_by_server. change 1 with (Z.ones 1).
  rewrite Z.land_ones by lia. change (2 ^ 1) with 2. rewrite Zmod_odd.
  destruct (Z.odd sid), (p_server P); reflexivity.
Qed.
Lemma bidi_spec sid : 0 <= sid -> is_bidi sid = bidirectional sid.
Proof.
  intros h. unfold is_bidi, bidirectional.
  replace (Z.odd (sid / 2)) with (Z.testbit sid 1).
  2:{ rewrite <- (Z.bit0_odd (sid / 2)). change (sid / 2) with (sid / 2 ^ 1).
      rewrite Z.div_pow2_bits by lia. reflexivity. }
  destruct (Z.testbit sid 1) eqn:E; cbn [negb].
  - apply Z.eqb_neq. intros q. assert (h1 := f_equal (fun z => Z.testbit z 1) q). cbn beta in h1.
    rewrite Z.land_spec, E in h1. discriminate h1.
  - apply Z.eqb_eq. apply Z.bits_inj'. intros n hn. rewrite Z.land_spec, Z.bits_0.
    destruct (Z.eq_dec n 1) as [->|hn1]; [rewrite E; reflexivity|].
    replace (Z.testbit 2 n) with false; [apply andb_false_r|].
    change 2 with (2 ^ 1). rewrite Z.pow2_bits_false; auto.
Qed.
Lemma seq_spec sid : Z.shiftr sid 2 = seqno sid.
Proof. rewrite Z.shiftr_div_pow2 by lia. reflexivity. Qed.

Lemma sid_inj P a b : 0 <= a -> 0 <= b -> own P a = own P b -> bidirectional a = bidirectional b ->
  seqno a = seqno b -> a = b.
Proof.
  unfold own, bidirectional, seqno, opened_by_server. intros ha hb h1 h2 h3.
  assert (h4 : Z.odd a = Z.odd b) by (destruct (Z.odd a), (Z.odd b), (p_server P); auto; discriminate).
  assert (h5 : Z.odd (a / 2) = Z.odd (b / 2)) by (destruct (Z.odd (a / 2)), (Z.odd (b / 2)); auto; discriminate).
  pose proof (Zmod_odd a). pose proof (Zmod_odd b). pose proof (Zmod_odd (a / 2)). pose proof (Zmod_odd (b / 2)).
  rewrite h4 in *. rewrite h5 in *.
  assert (e1 : a / 4 = a / 2 / 2) by (rewrite Z.div_div by lia; reflexivity).
  assert (e2 : b / 4 = b / 2 / 2) by (rewrite Z.div_div by lia; reflexivity).
  pose proof (Z.div_mod a 2). pose proof (Z.div_mod b 2). pose proof (Z.div_mod (a / 2) 2). pose proof (Z.div_mod (b / 2) 2).
  lia.
Qed.

(** ** The skeleton of a connection *)
Definition lim_of (b : bool) (c : conn) : lim := if b then c_bidi c else c_uni c.
Definition keys (c : conn) : list Z := akeys (c_streams c).
Definition skel (s : stream * bool) : bool * bool * Z * bool :=
  (st_bidi (fst s), st_local (fst s), k_id (st_key (fst s)), snd s).
Definition sk (sid : Z) (c : conn) : option (bool * bool * Z * bool) := option_map skel (ent sid c).

Record same (c c' : conn) : Prop := {
  sm_keys : keys c' = keys c;
  sm_sk : forall x, sk x c' = sk x c }.
Definition same_lim (c c' : conn) : Prop := forall b, lim_of b c' = lim_of b c.

Lemma same_refl c : same c c.
Proof. split; auto. Qed.
Lemma same_trans a b c : same a b -> same b c -> same a c.
Proof. intros [h1 h2] [h3 h4]. split; [congruence|]. intros x. rewrite h4. auto. Qed.

(** Replacing the entry of a stream in use by one with the same skeleton. *)
Lemma same_aset sid s s' c c' : ent sid c = Some (s, false) ->
  c_streams c' = aset sid (s', false) (c_streams c) ->
  st_bidi s' = st_bidi s -> st_local s' = st_local s -> k_id (st_key s') = k_id (st_key s) ->
  same c c'.
Proof.
  intros he hs h1 h2 h3. unfold ent in he. split.
  - unfold keys. rewrite hs, akeys_aset, he. reflexivity.
  - intros x. unfold sk, ent. rewrite hs. destruct (Z.eq_dec sid x) as [<-|n].
    + rewrite aget_aset_same, he. unfold skel. cbn. congruence.
    + rewrite aget_aset_other by auto. reflexivity.
Qed.
Lemma same_streams c c' : c_streams c' = c_streams c -> same c c'.
Proof. intros h. split; unfold keys, sk, ent; rewrite h; auto. Qed.

Section P.
Variable P : params.

Definition made (sid : Z) (c c1 : conn) : Prop :=
  ent sid c = None /\ within P sid (kind sid c) /\ keys c1 = keys c ++ [sid] /\
  sk sid c1 = Some (is_bidi sid, is_local sid (p_server P), sid, false) /\
  (forall x, x <> sid -> sk x c1 = sk x c) /\
  lim_of (is_bidi sid) c1 = opened P sid (lim_of (is_bidi sid) c) /\
  lim_of (negb (is_bidi sid)) c1 = lim_of (negb (is_bidi sid)) c.

Definition ended (sid : Z) (c c1 : conn) : Prop :=
  exists b l k, sk sid c = Some (b, l, k, false) /\ sk sid c1 = Some (b, l, k, true) /\
  keys c1 = keys c /\ (forall x, x <> sid -> sk x c1 = sk x c) /\
  (forall b', lim_of b' c1 =
     if negb l && Bool.eqb b' (is_bidi sid)
     then set_l_local_next (Z.min u64_max (l_local_next (lim_of b' c) + 1)) (lim_of b' c)
     else lim_of b' c).

(** How a step changes the skeleton: it may open a stream, then may end one,
    then may change limits. *)
Definition opens (op : cn_op) (c c1 : conn) : Prop :=
  (same c c1 /\ same_lim c c1) \/ exists sid, 0 <= sid /\ made sid c c1.
Definition ends (c c1 : conn) : Prop :=
  (same c c1 /\ same_lim c c1) \/ exists sid, ended sid c c1.
Definition relimits (op : cn_op) (o : cn_out) (c c' : conn) : Prop :=
  same c c' /\
  forall b, let l := lim_of b c in let l' := lim_of b c' in
    l_peer_max l' = match op with
                    | CnMaxStreams b' m => if Bool.eqb b b' then Z.max (l_peer_max l) m else l_peer_max l
                    | _ => l_peer_max l
                    end /\
    l_local_max l' = match o with
                     | CoMaxStreams b' m => if Bool.eqb b b' then m else l_local_max l
                     | _ => l_local_max l
                     end /\
    (forall m, o = CoMaxStreams b m -> m = l_local_next l) /\
    l_local_opened l' = l_local_opened l /\ l_peer_opened l' = l_peer_opened l /\
    l_local_next l' = l_local_next l /\ l_initial l' = l_initial l.

Lemma lim_kind sid c : kind sid c = lim_of (is_bidi sid) c.
Proof. reflexivity. Qed.

Lemma create_made sid c : ent sid c = None -> within P sid (kind sid c) -> made sid c (create P sid c).
Proof.
  intros he hw. unfold made.
  assert (hl : forall b, lim_of b (create P sid c) =
            if Bool.eqb b (is_bidi sid) then opened P sid (lim_of b c) else lim_of b c).
  { intros b. unfold create, set_kind, kind. destruct (st_writable (fresh P sid)), (is_bidi sid), b; reflexivity. }
  ands; auto.
  - unfold keys. rewrite streams_create, akeys_aset. unfold ent in he. rewrite he. reflexivity.
  - unfold sk. rewrite ent_create_same. unfold fresh. destruct (new_limits _ _ _). reflexivity.
  - intros x n. unfold sk. rewrite ent_create_other; auto.
  - rewrite hl. destruct (is_bidi sid); reflexivity.
  - rewrite hl. destruct (is_bidi sid); reflexivity.
Qed.

Lemma gocs_opens op sid local c s c1 : 0 <= sid -> gocs P sid local c s c1 -> opens op c c1.
Proof.
  intros hs [h|h1 h2 h3 h4].
  - left. split; [apply same_refl|intros b; reflexivity].
  - right. exists sid. split; auto. apply create_made; auto.
Qed.

Lemma coll_ended sid s s0 c c0 : ent sid c0 = Some (s0, false) -> st_bidi s = st_bidi s0 -> st_local s = st_local s0 ->
  k_id (st_key s) = k_id (st_key s0) ->
  keys c = keys c0 -> (forall x, sk x c = sk x c0) -> same_lim c0 c ->
  ended sid c0 (coll sid s c).
Proof.
  intros he h1 h2 h3 hk hs hl. exists (st_bidi s), (st_local s), (k_id (st_key s)).
  assert (hst : c_streams (coll sid s c) = aset sid (s, true) (c_streams c)).
  { unfold coll, set_kind. destruct (st_local s), (is_bidi sid); reflexivity. }
  assert (hsk : sk sid c = Some (skel (s0, false))) by (rewrite hs; unfold sk; rewrite he; reflexivity).
  ands.
  - unfold sk. rewrite he. cbn. unfold skel. cbn. congruence.
  - unfold sk, ent. rewrite hst, aget_aset_same. reflexivity.
  - unfold keys. rewrite hst, akeys_aset. fold (ent sid c). unfold sk in hsk.
    destruct (ent sid c); [exact hk|discriminate].
  - intros x n. rewrite <- hs. unfold sk, ent. rewrite hst, aget_aset_other by auto. reflexivity.
  - intros b'. specialize (hl b'). unfold coll, set_kind, kind. unfold lim_of in *.
    destruct (st_local s), (is_bidi sid), b'; cn; cbn [negb andb Bool.eqb]; rewrite <- ?hl; reflexivity.
Qed.

Lemma mcoll_ends (b : bool) sid s s0 c c0 : ent sid c0 = Some (s0, false) -> st_bidi s = st_bidi s0 -> st_local s = st_local s0 ->
  k_id (st_key s) = k_id (st_key s0) -> same c0 c -> same_lim c0 c -> ends c0 (mcoll b sid s c).
Proof.
  intros he h1 h2 h3 h4 hl. unfold mcoll. destruct b.
  - right. exists sid. apply (coll_ended sid s s0); auto; [apply sm_keys|apply sm_sk]; auto.
  - left. auto.
Qed.

Lemma ends_refl c : ends c c.
Proof. left. split; [apply same_refl|intros b; reflexivity]. Qed.
Lemma opens_refl op c : opens op c c.
Proof. left. split; [apply same_refl|intros b; reflexivity]. Qed.
Lemma relimits_same op o c c' : same c c' -> same_lim c c' ->
  (forall b m, op <> CnMaxStreams b m) -> (forall b m, o <> CoMaxStreams b m) -> relimits op o c c'.
Proof.
  intros hs hl h1 h2. split; auto. intros b. rewrite (hl b). cbv zeta. ands; auto.
  - destruct op; auto. edestruct h1; reflexivity.
  - destruct o; auto. edestruct h2; reflexivity.
  - intros m q. edestruct h2; eauto.
Qed.

Definition shaped (op : cn_op) (o : cn_out) (c c' : conn) : Prop :=
  exists c1 c2, opens op c c1 /\ ends c1 c2 /\ relimits op o c2 c'.

Lemma shaped_open op o sid local c s c1 c' : 0 <= sid -> gocs P sid local c s c1 -> same c1 c' -> same_lim c1 c' ->
  (forall b m, op <> CnMaxStreams b m) -> (forall b m, o <> CoMaxStreams b m) -> shaped op o c c'.
Proof.
  intros. exists c1, c1. ands; [eapply gocs_opens; eauto|apply ends_refl|apply relimits_same; auto].
Qed.
Lemma shaped_same op o c c' : same c c' -> same_lim c c' ->
  (forall b m, op <> CnMaxStreams b m) -> (forall b m, o <> CoMaxStreams b m) -> shaped op o c c'.
Proof.
  intros. exists c, c. ands; [apply opens_refl|apply ends_refl|apply relimits_same; auto].
Qed.
Lemma shaped_rest op o c c' : c_streams c' = c_streams c -> c_bidi c' = c_bidi c -> c_uni c' = c_uni c ->
  (forall b m, op <> CnMaxStreams b m) -> (forall b m, o <> CoMaxStreams b m) -> shaped op o c c'.
Proof.
  intros h1 h2 h3 h4 h5. apply shaped_same; auto; [apply same_streams; auto|].
  intros b. unfold lim_of. destruct b; auto.
Qed.
Lemma shaped_mcoll op o (b : bool) sid s c c1 c2 c' : 0 <= sid ->
  opens op c c1 -> ent sid c1 = Some (s, false) -> c2 = mcoll b sid s c1 ->
  same c2 c' -> same_lim c2 c' ->
  (forall b m, op <> CnMaxStreams b m) -> (forall b m, o <> CoMaxStreams b m) -> shaped op o c c'.
Proof.
  intros h0 h1 h2 -> h3 h4 h5 h6. exists c1, (mcoll b sid s c1). ands; auto; [|apply relimits_same; auto].
  eapply mcoll_ends; eauto; [apply same_refl|intros b0; reflexivity].
Qed.

Lemma same_lim_eq c c' : c_bidi c' = c_bidi c -> c_uni c' = c_uni c -> same_lim c c'.
Proof. intros h1 h2 b. unfold lim_of. destruct b; auto. Qed.

Ltac nomax := intros; discriminate.

Definition named (c : conn) : Prop := forall x s f, ent x c = Some (s, f) -> k_id (st_key s) = x.

Lemma gocs_named sid local c s c1 : named c -> gocs P sid local c s c1 -> k_id (st_key s) = sid.
Proof.
  intros hn [h|h1 h2 h3 ->]; [eapply hn; eauto|]. unfold fresh. destruct (new_limits _ _ _). reflexivity.
Qed.

Lemma step_shaped op c o c' : op_ok op -> named c -> cn_step P op c = Ok (o, c') -> shaped op o c c'.
Proof.
  intros hok hnm h. destruct op; cbn [cn_step op_ok] in h, hok.
  - (* CnStream *)
    apply stream_ok in h as [(-> & -> & _)|(s & c1 & r & hg & _ & hw & _ & -> & ->)].
    { apply shaped_rest; auto; nomax. }
    eapply (shaped_open _ _ sid); [lia|exact hg| | |nomax|nomax].
    + eapply same_aset; [eapply gocs_ent; eauto|reflexivity| | |]; reflexivity.
    + apply same_lim_eq; reflexivity.
  - apply reset_ok in h as [(-> & -> & _)|(s & c1 & r & dl & cr & hg & _ & hw & _ & -> & ->)].
    { apply shaped_rest; auto; nomax. }
    eapply (shaped_open _ _ sid); [lia|exact hg| | |nomax|nomax].
    + eapply same_aset; [eapply gocs_ent; eauto|reflexivity| | |]; reflexivity.
    + apply same_lim_eq; reflexivity.
  - apply stop_ok in h as [(-> & -> & _)|(s & c1 & hg & -> & _ & [(e & _ & ->)|(fi & un & b & hw & ->)])].
    { apply shaped_rest; auto; nomax. }
    { eapply (shaped_open _ _ sid); [lia|exact hg| | |nomax|nomax]; [apply same_refl|apply same_lim_eq; reflexivity]. }
    eapply (shaped_open _ _ sid); [lia|exact hg| | |nomax|nomax].
    + eapply same_aset; [eapply gocs_ent; eauto|reflexivity| | |]; reflexivity.
    + apply same_lim_eq; reflexivity.
  - injection h as <- <-. apply shaped_rest; auto; nomax.
  - apply max_stream_data_ok in h as [(-> & -> & _)|(s & c1 & hg & -> & _ & ->)].
    { apply shaped_rest; auto; nomax. }
    eapply (shaped_open _ _ sid); [lia|exact hg| | |nomax|nomax].
    + eapply same_aset; [eapply gocs_ent; eauto|reflexivity| | |]; reflexivity.
    + apply same_lim_eq; reflexivity.
  - (* CnMaxStreams *)
    unfold cn_max_streams in h. dif h; [discriminate|]. injection h as <- <-.
    exists c, c. split; [apply opens_refl|]. split; [apply ends_refl|]. split.
    + apply same_streams. destruct bidi; reflexivity.
    + intros b. cbv zeta. destruct bidi, b; cbn [set_kind lim_of Bool.eqb]; cn; ands; auto; nomax.
  - unfold cn_streams_blocked in h. dif h; [discriminate|]. injection h as <- <-. apply shaped_rest; auto; nomax.
  - (* CnRecv *)
    apply recv_ok in h as [(e & -> & -> & _)|(s & r & he & _ & [(e & _ & -> & hc)|(bytes & fin & full & _ & -> & _ & hc)])].
    { apply shaped_rest; auto; nomax. }
    + cbv zeta in hc. exists c. eexists. split; [apply opens_refl|]. split.
      * eapply (mcoll_ends _ sid (set_recv r s) s (cn_put sid (set_recv r s) c) c he); [reflexivity|reflexivity|reflexivity| |].
        -- eapply same_aset; [exact he|reflexivity| | |]; reflexivity.
        -- apply same_lim_eq; reflexivity.
      * subst c'. apply relimits_same; [apply same_streams; reflexivity|apply same_lim_eq; reflexivity|nomax|nomax].
    + cbv zeta in hc.
      match type of hc with c' = set_c_rq _ (mcoll ?b sid ?s' ?x) =>
        exists c, (mcoll b sid s' x); split; [apply opens_refl|]; split;
        [eapply (mcoll_ends b sid s' s x c he); [reflexivity|reflexivity|reflexivity| |]|] end.
      * eapply same_aset; [exact he|reflexivity| | |]; reflexivity.
      * apply same_lim_eq; reflexivity.
      * subst c'. apply relimits_same; [apply same_streams; reflexivity|apply same_lim_eq; reflexivity|nomax|nomax].
  - (* CnSend *)
    apply send_ok in h as [(-> & -> & _)|(_ & _ & [(-> & _ & _ & _ & ->)|[(-> & -> & _)|[(-> & -> & _)|(s & c1 & hg & h)]]])];
      try (apply shaped_rest; auto; nomax).
    { exists c, c. split; [apply opens_refl|]. split; [apply ends_refl|]. split.
      - apply same_streams. destruct (p_blocked P), (is_bidi sid); reflexivity.
      - intros b. cbv zeta. unfold kind. destruct (p_blocked P), (is_bidi sid), b;
          cbn [set_kind lim_of Bool.eqb blk_update_at]; unfold blk_update_at; cn; ands; auto; nomax. }
    set (c0 := set_c_blk _ c) in hg.
    assert (hop : opens (CnSend zc sid data fin) c c1).
    { destruct (gocs_opens (CnSend zc sid data fin) _ _ _ _ _ hok hg) as [(q1 & q2)|(x & q0 & q1)].
      - left. split.
        + destruct q1 as [a b]. split; [exact a|exact b].
        + exact q2.
      - right. exists x. split; auto. }
    pose proof (gocs_ent _ _ _ _ _ _ hg) as he.
    destruct h as [(e & _ & -> & ->)|[(n & _ & _ & _ & -> & ->)|(n & _ & _ & [(e & _ & -> & ->)|(sent & b & _ & _ & -> & bl & blocked & _ & ->)])]].
    + eapply shaped_mcoll; eauto; [apply same_refl|apply same_lim_eq; reflexivity|nomax|nomax].
    + exists c1, c1. ands; auto; [apply ends_refl|]. apply relimits_same; [apply same_streams; reflexivity|apply same_lim_eq; reflexivity|nomax|nomax].
    + exists c1, c1. ands; auto; [apply ends_refl|]. apply relimits_same; [apply same_streams; reflexivity|apply same_lim_eq; reflexivity|nomax|nomax].
    + exists c1, c1. ands; auto; [apply ends_refl|]. apply relimits_same; [|apply same_lim_eq; reflexivity|nomax|destr_if; nomax].
      eapply same_aset; [exact he|reflexivity| | |]; reflexivity.
  - (* CnPriority *)
    apply priority_ok in h as [(-> & e & _ & [->|(_ & ->)])|(s & c1 & hg & -> & [(-> & _)| ->])];
      try (apply shaped_rest; auto; nomax).
    + eapply (shaped_open _ _ sid); [lia|exact hg| | |nomax|nomax]; [apply same_refl|apply same_lim_eq; reflexivity].
    + pose proof (gocs_ent _ _ _ _ _ _ hg) as he.
      eapply (shaped_open _ _ sid); [lia|exact hg| | |nomax|nomax]; [|apply same_lim_eq; reflexivity].
      eapply same_aset; [exact he|reflexivity|reflexivity|reflexivity|].
      rewrite (gocs_named _ _ _ _ _ hnm hg). reflexivity.
  - (* CnShutdown *)
    apply shutdown_ok in h as [(-> & e & ->)|(s & he & -> & [(n & r & _ & _ & ->)|(fi & un & b & cap & _ & _ & _ & _ & _ & ->)])].
    + apply shaped_rest; auto; nomax.
    + apply shaped_same; [|apply same_lim_eq; reflexivity|nomax|nomax].
      eapply same_aset; [exact he|reflexivity| | |]; reflexivity.
    + apply shaped_same; [|apply same_lim_eq; reflexivity|nomax|nomax].
      eapply same_aset; [exact he|reflexivity| | |]; reflexivity.
  - (* CnCapacity *)
    destruct (cn_capacity sid c) as [[r c1]| |] eqn:Ec; try discriminate. cbn [bind] in h.
    apply capacity_ok in Ec as [(-> & -> & _)|(s & he & [(e & _ & -> & ->)|(n & _ & -> & ->)])]; injection h as <- <-.
    + apply shaped_rest; auto; nomax.
    + eapply shaped_mcoll; eauto; [apply opens_refl|apply same_refl|apply same_lim_eq; reflexivity|nomax|nomax].
    + apply shaped_rest; auto; nomax.
  - (* CnWritable *)
    apply writable_ok in h as [(-> & -> & _)|(s & he & [(e & _ & -> & ->)|(n & _ & [(_ & -> & ->)|(_ & -> & _ & bl & blocked & _ & ->)])])].
    + apply shaped_rest; auto; nomax.
    + eapply shaped_mcoll; eauto; [lia|apply opens_refl|apply same_refl|apply same_lim_eq; reflexivity|nomax|nomax].
    + apply shaped_rest; auto; nomax.
    + apply shaped_same; [|apply same_lim_eq; reflexivity|nomax|nomax].
      eapply same_aset; [exact he|reflexivity| | |]; reflexivity.
  - apply readable_next_ok in h as [(-> & -> & _)|(k & tl & _ & -> & ->)]; apply shaped_rest; auto; nomax.
  - apply writable_next_ok in h as [(-> & ->)|(k & _ & _ & -> & ->)]; apply shaped_rest; auto; nomax.
  - unfold update_tx_cap in h. destruct (c_max_tx c <? c_tx c); [discriminate|]. injection h as <- <-.
    apply shaped_rest; auto; nomax.
  - (* CnSendMaxStreams *)
    unfold cn_send_max_streams in h. cbv zeta in h. dif h; injection h as <- <-.
    + exists c, c. split; [apply opens_refl|]. split; [apply ends_refl|]. split.
      * apply same_streams. destruct bidi; reflexivity.
      * intros b. cbv zeta. destruct bidi, b; cbn [set_kind lim_of Bool.eqb]; cn; ands; auto;
          intros m q; injection q as q; auto; discriminate.
    + apply shaped_rest; auto; nomax.
  - unfold cn_send_data_blocked in h. destruct (c_blk c); [destruct fits|]; injection h as <- <-; apply shaped_rest; auto; nomax.
  - (* CnSendStreamsBlocked *)
    unfold cn_send_streams_blocked in h. cbv zeta in h.
    dif h; [|injection h as <- <-; apply shaped_rest; auto; nomax].
    destruct (l_blk_at (if bidi then c_bidi c else c_uni c)) as [limit|];
      [|injection h as <- <-; apply shaped_rest; auto; nomax].
    destruct fits; injection h as <- <-; [|apply shaped_rest; auto; nomax].
    exists c, c. split; [apply opens_refl|]. split; [apply ends_refl|]. split.
    + apply same_streams. destruct bidi; reflexivity.
    + intros b. cbv zeta. destruct bidi, b; cbn [set_kind lim_of Bool.eqb]; cn; ands; auto; nomax.
  - apply send_max_stream_data_ok in h as [(-> & ->)|[(-> & _ & ->)|(s & full & he & _ & _ & [(_ & -> & ->)|(_ & -> & ->)])]];
      try (apply shaped_rest; auto; nomax);
      (apply shaped_same; [|apply same_lim_eq; reflexivity|nomax|nomax];
       eapply same_aset; [exact he|reflexivity| | |]; reflexivity).
  - apply send_max_data_ok in h as (f & b & [(-> & ->)|(-> & ->)]); apply shaped_rest; auto; nomax.
  - unfold cn_send_stop in h. destruct (aget sid (c_stopped c)); [destruct fits|]; injection h as <- <-; apply shaped_rest; auto; nomax.
  - unfold cn_send_reset in h. destruct (aget sid (c_reset c)) as [[code final]|]; [destruct fits|]; injection h as <- <-; apply shaped_rest; auto; nomax.
  - unfold cn_send_sdb in h. destruct (aget sid (c_blocked c)); [destruct fits|]; injection h as <- <-; apply shaped_rest; auto; nomax.
  - (* CnSendStream *)
    unfold cn_send_stream in h. dif h; [injection h as <- <-; apply shaped_rest; auto; nomax|].
    apply send_stream_loop_ok in h as (skips & _ & [(-> & _ & ->)|(k & tl & s & bytes & fin & b & _ & he & _ & _ & _ & -> & ->)]).
    + apply shaped_rest; auto; nomax.
    + apply shaped_same; [|apply same_lim_eq; reflexivity|nomax|nomax].
      eapply same_aset; [exact he|reflexivity| | |]; reflexivity.
  - (* CnAck *)
    apply ack_ok in h as (-> & [->|[(sid & f & s & dr & b & _ & he & _ & hc)|(sid & code & fi & s & _ & he & ->)]]).
    + apply shaped_rest; auto; nomax.
    + cbv zeta in hc.
      match type of hc with c' = set_c_txbuf _ (mcoll ?b sid ?s' ?x) =>
        exists c, (mcoll b sid s' x); split; [apply opens_refl|]; split;
        [eapply (mcoll_ends b sid s' s x c he); [reflexivity|reflexivity|reflexivity| |]|] end.
      * eapply same_aset; [exact he|reflexivity| | |]; reflexivity.
      * apply same_lim_eq; reflexivity.
      * subst c'. apply relimits_same; [apply same_streams; reflexivity|apply same_lim_eq; reflexivity|nomax|nomax].
    + exists c. eexists. split; [apply opens_refl|]. split.
      * eapply (mcoll_ends _ sid s s c c he); auto; [apply same_refl|apply same_lim_eq; reflexivity].
      * apply relimits_same; [apply same_refl|apply same_lim_eq; reflexivity|nomax|nomax].
  - (* CnLost *)
    apply lost_ok in h as (-> & [->|[(sid & f & s & n & b & _ & he & _ & _ & ->)|[(? & ? & ? & _ & ->)|[(? & ? & ? & _ & _ & _ & ->)|[(? & ? & _ & _ & ->)|[(_ & ->)|[(bidi & _ & ->)|(bidi & lm & _ & _ & ->)]]]]]]]);
      try (apply shaped_rest; auto; nomax).
    + apply shaped_same; [|apply same_lim_eq; reflexivity|nomax|nomax].
      eapply same_aset; [exact he|reflexivity| | |]; reflexivity.
    + exists c, c. split; [apply opens_refl|]. split; [apply ends_refl|]. split.
      * apply same_streams. destruct bidi; reflexivity.
      * intros b. cbv zeta. destruct bidi, b; cbn [set_kind lim_of Bool.eqb]; cn; ands; auto; nomax.
    + exists c, c. split; [apply opens_refl|]. split; [apply ends_refl|]. split.
      * apply same_streams. destruct bidi; reflexivity.
      * intros b. cbv zeta. destruct bidi, b; cbn [set_kind lim_of Bool.eqb]; cn; ands; auto; nomax.
Qed.
End P.
