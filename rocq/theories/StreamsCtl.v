(** Control frames over histories: what each operation does to the records of
    what is still to be said. *)
Require Import Verif.Base Verif.Errors Verif.Assoc Verif.OctetsModel Verif.FlowControlModel Verif.RangeBufModel
  Verif.RangesModel Verif.RangesProofs Verif.RecvBufModel Verif.RecvBufProofs2 Verif.RecvBufProofs3
  Verif.SendBufModel Verif.SendSpec Verif.SendBufProofs Verif.SendBufProofs2 Verif.SendBufProofs3
  Verif.StreamsModel Verif.StreamsSpec Verif.StreamsSpec3 Verif.StreamsProofs
  Verif.StreamsEffects Verif.StreamsShape Verif.StreamsShape2 Verif.StreamsRecv Verif.StreamsTx Verif.StreamsTx2 Verif.StreamsTx3 Verif.StreamsTx4 Verif.StreamsBlk.

(** ** Receive buffers *)
Record rkeep (r r' : recvbuf) : Prop := {
  rk_drain : rv_drain r = true -> rv_drain r' = true;
  rk_fin : forall f, rv_fin_off r = Some f -> rv_fin_off r' = Some f;
  rk_max : fc_max_data (rv_fc r') = fc_max_data (rv_fc r) }.
Lemma rkeep_refl r : rkeep r r.
Proof. constructor; auto. Qed.
Lemma rkeep_trans a b c : rkeep a b -> rkeep b c -> rkeep a c.
Proof. intros [a1 a2 a3] [b1 b2 b3]. constructor; auto. congruence. Qed.

Lemma write_loop_keep fuel : forall tmp st st', write_loop fuel tmp st = Ok st' -> rkeep st st'.
Proof.
  induction fuel as [|fuel IH]; intros [|buf tmp] st st' h; cbn [write_loop] in h; try discriminate;
    try (injection h as <-; apply rkeep_refl).
  match type of h with bind ?x _ = _ => destruct x as [b1| |]; cbn [bind] in h; try discriminate end.
  match type of h with bind ?x _ = _ => destruct x as [[r pushed]| |]; cbn [bind] in h; try discriminate end.
  destruct r as [b2|]; [|eauto]. cbv zeta in h. destruct (rv_drain st) eqn:Ed; apply IH in h; destruct h as [k1 k2 k3]; cbn in *; constructor; auto; congruence.
Qed.
Lemma rv_write_keep buf st st' : rv_write buf st = Ok st' -> rkeep st st'.
Proof.
  unfold rv_write. intros h. dif h; [discriminate|].
  assert (hs : rkeep st (if rb_fin buf then set_fin_off (Some (rbM buf)) st else st) \/ st' = st).
  { destruct (rb_fin buf) eqn:Ef; [|left; apply rkeep_refl]. destruct (rv_fin_off st) as [f|] eqn:Eo.
    - left. cbn [andb negb] in h. dif h; [discriminate|]. dif h; [discriminate|]. assert (f = rbM buf) by (destruct (f =? rbM buf) eqn:?; [lia|discriminate]).
      constructor; cbn; auto. intros g hg. congruence.
    - left. constructor; cbn; auto. intros g hg. congruence. }
  destruct hs as [hs| ->]; [|apply rkeep_refl].
  repeat (dif h; [first [discriminate | injection h as <-; first [exact hs|apply rkeep_refl]]|]).
  apply write_loop_keep in h. eapply rkeep_trans; eauto.
Qed.
Lemma rv_emit_keep cap st r st' : rv_emit cap st = (r, st') -> rkeep st st'.
Proof.
  unfold rv_emit. intros h. destruct (negb (rv_ready st)); [injection h as <- <-; apply rkeep_refl|].
  destruct (rv_error st); [injection h as <- <-; constructor; auto|].
  destruct (emit_loop _ _ _ _) as [[data off] out]. injection h as <- <-. constructor; auto.
Qed.
Lemma rv_reset_keep code final st r st' : rv_reset code final st = (Ok r, st') -> rkeep st st'.
Proof.
  unfold rv_reset. intros h. dif h; [discriminate|]. dif h; [discriminate|].
  destruct (rv_error st); [injection h as <- <-; apply rkeep_refl|]. cbv zeta in h.
  destruct (rv_write _ _) as [st1| |] eqn:Ew; try discriminate. injection h as <- <-.
  apply rv_write_keep in Ew. destruct Ew as [k1 k2 k3]. constructor; auto.
Qed.
Lemma rv_shutdown_keep st n st' : rv_shutdown st = Ok (n, st') -> rkeep st st' /\ rv_drain st' = true /\ rv_drain st = false.
Proof.
  unfold rv_shutdown. intros h. dif h; [discriminate|]. dif h; [discriminate|]. injection h as <- <-. split; [|auto]. constructor; auto.
Qed.

(** ** Streams *)
Definition skeep (ex : option Z) (c c' : conn) : Prop :=
  forall x s f, ent x c = Some (s, f) -> exists s' f', ent x c' = Some (s', f') /\ (f = true -> f' = true) /\
    (rv_drain (st_recv s) = true -> rv_drain (st_recv s') = true) /\
    (forall n, rv_fin_off (st_recv s) = Some n -> rv_fin_off (st_recv s') = Some n) /\
    (ex <> Some x -> fc_max_data (rv_fc (st_recv s')) = fc_max_data (rv_fc (st_recv s))).
Lemma skeep_same ex c c' : c_streams c' = c_streams c -> skeep ex c c'.
Proof. intros e x s f h. exists s, f. unfold ent in *. rewrite e. ands; auto. Qed.
Lemma skeep_trans ex a b c : skeep ex a b -> skeep ex b c -> skeep ex a c.
Proof.
  intros h1 h2 x s f h. destruct (h1 x s f h) as (s1 & f1 & e1 & q1 & q2 & q3 & q4).
  destruct (h2 x s1 f1 e1) as (s2 & f2 & e2 & p1 & p2 & p3 & p4). exists s2, f2. ands; auto. intros n. rewrite p4, q4; auto.
Qed.
Lemma skeep_put ex c c' sid s s' fl : ent sid c = Some (s, false) -> c_streams c' = aset sid (s', fl) (c_streams c) ->
  rkeep (st_recv s) (st_recv s') -> skeep ex c c'.
Proof.
  intros he e [k1 k2 k3] x s0 f0 h. unfold ent in *. rewrite e. destruct (Z.eq_dec sid x) as [<-|n].
  - rewrite aget_aset_same. rewrite he in h. injection h as <- <-. exists s', fl. ands; auto. discriminate.
  - rewrite aget_aset_other by auto. exists s0, f0. ands; auto.
Qed.
Lemma coll_streams x sid s c : c_streams (mcoll x sid s c) = if x then aset sid (s, true) (c_streams c) else c_streams c.
Proof. unfold mcoll, coll, set_kind. destruct x, (st_local s), (is_bidi sid); reflexivity. Qed.
Lemma skeep_mcoll ex x sid s c : ent sid c = Some (s, false) -> skeep ex c (mcoll x sid s c).
Proof.
  intros he. destruct x; [|apply skeep_same; reflexivity]. eapply skeep_put; eauto; [apply (coll_streams true)|apply rkeep_refl].
Qed.

Section P.
Variable P : params.

Lemma skeep_gocs ex sid local c s c1 : gocs P sid local c s c1 -> skeep ex c c1.
Proof.
  intros [h|h1 h2 h3 ->]; [apply skeep_same; auto|]. intros x s0 f0 h. exists s0, f0. rewrite ent_create_other by congruence. ands; auto.
Qed.
Lemma skeep_gocs_put ex sid local c s c1 s' c' : gocs P sid local c s c1 -> c_streams c' = aset sid (s', false) (c_streams c1) ->
  rkeep (st_recv s) (st_recv s') -> skeep ex c c'.
Proof.
  intros hg e hk. eapply skeep_trans; [eapply skeep_gocs; eauto|]. eapply skeep_put; eauto. eapply gocs_ent; eauto.
Qed.

(** The records of what is to be said. *)
Definition ctl (b : bool) (c : conn) :=
  (l_should (lim_of b c), l_local_max (lim_of b c), c_maxdata c, fc_max_data (c_fc c), c_reset c, c_stopped c).
Definition almost_le (c c' : conn) : Prop := forall x, In x (c_almost c) -> In x (c_almost c').

Lemma ctl_gocs b sid local c s c1 : gocs P sid local c s c1 -> ctl b c1 = ctl b c /\ c_almost c1 = c_almost c.
Proof.
  intros [h|h1 h2 h3 h4]; auto. unfold ctl, create, set_kind, opened, kind, lim_of.
  destruct (st_writable (fresh P sid)), (is_bidi sid), b, (is_local sid (p_server P)); split; reflexivity.
Qed.
Lemma ctl_mcoll x sid s c b : ctl b (mcoll x sid s c) = ctl b c /\ c_almost (mcoll x sid s c) = c_almost c.
Proof.
  unfold ctl, mcoll, coll, set_kind, kind, lim_of. destruct x; auto. destruct (st_local s), (is_bidi sid), b; split; reflexivity.
Qed.
Lemma in_set_add x y l : In x l -> In x (set_add y l).
Proof. unfold set_add. destr_if; auto. intros h. apply in_app_iff. auto. Qed.

(** Outputs that say nothing of this kind. *)
Definition mute (o : cn_out) : Prop :=
  match o with
  | CoMaxStreams _ _ | CoMaxStreamData _ _ | CoMaxData _ => False
  | CoSent (Some f) => match f with SfStream _ _ | SfStreamsBlocked _ _ => True | _ => False end
  | _ => True
  end.

Definition quiet (c : conn) (o : cn_out) (c' : conn) : Prop :=
  (forall b, ctl b c' = ctl b c) /\ almost_le c c' /\ mute o.

Lemma quiet_same c o c' : (forall b, ctl b c' = ctl b c) -> c_almost c' = c_almost c -> mute o -> quiet c o c'.
Proof. intros h1 h2 h3. split; auto. split; auto. unfold almost_le. rewrite h2. auto. Qed.
Lemma quiet_gocs sid local c s c1 o c' : gocs P sid local c s c1 -> (forall b, ctl b c' = ctl b c1) -> c_almost c' = c_almost c1 -> mute o -> quiet c o c'.
Proof.
  intros hg h1 h2 h3. apply quiet_same; auto.
  - intros b. rewrite h1. apply (ctl_gocs b _ _ _ _ _ hg).
  - rewrite h2. apply (ctl_gocs true _ _ _ _ _ hg).
Qed.

Lemma step_keep op c o c' : cn_step P op c = Ok (o, c') ->
  skeep (match op with CnSendMaxStreamData sid _ _ true => Some sid | _ => None end) c c' /\
  match op with
  | CnStop _ _ | CnShutdown _ _ _ _ | CnSendMaxStreams _ _ | CnSendMaxStreamData _ _ _ _ | CnSendMaxData _ _ _ | CnSendStop _ _ | CnSendReset _ _ | CnLost _ => True
  | _ => quiet c o c'
  end.
Proof.
  intros h. destruct op; cbn [cn_step] in h.
  - apply stream_ok in h as [(-> & -> & _)|(s & c1 & r & hg & _ & hw & hle & -> & ->)].
    { split; [apply skeep_same; auto|apply quiet_same; cbn; auto]. }
    split; [eapply skeep_gocs_put; eauto; [reflexivity|apply rv_write_keep in hw; exact hw]|].
    eapply quiet_gocs; eauto; cbn; auto. intros b. unfold ctl. cbn. destruct (rv_drain (st_recv s)); destruct b; reflexivity.
  - apply reset_ok in h as [(-> & -> & _)|(s & c1 & r & delta & credit & hg & _ & hw & hle & -> & ->)].
    { split; [apply skeep_same; auto|apply quiet_same; cbn; auto]. }
    split; [eapply skeep_gocs_put; eauto; [reflexivity|apply rv_reset_keep in hw; exact hw]|].
    eapply quiet_gocs; eauto; cbn; auto.
  - apply stop_ok in h as [(-> & -> & _)|(s & c1 & hg & -> & _ & h)].
    { split; [apply skeep_same; auto|auto]. }
    split; auto. destruct h as [(e & hst & ->)|(fi & un & b' & hst & ->)]; [eapply skeep_gocs; eauto|].
    eapply skeep_gocs_put; eauto; [reflexivity|apply rkeep_refl].
  - injection h as <- <-. split; [apply skeep_same; auto|apply quiet_same; cbn; auto].
  - apply max_stream_data_ok in h as [(-> & -> & _)|(s & c1 & hg & -> & _ & ->)].
    { split; [apply skeep_same; auto|apply quiet_same; cbn; auto]. }
    split; [eapply skeep_gocs_put; eauto; [reflexivity|apply rkeep_refl]|]. eapply quiet_gocs; eauto; cbn; auto.
  - unfold cn_max_streams in h. dif h; [discriminate|]. injection h as <- <-.
    split; [apply skeep_same; destruct bidi; reflexivity|]. apply quiet_same; [|destruct bidi; reflexivity|cbn; auto].
    intros b. unfold ctl, set_kind. destruct bidi, b; reflexivity.
  - unfold cn_streams_blocked in h. dif h; [discriminate|]. injection h as <- <-. split; [apply skeep_same; auto|apply quiet_same; cbn; auto].
  - apply recv_ok in h as [(e & -> & -> & _)|h]; [split; [apply skeep_same; auto|apply quiet_same; cbn; auto]|].
    destruct h as (s & r & he & hrd & [(e & hw & -> & ->)|(bytes & fin & full & hw & -> & haf & ->)]); apply rv_emit_keep in hw; cbv zeta.
    + split.
      * eapply skeep_trans; [eapply (skeep_put None c (cn_put sid (set_recv r s) c)); [exact he|reflexivity|exact hw]|].
        eapply skeep_trans; [apply (skeep_mcoll None (st_complete (set_recv r s)) sid (set_recv r s)); apply ent_put_same|]. apply skeep_same. reflexivity.
      * match goal with |- context [mcoll ?b0 ?x ?y ?c0] => pose proof (ctl_mcoll b0 x y c0) as hm end.
        apply quiet_same; [intros b; apply (hm b)|apply (hm true)|cbn; auto].
    + match goal with |- context [mcoll ?b0 ?x ?y ?c0] => pose proof (ctl_mcoll b0 x y c0) as hm; set (c0' := c0) in * end.
      split.
      * eapply skeep_trans; [eapply (skeep_put None c c0'); [exact he|reflexivity|exact hw]|].
        eapply skeep_trans; [apply (skeep_mcoll None (st_complete (set_recv r s)) sid (set_recv r s)); unfold ent, c0'; cbn; apply aget_aset_same|]. apply skeep_same. reflexivity.
      * split; [|split; [|cbn; auto]].
        -- intros b. etransitivity; [apply (hm b)|reflexivity].
        -- intros x hx. assert (q : In x (c_almost (mcoll (st_complete (set_recv r s)) sid (set_recv r s) c0'))); [|exact q].
           rewrite (proj2 (hm true)). unfold c0'. cbn. destruct full; auto. apply in_set_add. auto.
  - apply send_ok in h as [(-> & -> & _)|(hd & _ & h)]; [split; [apply skeep_same; auto|apply quiet_same; cbn; auto]|]. cbv zeta in h.
    match type of h with context [set_c_blk ?b c] => set (c0 := set_c_blk b c) in h end.
    assert (z1 : skeep None c c0) by (apply skeep_same; reflexivity).
    assert (z2 : forall c2, quiet c0 o c2 -> quiet c o c2) by (intros c2 hq; exact hq).
    destruct h as [(-> & _ & hl & _ & ->)|[(-> & -> & _)|[(-> & -> & _)|h]]].
    + destruct (p_blocked P); [|split; [exact z1|apply quiet_same; cbn; auto]].
      split; [eapply skeep_trans; [exact z1|]; apply skeep_same; unfold set_kind; destruct (is_bidi sid); reflexivity|].
      apply z2. apply quiet_same; [|unfold set_kind; destruct (is_bidi sid); reflexivity|cbn; auto].
      intros b. unfold ctl, set_kind, lim_of, kind, blk_update_at. destruct (is_bidi sid), b; reflexivity.
    + split; [exact z1|apply quiet_same; cbn; auto].
    + split; [exact z1|apply quiet_same; cbn; auto].
    + destruct h as (s & c1 & hg & h). clearbody c0.
      assert (hgo : forall s' c2, c_streams c2 = aset sid (s', false) (c_streams c1) -> st_recv s' = st_recv s -> skeep None c c2).
      { intros s' c2 e1 e2. eapply skeep_trans; [exact z1|]. eapply skeep_gocs_put; eauto. rewrite e2. apply rkeep_refl. }
      assert (hgs : forall c2, c_streams c2 = c_streams c1 -> skeep None c c2).
      { intros c2 e1. eapply skeep_trans; [exact z1|]. eapply skeep_trans; [eapply skeep_gocs; eauto|]. apply skeep_same. auto. }
      destruct h as [(e & he & -> & ->)|[(n & _ & _ & _ & -> & ->)|(n & hc & hnz & [(e & hw & -> & ->)|h])]].
      * split.
        -- eapply skeep_trans; [apply (hgs c1); auto|]. apply skeep_mcoll. eapply gocs_ent; eauto.
        -- apply z2. match goal with |- context [mcoll ?b0 ?x ?y ?c0] => pose proof (ctl_mcoll b0 x y c0) as hm end. eapply quiet_gocs; eauto; [intros b; apply (hm b)|apply (hm true)|cbn; auto].
      * split; [apply hgs; reflexivity|]. apply z2. eapply quiet_gocs; eauto; cbn; auto.
      * split; [apply hgs; reflexivity|]. apply z2. eapply quiet_gocs; eauto; cbn; auto.
      * destruct h as (sent & b0 & hw & hle & -> & bl & blocked & _ & ->).
        split; [eapply hgo; reflexivity|]. apply z2. eapply quiet_gocs; eauto. destr_if; cbn; auto.
  - apply priority_ok in h as [(-> & (e & _ & [->|(_ & ->)]))|(s & c1 & hg & -> & h)]; try solve [split; [apply skeep_same; auto; fail|apply quiet_same; cbn; auto; fail]].
    destruct h as [(-> & _)| ->].
    + split; [eapply skeep_gocs; eauto|eapply quiet_gocs; eauto; cbn; auto].
    + split; [eapply skeep_gocs_put; eauto; [reflexivity|apply rkeep_refl]|eapply quiet_gocs; eauto; cbn; auto].
  - split; auto. apply shutdown_ok in h as [(-> & (e & ->))|(s & he & -> & [h|h])]; [apply skeep_same; auto| |].
    + destruct h as (n & r & -> & hs & ->). eapply skeep_put; [exact he|reflexivity|]. apply rv_shutdown_keep in hs. apply hs.
    + destruct h as (fi & un & b' & cap & -> & _ & hst & hle & hc & ->). eapply skeep_put; [exact he|reflexivity|apply rkeep_refl].
  - destruct (cn_capacity sid c) as [[r c1]| |] eqn:E; try discriminate. cbn [bind] in h.
    apply capacity_ok in E as [(-> & -> & _)|(s & he & [(e & _ & -> & ->)|(n & _ & -> & ->)])]; injection h as <- <-;
      try solve [split; [apply skeep_same; auto; fail|apply quiet_same; cbn; auto; fail]].
    split; [apply skeep_mcoll; auto|]. match goal with |- context [mcoll ?b0 ?x ?y ?c0] => pose proof (ctl_mcoll b0 x y c0) as hm end.
    apply quiet_same; [intros b; apply (hm b)|apply (hm true)|cbn; auto].
  - apply writable_ok in h as [(-> & -> & _)|(s & he & [(e & _ & -> & ->)|(n & _ & [(_ & -> & ->)|(_ & -> & _ & bl & bs & _ & ->)])])];
      try solve [split; [apply skeep_same; auto; fail|apply quiet_same; cbn; auto; fail]].
    + split; [apply skeep_mcoll; auto|]. match goal with |- context [mcoll ?b0 ?x ?y ?c0] => pose proof (ctl_mcoll b0 x y c0) as hm end.
      apply quiet_same; [intros b; apply (hm b)|apply (hm true)|cbn; auto].
    + split; [eapply skeep_put; [exact he|reflexivity|apply rkeep_refl]|apply quiet_same; cbn; auto].
  - apply readable_next_ok in h as [(-> & -> & _)|(k & tl & _ & -> & ->)]; split; try (apply skeep_same; auto); apply quiet_same; cbn; auto.
  - apply writable_next_ok in h as [(-> & ->)|(sid & _ & _ & -> & ->)]; split; try (apply skeep_same; auto); apply quiet_same; cbn; auto.
  - unfold update_tx_cap in h. destruct (c_max_tx c <? c_tx c) eqn:E; [discriminate|]. cbn in h. injection h as <- <-. split; try (apply skeep_same; auto); apply quiet_same; cbn; auto.
  - split; auto. apply skeep_same. unfold cn_send_max_streams in h. cbv zeta in h. dif h; injection h as <- <-; auto. unfold set_kind. destruct bidi; reflexivity.
  - unfold cn_send_data_blocked in h. destruct (c_blk c); [destruct fits|]; injection h as <- <-; split; try (apply skeep_same; auto); apply quiet_same; cbn; auto.
  - unfold cn_send_streams_blocked in h. cbv zeta in h. fold (lim_of bidi c) in h.
    assert (hn : quiet c (CoSent None) c) by (apply quiet_same; cbn; auto).
    destruct (opt_lt _ _); [|injection h as <- <-; split; [apply skeep_same; auto|exact hn]].
    destruct (l_blk_at _) as [m|]; [|injection h as <- <-; split; [apply skeep_same; auto|exact hn]].
    destruct fits; injection h as <- <-; (split; [apply skeep_same; unfold set_kind; destruct bidi; reflexivity|]); [|exact hn].
    apply quiet_same; [|unfold set_kind; destruct bidi; reflexivity|cbn; auto]. intros b. unfold ctl, set_kind, lim_of. destruct bidi, b; reflexivity.
  - split; auto. apply send_max_stream_data_ok in h as [(-> & ->)|[(-> & _ & ->)|(s & full & he & hf & hm & h)]]; try (apply skeep_same; reflexivity).
    cbv zeta in h. set (r := if full then rv_autotune now rtt (st_recv s) else st_recv s) in h.
    assert (hr : rkeep (st_recv s) r).
    { unfold r. destruct full; [|apply rkeep_refl]. unfold rv_autotune, rv_set_fc, fc_autotune. constructor; cbn; auto. destruct (fc_last_update (rv_fc (st_recv s))); [destr_if|]; reflexivity. }
    destruct h as [(-> & -> & ->)|(-> & -> & ->)].
    + clearbody r. intros x s0 f0 h0. unfold ent in *. cbn [c_streams set_c_streams]. destruct (Z.eq_dec sid x) as [<-|n].
      * rewrite aget_aset_same. rewrite he in h0. injection h0 as <- <-. eexists _, _. split; [reflexivity|]. destruct hr as [k1 k2 k3]. ands; auto; try discriminate; try congruence.
      * rewrite aget_aset_other by auto. exists s0, f0. ands; auto.
    + clearbody r. eapply skeep_put; [exact he|reflexivity|exact hr].
  - split; auto. apply send_max_data_ok in h as (f & b' & [(-> & ->)|(-> & ->)]); apply skeep_same; reflexivity.
  - split; auto. unfold cn_send_stop in h. destruct (aget sid (c_stopped c)); [destruct fits|]; injection h as <- <-; apply skeep_same; reflexivity.
  - split; auto. unfold cn_send_reset in h. destruct (aget sid (c_reset c)) as [[code fi]|] eqn:E; [destruct fits|]; injection h as <- <-; apply skeep_same; reflexivity.
  - unfold cn_send_sdb in h. destruct (aget sid (c_blocked c)); [destruct fits|]; injection h as <- <-; (split; [apply skeep_same; reflexivity|apply quiet_same; cbn; auto]).
  - unfold cn_send_stream in h. dif h; [injection h as <- <-; split; [apply skeep_same; auto|apply quiet_same; cbn; auto]|].
    apply send_stream_loop_ok in h as (skips & _ & [(-> & _ & ->)|(k & tl & s & bytes & fin & b' & hq & he & hns & hroom & hem & -> & ->)]).
    + split; [apply skeep_same; auto|apply quiet_same; cbn; auto].
    + split; [eapply skeep_put; [exact he|reflexivity|apply rkeep_refl]|apply quiet_same; cbn; auto].
  - apply ack_ok in h as (-> & [->|[(sid & f & s & d & b' & hi & he & hak & ->)|(sid & code & fi & s & _ & he & ->)]]).
    + split; [apply skeep_same; auto|apply quiet_same; cbn; auto].
    + cbv zeta. match goal with |- context [mcoll ?b0 ?x ?y ?c0] => pose proof (ctl_mcoll b0 x y c0) as hm; set (bb := b0) in *; set (c0' := c0) in * end. split.
      * eapply skeep_trans; [eapply (skeep_put None c c0'); [exact he|reflexivity|apply rkeep_refl]|].
        eapply skeep_trans; [apply (skeep_mcoll None bb sid (set_send b' s)); unfold ent, c0'; cbn; apply aget_aset_same|]. apply skeep_same. reflexivity.
      * apply quiet_same; [intros b; apply (hm b)|apply (hm true)|cbn; auto].
    + match goal with |- context [mcoll ?b0 ?x ?y ?c0] => pose proof (ctl_mcoll b0 x y c0) as hm end.
      split; [apply skeep_mcoll; auto|apply quiet_same; [intros b; apply (hm b)|apply (hm true)|cbn; auto]].
  - split; auto. apply lost_ok in h as (_ & [->|[(sid & f & s & n & b & _ & he & _ & _ & ->)|[(sid & code & fi & _ & ->)|[(sid & code & s & _ & he & _ & ->)|[(sid & s & _ & he & ->)|[(_ & ->)|[(bi & _ & ->)|(bi & l & h)]]]]]]]);
      try (apply skeep_same; reflexivity).
    + eapply skeep_put; [exact he|reflexivity|apply rkeep_refl].
    + apply skeep_same. unfold set_kind. destruct bi; reflexivity.
    + apply skeep_same. destruct h as (_ & h & ->). unfold set_kind. destruct bi; reflexivity.
Qed.
End P.
