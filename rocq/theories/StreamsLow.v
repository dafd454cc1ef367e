(** What stream_writable_next promises. *)
Require Import Verif.Base Verif.Errors Verif.Assoc Verif.OctetsModel Verif.FlowControlModel Verif.RangeBufModel
  Verif.RangesModel Verif.RangesProofs Verif.RecvBufModel Verif.RecvBufProofs2
  Verif.SendBufModel Verif.SendSpec Verif.SendBufProofs Verif.SendBufProofs2 Verif.SendBufProofs3 Verif.SendProofs Verif.SendProofs2 Verif.SendProofs3
  Verif.StreamsModel Verif.StreamsSpec Verif.StreamsProofs
  Verif.StreamsEffects Verif.StreamsShape Verif.StreamsShape2 Verif.StreamsShape3 Verif.StreamsRecv Verif.StreamsTx Verif.StreamsTx2 Verif.StreamsTx3 Verif.StreamsTx4 Verif.StreamsTx5 Verif.StreamsTx6
  Verif.StreamsQ Verif.StreamsQ2 Verif.StreamsQ3 Verif.StreamsQ4 Verif.StreamsSpec2 Verif.StreamsQ5 Verif.StreamsQ6 Verif.StreamsQ7.

Definition lowof (c : conn) (x : Z) : option Z := match ent x c with Some (s, _) => Some (st_lowat s) | None => None end.
(** Watermarks stay, and new streams have the default one. *)
Definition lmono (c c' : conn) : Prop := forall x,
  match lowof c x with Some n => lowof c' x = Some n | None => lowof c' x = None \/ lowof c' x = Some 1 end.
Lemma lmono_refl c : lmono c c.
Proof. intros x. destruct (lowof c x); auto. Qed.

Section P.
Variable P : params.

Lemma l_goc sid local c s c1 : gocs P sid local c s c1 -> lmono c c1 /\ lowof c1 sid = Some (st_lowat s).
Proof.
  intros hg. destruct hg as [h|h1 h2 h3 ->].
  - split; [apply lmono_refl|unfold lowof; rewrite h; auto].
  - assert (hs : lowof (create P sid c) sid = Some (st_lowat (fresh P sid))) by (unfold lowof; rewrite ent_create_same; auto).
    split; [|exact hs]. intros x. unfold lowof. destruct (Z.eq_dec x sid) as [->|n]; [rewrite h1, ent_create_same|rewrite ent_create_other by auto; destruct (ent x c) as [[? ?]|]; auto; fail].
    right. unfold fresh. destruct (new_limits P (is_local sid (p_server P)) (is_bidi sid)); reflexivity.
Qed.
Lemma l_upd c c1 c' sid s s' (f : bool) : lmono c c1 -> lowof c1 sid = Some (st_lowat s) -> st_lowat s' = st_lowat s ->
  c_streams c' = aset sid (s', f) (c_streams c1) -> lmono c c'.
Proof.
  intros hm hk e hs x. assert (hx : lowof c' x = lowof c1 x).
  { unfold lowof, ent in *. rewrite hs. destruct (Z.eq_dec x sid) as [->|n]; [rewrite aget_aset_same, e; auto|]. rewrite aget_aset_other by congruence. auto. }
  rewrite hx. apply hm.
Qed.
Lemma l_same c c' : c_streams c' = c_streams c -> lmono c c'.
Proof. intros e x. unfold lowof, ent. rewrite e. destruct (aget x (c_streams c)) as [[? ?]|]; auto. Qed.
Lemma low_ent c x s f : ent x c = Some (s, f) -> lowof c x = Some (st_lowat s).
Proof. intros h. unfold lowof. rewrite h. auto. Qed.
#[local] Hint Resolve lmono_refl : core.
Lemma l_mcoll c b sid s f : ent sid c = Some (s, f) -> lmono c (mcoll b sid s c).
Proof.
  intros h. destruct b; auto. eapply (l_upd c c _ sid s s true); eauto. eapply low_ent; eauto.
Qed.
Lemma l_step op c o c' : cn_step P op c = Ok (o, c') -> (forall sid n, op <> CnWritable sid n) ->
  lmono c c'.
Proof.
  intros h hnp. destruct op; cbn [cn_step] in h.
  - apply stream_ok in h as [(-> & -> & _)|(s & c1 & r & hg & _ & hw & hle & -> & ->)]; auto.
    destruct (l_goc _ _ _ _ _ hg) as (g1 & g3).
    eapply (l_upd c c1 _ sid s (set_recv r s) false); eauto.
  - apply reset_ok in h as [(-> & -> & _)|(s & c1 & r & delta & credit & hg & _ & hw & hle & -> & ->)]; auto.
    destruct (l_goc _ _ _ _ _ hg) as (g1 & g3).
    eapply (l_upd c c1 _ sid s (set_recv r s) false); eauto.
  - apply stop_ok in h as [(-> & -> & _)|(s & c1 & hg & -> & _ & h)]; auto.
    destruct (l_goc _ _ _ _ _ hg) as (g1 & g3).
    destruct h as [(e & hst & ->)|(fi & un & b' & hst & ->)]; auto.
    eapply (l_upd c c1 _ sid s (set_send b' s) false); eauto.
  - injection h as <- <-. apply l_same; auto.
  - apply max_stream_data_ok in h as [(-> & -> & _)|(s & c1 & hg & -> & _ & ->)]; auto.
    destruct (l_goc _ _ _ _ _ hg) as (g1 & g3).
    eapply (l_upd c c1 _ sid s _ false); [exact g1|exact g3| |cn; reflexivity]; reflexivity.
  - unfold cn_max_streams in h. dif h; [discriminate|]. injection h as <- <-. apply l_same; unfold set_kind; destruct bidi; auto.
  - unfold cn_streams_blocked in h. dif h; [discriminate|]. injection h as <- <-. auto.
  - apply recv_ok in h as [(e & -> & -> & _)|h]; auto.
    destruct h as (s & r & he & hrd & [(e & hw & -> & ->)|(bytes & fin & full & hw & -> & haf & ->)]); cbv zeta.
    + eapply (l_upd c c _ sid s (set_recv r s) (st_complete (set_recv r s))); eauto; [eapply low_ent; eauto|].
      cn. rewrite mc_streams. cn. destr_if; rewrite ?aset_aset; auto.
    + eapply (l_upd c c _ sid s (set_recv r s) (st_complete (set_recv r s))); eauto; [eapply low_ent; eauto|].
      cn. rewrite mc_streams. cn. destr_if; rewrite ?aset_aset; auto.
  - apply send_ok in h as [(-> & -> & _)|(hd & _ & h)]; auto. cbv zeta in h.
    match type of h with context [set_c_blk ?b c] => set (c0 := set_c_blk b c) in h end.
    destruct h as [(-> & _ & hl & _ & ->)|[(-> & -> & _)|[(-> & -> & _)|h]]].
    + destr_if; [|apply (l_same c c0); auto]. apply l_same; unfold set_kind; destr_if; auto.
    + apply (l_same c c0); auto.
    + apply (l_same c c0); auto.
    + destruct h as (s & c1 & hg & h). destruct (l_goc _ _ _ _ _ hg) as (g1 & g3).
      change (lmono c c1) in g1. pose proof (gocs_ent _ _ _ _ _ _ hg) as he.
      destruct h as [(e & _ & -> & ->)|[(n & _ & _ & _ & -> & ->)|(n & hc & hnz & [(e & hw & -> & ->)|h])]].
      * destruct (st_complete s && negb (st_readable s)) eqn:E; [|auto].
        eapply (l_upd c c1 _ sid s s true); eauto.
      * eapply (l_upd c c1 _ sid s s false); eauto; cn; symmetry; apply aset_same_id; exact he.
      * eapply (l_upd c c1 _ sid s s false); eauto; cn; symmetry; apply aset_same_id; exact he.
      * destruct h as (sent & b0 & hw & hle & -> & bl & blocked & _ & ->).
        eapply (l_upd c c1 _ sid s _ false); [exact g1|exact g3| |cn; reflexivity]; reflexivity.
  - apply priority_ok in h as [(-> & _)|(s & c1 & hg & -> & h)]; auto. destruct (l_goc _ _ _ _ _ hg) as (g1 & g3).
    destruct h as [(-> & _)| ->]; auto. cbv zeta. eapply (l_upd c c1 _ sid s _ false); [exact g1|exact g3| |cn; reflexivity]; reflexivity.
  - apply shutdown_ok in h as [(-> & (e & ->))|(s & he & -> & [h|h])]; auto; pose proof (low_ent _ _ _ _ he).
    + destruct h as (n & r & -> & _ & ->). eapply (l_upd c c _ sid s (set_recv r s) false); eauto.
    + destruct h as (fi & un & b' & cap & -> & _ & hst & hle & hc & ->). eapply (l_upd c c _ sid s (set_send b' s) false); eauto.
  - destruct (cn_capacity sid c) as [[r c1]| |] eqn:E; try discriminate. cbn [bind] in h.
    apply capacity_ok in E as [(-> & -> & _)|(s & he & [(e & _ & -> & ->)|(n & _ & -> & ->)])]; injection h as <- <-; auto. eapply l_mcoll; eauto.
  - destruct (hnp sid len eq_refl).
  - apply readable_next_ok in h as [(-> & -> & _)|(k & tl & _ & -> & ->)]; auto. apply l_same; auto.
  - apply writable_next_ok in h as [(-> & ->)|(sid & _ & _ & -> & ->)]; auto. apply l_same; auto.
  - unfold update_tx_cap in h. destruct (c_max_tx c <? c_tx c) eqn:E; [discriminate|]. cbn in h. injection h as <- <-. apply l_same; auto.
  - unfold cn_send_max_streams in h. cbv zeta in h. dif h; injection h as <- <-; auto. apply l_same; unfold set_kind; destruct bidi; auto.
  - unfold cn_send_data_blocked in h. destruct (c_blk c); [destruct fits|]; injection h as <- <-; auto. apply l_same; auto.
  - unfold cn_send_streams_blocked in h. cbv zeta in h. dif h; [|injection h as <- <-; auto].
    destruct (l_blk_at (if bidi then c_bidi c else c_uni c)); [destruct fits|]; injection h as <- <-; auto.
    apply l_same; unfold set_kind; destruct bidi; auto.
  - apply send_max_stream_data_ok in h as [(-> & ->)|[(-> & _ & ->)|(s & full & he & hf & hm & h)]]; auto; [apply l_same; auto|].
    cbv zeta in h. pose proof (low_ent _ _ _ _ he). destruct h as [(-> & -> & ->)|(-> & -> & ->)]; (eapply (l_upd c c _ sid s _ false); [auto|eassumption| |cn; reflexivity]; reflexivity).
  - apply send_max_data_ok in h as (f & b' & [(-> & ->)|(-> & ->)]); apply l_same; auto.
  - unfold cn_send_stop in h. destruct (aget sid (c_stopped c)); [destruct fits|]; injection h as <- <-; auto. apply l_same; auto.
  - unfold cn_send_reset in h. destruct (aget sid (c_reset c)) as [[code fi]|] eqn:E; [destruct fits|]; injection h as <- <-; auto. apply l_same; auto.
  - unfold cn_send_sdb in h. destruct (aget sid (c_blocked c)); [destruct fits|]; injection h as <- <-; auto. apply l_same; auto.
  - unfold cn_send_stream in h. dif h; [injection h as <- <-; auto|].
    apply send_stream_loop_ok in h as (skips & _ & [(-> & _ & ->)|(k & tl & s & bytes & fin & b' & hq0 & he & hns & hroom & hem & -> & ->)]).
    + apply l_same; auto.
    + pose proof (low_ent _ _ _ _ he). eapply (l_upd c c _ (k_id k) s (set_send b' s) false); eauto.
  - apply ack_ok in h as (-> & [->|[(sid & f & s & d & b' & hi & he & hak & ->)|(sid & code & fi & s & _ & he & ->)]]); auto; [|eapply l_mcoll; eauto].
    cbv zeta. match goal with |- context [mcoll ?b0 sid ?s' _] => set (bb := b0) end. pose proof (low_ent _ _ _ _ he).
    eapply (l_upd c c _ sid s (set_send b' s) bb); eauto.
    cn. rewrite mc_streams. cn. destruct bb; rewrite ?aset_aset; auto.
  - apply lost_ok in h as (-> & h). destruct h as [->|[(sid & f & s & n & b' & hi & he & hns & hrt & ->)|[(sid & code & fi & hi & ->)|[(sid & code & s & hi & he & hf & ->)|[(sid & s & hi & he & ->)|[(hi & ->)|[(bidi & hi & ->)|(bidi & l & hi & hb & ->)]]]]]]]; auto.
    + pose proof (low_ent _ _ _ _ he). eapply (l_upd c c _ sid s (set_send b' s) false); eauto.
    + apply l_same; auto.
    + apply l_same; auto.
    + apply l_same; auto.
    + apply l_same; auto.
    + apply l_same; unfold set_kind; destruct bidi; auto.
    + apply l_same; unfold set_kind; destruct bidi; auto.
Qed.

Variable i : start.
Lemma low_history ops outs c x : history P i ops outs c ->
  match lowof c x with Some n => n = asked x ops outs | None => asked x ops outs = 1 end.
Proof.
  intros hist. revert ops outs c hist. apply history_ind.
  - intros _ _. reflexivity.
  - intros ops outs c op o c' hist IH hok h.
    unfold asked in *. rewrite events_snoc by (eapply run_length; apply hist). rewrite fold_left_app. cbn [fold_left].
    set (p := fold_left (asked_step x) (events ops outs) 1) in *.
    assert (hnp : (forall sid n, op <> CnWritable sid n) -> match lowof c' x with Some n => n = asked_step x p (op, o) | None => asked_step x p (op, o) = 1 end).
    { intros hnp. assert (ep : asked_step x p (op, o) = p) by (destruct op; auto; destruct (hnp _ _ eq_refl)). rewrite ep.
      pose proof (l_step _ _ _ _ h hnp x) as km. destruct (lowof c x) as [n|] eqn:Ek.
      - rewrite km. exact IH.
      - destruct km as [-> | ->]; auto. }
    destruct op; try (apply hnp; discriminate). clear hnp. cbn [cn_step] in h. cbn [asked_step].
    apply writable_ok in h as [(-> & -> & _)|(s & he & [(e & _ & -> & ->)|(n & _ & [(_ & -> & ->)|(_ & -> & _ & bl & bs & _ & ->)])])]; auto.
    + pose proof (l_mcoll c (st_complete s && negb (st_readable s)) sid s false he x) as km. destruct (lowof c x) as [n|] eqn:Ek; [rewrite km; exact IH|].
      destruct km as [-> | ->]; auto.
    + unfold lowof, ent in *. cn. destruct (Z.eq_dec x sid) as [->|n0].
      * rewrite aget_aset_same, Z.eqb_refl. reflexivity.
      * rewrite aget_aset_other by congruence. replace (sid =? x) with false by lia. exact IH.
Qed.

Lemma next_writable_some q c x : next_writable q c = Ok (Some x) -> exists s, cn_get x c = Some s /\
  ((exists e, sb_cap (st_send s) = Err e) \/ exists n, sb_cap (st_send s) = Ok n /\ st_lowat s <= Z.min (c_txcap c) n).
Proof.
  induction q as [|k q IH]; cbn [next_writable]; intros h; [discriminate h|]. destruct (cn_get (k_id k) c) as [s|] eqn:e; [|auto].
  destruct (sb_cap (st_send s)) as [n|er|] eqn:ec; [|injection h as <-; eauto|discriminate h].
  destruct (Z.leb_spec (st_lowat s) (Z.min (c_txcap c) n)); [|auto]. injection h as <-. eauto 8.
Qed.
Lemma next_writable_none q c x s : next_writable q c = Ok None -> In x (map k_id q) -> cn_get x c = Some s ->
  exists n, sb_cap (st_send s) = Ok n /\ Z.min (c_txcap c) n < st_lowat s.
Proof.
  induction q as [|k q IH]; cbn [next_writable map]; intros h hin hs; [destruct hin|]. destruct hin as [hin|hin].
  - rewrite hin, hs in h. destruct (sb_cap (st_send s)) as [n|er|] eqn:ec; try discriminate h.
    destruct (Z.leb_spec (st_lowat s) (Z.min (c_txcap c) n)); [discriminate h|]. eauto.
  - apply IH; auto. destruct (cn_get (k_id k) c) as [s'|] eqn:e; auto. destruct (sb_cap (st_send s')) as [n|er|]; try discriminate h.
    destruct (st_lowat s' <=? Z.min (c_txcap c) n); [discriminate h|auto].
Qed.
Lemma cap_err b e : sb_cap b = Err e -> exists code, e = StreamStopped code.
Proof. unfold sb_cap. destruct (sb_error b); [injection 1 as <-; eauto|]. destr_if; discriminate. Qed.

Lemma writable_next_promise ops outs c x c1 o c2 : history P i ops outs c -> cn_step P CnWritableNext c = Ok (CoNext (Some x), c1) ->
  cn_step P (CnCapacity x) c1 = Ok (o, c2) -> (exists n, o = CoCap n /\ asked x ops outs <= n) \/ exists code, o = CoErr (StreamStopped code).
Proof.
  intros hist h h2. cbn [cn_step] in h, h2. apply writable_next_ok in h as [(? & _)|(sid & hn & _ & e & ->)]; [discriminate|]. injection e as ->.
  apply next_writable_some in hn as (s & hs & hn). pose proof (low_history ops outs c sid hist) as hl. apply get_ent in hs as he. rewrite (low_ent _ _ _ _ he) in hl.
  unfold cn_capacity in h2. change (cn_get sid (set_c_wq (q_remove sid (c_wq c)) c)) with (cn_get sid c) in h2. rewrite hs in h2.
  destruct hn as [(e & ec)|(n & ec & hn)]; rewrite ec in h2.
  - right. apply cap_err in ec as (code & ->). exists code. match type of h2 with context [if ?b then ?u else ?v] => destruct (if b then u else v) end; cbn [bind] in h2; try discriminate h2. injection h2 as <- _. reflexivity.
  - left. cbn [bind] in h2. injection h2 as <- _. exists (Z.min (c_txcap c) n). split; [reflexivity|lia].
Qed.
Lemma writable_next_none ops outs c x c1 o c2 : history P i ops outs c -> cn_step P CnWritableNext c = Ok (CoNext None, c1) -> in_writable x c -> live x c ->
  cn_step P (CnCapacity x) c1 = Ok (o, c2) -> c1 = c /\ ((exists n, o = CoCap n /\ n < asked x ops outs) \/ c_txcap c = 0 /\ exists code, o = CoErr (StreamStopped code)).
Proof.
  intros hist h hin (s & hs) h2. cbn [cn_step] in h, h2. unfold cn_writable_next in h. pose proof (low_history ops outs c x hist) as hl. apply get_ent in hs as he. rewrite (low_ent _ _ _ _ he) in hl.
  assert (ho : 1 <= asked x ops outs).
  { unfold asked. generalize (events ops outs). intros l. assert (hg : forall l n, 1 <= n -> 1 <= fold_left (asked_step x) l n).
    { clear. induction l as [|e l IH]; intros n hn; [exact hn|]. cbn [fold_left]. apply IH. destruct e as [[] []]; cbn [asked_step]; try exact hn. destruct b; [exact hn|]. destr_if; lia. }
    apply hg. lia. }
  assert (e1 : c1 = c). { destruct (c_txcap c =? 0); [injection h as <-; auto|]. destruct (next_writable (c_wq c) c) as [[y|]| |]; try discriminate h. injection h as <-. auto. }
  split; [exact e1|]. subst c1. unfold cn_capacity in h2. rewrite hs in h2. destruct (Z.eqb_spec (c_txcap c) 0) as [e0|n0].
  - destruct (sb_cap (st_send s)) as [n|e|] eqn:ec; [| |discriminate h2].
    + left. cbn [bind] in h2. injection h2 as <- _. exists (Z.min (c_txcap c) n). split; [reflexivity|lia].
    + right. split; auto. apply cap_err in ec as (code & ->). exists code. match type of h2 with context [if ?b then ?u else ?v] => destruct (if b then u else v) end; cbn [bind] in h2; try discriminate h2. injection h2 as <- _. reflexivity.
  - destruct (next_writable (c_wq c) c) as [[y|]| |] eqn:en; try discriminate h. cbn [bind] in h.
    destruct (next_writable_none _ _ _ _ en hin hs) as (n & ec & hn). rewrite ec in h2. cbn [bind] in h2. injection h2 as <- _. left. exists (Z.min (c_txcap c) n). split; [reflexivity|lia].
Qed.
End P.
