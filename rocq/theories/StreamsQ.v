(** The three queues of streams over histories. *)
Require Import Verif.Base Verif.Errors Verif.Assoc Verif.OctetsModel Verif.FlowControlModel Verif.RangeBufModel
  Verif.RangesModel Verif.RangesProofs Verif.RecvBufModel Verif.RecvBufProofs2
  Verif.SendBufModel Verif.SendSpec Verif.SendBufProofs Verif.SendBufProofs2 Verif.SendBufProofs3
  Verif.StreamsModel Verif.StreamsSpec Verif.StreamsProofs
  Verif.StreamsEffects Verif.StreamsShape Verif.StreamsShape2 Verif.StreamsRecv Verif.StreamsTx Verif.StreamsTx2 Verif.StreamsTx3 Verif.StreamsTx4.
Require Import Sorted.

(** Changes to a queue when the keys of the streams are [K]. *)
Inductive qmv (K : Z -> option skey) : list skey -> list skey -> Prop :=
| qm_refl q : qmv K q q
| qm_ins q q' k : qmv K q q' -> K (k_id k) = Some k -> qmv K q (q_insert k q')
| qm_rem q q' sid : qmv K q q' -> qmv K q (q_remove sid q').
#[local] Hint Constructors qmv : core.

Definition keyof (c : conn) (x : Z) : option skey := option_map (fun e => st_key (fst e)) (ent x c).

Definition ple (a b : skey) : Prop := key_lt b a = false.
Record qinv (K : Z -> option skey) (q : list skey) : Prop := {
  qi_sort : StronglySorted ple q;
  qi_nodup : NoDup (ids q);
  qi_key : forall k, In k q -> K (k_id k) = Some k }.

Lemma sort_ins k q : NoDup (ids q) -> ~ In (k_id k) (ids q) -> StronglySorted ple q -> StronglySorted ple (q_ins k q).
Proof.
  induction q as [|x q IH]; intros hn hk hs; cbn [q_ins]; [constructor; constructor|].
  cbn [ids map] in hn, hk. inversion hn as [|? ? hn1 hn2]; subst. inversion hs as [|? ? hs1 hs2]; subst.
  assert (hkx : k_id k <> k_id x) by (intros e; apply hk; left; auto).
  destruct (key_lt k x) eqn:E.
  - constructor; auto. apply Forall_forall. intros z hz. unfold ple.
    destruct (k_id z =? k_id k) eqn:Ez; [unfold key_lt; rewrite Ez; auto|].
    destruct hz as [<-|hz].
    + unfold key_lt in *. rewrite Z.eqb_sym in Ez. rewrite Ez in E. replace (k_id x =? k_id k) with false by lia.
      rewrite (Z.eqb_sym (k_urg x)). destruct (k_urg k =? k_urg x) eqn:Eu; cbn [negb] in *; [|lia].
      destruct (k_inc k), (k_inc x); cbn [negb andb] in *; try discriminate; auto. lia.
    + rewrite Forall_forall in hs2. specialize (hs2 z hz). unfold ple in hs2.
      assert (hzx : k_id z <> k_id x). { intros e. apply hn1. rewrite <- e. apply in_map. auto. }
      unfold key_lt in *. replace (k_id k =? k_id x) with false in E by lia. replace (k_id z =? k_id x) with false in hs2 by lia. rewrite Ez.
      destruct (k_urg k =? k_urg x) eqn:E1; destruct (k_urg z =? k_urg x) eqn:E2; destruct (k_urg z =? k_urg k) eqn:E3; cbn [negb] in *; try lia;
      destruct (k_inc k), (k_inc x), (k_inc z); cbn [negb andb] in *; try discriminate; auto; lia.
  - constructor; [apply IH; auto; intros e; apply hk; right; auto|]. apply Forall_forall. intros z hz. apply in_q_ins in hz as [->|hz]; [exact E|].
    rewrite Forall_forall in hs2. auto.
Qed.
Lemma sort_remove sid q : StronglySorted ple q -> StronglySorted ple (q_remove sid q).
Proof.
  induction 1 as [|x q h IH hf]; [constructor|]. unfold q_remove. cbn [filter]. destruct (negb (k_id x =? sid)); auto. constructor; auto.
  apply Forall_forall. intros z hz. apply filter_In in hz as (hz & _). rewrite Forall_forall in hf. auto.
Qed.
Lemma sort_insert k q : NoDup (ids q) -> StronglySorted ple q -> StronglySorted ple (q_insert k q).
Proof. intros h1 h2. unfold q_insert. destruct (linked (k_id k) q) eqn:E; auto. apply linked_not in E. apply sort_ins; auto. Qed.

Lemma qinv_mv K q q' : qmv K q q' -> qinv K q -> qinv K q'.
Proof.
  induction 1 as [q|q q' k h IH hk|q q' sid h IH]; auto; intros hi; destruct (IH hi) as [h1 h2 h3].
  - constructor; [apply sort_insert; auto|apply nodup_q_insert; auto|]. intros z hz. apply in_q_insert in hz as [->|hz]; auto.
  - constructor; [apply sort_remove; auto|apply nodup_q_remove; auto|]. intros z hz. apply in_q_remove in hz as (hz & _). auto.
Qed.
Lemma qmv_trans K a b c : qmv K a b -> qmv K b c -> qmv K a c.
Proof. intros h1 h2. revert h1. induction h2; auto. Qed.
Lemma qmv_drop K q q' skips : qmv K q q' -> qmv K q (dropq skips q').
Proof. revert q'. induction skips as [|x l IH]; intros q' h; cbn [dropq fold_left]; auto. Qed.

Lemma qinv_ext K K' q : qinv K q -> (forall k, In k q -> K (k_id k) = Some k -> K' (k_id k) = Some k) -> qinv K' q.
Proof. intros [h1 h2 h3] h. constructor; auto. Qed.

Lemma aset_same_id {A} k (v : A) m : aget k m = Some v -> aset k v m = m.
Proof.
  induction m as [|[k0 v0] tl IH]; cbn; [discriminate|]. destruct (k =? k0) eqn:E; intros h.
  - injection h as ->. f_equal. f_equal. lia.
  - rewrite IH; auto.
Qed.

Section P.
Variable P : params.

Definition qs_ok (c : conn) : Prop := qinv (keyof c) (c_rq c) /\ qinv (keyof c) (c_wq c) /\ qinv (keyof c) (c_fq c).

(** The queues of [c'] come from those of [c]. *)
Definition qstep (c c' : conn) : Prop :=
  qmv (keyof c') (c_rq c) (c_rq c') /\ qmv (keyof c') (c_wq c) (c_wq c') /\ qmv (keyof c') (c_fq c) (c_fq c').

Lemma key_aset c sid s f q : keyof c sid = Some (st_key s) -> c_streams q = aset sid (s, f) (c_streams c) -> forall x, keyof q x = keyof c x.
Proof.
  intros h e x. unfold keyof, ent in *. rewrite e. destruct (Z.eq_dec x sid) as [->|n]; [rewrite aget_aset_same; auto|].
  rewrite aget_aset_other by congruence. auto.
Qed.

Lemma qs_next c c' : qs_ok c -> (forall x k, keyof c x = Some k -> keyof c' x = Some k) -> qstep c c' -> qs_ok c'.
Proof.
  intros (h1 & h2 & h3) hk (m1 & m2 & m3). repeat split; (eapply qinv_mv; [eassumption|]); (eapply qinv_ext; [eassumption|]); intros; auto.
Qed.

Lemma mc_rq b sid s c : c_rq (mcoll b sid s c) = if b then q_remove sid (c_rq c) else c_rq c.
Proof. unfold mcoll, coll, set_kind. destruct b; auto. Qed.
Lemma mc_wq b sid s c : c_wq (mcoll b sid s c) = if b then q_remove sid (c_wq c) else c_wq c.
Proof. unfold mcoll, coll, set_kind. destruct b; auto. Qed.
Lemma mc_fq b sid s c : c_fq (mcoll b sid s c) = if b then q_remove sid (c_fq c) else c_fq c.
Proof. unfold mcoll, coll, set_kind. destruct b; auto. Qed.
Lemma mc_streams b sid s c : c_streams (mcoll b sid s c) = if b then aset sid (s, true) (c_streams c) else c_streams c.
Proof. unfold mcoll, coll, set_kind. destruct b; auto. Qed.

(** Keys stay, and new streams have the default one. *)
Definition kmono (c c' : conn) : Prop := forall x,
  match keyof c x with
  | Some k => keyof c' x = Some k
  | None => keyof c' x = None \/ keyof c' x = Some (mkKey DEFAULT_URGENCY true x)
  end.
Lemma kmono_refl c : kmono c c.
Proof. intros x. destruct (keyof c x); auto. Qed.
Lemma kmono_at c c' x k : kmono c c' -> keyof c x = Some k -> keyof c' x = Some k.
Proof. intros h e. specialize (h x). rewrite e in h. auto. Qed.

Lemma q_goc sid local c s c1 : qs_ok c -> kinds P c -> gocs P sid local c s c1 ->
  kmono c c1 /\ qstep c c1 /\ keyof c1 sid = Some (st_key s) /\ k_id (st_key s) = sid.
Proof.
  intros hq hk hg. destruct hg as [h|h1 h2 h3 ->].
  - ands; [apply kmono_refl|repeat split; auto|unfold keyof; rewrite h; auto|apply (hk _ _ _ h)].
  - assert (hs : keyof (create P sid c) sid = Some (st_key (fresh P sid))) by (unfold keyof; rewrite ent_create_same; auto).
    assert (hid : k_id (st_key (fresh P sid)) = sid) by (unfold fresh; destruct (new_limits P (is_local sid (p_server P)) (is_bidi sid)); reflexivity).
    ands; auto; [|unfold qstep; ands].
    + intros x. unfold keyof. destruct (Z.eq_dec x sid) as [->|n]; [rewrite h1, ent_create_same|rewrite ent_create_other by auto; destruct (ent x c); cbn; auto; fail].
      right. unfold fresh. destruct (new_limits P (is_local sid (p_server P)) (is_bidi sid)); reflexivity.
    + unfold create, set_kind. destruct (st_writable (fresh P sid)), (is_bidi sid); cn; apply qm_refl.
    + assert (hl : linked sid (c_wq c) = false).
      { apply linked_not. intros hl. unfold ids in hl. apply in_map_iff in hl as (k & e & hin). apply (qi_key _ _ (proj1 (proj2 hq))) in hin.
        rewrite e in hin. unfold keyof in hin. rewrite h1 in hin. discriminate. }
      assert (e : c_wq (create P sid c) = if st_writable (fresh P sid) then q_insert (st_key (fresh P sid)) (c_wq c) else c_wq c).
      { unfold q_insert. rewrite hid, hl. unfold create, set_kind. destruct (st_writable (fresh P sid)), (is_bidi sid); reflexivity. }
      rewrite e. destr_if; [|apply qm_refl]. apply qm_ins; [apply qm_refl|]. rewrite hid. auto.
    + unfold create, set_kind. destruct (st_writable (fresh P sid)), (is_bidi sid); cn; apply qm_refl.
Qed.

Ltac qmt := repeat match goal with
  | |- qmv _ _ (let _ := _ in _) => cbv zeta
  | |- qmv _ _ (if ?b then _ else _) => destruct b
  | |- qmv _ _ (q_insert _ _) => apply qm_ins
  | |- qmv _ _ (q_remove _ _) => apply qm_rem
  | |- qmv _ _ (dropq _ _) => apply qmv_drop
  | |- qmv _ ?q ?q => apply qm_refl end.

(** A step that opens [sid] if needed and then changes its state and the queues. *)
Lemma q_upd c c1 c' sid s s' f : kmono c c1 -> qstep c c1 -> keyof c1 sid = Some (st_key s) -> st_key s' = st_key s ->
  c_streams c' = aset sid (s', f) (c_streams c1) ->
  (forall K, K sid = Some (st_key s) -> qmv K (c_rq c1) (c_rq c') /\ qmv K (c_wq c1) (c_wq c') /\ qmv K (c_fq c1) (c_fq c')) ->
  kmono c c' /\ qstep c c'.
Proof.
  intros hm (q1 & q2 & q3) hk e hs hq.
  assert (hx : forall x, keyof c' x = keyof c1 x). { apply (key_aset c1 sid s' f); auto. rewrite e. auto. }
  assert (hex : forall a b, qmv (keyof c1) a b -> qmv (keyof c') a b).
  { intros a b h. induction h; auto. constructor; auto. rewrite hx. auto. }
  split; [intros x; rewrite hx; apply hm|]. destruct (hq (keyof c')) as (m1 & m2 & m3); [rewrite hx; auto|].
  repeat split; (eapply qmv_trans; [apply hex; eassumption|assumption]).
Qed.
Lemma q_same c c' : c_streams c' = c_streams c ->
  (forall K, qmv K (c_rq c) (c_rq c') /\ qmv K (c_wq c) (c_wq c') /\ qmv K (c_fq c) (c_fq c')) -> kmono c c' /\ qstep c c'.
Proof.
  intros e hq. assert (hx : forall x, keyof c' x = keyof c x) by (intros x; unfold keyof, ent; rewrite e; auto).
  split; [intros x; rewrite hx; destruct (keyof c x); auto|]. apply hq.
Qed.

Lemma qstep_refl c : qstep c c.
Proof. repeat split; auto. Qed.
#[local] Hint Resolve kmono_refl qstep_refl : core.

Lemma key_ent c x s f : ent x c = Some (s, f) -> keyof c x = Some (st_key s).
Proof. intros h. unfold keyof. rewrite h. auto. Qed.

Lemma q_mcoll c b sid s f : ent sid c = Some (s, f) -> kmono c (mcoll b sid s c) /\ qstep c (mcoll b sid s c).
Proof.
  intros h. destruct b; [|split; auto; apply qstep_refl]. eapply (q_upd c c _ sid s s true); eauto; [eapply key_ent; eauto|].
  intros K hK. rewrite mc_rq, mc_wq, mc_fq. ands; qmt.
Qed.

Ltac upd := match goal with |- kmono ?c ?c' /\ _ => idtac end.

Lemma q_step_np op c o c' : qs_ok c -> kinds P c -> cn_step P op c = Ok (o, c') -> (forall sid u b, op <> CnPriority sid u b) ->
  kmono c c' /\ qstep c c'.
Proof.
  intros hq hk h hnp. destruct op; cbn [cn_step] in h.
  - apply stream_ok in h as [(-> & -> & _)|(s & c1 & r & hg & _ & hw & hle & -> & ->)]; auto.
    destruct (q_goc _ _ _ _ _ hq hk hg) as (g1 & g2 & g3 & g4).
    eapply (q_upd c c1 _ sid s (set_recv r s) false); eauto. intros K hK; cn. ands; qmt. rewrite g4; auto.
  - apply reset_ok in h as [(-> & -> & _)|(s & c1 & r & delta & credit & hg & _ & hw & hle & -> & ->)]; auto.
    destruct (q_goc _ _ _ _ _ hq hk hg) as (g1 & g2 & g3 & g4).
    eapply (q_upd c c1 _ sid s (set_recv r s) false); eauto. intros K hK; cn. ands; qmt. rewrite g4; auto.
  - apply stop_ok in h as [(-> & -> & _)|(s & c1 & hg & -> & _ & h)]; auto.
    destruct (q_goc _ _ _ _ _ hq hk hg) as (g1 & g2 & g3 & g4).
    destruct h as [(e & hst & ->)|(fi & un & b' & hst & ->)]; auto.
    eapply (q_upd c c1 _ sid s (set_send b' s) false); eauto. intros K hK; cn. ands; qmt. rewrite g4; auto.
  - injection h as <- <-. apply q_same; auto.
  - apply max_stream_data_ok in h as [(-> & -> & _)|(s & c1 & hg & -> & _ & ->)]; auto.
    destruct (q_goc _ _ _ _ _ hq hk hg) as (g1 & g2 & g3 & g4).
    eapply (q_upd c c1 _ sid s _ false); [exact g1|exact g2|exact g3| |cn; reflexivity|]; [reflexivity|]. intros K hK; cn; ands; qmt; rewrite g4; auto.
  - unfold cn_max_streams in h. dif h; [discriminate|]. injection h as <- <-. apply q_same; unfold set_kind; destruct bidi; auto.
  - unfold cn_streams_blocked in h. dif h; [discriminate|]. injection h as <- <-. auto.
  - apply recv_ok in h as [(e & -> & -> & _)|h]; auto.
    destruct h as (s & r & he & hrd & [(e & hw & -> & ->)|(bytes & fin & full & hw & -> & haf & ->)]);
      pose proof (proj2 (proj2 (hk _ _ _ he))) as hid; cbv zeta.
    + eapply (q_upd c c _ sid s (set_recv r s) (st_complete (set_recv r s))); eauto; [eapply key_ent; eauto| |].
      * cn. rewrite mc_streams. cn. destr_if; rewrite ?aset_aset; auto.
      * intros K hK; cn. rewrite mc_rq, mc_wq, mc_fq. cn. ands; qmt.
    + eapply (q_upd c c _ sid s (set_recv r s) (st_complete (set_recv r s))); eauto; [eapply key_ent; eauto| |].
      * cn. rewrite mc_streams. cn. destr_if; rewrite ?aset_aset; auto.
      * intros K hK; cn. rewrite mc_rq, mc_wq, mc_fq. cn. ands; qmt; rewrite hid; auto.
  - apply send_ok in h as [(-> & -> & _)|(hd & _ & h)]; auto. cbv zeta in h.
    match type of h with context [set_c_blk ?b c] => set (c0 := set_c_blk b c) in h end.
    assert (hq0 : qs_ok c0) by exact hq. assert (hk0 : kinds P c0) by exact hk.
    destruct h as [(-> & _ & hl & _ & ->)|[(-> & -> & _)|[(-> & -> & _)|h]]].
    + destr_if; [|apply (q_same c c0); auto]. apply q_same; unfold set_kind; destr_if; auto.
    + apply (q_same c c0); auto.
    + apply (q_same c c0); auto.
    + destruct h as (s & c1 & hg & h). destruct (q_goc _ _ _ _ _ hq0 hk0 hg) as (g1 & g2 & g3 & g4).
      change (kmono c c1) in g1. change (qstep c c1) in g2. pose proof (gocs_ent _ _ _ _ _ _ hg) as he.
      destruct h as [(e & _ & -> & ->)|[(n & _ & _ & _ & -> & ->)|(n & hc & hnz & [(e & hw & -> & ->)|h])]].
      * destruct (st_complete s && negb (st_readable s)) eqn:E; [|auto].
        eapply (q_upd c c1 _ sid s s true); eauto. intros K hK. rewrite mc_rq, mc_wq, mc_fq. ands; qmt.
      * eapply (q_upd c c1 _ sid s s false); eauto; [cn; symmetry; apply aset_same_id; exact he|]. intros K hK; cn. ands; qmt. rewrite g4; auto.
      * eapply (q_upd c c1 _ sid s s false); eauto; [cn; symmetry; apply aset_same_id; exact he|]. intros K hK; cn. ands; qmt.
      * destruct h as (sent & b0 & hw & hle & -> & bl & blocked & _ & ->).
        eapply (q_upd c c1 _ sid s _ false); [exact g1|exact g2|exact g3| |cn; reflexivity|]; [reflexivity|]. intros K hK; cn. ands; qmt; rewrite g4; auto.
  - destruct (hnp sid urg inc eq_refl).
  - apply shutdown_ok in h as [(-> & (e & ->))|(s & he & -> & [h|h])]; auto; pose proof (key_ent _ _ _ _ he).
    + destruct h as (n & r & -> & _ & ->). eapply (q_upd c c _ sid s (set_recv r s) false); eauto. intros K hK; cn. ands; qmt.
    + destruct h as (fi & un & b' & cap & -> & _ & hst & hle & hc & ->). eapply (q_upd c c _ sid s (set_send b' s) false); eauto. intros K hK; cn. ands; qmt.
  - destruct (cn_capacity sid c) as [[r c1]| |] eqn:E; try discriminate. cbn [bind] in h.
    apply capacity_ok in E as [(-> & -> & _)|(s & he & [(e & _ & -> & ->)|(n & _ & -> & ->)])]; injection h as <- <-; auto. eapply q_mcoll; eauto.
  - apply writable_ok in h as [(-> & -> & _)|(s & he & [(e & _ & -> & ->)|(n & _ & [(_ & -> & ->)|(_ & -> & _ & bl & bs & _ & ->)])])]; auto; [eapply q_mcoll; eauto|].
    eapply (q_upd c c _ sid s _ false); [auto|auto|eapply key_ent; eauto| |cn; reflexivity|]; [reflexivity|]. intros K hK; cn. ands; qmt. rewrite (proj2 (proj2 (hk _ _ _ he))); auto.
  - apply readable_next_ok in h as [(-> & -> & _)|(k & tl & _ & -> & ->)]; auto. apply q_same; auto. intros K; cn; ands; qmt.
  - apply writable_next_ok in h as [(-> & ->)|(sid & _ & _ & -> & ->)]; auto. apply q_same; auto. intros K; cn; ands; qmt.
  - unfold update_tx_cap in h. destruct (c_max_tx c <? c_tx c) eqn:E; [discriminate|]. cbn in h. injection h as <- <-. apply q_same; auto.
  - unfold cn_send_max_streams in h. cbv zeta in h. dif h; injection h as <- <-; auto. apply q_same; unfold set_kind; destruct bidi; auto.
  - unfold cn_send_data_blocked in h. destruct (c_blk c); [destruct fits|]; injection h as <- <-; auto. apply q_same; auto.
  - unfold cn_send_streams_blocked in h. cbv zeta in h. dif h; [|injection h as <- <-; auto].
    destruct (l_blk_at (if bidi then c_bidi c else c_uni c)); [destruct fits|]; injection h as <- <-; auto.
    apply q_same; unfold set_kind; destruct bidi; auto.
  - apply send_max_stream_data_ok in h as [(-> & ->)|[(-> & _ & ->)|(s & full & he & hf & hm & h)]]; auto; [apply q_same; auto|].
    cbv zeta in h. pose proof (key_ent _ _ _ _ he). destruct h as [(-> & -> & ->)|(-> & -> & ->)]; (eapply (q_upd c c _ sid s _ false); [auto|auto|eassumption| |cn; reflexivity|]; [reflexivity|]; intros K hK; cn; ands; qmt).
  - apply send_max_data_ok in h as (f & b' & [(-> & ->)|(-> & ->)]); apply q_same; auto.
  - unfold cn_send_stop in h. destruct (aget sid (c_stopped c)); [destruct fits|]; injection h as <- <-; auto. apply q_same; auto.
  - unfold cn_send_reset in h. destruct (aget sid (c_reset c)) as [[code fi]|] eqn:E; [destruct fits|]; injection h as <- <-; auto. apply q_same; auto.
  - unfold cn_send_sdb in h. destruct (aget sid (c_blocked c)); [destruct fits|]; injection h as <- <-; auto. apply q_same; auto.
  - unfold cn_send_stream in h. dif h; [injection h as <- <-; auto|].
    apply send_stream_loop_ok in h as (skips & _ & [(-> & _ & ->)|(k & tl & s & bytes & fin & b' & hq0 & he & hns & hroom & hem & -> & ->)]).
    + apply q_same; auto. intros K; cn; ands; qmt.
    + pose proof (key_ent _ _ _ _ he). eapply (q_upd c c _ (k_id k) s (set_send b' s) false); eauto. intros K hK; cn; ands; qmt. rewrite (proj2 (proj2 (hk _ _ _ he))); auto.
  - apply ack_ok in h as (-> & [->|[(sid & f & s & d & b' & hi & he & hak & ->)|(sid & code & fi & s & _ & he & ->)]]); auto; [|eapply q_mcoll; eauto].
    cbv zeta. match goal with |- context [mcoll ?b0 sid ?s' _] => set (bb := b0) end. pose proof (key_ent _ _ _ _ he).
    eapply (q_upd c c _ sid s (set_send b' s) bb); eauto.
    + cn. rewrite mc_streams. cn. destruct bb; rewrite ?aset_aset; auto.
    + intros K hK; cn. rewrite mc_rq, mc_wq, mc_fq. cn. ands; qmt.
  - apply lost_ok in h as (-> & h). destruct h as [->|[(sid & f & s & n & b' & hi & he & hns & hrt & ->)|[(sid & code & fi & hi & ->)|[(sid & code & s & hi & he & hf & ->)|[(sid & s & hi & he & ->)|[(hi & ->)|[(bidi & hi & ->)|(bidi & l & hi & hb & ->)]]]]]]]; auto.
    + pose proof (key_ent _ _ _ _ he). eapply (q_upd c c _ sid s (set_send b' s) false); eauto. intros K hK; cn; ands; qmt. rewrite (proj2 (proj2 (hk _ _ _ he))); auto.
    + apply q_same; auto.
    + apply q_same; auto.
    + apply q_same; auto.
    + apply q_same; auto.
    + apply q_same; unfold set_kind; destruct bidi; auto.
    + apply q_same; unfold set_kind; destruct bidi; auto.
Qed.

Lemma qinv_update K K' q k : qinv K q -> K' (k_id k) = Some k -> (forall x, x <> k_id k -> K' x = K x) -> qinv K' (q_update k q).
Proof.
  intros [h1 h2 h3] hk hx. unfold q_update. destruct (linked (k_id k) q) eqn:E.
  - constructor.
    + apply sort_ins; [apply nodup_q_remove; auto| |apply sort_remove; auto]. rewrite ids_q_remove. tauto.
    + apply nodup_q_ins; [apply nodup_q_remove; auto|]. rewrite ids_q_remove. tauto.
    + intros z hz. apply in_q_ins in hz as [->|hz]; auto. apply in_q_remove in hz as (hz & n). rewrite hx; auto.
  - constructor; auto. intros z hz. rewrite hx; auto. intros e. apply linked_not in E. apply E. rewrite <- e. apply in_map. auto.
Qed.

Lemma q_step op c o c' : qs_ok c -> kinds P c -> cn_step P op c = Ok (o, c') -> qs_ok c'.
Proof.
  intros hq hk h.
  assert (hnp : (forall sid u b, op <> CnPriority sid u b) -> qs_ok c').
  { intros hnp. destruct (q_step_np _ _ _ _ hq hk h hnp) as (h1 & h2). eapply qs_next; eauto. intros x k; apply kmono_at; auto. }
  destruct op; try (apply hnp; discriminate). cbn [cn_step] in h. clear hnp.
  apply priority_ok in h as [(-> & _)|(s & c1 & hg & -> & h)]; auto.
  destruct (q_goc _ _ _ _ _ hq hk hg) as (g1 & g2 & g3 & g4). assert (hq1 : qs_ok c1) by (eapply qs_next; eauto; intros x k; apply kmono_at; auto).
  destruct h as [(-> & _)| ->]; auto. destruct hq1 as (a1 & a2 & a3). cbv zeta.
  match goal with |- qs_ok ?x => assert (hK : keyof x sid = Some (mkKey urg inc sid) /\ forall y, y <> sid -> keyof x y = keyof c1 y) end.
  { unfold keyof, ent. cn. rewrite aget_aset_same. split; auto. intros y n. rewrite aget_aset_other by congruence. auto. }
  destruct hK as (k1 & k2). repeat split; cn; eapply qinv_update; eauto.
Qed.

Lemma q_history i ops outs c : history P i ops outs c -> qs_ok c.
Proof.
  revert ops outs c. apply history_ind.
  - intros _ _. cbn. repeat split; try constructor; cbn; tauto.
  - intros ops outs c op o c' hist hh hok h. eapply q_step; eauto. eapply shape_kinds. eapply shape_history. eauto.
Qed.
End P.
