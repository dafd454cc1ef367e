(** Structure of a connection's streams: queues as lists, entries, and what
    every step does to them. *)
Require Import Verif.Base Verif.Errors Verif.Assoc Verif.FlowControlModel Verif.RangeBufModel
  Verif.RecvBufModel Verif.SendBufModel Verif.StreamsModel.

Ltac ands := repeat match goal with |- _ /\ _ => split end.

(** ** Queues *)
Definition ids (l : list skey) : list Z := map k_id l.

Lemma linked_iff sid l : linked sid l = true <-> In sid (ids l).
Proof.
  unfold linked, ids. rewrite existsb_exists, in_map_iff. split; intros (x & h1 & h2); exists x; split; auto; lia.
Qed.
Lemma linked_not sid l : linked sid l = false <-> ~ In sid (ids l).
Proof. rewrite <- linked_iff. destruct (linked sid l); split; congruence. Qed.

Lemma in_q_ins x k l : In x (q_ins k l) <-> x = k \/ In x l.
Proof.
  induction l as [|y l IH]; cbn; [intuition congruence|].
  destruct (key_lt k y); cbn; [intuition congruence|]. rewrite IH. intuition congruence.
Qed.
Lemma in_q_remove x sid l : In x (q_remove sid l) <-> In x l /\ k_id x <> sid.
Proof. unfold q_remove. rewrite filter_In. intuition lia. Qed.
Lemma in_q_insert x k l : In x (q_insert k l) -> x = k \/ In x l.
Proof. unfold q_insert. destruct (linked (k_id k) l); [auto|]. apply in_q_ins. Qed.

Lemma ids_q_ins sid k l : In sid (ids (q_ins k l)) <-> sid = k_id k \/ In sid (ids l).
Proof.
  unfold ids. rewrite !in_map_iff. split.
  - intros (x & <- & h). apply in_q_ins in h as [->|h]; eauto.
  - intros [->|(x & <- & h)].
    + exists k. split; auto. apply in_q_ins. auto.
    + exists x. split; auto. apply in_q_ins. auto.
Qed.
Lemma ids_q_remove sid s l : In sid (ids (q_remove s l)) <-> In sid (ids l) /\ sid <> s.
Proof.
  unfold ids. rewrite !in_map_iff. split.
  - intros (x & <- & h). apply in_q_remove in h as (h1 & h2). eauto.
  - intros ((x & <- & h) & n). exists x. split; auto. apply in_q_remove. auto.
Qed.
Lemma ids_q_insert sid k l : In sid (ids (q_insert k l)) <-> sid = k_id k \/ In sid (ids l).
Proof.
  unfold q_insert. destruct (linked (k_id k) l) eqn:E; [|apply ids_q_ins].
  apply linked_iff in E. split; [auto|]. intros [->|h]; auto.
Qed.
Lemma ids_q_update sid k l : In sid (ids (q_update k l)) <-> In sid (ids l).
Proof.
  unfold q_update. destruct (linked (k_id k) l) eqn:E; [|tauto].
  apply linked_iff in E. rewrite ids_q_ins, ids_q_remove.
  destruct (Z.eq_dec sid (k_id k)) as [->|n]; tauto.
Qed.

Lemma linked_ext sid l l' : (In sid (ids l) <-> In sid (ids l')) -> linked sid l = linked sid l'.
Proof.
  intros h. destruct (linked sid l) eqn:E.
  - symmetry. apply linked_iff, h, linked_iff, E.
  - symmetry. apply linked_not. rewrite <- h. apply linked_not, E.
Qed.
Lemma linked_insert_other sid k l : sid <> k_id k -> linked sid (q_insert k l) = linked sid l.
Proof. intros n. apply linked_ext. rewrite ids_q_insert. tauto. Qed.
Lemma linked_insert_same k l : linked (k_id k) (q_insert k l) = true.
Proof. apply linked_iff, ids_q_insert. auto. Qed.
Lemma linked_ins_other sid k l : sid <> k_id k -> linked sid (q_ins k l) = linked sid l.
Proof. intros n. apply linked_ext. rewrite ids_q_ins. tauto. Qed.
Lemma linked_ins_same k l : linked (k_id k) (q_ins k l) = true.
Proof. apply linked_iff, ids_q_ins. auto. Qed.
Lemma linked_remove_other sid s l : sid <> s -> linked sid (q_remove s l) = linked sid l.
Proof. intros n. apply linked_ext. rewrite ids_q_remove. tauto. Qed.
Lemma linked_remove_same sid l : linked sid (q_remove sid l) = false.
Proof. apply linked_not. rewrite ids_q_remove. tauto. Qed.
Lemma linked_update sid k l : linked sid (q_update k l) = linked sid l.
Proof. apply linked_ext, ids_q_update. Qed.

Lemma nodup_q_ins k l : NoDup (ids l) -> ~ In (k_id k) (ids l) -> NoDup (ids (q_ins k l)).
Proof.
  induction l as [|x l IH]; intros hn hk.
  - constructor; [intros []|constructor].
  - inversion hn as [|? ? h1 h2]; subst. unfold ids in *. cbn [q_ins map] in *. destruct (key_lt k x).
    + cbn [map]. constructor; auto.
    + cbn [map]. constructor.
      * fold (ids (q_ins k l)). rewrite ids_q_ins. intros [q|q]; [|auto].
        apply hk. left. auto.
      * apply IH; auto. intros q. apply hk. right. auto.
Qed.
Lemma nodup_q_remove sid l : NoDup (ids l) -> NoDup (ids (q_remove sid l)).
Proof.
  induction l as [|x l IH]; intros hn; [constructor|]. unfold ids in *. cbn [map] in hn.
  inversion hn as [|? ? h1 h2]; subst. cbn [q_remove filter]. fold (q_remove sid l).
  destruct (negb (k_id x =? sid)); [|auto]. cbn [map]. constructor; auto.
  fold (ids (q_remove sid l)). rewrite ids_q_remove. intros (q & _). auto.
Qed.
Lemma nodup_q_insert k l : NoDup (ids l) -> NoDup (ids (q_insert k l)).
Proof.
  intros h. unfold q_insert. destruct (linked (k_id k) l) eqn:E; auto.
  apply nodup_q_ins; auto. apply linked_not; auto.
Qed.
Lemma nodup_q_update k l : NoDup (ids l) -> NoDup (ids (q_update k l)).
Proof.
  intros h. unfold q_update. destruct (linked (k_id k) l) eqn:E; auto.
  apply nodup_q_ins; [apply nodup_q_remove; auto|]. rewrite ids_q_remove. tauto.
Qed.

(** ** Entries *)
Definition ent (sid : Z) (c : conn) : option (stream * bool) := aget sid (c_streams c).

Lemma get_ent sid c s : cn_get sid c = Some s <-> ent sid c = Some (s, false).
Proof.
  unfold cn_get, ent. destruct (aget sid (c_streams c)) as [[x [|]]|]; split; intros h; try discriminate; congruence.
Qed.
Lemma get_none sid c : cn_get sid c = None <-> forall s, ent sid c <> Some (s, false).
Proof.
  unfold cn_get, ent. destruct (aget sid (c_streams c)) as [[x [|]]|]; split; intros h; try discriminate; try congruence.
  destruct (h x). reflexivity.
Qed.
Lemma collected_ent sid c : collected sid c = true <-> exists s, ent sid c = Some (s, true).
Proof.
  unfold collected, ent. destruct (aget sid (c_streams c)) as [[x [|]]|]; split; intros h; try discriminate; eauto;
    destruct h; discriminate.
Qed.

(** Projections of updated records. *)
Ltac cn :=
  cbn [set_c_streams set_c_bidi set_c_uni set_c_rq set_c_wq set_c_fq set_c_almost set_c_blocked
       set_c_reset set_c_stopped set_c_txbuf set_c_rx set_c_fc set_c_maxdata set_c_max_tx set_c_tx
       set_c_txcap set_c_blk set_c_sent
       c_streams c_bidi c_uni c_rq c_wq c_fq c_almost c_blocked c_reset c_stopped c_txbuf c_rx c_fc
       c_maxdata c_max_tx c_tx c_txcap c_blk c_sent
       set_l_peer_max set_l_local_opened set_l_local_max set_l_local_next set_l_initial
       set_l_peer_opened set_l_should set_l_blk_at set_l_blk_sent
       l_peer_max l_local_opened l_local_max l_local_next l_initial l_peer_opened l_should
       l_blk_at l_blk_sent
       set_recv set_send set_lowat set_key st_recv st_send st_lowat st_bidi st_local st_key
       cn_put add_txbuf sub_txbuf log].
Ltac cn_in h :=
  cbn [set_c_streams set_c_bidi set_c_uni set_c_rq set_c_wq set_c_fq set_c_almost set_c_blocked
       set_c_reset set_c_stopped set_c_txbuf set_c_rx set_c_fc set_c_maxdata set_c_max_tx set_c_tx
       set_c_txcap set_c_blk set_c_sent
       c_streams c_bidi c_uni c_rq c_wq c_fq c_almost c_blocked c_reset c_stopped c_txbuf c_rx c_fc
       c_maxdata c_max_tx c_tx c_txcap c_blk c_sent
       set_l_peer_max set_l_local_opened set_l_local_max set_l_local_next set_l_initial
       set_l_peer_opened set_l_should set_l_blk_at set_l_blk_sent
       l_peer_max l_local_opened l_local_max l_local_next l_initial l_peer_opened l_should
       l_blk_at l_blk_sent
       set_recv set_send set_lowat set_key st_recv st_send st_lowat st_bidi st_local st_key
       cn_put add_txbuf sub_txbuf log] in h.

Section P.
Variable P : params.

(** A new stream. *)
Definition fresh (sid : Z) : stream :=
  let l := is_local sid (p_server P) in
  let '(rx, tx) := new_limits P l (is_bidi sid) in
  st_new sid rx tx l rx (p_max_window P).

(** The counters once [sid] is open. *)
Definition opened (sid : Z) (l : lim) : lim :=
  if is_local sid (p_server P)
  then set_l_local_opened (Z.max (l_local_opened l) (Z.shiftr sid 2 + 1)) l
  else set_l_peer_opened (Z.max (l_peer_opened l) (Z.shiftr sid 2 + 1)) l.

Definition within (sid : Z) (l : lim) : Prop :=
  if is_local sid (p_server P)
  then Z.max (l_local_opened l) (Z.shiftr sid 2 + 1) <= l_peer_max l
  else Z.max (l_peer_opened l) (Z.shiftr sid 2 + 1) <= l_local_max l.

Definition create (sid : Z) (c : conn) : conn :=
  let c := cn_put sid (fresh sid) (set_kind (is_bidi sid) (opened sid (kind sid c)) c) in
  if st_writable (fresh sid) then set_c_wq (q_ins (st_key (fresh sid)) (c_wq c)) c else c.

Lemma goc_ok sid local c s c1 : cn_get_or_create P sid local c = Ok (s, c1) ->
  (ent sid c = Some (s, false) /\ c1 = c) \/
  (ent sid c = None /\ local = is_local sid (p_server P) /\ within sid (kind sid c) /\
   s = fresh sid /\ c1 = create sid c).
Proof.
  unfold cn_get_or_create, ent, fresh, create, opened, within, fresh.
  destruct (aget sid (c_streams c)) as [[x [|]]|] eqn:E; intros h; try discriminate.
  { left. injection h as -> ->. auto. }
  right. destruct (Bool.eqb local (is_local sid (p_server P))) eqn:El; [|discriminate].
  apply Bool.eqb_prop in El. subst local. cbn [negb] in h.
  destruct (new_limits P (is_local sid (p_server P)) (is_bidi sid)) as [rx tx] eqn:En.
  destruct (is_local sid (p_server P)) eqn:Eloc.
  - destruct (l_peer_max (kind sid c) <? Z.max (l_local_opened (kind sid c)) (Z.shiftr sid 2 + 1)) eqn:El;
      cbn [bind] in h; [discriminate|]. injection h as <- <-. ands; auto. lia.
  - destruct (l_local_max (kind sid c) <? Z.max (l_peer_opened (kind sid c)) (Z.shiftr sid 2 + 1)) eqn:El;
      cbn [bind] in h; [discriminate|]. injection h as <- <-. ands; auto. lia.
Qed.

Lemma goc_err sid local c e : cn_get_or_create P sid local c = Err e ->
  (e = Done /\ exists s, ent sid c = Some (s, true)) \/
  (e = InvalidStreamState sid /\ ent sid c = None /\ local <> is_local sid (p_server P)) \/
  (e = StreamLimit /\ ent sid c = None /\ local = is_local sid (p_server P) /\ ~ within sid (kind sid c)).
Proof.
  unfold cn_get_or_create, ent, within.
  destruct (aget sid (c_streams c)) as [[x [|]]|] eqn:E; intros h; try discriminate.
  { left. split; [congruence|eauto]. }
  right. destruct (Bool.eqb local (is_local sid (p_server P))) eqn:El; cbn [negb] in h.
  2:{ left. apply Bool.eqb_false_iff in El. ands; auto. congruence. }
  right. apply Bool.eqb_prop in El. subst local.
  destruct (new_limits P (is_local sid (p_server P)) (is_bidi sid)) as [rx tx].
  destruct (is_local sid (p_server P)) eqn:Eloc.
  - destruct (l_peer_max (kind sid c) <? Z.max (l_local_opened (kind sid c)) (Z.shiftr sid 2 + 1)) eqn:El;
      cbn [bind] in h; [|discriminate]. ands; auto; [congruence|lia].
  - destruct (l_local_max (kind sid c) <? Z.max (l_peer_opened (kind sid c)) (Z.shiftr sid 2 + 1)) eqn:El;
      cbn [bind] in h; [|discriminate]. ands; auto; [congruence|lia].
Qed.

Lemma goc_panic sid local c : cn_get_or_create P sid local c <> Panic.
Proof.
  unfold cn_get_or_create. destruct (aget sid (c_streams c)) as [[x [|]]|]; try discriminate.
  destr_if; try discriminate. destruct (new_limits _ _ _).
  destruct (is_local sid (p_server P)); destr_if; cbn [bind]; discriminate.
Qed.
End P.

(** Splits a step into its paths. *)
Ltac dm h :=
  repeat match type of h with
  | context [match ?x with _ => _ end] =>
      lazymatch x with context [match _ with _ => _ end] => fail | _ => idtac end;
      destruct x eqn:?; try discriminate h
  end.
