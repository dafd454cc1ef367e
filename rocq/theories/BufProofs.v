(** Buffers with room at the front. *)
Require Import Verif.Base Verif.BufModel Verif.BufSpec.

Definition v_ok (v : rvec) : Prop := 0 <= v_len v <= zlen (v_mem v).

Lemma zlen_take_ {A} n (l : list A) : 0 <= n <= zlen l -> zlen (take n l) = n.
Proof. unfold zlen, take. intros. rewrite firstn_length. lia. Qed.
Lemma zlen_drop_ {A} n (l : list A) : 0 <= n <= zlen l -> zlen (drop n l) = zlen l - n.
Proof. unfold zlen, drop. intros. rewrite skipn_length. lia. Qed.
Lemma zlen_zeros n : 0 <= n -> zlen (zeros n) = n.
Proof. unfold zlen, zeros. intros. rewrite repeat_length. lia. Qed.
Lemma v_bytes_len v : v_ok v -> zlen (v_bytes v) = v_len v.
Proof. intros h. apply zlen_take_. exact h. Qed.
Lemma take_app_l {A} n (a b : list A) : n = zlen a -> take n (a ++ b) = a.
Proof. intros ->. unfold take, zlen. rewrite Nat2Z.id, firstn_app, Nat.sub_diag, firstn_all. cbn. apply app_nil_r. Qed.
Lemma drop_app_l {A} n (a b : list A) : n = zlen a -> drop n (a ++ b) = b.
Proof. intros ->. unfold drop, zlen. rewrite Nat2Z.id, skipn_app, Nat.sub_diag, skipn_all. reflexivity. Qed.
Lemma drop_take {A} a n (l : list A) : 0 <= a <= n -> drop a (take n l) = take (n - a) (drop a l).
Proof. intros h. unfold drop, take. rewrite skipn_firstn_comm. f_equal. lia. Qed.
Lemma take_take_ {A} a n (l : list A) : a <= n -> take a (take n l) = take a l.
Proof. intros h. unfold take. rewrite firstn_firstn. f_equal. lia. Qed.
Lemma drop_drop_ {A} a b (l : list A) : 0 <= a -> 0 <= b -> drop a (drop b l) = drop (a + b) l.
Proof.
  intros h1 h2. unfold drop. replace (Z.to_nat (a + b)) with (Z.to_nat b + Z.to_nat a)%nat by lia. generalize (Z.to_nat a). intros n.
  revert l. induction (Z.to_nat b) as [|k IH]; intros l; [reflexivity|]. destruct l; cbn; [rewrite skipn_nil; reflexivity|apply IH].
Qed.
Lemma split_at {A} n (l : list A) : l = take n l ++ drop n l.
Proof. symmetry. apply firstn_skipn. Qed.
Lemma drop_app_ge {A} n (a b : list A) : 0 <= n <= zlen a -> drop n (a ++ b) = drop n a ++ b.
Proof. intros h. unfold drop, zlen in *. rewrite skipn_app. replace (Z.to_nat n - length a)%nat with O by lia. reflexivity. Qed.
Lemma take_all_ {A} n (l : list A) : zlen l <= n -> take n l = l.
Proof. intros h. unfold take, zlen in *. apply firstn_all2. lia. Qed.

(** Overwriting inside the readable part. *)
Lemma write_mem off l v : v_ok v -> 0 <= off -> off + zlen l <= v_len v ->
  v_ok (v_write off l v) /\ v_bytes (v_write off l v) = take off (v_bytes v) ++ l ++ drop (off + zlen l) (v_bytes v).
Proof.
  intros h h1 h2. unfold v_ok in h. pose proof (zlen_nonneg l).
  assert (e : zlen (take off (v_mem v) ++ l ++ drop (off + zlen l) (v_mem v)) = zlen (v_mem v)).
  { rewrite !zlen_app, zlen_take_, zlen_drop_ by lia. lia. }
  split; [unfold v_ok, v_write; cbn; rewrite e; lia|].
  unfold v_bytes, v_write. cbn [v_mem v_len]. rewrite take_take_ by lia. rewrite drop_take by lia.
  rewrite (split_at (v_len v - (off + zlen l)) (drop (off + zlen l) (v_mem v))) at 1. rewrite !app_assoc. rewrite take_app_l; auto.
  rewrite !zlen_app, !zlen_take_; try lia. rewrite zlen_drop_; lia.
Qed.
Lemma extend_mem l v : v_ok v -> v_ok (v_extend l v) /\ v_bytes (v_extend l v) = v_bytes v ++ l.
Proof.
  intros h. pose proof (v_bytes_len v h) as hb. pose proof (zlen_nonneg l). unfold v_ok in h. unfold v_ok, v_extend, v_bytes in *. cbn [v_mem v_len].
  rewrite !zlen_app, hb. split; [pose proof (zlen_nonneg (drop (v_len v + zlen l) (v_mem v))); lia|].
  rewrite app_assoc. apply take_app_l. rewrite zlen_app. lia.
Qed.
Lemma truncate_mem n v : v_ok v -> 0 <= n -> v_ok (v_truncate n v) /\ v_bytes (v_truncate n v) = take n (v_bytes v) /\ v_len (v_truncate n v) = Z.min n (v_len v).
Proof.
  intros h hn. pose proof (v_bytes_len v h) as hb. unfold v_ok, v_truncate in *. destruct (n <? v_len v) eqn:E; cbn [v_mem v_len v_bytes]; unfold v_bytes in *; cbn [v_mem v_len].
  - repeat split; try lia. rewrite take_take_ by lia. reflexivity.
  - repeat split; try lia. symmetry. apply take_all_. lia.
Qed.
Lemma of_mem l : v_ok (v_of l) /\ v_bytes (v_of l) = l.
Proof. unfold v_ok, v_of, v_bytes. cbn. pose proof (zlen_nonneg l). split; [lia|]. apply take_all_. lia. Qed.

(** ** The common part: room and bytes *)
Definition room_ok (v : rvec) (h : Z) : Prop := v_ok v /\ 0 <= h <= v_len v.

Lemma prefix_view v h p : room_ok v h -> zlen p <= h ->
  room_ok (v_write (h - zlen p) p v) (h - zlen p) /\
  drop (h - zlen p) (v_bytes (v_write (h - zlen p) p v)) = p ++ drop h (v_bytes v).
Proof.
  intros (hv & hh) hp. pose proof (zlen_nonneg p). destruct (write_mem (h - zlen p) p v hv ltac:(lia) ltac:(lia)) as (k1 & k2).
  split; [split; auto; cbn; lia|]. rewrite k2. rewrite drop_app_l; [|rewrite zlen_take_; [lia|rewrite v_bytes_len; auto; lia]].
  f_equal. f_equal. lia.
Qed.
Lemma write_view v h off l : room_ok v h -> 0 <= off -> off + zlen l <= v_len v - h ->
  room_ok (v_write (h + off) l v) h /\
  drop h (v_bytes (v_write (h + off) l v)) = take off (drop h (v_bytes v)) ++ l ++ drop (off + zlen l) (drop h (v_bytes v)).
Proof.
  intros (hv & hh) h1 h2. pose proof (zlen_nonneg l). destruct (write_mem (h + off) l v hv ltac:(lia) ltac:(lia)) as (k1 & k2).
  split; [split; auto; cbn; lia|]. rewrite k2. pose proof (v_bytes_len v hv).
  rewrite drop_app_ge by (rewrite zlen_take_; lia). rewrite drop_take by lia. rewrite drop_drop_ by lia.
  f_equal; [f_equal; lia|]. f_equal. f_equal. lia.
Qed.
Lemma extend_view v h l : room_ok v h -> room_ok (v_extend l v) h /\ drop h (v_bytes (v_extend l v)) = drop h (v_bytes v) ++ l.
Proof.
  intros (hv & hh). destruct (extend_mem l v hv) as (k1 & k2). pose proof (zlen_nonneg l). split; [split; auto; cbn; lia|].
  rewrite k2. apply drop_app_ge. rewrite v_bytes_len; auto.
Qed.
Lemma truncate_view v h n : room_ok v h -> 0 <= n -> room_ok (v_truncate (h + n) v) h /\ drop h (v_bytes (v_truncate (h + n) v)) = take n (drop h (v_bytes v)).
Proof.
  intros (hv & hh) hn. destruct (truncate_mem (h + n) v hv ltac:(lia)) as (k1 & k2 & k3). split; [split; auto; lia|].
  rewrite k2, drop_take by lia. f_equal. lia.
Qed.
Lemma advance_view v h n : room_ok v h -> 0 <= n -> h + n <= v_len v -> room_ok v (h + n) /\ drop (h + n) (v_bytes v) = drop n (drop h (v_bytes v)).
Proof. intros (hv & hh) h1 h2. split; [split; auto; lia|]. rewrite drop_drop_ by lia. f_equal. lia. Qed.
Lemma room_len v h : room_ok v h -> zlen (drop h (v_bytes v)) = v_len v - h.
Proof. intros (hv & hh). pose proof (v_bytes_len v hv). rewrite zlen_drop_; lia. Qed.

(** ** DgramBuffer *)
Definition db_ok (b : dbuf) : Prop := room_ok (db_data b) (db_start b).
Lemma db_view b : db_ok b -> exists l, db_shows b (mkView (db_start b) l) /\ zlen l = v_len (db_data b) - db_start b /\ l = drop (db_start b) (v_bytes (db_data b)).
Proof.
  intros h. exists (drop (db_start b) (v_bytes (db_data b))). split; [|split; [apply room_len; exact h|reflexivity]].
  split; [reflexivity|]. unfold db_read. destruct h as (h1 & h2). replace (_ <? _) with false by lia. reflexivity.
Qed.
Lemma db_shows_inv b w : db_ok b -> db_shows b w -> w = mkView (db_start b) (drop (db_start b) (v_bytes (db_data b))).
Proof.
  intros (h1 & h2) (k1 & k2). unfold db_read in k2. replace (_ <? _) with false in k2 by lia. injection k2 as k2. destruct w as [r l]. cbn in *. congruence.
Qed.
Lemma db_shows_mk v h : room_ok v h -> db_shows (mkDb v h) (mkView h (drop h (v_bytes v))).
Proof. intros hr. destruct (db_view (mkDb v h) hr) as (l & k & _ & ->). exact k. Qed.

Lemma db_step_view op b w : db_ok b -> db_shows b w -> db_op_ok op -> db_small op w ->
  match db_does op w with
  | None => db_step op b = Panic
  | Some (o, w') => exists b', db_step op b = Ok (o, b') /\ db_ok b' /\ db_shows b' w'
  end.
Proof.
  intros h hs hop hsm. rewrite (db_shows_inv b w h hs) in *. clear hs w. pose proof (room_len _ _ h) as hl. pose proof h as (hv & hh).
  destruct b as [v r]. unfold db_ok in *. cbn [db_data db_start] in *.
  destruct op as [n|n|p|n| |l|off l]; cbn [db_does db_step db_op_ok db_small vw_room db_data db_start] in *.
  - destruct (truncate_view v r n h hop) as (k1 & k2). replace (u64_max <? r + n) with false by lia. eexists. split; [reflexivity|]. split; [exact k1|]. rewrite <- k2. apply db_shows_mk. exact k1.
  - destruct (n <=? _) eqn:E.
    + destruct (advance_view v r n h hop ltac:(lia)) as (k1 & k2). replace ((u64_max <? r + n) || (v_len v <? r + n)) with false by lia.
      eexists. split; [reflexivity|]. split; [exact k1|]. rewrite <- k2. apply db_shows_mk. exact k1.
    + replace ((u64_max <? r + n) || (v_len v <? r + n)) with true by lia. reflexivity.
  - destruct (zlen p <=? r) eqn:E.
    + destruct (prefix_view v r p h ltac:(lia)) as (k1 & k2). replace (r <? zlen p) with false by lia. replace (v_len v <? r) with false by lia.
      eexists. split; [reflexivity|]. split; [exact k1|]. rewrite <- k2. apply db_shows_mk. exact k1.
    + replace (r <? zlen p) with true by lia. eexists. split; [reflexivity|]. split; [exact h|]. apply db_shows_mk. exact h.
  - destruct (n <=? r) eqn:E.
    + replace (Z.max r n) with r by lia. eexists. split; [reflexivity|]. split; [exact h|]. apply db_shows_mk. exact h.
    + replace (v_len v <? r) with false by lia. replace (Z.max r n) with n by lia.
      destruct (of_mem (zeros n ++ drop r (v_bytes v))) as (k1 & k2). pose proof (zlen_zeros n hop) as hz.
      assert (k3 : room_ok (v_of (zeros n ++ drop r (v_bytes v))) n).
      { split; auto. cbn. rewrite zlen_app, hz. pose proof (zlen_nonneg (drop r (v_bytes v))). lia. }
      eexists. split; [reflexivity|]. split; [exact k3|]. replace (drop r (v_bytes v)) with (drop n (v_bytes (v_of (zeros n ++ drop r (v_bytes v))))) at 2; [apply db_shows_mk; exact k3|].
      rewrite k2. apply drop_app_l. auto.
  - assert (k3 : room_ok (v_clear v) 0) by (unfold room_ok, v_ok, v_clear in *; cbn; lia).
    eexists. split; [reflexivity|]. split; [exact k3|]. exact (db_shows_mk _ _ k3).
  - destruct (extend_view v r l h) as (k1 & k2). eexists. split; [reflexivity|]. split; [exact k1|]. rewrite <- k2. apply db_shows_mk. exact k1.
  - destruct ((0 <=? off) && _) eqn:E.
    + destruct (write_view v r off l h ltac:(lia) ltac:(lia)) as (k1 & k2). replace ((v_len v <? r) || (v_len v - r <? off + zlen l) || (off <? 0)) with false by lia.
      eexists. split; [reflexivity|]. split; [exact k1|]. rewrite <- k2. apply db_shows_mk. exact k1.
    + replace ((v_len v <? r) || (v_len v - r <? off + zlen l) || (off <? 0)) with true by lia. reflexivity.
Qed.

Lemma db_made_ok b : db_made b -> db_ok b.
Proof.
  induction 1 as [|l|c h b h0 e|l h b h0 e|b op o b' _ IH hop e].
  - unfold db_ok, room_ok, v_ok. cbn. lia.
  - destruct (of_mem l) as (k & _). split; [exact k|]. cbn. pose proof (zlen_nonneg l). lia.
  - unfold db_with_headroom in e. destruct (c <? h) eqn:E; [discriminate|]. injection e as <-. unfold db_ok, room_ok, v_ok. cbn. rewrite zlen_zeros by lia. lia.
  - unfold db_from_vec in e. destruct (zlen l <? h) eqn:E; [discriminate|]. injection e as <-. destruct (of_mem l) as (k & _). split; [exact k|]. cbn. lia.
  - destruct (db_view b IH) as (l & hs & _ & _).
    assert (d : db_small op (mkView (db_start b) l) \/ ~ db_small op (mkView (db_start b) l)) by (destruct op; cbn; auto; lia).
    destruct d as [d|d].
    + pose proof (db_step_view op b _ IH hs hop d) as q. destruct (db_does op _) as [[o' w']|]; [|congruence]. destruct q as (b2 & e2 & k & _). congruence.
    + destruct op; cbn [db_small vw_room] in d; try (exfalso; tauto); cbn [db_step] in e.
      * replace (u64_max <? db_start b + n) with true in e by lia. discriminate.
      * replace (u64_max <? db_start b + n) with true in e by lia. discriminate.
Qed.

(** ** ConsumeBuffer *)
Definition cb_ok (b : cbuf) : Prop := room_ok (cb_inner b) (cb_head b).
Lemma cb_shows_inv b w : cb_ok b -> cb_shows b w -> w = mkView (cb_head b) (drop (cb_head b) (v_bytes (cb_inner b))).
Proof.
  intros (h1 & h2) (k1 & k2). unfold cb_read in k2. replace (_ <? _) with false in k2 by lia. injection k2 as k2. destruct w as [r l]. cbn in *. congruence.
Qed.
Lemma cb_shows_mk v h : room_ok v h -> cb_shows (mkCb v h) (mkView h (drop h (v_bytes v))).
Proof. intros (h1 & h2). split; [reflexivity|]. unfold cb_read. cbn. replace (_ <? _) with false by lia. reflexivity. Qed.

Lemma cb_step_view op b w : cb_ok b -> cb_shows b w -> cb_op_ok op -> cb_small op w ->
  exists o, cb_does op w o /\
  match o with
  | None => cb_step op b = Panic
  | Some (o, w') => exists b', cb_step op b = Ok (o, b') /\ cb_ok b' /\ cb_shows b' w'
  end.
Proof.
  intros h hs hop hsm. rewrite (cb_shows_inv b w h hs) in *. clear hs w. pose proof (room_len _ _ h) as hl. pose proof h as (hv & hh).
  destruct b as [v r]. unfold cb_ok in *. cbn [cb_inner cb_head] in *.
  destruct op as [n|n|n|p|l|off l]; cbn [cb_does cb_step cb_op_ok cb_small vw_room cb_inner cb_head] in *.
  - eexists. split; [reflexivity|]. destruct (n <=? _) eqn:E.
    + destruct (advance_view v r n h hop ltac:(lia)) as (k1 & k2). replace ((u64_max <? r + n) || (v_len v <? r + n)) with false by lia.
      eexists. split; [reflexivity|]. split; [exact k1|]. rewrite <- k2. apply cb_shows_mk. exact k1.
    + replace ((u64_max <? r + n) || (v_len v <? r + n)) with true by lia. reflexivity.
  - set (v' := v_set_len n (v_reserve_exact n v)).
    assert (hc : zlen (v_mem v') = Z.max (zlen (v_mem v)) (v_len v + n)).
    { unfold v', v_set_len, v_reserve_exact, v_cap. cbn [v_mem]. rewrite zlen_app. unfold v_ok in hv.
      destruct (Z_le_dec 0 (v_len v + n - zlen (v_mem v))); [rewrite zlen_zeros by lia; lia|].
      unfold zeros. replace (Z.to_nat _) with O by lia. cbn. lia. }
    assert (k1 : room_ok v' r). { unfold room_ok, v_ok in *. rewrite hc. unfold v', v_set_len. cbn [v_len]. lia. }
    pose proof (room_len _ _ k1) as k2. change (v_len v') with n in k2.
    assert (k3 : exists rest, drop r (v_bytes v') = take (n - r) (drop r (v_bytes v)) ++ rest).
    { unfold v_bytes. change (v_len v') with n. rewrite !drop_take by lia. unfold v', v_set_len, v_reserve_exact. cbn [v_mem v_len].
      unfold v_ok in hv. rewrite drop_app_ge by lia. set (m := drop r (v_mem v)). set (zz := zeros _).
      exists (drop (zlen (take (n - r) (take (v_len v - r) m))) (take (n - r) (m ++ zz))).
      assert (e : take (n - r) (take (v_len v - r) m) = take (zlen (take (n - r) (take (v_len v - r) m))) (take (n - r) (m ++ zz))).
      { unfold take, zlen. rewrite !firstn_length, !firstn_firstn, firstn_app.
        assert (length m = Z.to_nat (zlen m)) by (unfold zlen; lia). assert (zlen m = zlen (v_mem v) - r) by (apply zlen_drop_; lia).
        match goal with |- context [firstn ?k zz] => replace (firstn k zz) with (@nil Z) by (replace k with O by lia; reflexivity) end.
        rewrite app_nil_r. f_equal. lia. }
      rewrite e at 1. apply split_at. }
    destruct k3 as (rest & k3). eexists. split; [exists rest; split; [reflexivity|]; rewrite <- k3; exact k2|].
    eexists. split; [reflexivity|]. split; [exact k1|]. rewrite <- k3. apply cb_shows_mk. exact k1.
  - eexists. split; [reflexivity|]. destruct (truncate_view v r n h hop) as (k1 & k2). replace (u64_max <? r + n) with false by lia. eexists. split; [reflexivity|]. split; [exact k1|]. rewrite <- k2. apply cb_shows_mk. exact k1.
  - eexists. split; [reflexivity|]. destruct (zlen p <=? r) eqn:E.
    + destruct (prefix_view v r p h ltac:(lia)) as (k1 & k2). replace (r <? zlen p) with false by lia. replace (v_len v <? r) with false by lia.
      eexists. split; [reflexivity|]. split; [exact k1|]. rewrite <- k2. apply cb_shows_mk. exact k1.
    + replace (r <? zlen p) with true by lia. eexists. split; [reflexivity|]. split; [exact h|]. apply cb_shows_mk. exact h.
  - eexists. split; [reflexivity|]. destruct (extend_view v r l h) as (k1 & k2). eexists. split; [reflexivity|]. split; [exact k1|]. rewrite <- k2. apply cb_shows_mk. exact k1.
  - eexists. split; [reflexivity|]. destruct ((0 <=? off) && _) eqn:E.
    + destruct (write_view v r off l h ltac:(lia) ltac:(lia)) as (k1 & k2). replace ((v_len v <? r) || (v_len v - r <? off + zlen l) || (off <? 0)) with false by lia.
      eexists. split; [reflexivity|]. split; [exact k1|]. rewrite <- k2. apply cb_shows_mk. exact k1.
    + replace ((v_len v <? r) || (v_len v - r <? off + zlen l) || (off <? 0)) with true by lia. reflexivity.
Qed.

Lemma reuse_ok t b : cb_ok b -> 0 <= t -> cb_ok (snd (cb_reuse t b)) /\ cb_shows (snd (cb_reuse t b)) (mkView 0 []) /\
  v_cap (cb_inner (snd (cb_reuse t b))) = Z.min t (v_cap (cb_inner b)).
Proof.
  intros (hv & hh) ht. unfold v_ok in hv. unfold cb_reuse. cbn [snd].
  assert (e : zlen (v_mem (v_shrink_to t (v_clear (cb_inner b)))) = Z.min t (zlen (v_mem (cb_inner b)))).
  { unfold v_shrink_to, v_clear. cbn [v_mem v_len]. unfold take, zlen. rewrite firstn_length. unfold zlen in hv. lia. }
  assert (k : room_ok (v_shrink_to t (v_clear (cb_inner b))) 0). { unfold room_ok, v_ok. rewrite e. unfold v_shrink_to, v_clear. cbn [v_len]. lia. }
  split; [exact k|]. split; [|exact e]. apply (cb_shows_mk _ _ k).
Qed.

Lemma cb_made_ok b : cb_made b -> cb_ok b.
Proof.
  induction 1 as [|l|t b _ IH ht|b op o b' _ IH hop hex e].
  - unfold cb_ok, room_ok, v_ok. cbn. lia.
  - destruct (of_mem l) as (k & _). split; [exact k|]. cbn. pose proof (zlen_nonneg l). lia.
  - apply reuse_ok; auto.
  - set (w := mkView (cb_head b) (drop (cb_head b) (v_bytes (cb_inner b)))).
    assert (hs : cb_shows b w) by (destruct b; apply (cb_shows_mk _ _ IH)).
    assert (d : cb_small op w \/ ~ cb_small op w) by (destruct op; cbn; auto; lia).
    destruct d as [d|d].
    + destruct (cb_step_view op b _ IH hs hop d) as (r & _ & q). destruct r as [[o' w']|]; [|congruence]. destruct q as (b2 & e2 & k & _). congruence.
    + destruct op; cbn [cb_small vw_room w] in d; try (exfalso; tauto); cbn [cb_step] in e.
      * replace (u64_max <? cb_head b + n) with true in e by lia. discriminate.
      * exfalso. apply d. apply hex. reflexivity.
      * replace (u64_max <? cb_head b + n) with true in e by lia. discriminate.
Qed.
