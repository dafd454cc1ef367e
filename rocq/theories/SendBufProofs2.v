(** Acknowledgement, loss and writes on the send buffer. *)
Require Import Verif.Base Verif.Errors Verif.RangesModel Verif.RangesProofs Verif.RangeBufModel
  Verif.RangeBufProofs Verif.SendBufModel Verif.SendBufProofs.

(** ** The set of acknowledged offsets *)
Definition ends_below (n : Z) (r : rangeset) : Prop :=
  Forall (fun p => snd p <= n) (rs_ranges r).

Lemma wf_len lo l n : wf lo l -> Forall (fun p => snd p <= n) l -> lo <= n ->
  zlen l <= n - lo.
Proof.
  revert lo; induction l as [|[s e] tl IH]; intros lo h f hl.
  - rewrite zlen_nil. lia.
  - cbn [wf] in h. destruct h as (h1 & h2 & h3). inversion f as [|? ? f1 f2]; subst. cbn in f1.
    rewrite zlen_cons. specialize (IH e h3 f2 f1). lia.
Qed.

Lemma uins_ends s e l n : Forall (fun p => snd p <= n) l -> e <= n ->
  Forall (fun p => snd p <= n) (uins s e l).
Proof.
  revert s e; induction l as [|[a b] tl IH]; intros s e f h; cbn [uins].
  - auto.
  - inversion f as [|? ? f1 f2]; subst. cbn in f1. repeat destr_if; auto.
    apply IH; auto. lia.
Qed.

Lemma rs_ack r s e n :
  rs_inv r -> rs_cap r = usize_max -> ends_below n r -> 0 <= s -> s <= e -> e <= n -> n <= max_varint ->
  exists r', rs_insert (s, e) r = Ok r' /\ rs_inv r' /\ rs_cap r' = usize_max /\ ends_below n r' /\
    rs_ranges r' = uins s e (rs_ranges r) /\
    (forall x, covers (rs_ranges r') x <-> s <= x < e \/ covers (rs_ranges r) x).
Proof.
  intros hi hc he h1 h2 h3 h4.
  destruct (rs_insert_spec r s e hi h1 h2) as (r' & g1 & g2 & g3 & g4).
  pose proof hi as (w & _).
  assert (wu : wf (-1) (uins s e (rs_ranges r))) by (apply uins_wf; auto; lia).
  assert (eu : Forall (fun p => snd p <= n) (uins s e (rs_ranges r))) by (apply uins_ends; auto).
  pose proof (wf_len (-1) _ n wu eu ltac:(lia)) as hl.
  replace (zlen (uins s e (rs_ranges r)) <=? rs_cap r) with true in g4
    by (rewrite hc; unfold usize_max, max_varint in *; lia).
  exists r'. rewrite g3. repeat split; auto; try apply g2.
  - unfold ends_below. rewrite g4. auto.
  - rewrite g4. apply (uins_covers (-1)); auto.
  - rewrite g4. apply (uins_covers (-1)); auto.
Qed.

(** The end of the initial run of acknowledged offsets. *)
Definition ack_end (r : rangeset) : Z :=
  match rs_ranges r with
  | (a, e) :: _ => if a =? 0 then e else 0
  | [] => 0
  end.

Lemma ack_end_covers r x : rs_inv r -> 0 <= x < ack_end r -> covers (rs_ranges r) x.
Proof.
  intros (w & _). unfold ack_end. destruct (rs_ranges r) as [|[a e] l]; [lia|].
  destruct (Z.eqb_spec a 0); [|lia]. intros h. exists a, e. cbn. split; [auto|lia].
Qed.

Lemma ack_end_bound r n : rs_inv r -> ends_below n r -> 0 <= n -> 0 <= ack_end r <= n.
Proof.
  intros (w & _) h hn. unfold ack_end, ends_below in *. destruct (rs_ranges r) as [|[a e] l]; [lia|].
  cbn [wf] in w. inversion h as [|? ? h1 h2]; subst. cbn in h1. destr_if; lia.
Qed.

(** The set is one range [0..f) exactly when everything below [f] is in it. *)
Lemma eq_range_iff r f : rs_inv r -> ends_below f r -> 0 < f ->
  (rs_eq_range r (0, f) = true <-> forall x, 0 <= x < f -> covers (rs_ranges r) x).
Proof.
  intros (w & _) h hf. unfold rs_eq_range, ends_below in *. destruct (rs_ranges r) as [|[a e] l].
  - split; [discriminate|]. intros k. destruct (covers_nil 0 (k 0 ltac:(lia))).
  - cbn [wf] in w. destruct w as (w1 & w2 & w3). inversion h as [|? ? h1 h2]; subst. cbn in h1.
    split.
    + destruct l; [|discriminate]. cbn [fst snd]. intros k x hx. exists a, e. cbn.
      split; [auto|lia].
    + intros k.
      assert (a0 : a = 0).
      { destruct (k 0 ltac:(lia)) as (s & e' & i & j). cbn in i. destruct i as [i|i]; [inv i; lia|].
        destruct (wf_in _ _ _ _ w3 i). lia. }
      assert (e0 : e = f).
      { destruct (Z_lt_ge_dec e f) as [lt|]; [|lia].
        destruct (k e ltac:(lia)) as (s & e' & i & j). cbn in i. destruct i as [i|i]; [inv i; lia|].
        destruct (wf_in _ _ _ _ w3 i). lia. }
      destruct l as [|[s e'] l]; [cbn [fst snd]; lia|].
      cbn [wf] in w3. inversion h2 as [|? ? h3 h4]; subst. cbn in h3. lia.
Qed.

Lemma eq_range_zero r : rs_inv r -> ends_below 0 r ->
  (rs_eq_range r (0, 0) = true <-> rs_ranges r <> []).
Proof.
  intros (w & _) h. unfold rs_eq_range, ends_below in *. destruct (rs_ranges r) as [|[a e] l].
  - split; [discriminate|tauto].
  - cbn [wf] in w. destruct w as (w1 & w2 & w3). inversion h as [|? ? h1 h2]; subst. cbn in h1.
    destruct l as [|[s e'] l].
    + cbn [fst snd]. split; [discriminate|lia].
    + cbn [wf] in w3. inversion h2 as [|? ? h3 h4]; subst. cbn in h3. lia.
Qed.

(** ** Dropping acknowledged buffers *)
Lemma drop_count_spec W ack l : forall base e,
  chain W base l e -> base <= ack \/ ack <= base ->
  let k := drop_count ack l in
  (k <= length l)%nat /\
  exists m, chain W base (firstn k l) m /\ chain W m (skipn k l) e /\ base <= m /\
    (m = base \/ m <= ack).
Proof.
  induction l as [|b tl IH]; cbn [chain]; intros base e h hb; cbv zeta; cbn [drop_count].
  - split; [cbn; lia|]. exists base. cbn. repeat split; auto; lia.
  - destruct h as (h1 & h2 & h3). pose proof (buf_ok_bounds _ _ h1) as bb.
    destruct (ack <=? rb_off b) eqn:E1.
    { split; [lia|]. exists base. cbn [firstn skipn chain]. repeat split; auto; try apply h1; lia. }
    destruct ((rb_off b <? ack) && (ack <? rbM b)) eqn:E2.
    { split; [lia|]. exists base. cbn [firstn skipn chain]. repeat split; auto; try apply h1; lia. }
    destruct (IH (rbM b) e h3 ltac:(lia)) as (i1 & m & i2 & i3 & i4 & i5). cbv zeta in *.
    split; [cbn [length]; lia|]. exists m. cbn [firstn skipn chain].
    repeat split; auto; try apply h1; lia.
Qed.

Lemma firstn_skipn_pos {A} (l : list A) p k :
  firstn (p - k) (skipn k l) = skipn k (firstn p l).
Proof. symmetry. apply skipn_firstn_comm. Qed.

(** ** retransmit *)
Lemma retr_bufs_spec W off mo l : forall base e i pos,
  chain W base l e -> off <= mo ->
  all_empty (firstn (pos - i) l) -> (pos <= i + length l)%nat ->
  exists l' pos' n, retr_bufs off mo i pos l = Ok (l', pos', n) /\
    chain W base l' e /\ (pos' <= pos)%nat /\ (pos' <= i + length l')%nat /\
    all_empty (firstn (pos' - i) l') /\
    sum_len l' = sum_len l + n /\ 0 <= n /\
    (forall x, pending l' x <-> pending l x \/ (consumed l x /\ off <= x < mo)) /\
    (forall x, consumed l' x -> consumed l x).
Proof.
  induction l as [|b tl IH]; intros base e i pos hc hom he hp.
  - cbn [retr_bufs]. eexists _, _, _. split; [reflexivity|]. cbn [chain] in hc. subst.
    cbn [chain length] in *. rewrite firstn_nil. repeat split; auto; try lia.
    + constructor.
    + intros [h|(h & _)]; [auto|destruct (consumed_nil _ h)].
  - cbn [chain] in hc. destruct hc as (h1 & h2 & h3). pose proof (buf_ok_bounds _ _ h1) as bb.
    cbn [retr_bufs].
    destruct (mo <=? rb_off b) eqn:E1.
    { eexists _, _, _. split; [reflexivity|]. cbn [chain].
      repeat split; auto; try apply h1; try lia.
      intros [h|(h & hx)]; [auto|].
      exfalso. assert (base <= x < e).
      { apply (chain_cover W (b :: tl)); [cbn [chain]; auto|auto]. } lia. }
    destruct (rbM b <? off) eqn:E2.
    { cbn [length] in hp.
      assert (he' : all_empty (firstn (pos - S i) tl)).
      { destruct (pos - i)%nat as [|d] eqn:D.
        - replace (pos - S i)%nat with O by lia. constructor.
        - replace (pos - S i)%nat with d by lia. cbn [firstn] in he. inversion he; auto. }
      destruct (IH (rbM b) e (S i) pos h3 hom he' ltac:(lia))
        as (l' & pos' & n & g0 & g1 & g2 & g3 & g4 & g5 & g6 & g7 & g8).
      rewrite g0. cbn [bind]. eexists _, _, _. split; [reflexivity|].
      cbn [chain length]. rewrite !sum_len_cons. repeat split; auto; try apply h1; try lia.
      - destruct (pos' - i)%nat as [|d] eqn:D; [constructor|].
        replace (pos' - S i)%nat with d in g4 by lia. cbn [firstn]. constructor; auto.
        destruct (pos - i)%nat eqn:D2; [lia|]. cbn [firstn] in he. inversion he; auto.
      - rewrite !pending_cons, consumed_cons, g7. tauto.
      - rewrite !pending_cons, consumed_cons, g7. intros [[h|h]|([h|h] & hx)]; auto. lia.
      - intros x k. apply consumed_cons in k as [k|k]; apply consumed_cons; auto. }
    (* the buffer overlaps (or touches) the range *)
    assert (core : forall b' : rangebuf, buf_ok W b' -> rb_off b' = rb_off b ->
       rbO b' = Z.min (rbO b) (rbM b') -> off <= rbM b' \/ rbM b' = rbM b ->
       let np := if (rb_off b' <? off) && (off <=? rbM b')
                 then Z.min (rb_pos b') (rb_start b' + (off - rb_off b')) else rb_start b' in
       let b2 := mkRB (rb_data b') (rb_start b') np (rb_len b') (rb_off b') (rb_fin b') in
       buf_ok W b2 /\ rb_off b2 = rb_off b /\ rbM b2 = rbM b' /\
       0 <= rb_pos b' - np /\ rbL b2 = rbL b' + (rb_pos b' - np) /\
       rbO b2 = Z.min (rbO b') (Z.max (rb_off b) off)).
    { intros b' k1 k2 k3 k4 np b2. pose proof k1 as ((j1 & j2 & j3 & j4) & j5 & j6 & j7).
      assert (rb_start b' <= np <= rb_pos b').
      { unfold np. destr_if; rewrite ?rbM_eq in *; lia. }
      split; [apply buf_ok_pos; auto; lia|].
      unfold b2, rbM, rbO, rbL; cbn [rb_data rb_start rb_pos rb_len rb_off rb_fin].
      repeat split; try lia.
      unfold np. destr_if; rewrite ?rbM_eq in *; try lia. }
    replace (rb_off b <? mo) with true by lia. cbn [andb].
    destruct (mo <? rbM b) eqn:E3.
    + destruct (Z_le_gt_dec mo (rb_off b)); [lia|].
      rewrite rbM_eq in E3.
      destruct (rb_split_ok W (mo - rb_off b) b h1 ltac:(lia))
        as (lo & hi & s0 & s1 & s2 & s3 & s4 & s5 & s6 & s7 & s8).
      rewrite s0. cbn [bind].
      pose proof (rbM_eq lo) as ml. pose proof (rbM_eq hi) as mh. pose proof (rbM_eq b) as mb.
      destruct (core lo s1 s3 ltac:(lia) ltac:(lia)) as (c1 & c2 & c3 & c4 & c5 & c6).
      eexists _, _, _. split; [reflexivity|].
      pose proof (buf_ok_bounds _ _ s1) as bl. pose proof (buf_ok_bounds _ _ s2) as bh.
      cbn [chain length]. rewrite !sum_len_cons. rewrite c2, c3, c5.
      replace (Nat.min pos i - i)%nat with O by lia. cbn [firstn].
      repeat match goal with |- _ /\ _ => split end; auto; try apply c1; try apply s2; try lia.
      * replace (rbM hi) with (rbM b) by lia. auto.
      * constructor.
      * unfold rbL, rbO in *. lia.
      * intros x. rewrite !pending_cons, consumed_cons, c3, c6. split.
        -- intros [h|[h|h]]; auto.
           ++ destruct (Z_lt_ge_dec x (rbO b)); [right|left; left]; lia.
           ++ left; left; lia.
        -- intros [[h|h]|([h|h] & hx)]; auto.
           ++ destruct (Z_lt_ge_dec x mo); [left|right; left]; lia.
           ++ left. lia.
           ++ exfalso. assert (rbM b <= x < e) by (apply (chain_cover _ _ _ _ _ h3); auto). lia.
      * intros x k. apply consumed_cons in k as [k|k]; [apply consumed_cons; left; lia|].
        apply consumed_cons in k as [k|k]; apply consumed_cons; [left; lia|auto].
    + cbn [bind].
      destruct (core b h1 eq_refl ltac:(lia) ltac:(lia)) as (c1 & c2 & c3 & c4 & c5 & c6).
      destruct (IH (rbM b) e (S i) (Nat.min pos i) h3 hom)
        as (l' & pos' & n & g0 & g1 & g2 & g3 & g4 & g5 & g6 & g7 & g8).
      { replace (Nat.min pos i - S i)%nat with O by lia. constructor. }
      { lia. }
      rewrite g0. cbn [bind]. eexists _, _, _. split; [reflexivity|].
      cbn [chain length]. rewrite !sum_len_cons. rewrite c2, c3, c5.
      replace (pos' - i)%nat with O by lia. cbn [firstn].
      repeat match goal with |- _ /\ _ => split end; auto; try apply c1; try lia.
      * constructor.
      * intros x. rewrite !pending_cons, consumed_cons, c3, c6, g7. split.
        -- intros [h|[h|h]]; auto; [|tauto].
           destruct (Z_lt_ge_dec x (rbO b)); [right|left; left]; lia.
        -- intros [[h|h]|([h|h] & hx)]; auto; left; lia.
      * intros x k. apply consumed_cons in k as [k|k]; [apply consumed_cons; left; lia|].
        apply consumed_cons. auto.
Qed.
