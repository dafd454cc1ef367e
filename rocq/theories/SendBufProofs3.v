(** The buffer invariant and its preservation by every SendBuf function. *)
Require Import Verif.Base Verif.Errors Verif.RangesModel Verif.RangesProofs Verif.RangeBufModel
  Verif.RangeBufProofs Verif.SendBufModel Verif.SendBufProofs Verif.SendBufProofs2.

Definition is_reset (s : sendbuf) : Prop := sb_shut s = true \/ sb_error s <> None.

Lemma is_reset_dec s : {is_reset s} + {~ is_reset s}.
Proof.
  unfold is_reset. destruct (sb_shut s); [left; auto|]. destruct (sb_error s).
  - left. right. discriminate.
  - right. intros [h|h]; [discriminate|apply h; reflexivity].
Qed.

Record Sb (W : list Z) (s : sendbuf) : Prop := {
  i_chain : exists base, 0 <= base <= sb_emit_off s /\ chain W base (sb_data s) (sb_off s) /\
            forall x, 0 <= x < base -> covers (rs_ranges (sb_acked s)) x;
  i_pos : (sb_pos s <= length (sb_data s))%nat;
  i_emp : all_empty (firstn (sb_pos s) (sb_data s));
  i_off : 0 <= sb_off s <= zlen W /\ sb_off s <= sb_max_data s /\ sb_max_data s <= max_varint;
  i_emit : 0 <= sb_emit_off s <= sb_off s;
  i_cons : forall x, consumed (sb_data s) x -> x < sb_emit_off s;
  i_buf : sb_buffered s = sum_len (sb_data s);
  i_ack : rs_inv (sb_acked s) /\ rs_cap (sb_acked s) = usize_max /\
          ends_below (sb_emit_off s) (sb_acked s);
  i_fin : sb_fin_off s = None \/ sb_fin_off s = Some (sb_off s);
  i_reset : is_reset s ->
            sb_data s = [] /\ sb_fin_off s = Some (sb_off s) /\ sb_emit_off s = sb_off s;
  i_live : ~ is_reset s -> sb_off s = zlen W }.

Lemma sb_new_ok md : 0 <= md <= max_varint -> Sb [] (sb_new md).
Proof.
  intros h. constructor; cbn [sb_new sb_data sb_pos sb_off sb_emit_off sb_max_data sb_buffered
    sb_acked sb_fin_off length chain]; auto; try lia.
  - exists 0. repeat split; try lia.
  - constructor.
  - change (zlen (@nil Z)) with 0. lia.
  - intros x hx. destruct (consumed_nil _ hx).
  - split; [apply rs_new_inv; unfold usize_max; lia|]. split; [reflexivity|constructor].
  - intros [h'|h']; [discriminate|]. cbn in h'. congruence.
Qed.

Lemma ack_off_eq s : sb_ack_off s = ack_end (sb_acked s).
Proof. reflexivity. Qed.

(** Where everything not pending is. *)
Lemma Sb_cover W s x : Sb W s -> 0 <= x < sb_off s ->
  covers (rs_ranges (sb_acked s)) x \/ pending (sb_data s) x \/ consumed (sb_data s) x.
Proof.
  intros h hx. destruct (i_chain _ _ h) as (base & hb & hc & ha).
  destruct (Z_lt_ge_dec x base); [left; apply ha; lia|].
  destruct (proj1 (chain_cover _ _ _ _ x hc) ltac:(lia)); auto.
Qed.

Lemma Sb_split W s : Sb W s -> exists base m,
  chain W base (firstn (sb_pos s) (sb_data s)) m /\
  chain W m (skipn (sb_pos s) (sb_data s)) (sb_off s) /\ base <= m.
Proof.
  intros h. destruct (i_chain _ _ h) as (base & hb & hc & ha).
  rewrite <- (firstn_skipn (sb_pos s) (sb_data s)) in hc. apply chain_app in hc as (m & k1 & k2).
  exists base, m. repeat split; auto. apply (chain_le _ _ _ _ k1).
Qed.

Lemma pending_skip W s x : Sb W s ->
  (pending (sb_data s) x <-> pending (skipn (sb_pos s) (sb_data s)) x).
Proof.
  intros h. rewrite <- (firstn_skipn (sb_pos s) (sb_data s)) at 1. rewrite pending_app.
  split; auto. intros [k|k]; auto. destruct (all_empty_pending _ _ (i_emp _ _ h) k).
Qed.

(** off_front is the lowest pending offset, or the end. *)
Lemma off_front_spec W s : Sb W s ->
  0 <= sb_off_front s <= sb_off s /\
  (forall x, pending (sb_data s) x -> sb_off_front s <= x) /\
  (sb_off_front s < sb_off s -> pending (sb_data s) (sb_off_front s)) /\
  sb_off_front s <= sb_emit_off s.
Proof.
  intros h. destruct (Sb_split _ _ h) as (base & m & k1 & k2 & k3).
  destruct (i_chain _ _ h) as (base' & hb & hc & ha).
  pose proof (front_of_spec _ _ _ _ k2) as (f1 & f2 & f3). unfold sb_off_front. cbv zeta in *.
  set (ff := front_of (skipn (sb_pos s) (sb_data s)) (sb_off s)) in *.
  assert (hm : 0 <= m).
  { destruct (chain_le _ _ _ _ hc) as (c1 & c2).
    destruct (sb_data s) as [|b tl] eqn:D.
    - rewrite firstn_nil in k1. rewrite skipn_nil in k2. cbn in *. lia.
    - destruct c2 as [c2|c2]; [discriminate|].
      destruct (sb_pos s) eqn:P.
      + cbn [firstn skipn chain] in *. lia.
      + cbn [firstn chain] in *. destruct k1 as (q1 & q2 & q3). destruct hc as (_ & q4 & _). lia. }
  repeat split; try lia.
  - intros x hx. apply f2. apply (pending_skip W); auto.
  - intros hlt. apply (pending_skip W); auto.
  - destruct (Z_le_gt_dec ff (sb_emit_off s)) as [?|g]; [auto|exfalso].
    set (x := sb_emit_off s). pose proof (i_emit _ _ h) as ie.
    assert (hx : base' <= x < sb_off s) by (unfold x; lia).
    destruct (proj1 (chain_cover _ _ _ _ x hc) hx) as [p|c].
    + apply (pending_skip W) in p; auto. specialize (f2 x p). unfold x in *. lia.
    + pose proof (i_cons _ _ h x c). unfold x in *. lia.
Qed.

Lemma all_empty_sum l : all_empty l -> sum_len l = 0.
Proof.
  induction l as [|b l IH]; intros h; [reflexivity|]. rewrite sum_len_cons.
  inversion h as [|? ? h1 h2]; subst. rewrite h1, (IH h2). reflexivity.
Qed.

(** ** emit *)
Lemma sb_emit_spec W s cap : Sb W s -> 0 <= cap ->
  exists out fin s', sb_emit cap s = Ok (out, fin, s') /\ Sb W s' /\
    let off := sb_off_front s in
    off + zlen out <= sb_off s /\ zlen out <= cap /\ out = slice off (off + zlen out) W /\
    fin = match sb_fin_off s with Some f => f =? off + zlen out | None => false end /\
    sb_emit_off s' = Z.max (sb_emit_off s) (off + zlen out) /\
    sb_off s' = sb_off s /\ sb_max_data s' = sb_max_data s /\ sb_fin_off s' = sb_fin_off s /\
    sb_shut s' = sb_shut s /\ sb_error s' = sb_error s /\ sb_acked s' = sb_acked s /\
    sb_buffered s' = sb_buffered s - zlen out /\
    (forall x, pending (sb_data s') x <-> pending (sb_data s) x /\ ~ off <= x < off + zlen out) /\
    (off < sb_off s -> 0 < cap -> 0 < zlen out).
Proof.
  intros h hcap. destruct (Sb_split _ _ h) as (base & m & k1 & k2 & k3).
  destruct (off_front_spec _ _ h) as (f1 & f2 & f3 & f4). pose proof (i_off _ _ h) as io.
  pose proof (i_emit _ _ h) as ie.
  assert (hsum : sum_len (sb_data s) = sum_len (skipn (sb_pos s) (sb_data s))).
  { rewrite <- (firstn_skipn (sb_pos s) (sb_data s)) at 1. rewrite sum_len_app.
    assert (e : sum_len (firstn (sb_pos s) (sb_data s)) = 0).
    { apply all_empty_sum, (i_emp _ _ h). }
    lia. }
  destruct (emit_bufs_spec W (skipn (sb_pos s) (sb_data s)) m (sb_off s) (sb_max_data s) cap
              (sb_off_front s) (sb_off_front s) 0 (sb_buffered s) k2)
    as (p & k & out & nx & bu & g0 & g1 & g2 & g3 & g4 & g5 & g6 & g7 & g8 & g9 & g10 & g11 & g12 & g13 & g14 & g15);
    try lia.
  { rewrite (i_buf _ _ h). lia. }
  { unfold sb_off_front. lia. }
  unfold sb_emit. rewrite g0. cbn [bind].
  assert (en : nx = sb_off_front s + zlen out) by lia.
  assert (hnx : nx <= sb_off s).
  { destruct (Z_lt_ge_dec (sb_off_front s) nx); [apply g11; auto|lia]. }
  eexists _, _, _. split; [reflexivity|].
  assert (lp : length (firstn (sb_pos s) (sb_data s)) = sb_pos s).
  { apply firstn_length_le. apply (i_pos _ _ h). }
  assert (hpend : forall x, pending (firstn (sb_pos s) (sb_data s) ++ p) x <->
            pending (sb_data s) x /\ ~ sb_off_front s <= x < nx).
  { intros x. rewrite pending_app, g12, (pending_skip W s x h). split; [|tauto].
    intros [q|q]; auto. destruct (all_empty_pending _ _ (i_emp _ _ h) q). }
  assert (hcons : forall x, consumed (firstn (sb_pos s) (sb_data s) ++ p) x <->
            consumed (sb_data s) x \/ sb_off_front s <= x < nx).
  { intros x. rewrite <- (firstn_skipn (sb_pos s) (sb_data s)) at 2.
    rewrite !consumed_app, g13. tauto. }
  split.
  - constructor; cbn [sb_data sb_pos sb_off sb_emit_off sb_max_data sb_buffered
      sb_acked sb_fin_off sb_shut sb_error]; auto; try lia.
    + destruct (i_chain _ _ h) as (base' & hb & hc & ha).
      exists base'. split; [lia|]. split; [|auto].
      apply chain_app. exists m. split; [|auto].
      rewrite <- (firstn_skipn (sb_pos s) (sb_data s)) in hc. apply chain_app in hc as (m' & j1 & j2).
      destruct (firstn (sb_pos s) (sb_data s)) as [|b tl] eqn:D.
      * cbn in *. subst m'. subst m.
        destruct (sb_data s) as [|b' tl'] eqn:D'.
        -- rewrite skipn_nil in j2, k2. cbn in *. lia.
        -- destruct (sb_pos s); [|discriminate]. cbn [skipn chain] in *.
           destruct j2 as (_ & j2 & _). destruct k2 as (_ & k2 & _). lia.
      * cbn [chain] in *. destruct j1 as (j3 & j4 & j5), k1 as (k4 & k5 & k6). rewrite <- j4, k5. auto.
    + rewrite app_length, lp. lia.
    + unfold all_empty. rewrite <- lp at 1. rewrite firstn_app_2. apply Forall_app. split; auto.
      apply (i_emp _ _ h).
    + intros x hx. apply hcons in hx as [hx|hx]; [|lia]. pose proof (i_cons _ _ h x hx). lia.
    + rewrite sum_len_app, g9, g10, (i_buf _ _ h). rewrite hsum.
      rewrite <- (firstn_skipn (sb_pos s) (sb_data s)) in hsum at 1. rewrite sum_len_app in hsum. lia.
    + pose proof (i_ack _ _ h) as (a1 & a2 & a3). repeat split; try apply a1; auto.
      eapply Forall_impl; [|exact a3]. cbn. intros; lia.
    + apply (i_fin _ _ h).
    + intros hr. destruct (i_reset _ _ h hr) as (r1 & r2 & r3).
      rewrite r1 in g2 |- *. rewrite skipn_nil in g2. destruct p; [|discriminate].
      rewrite firstn_nil. repeat split; auto. lia.
    + intros hr. apply (i_live _ _ h hr).
  - cbv zeta. cbn [sb_data sb_pos sb_off sb_emit_off sb_max_data sb_buffered
      sb_acked sb_fin_off sb_shut sb_error]. rewrite <- en.
    repeat match goal with |- _ /\ _ => split end; auto.
Qed.

(** ** Acknowledgements *)
Lemma chain_excl W l : forall base e x, chain W base l e -> pending l x -> consumed l x -> False.
Proof.
  induction l as [|b tl IH]; cbn [chain]; intros base e x h p c.
  - destruct (pending_nil _ p).
  - destruct h as (h1 & h2 & h3). pose proof (buf_ok_bounds _ _ h1) as bb.
    apply pending_cons in p as [p|p]; apply consumed_cons in c as [c|c]; try lia.
    + assert (rbM b <= x < e) by (apply (chain_cover _ _ _ _ _ h3); auto). lia.
    + assert (rbM b <= x < e) by (apply (chain_cover _ _ _ _ _ h3); auto). lia.
    + exact (IH _ _ _ h3 p c).
Qed.

Lemma Sb_excl W s x : Sb W s -> pending (sb_data s) x -> consumed (sb_data s) x -> False.
Proof. intros h. destruct (i_chain _ _ h) as (b & _ & hc & _). apply (chain_excl _ _ _ _ _ hc). Qed.

Lemma Sb_pending_range W s x : Sb W s -> pending (sb_data s) x -> 0 <= x < sb_off s.
Proof.
  intros h p. destruct (i_chain _ _ h) as (b & hb & hc & _).
  assert (b <= x < sb_off s) by (apply (chain_cover _ _ _ _ _ hc); auto). lia.
Qed.
Lemma Sb_consumed_range W s x : Sb W s -> consumed (sb_data s) x -> 0 <= x < sb_off s.
Proof.
  intros h p. destruct (i_chain _ _ h) as (b & hb & hc & _).
  assert (b <= x < sb_off s) by (apply (chain_cover _ _ _ _ _ hc); auto). lia.
Qed.

(** Fields other than the data, position, buffered count and acked set. *)
Definition same_rest (s s' : sendbuf) : Prop :=
  sb_off s' = sb_off s /\ sb_emit_off s' = sb_emit_off s /\ sb_max_data s' = sb_max_data s /\
  sb_fin_off s' = sb_fin_off s /\ sb_shut s' = sb_shut s /\ sb_error s' = sb_error s.

Lemma sb_ack_spec W s off len : Sb W s -> 0 <= off -> 0 <= len -> off + len <= sb_emit_off s ->
  exists s', sb_ack off len s = Ok s' /\ Sb W s' /\ same_rest s s' /\
    sb_data s' = sb_data s /\ sb_pos s' = sb_pos s /\ sb_buffered s' = sb_buffered s /\
    rs_ranges (sb_acked s') = uins off (off + len) (rs_ranges (sb_acked s)) /\
    (forall x, covers (rs_ranges (sb_acked s')) x <->
       off <= x < off + len \/ covers (rs_ranges (sb_acked s)) x).
Proof.
  intros h h1 h2 h3. pose proof (i_ack _ _ h) as (a1 & a2 & a3). pose proof (i_off _ _ h) as io.
  pose proof (i_emit _ _ h) as ie.
  destruct (rs_ack (sb_acked s) off (off + len) (sb_emit_off s)) as (r & r1 & r2 & r3 & r4 & r5 & r6);
    auto; try lia.
  unfold sb_ack. rewrite r1. eexists. split; [reflexivity|].
  split; [|cbn; unfold same_rest; cbn; auto 12].
  destruct h. constructor; cbn [sb_data sb_pos sb_off sb_emit_off sb_max_data sb_buffered
      sb_acked sb_fin_off sb_shut sb_error]; auto.
  destruct i_chain0 as (b & c1 & c2 & c3). exists b. repeat split; auto; try lia.
  intros x hx. apply r6. auto.
Qed.

Lemma Forall_skipn_firstn {A} (P : A -> Prop) k p l :
  Forall P (firstn p l) -> Forall P (firstn (p - k) (skipn k l)).
Proof. intros h. rewrite firstn_skipn_pos. apply Forall_skipn'. auto. Qed.

Lemma sb_ack_and_drop_spec W s off len :
  Sb W s -> 0 <= off -> 0 <= len -> off + len <= sb_emit_off s ->
  exists n s', sb_ack_and_drop off len s = Ok (n, s') /\ Sb W s' /\ same_rest s s' /\
    sb_buffered s' = sb_buffered s - n /\ 0 <= n /\
    rs_ranges (sb_acked s') = uins off (off + len) (rs_ranges (sb_acked s)) /\
    (forall x, covers (rs_ranges (sb_acked s')) x <->
       off <= x < off + len \/ covers (rs_ranges (sb_acked s)) x) /\
    (forall x, pending (sb_data s') x -> pending (sb_data s) x) /\
    (forall x, consumed (sb_data s') x -> consumed (sb_data s) x) /\
    (forall x, pending (sb_data s) x -> pending (sb_data s') x \/ covers (rs_ranges (sb_acked s')) x).
Proof.
  intros h h1 h2 h3. unfold sb_ack_and_drop.
  destruct (sb_ack_spec W s off len h h1 h2 h3) as (s1 & e1 & g1 & g2 & g3 & g4 & g5 & g6 & g7).
  rewrite e1. cbn [bind].
  assert (stay : exists n s', Ok (0, s1) = Ok (n, s') :> res error (Z * sendbuf) /\ Sb W s' /\ same_rest s s' /\
    sb_buffered s' = sb_buffered s - n /\ 0 <= n /\
    rs_ranges (sb_acked s') = uins off (off + len) (rs_ranges (sb_acked s)) /\
    (forall x, covers (rs_ranges (sb_acked s')) x <->
       off <= x < off + len \/ covers (rs_ranges (sb_acked s)) x) /\
    (forall x, pending (sb_data s') x -> pending (sb_data s) x) /\
    (forall x, consumed (sb_data s') x -> consumed (sb_data s) x) /\
    (forall x, pending (sb_data s) x -> pending (sb_data s') x \/ covers (rs_ranges (sb_acked s')) x)).
  { exists 0, s1. rewrite g3. repeat match goal with |- _ /\ _ => split end; auto; lia. }
  destruct (sb_is_empty s1); [exact stay|].
  destruct (sb_ack_off s1 <? off); [exact stay|].
  destruct (drop_count (sb_ack_off s1) (sb_data s1)) as [|k'] eqn:K; [exact stay|]. clear stay.
  set (k := S k') in *.
  destruct (i_chain _ _ g1) as (base & b1 & b2 & b3).
  pose proof (drop_count_spec W (sb_ack_off s1) (sb_data s1) base (sb_off s1) b2 ltac:(lia))
    as (d1 & m & d2 & d3 & d4 & d5). cbv zeta in *. rewrite K in *.
  pose proof (i_ack _ _ g1) as (a1 & a2 & a3). pose proof (i_emit _ _ g1) as ie.
  pose proof (ack_end_bound _ _ a1 a3 ltac:(lia)) as ab. rewrite ack_off_eq in *.
  assert (cov : forall x, 0 <= x < m -> covers (rs_ranges (sb_acked s1)) x).
  { intros x hx. destruct d5 as [->|d5]; [auto|]. apply ack_end_covers; auto. lia. }
  assert (sp : sb_data s1 = firstn k (sb_data s1) ++ skipn k (sb_data s1)) by (rewrite firstn_skipn; auto).
  assert (su : sum_len (sb_data s1) = sum_len (firstn k (sb_data s1)) + sum_len (skipn k (sb_data s1))).
  { rewrite sp at 1. apply sum_len_app. }
  pose proof (chain_sum_nonneg _ _ _ _ d2) as n1. pose proof (chain_sum_nonneg _ _ _ _ d3) as n2.
  pose proof (i_buf _ _ g1) as ib.
  eexists _, _. split; [reflexivity|].
  unfold same_rest in *.
  cbn [sb_data sb_pos sb_off sb_emit_off sb_max_data sb_buffered sb_acked sb_fin_off sb_shut sb_error].
  repeat match goal with |- _ /\ _ => split end; try apply g2; auto; try (unfold sat_sub; lia).
  - constructor; cbn [sb_data sb_pos sb_off sb_emit_off sb_max_data sb_buffered
      sb_acked sb_fin_off sb_shut sb_error]; try apply g1.
    + exists m. repeat split; auto; try lia.
    + rewrite skipn_length. pose proof (i_pos _ _ g1). lia.
    + apply Forall_skipn_firstn. apply (i_emp _ _ g1).
    + intros x hx. apply (i_cons _ _ g1). rewrite sp. apply consumed_app. auto.
    + unfold sat_sub. lia.
    + intros hr. destruct (i_reset _ _ g1 hr) as (r1 & r2 & r3). rewrite r1, skipn_nil. auto.
  - intros x hx. rewrite <- g3, sp. apply pending_app. auto.
  - intros x hx. rewrite <- g3, sp. apply consumed_app. auto.
  - intros x hx. rewrite <- g3, sp in hx. apply pending_app in hx as [hx|hx]; auto. right. apply cov.
    assert (base <= x < m) by (apply (chain_cover _ _ _ _ _ d2); auto). lia.
Qed.

(** ** Loss *)
Lemma sb_retransmit_spec W s off len : Sb W s -> 0 <= off -> 0 <= len -> off + len <= sb_emit_off s ->
  exists n s', sb_retransmit off len s = Ok (n, s') /\ Sb W s' /\ same_rest s s' /\
    sb_acked s' = sb_acked s /\ sb_buffered s' = sb_buffered s + n /\ 0 <= n /\
    (forall x, consumed (sb_data s') x -> consumed (sb_data s) x) /\
    (forall x, pending (sb_data s) x -> pending (sb_data s') x) /\
    (forall x, pending (sb_data s') x -> pending (sb_data s) x \/ off <= x < off + len) /\
    (forall x, off <= x < off + len -> consumed (sb_data s') x ->
               off + len <= ack_end (sb_acked s)).
Proof.
  intros h h1 h2 h3. unfold sb_retransmit. rewrite ack_off_eq.
  assert (stay : off + len <= ack_end (sb_acked s) \/ sb_data s = [] -> exists n s', Ok (0, s) = Ok (n, s') :> res error (Z * sendbuf) /\ Sb W s' /\ same_rest s s' /\
    sb_acked s' = sb_acked s /\ sb_buffered s' = sb_buffered s + n /\ 0 <= n /\
    (forall x, consumed (sb_data s') x -> consumed (sb_data s) x) /\
    (forall x, pending (sb_data s) x -> pending (sb_data s') x) /\
    (forall x, pending (sb_data s') x -> pending (sb_data s) x \/ off <= x < off + len) /\
    (forall x, off <= x < off + len -> consumed (sb_data s') x ->
               off + len <= ack_end (sb_acked s))).
  { intros hs. exists 0, s. unfold same_rest. repeat match goal with |- _ /\ _ => split end; auto; try lia.
    intros x hx hc. destruct hs as [hs|hs]; [auto|]. rewrite hs in hc. destruct (consumed_nil _ hc). }
  unfold sb_is_empty. destruct (sb_data s) as [|b0 tl0] eqn:D; [apply stay; auto|]. rewrite <- D in *. clear b0 tl0 D.
  destruct (off + len <=? ack_end (sb_acked s)) eqn:E; [apply stay; left; lia|]. clear stay.
  destruct (i_chain _ _ h) as (base & b1 & b2 & b3).
  pose proof (i_pos _ _ h) as ip.
  destruct (retr_bufs_spec W off (off + len) (sb_data s) base (sb_off s) O (sb_pos s) b2)
    as (l' & pos' & n & g0 & g1 & g2 & g3 & g4 & g5 & g6 & g7 & g8); auto; try lia.
  { rewrite Nat.sub_0_r. apply (i_emp _ _ h). }
  rewrite g0. cbn [bind]. eexists _, _. split; [reflexivity|]. rewrite Nat.sub_0_r in g4.
  unfold same_rest.
  cbn [sb_data sb_pos sb_off sb_emit_off sb_max_data sb_buffered sb_acked sb_fin_off sb_shut sb_error].
  repeat match goal with |- _ /\ _ => split end; auto; try lia.
  - constructor; cbn [sb_data sb_pos sb_off sb_emit_off sb_max_data sb_buffered
      sb_acked sb_fin_off sb_shut sb_error]; try apply h; auto.
    + exists base. repeat split; auto; try lia.
    + intros x hx. apply (i_cons _ _ h). auto.
    + rewrite (i_buf _ _ h). lia.
    + intros hr. destruct (i_reset _ _ h hr) as (r1 & r2 & r3). rewrite r1 in b2, g0. cbn in g0. inv g0.
      auto.
  - intros x hx. apply g7. auto.
  - intros x hx. apply g7 in hx. tauto.
  - intros x hx hc. exfalso.
    assert (pending l' x) by (apply g7; right; split; auto; lia).
    apply (chain_excl _ _ _ _ x g1); auto.
Qed.

(** ** MAX_STREAM_DATA and blocked_at *)
Lemma sb_max_data_ok W s m : Sb W s -> m <= max_varint -> Sb W (sb_update_max_data m s).
Proof.
  intros h hm. pose proof (i_off _ _ h). destruct h.
  constructor; cbn [sb_update_max_data sb_data sb_pos sb_off sb_emit_off sb_max_data sb_buffered
      sb_acked sb_fin_off sb_shut sb_error]; auto; lia.
Qed.

Lemma sb_blocked_ok W s b : Sb W s -> Sb W (sb_update_blocked b s).
Proof.
  intros h. destruct h.
  constructor; cbn [sb_update_blocked sb_data sb_pos sb_off sb_emit_off sb_max_data sb_buffered
      sb_acked sb_fin_off sb_shut sb_error]; auto.
Qed.

(** ** Writing *)
Lemma rb_from_ok W c f : c <> [] -> buf_ok (W ++ c) (rb_from c (zlen W) f).
Proof.
  intros hc. pose proof (zlen_nonneg W). pose proof (zlen_nonneg c).
  assert (0 < zlen c) by (destruct c; [congruence|rewrite zlen_cons; pose proof (zlen_nonneg c); lia]).
  destruct (rb_from_wf c (zlen W) f ltac:(lia)) as (w & _). split; [auto|].
  unfold rb_from; cbn [rb_data rb_start rb_pos rb_len rb_off rb_fin]. repeat split; auto.
  - rewrite zlen_app; lia.
  - rewrite Z.add_0_l, slice_full. unfold slice. rewrite drop_app_exact.
    rewrite take_all; [reflexivity|lia].
Qed.

Lemma append_all_ok cs : forall W s reserved fin,
  sb_off s = zlen W -> Forall (fun c => c <> []) cs -> reserved = zlen (concat cs) ->
  exists bufs, append_all cs reserved fin s
    = Ok (0, mkSend (sb_data s ++ bufs) (sb_pos s) (sb_off s + reserved) (sb_emit_off s)
                    (sb_buffered s + reserved) (sb_max_data s) (sb_blocked s) (sb_fin_off s)
                    (sb_shut s) (sb_acked s) (sb_error s)) /\
    chain (W ++ concat cs) (zlen W) bufs (zlen W + reserved) /\ sum_len bufs = reserved /\
    (forall x, ~ consumed bufs x).
Proof.
  induction cs as [|c cs IH]; intros W s reserved fin ho hf hr.
  - cbn [append_all concat] in *. rewrite zlen_nil in hr. subst. exists [].
    rewrite !app_nil_r, !Z.add_0_r. split; [destruct s; reflexivity|]. cbn. repeat split; auto.
    intros x. apply consumed_nil.
  - inversion hf as [|? ? f1 f2]; subst. cbn [append_all concat]. rewrite zlen_app.
    pose proof (zlen_nonneg (concat cs)). pose proof (zlen_nonneg c).
    unfold sb_append at 1. replace (zlen c + zlen (concat cs) <? zlen c) with false by lia. cbn [bind].
    set (f := (zlen c + zlen (concat cs) =? zlen c) && fin).
    edestruct (IH (W ++ c) (mkSend (sb_data s ++ [rb_from c (sb_off s) f]) (sb_pos s)
       (sb_off s + zlen c) (sb_emit_off s) (sb_buffered s + zlen c) (sb_max_data s) (sb_blocked s)
       (sb_fin_off s) (sb_shut s) (sb_acked s) (sb_error s))
       (zlen c + zlen (concat cs) - zlen c) fin) as (bufs & g1 & g2 & g3 & g4); auto.
    { cbn. rewrite zlen_app. lia. }
    { lia. }
    exists (rb_from c (sb_off s) f :: bufs).
    cbn [sb_data sb_pos sb_off sb_emit_off sb_max_data sb_buffered sb_blocked sb_acked sb_fin_off sb_shut sb_error] in g1.
    rewrite g1. split; [|split; [|split]].
    + f_equal. f_equal. rewrite <- app_assoc. cbn [app]. f_equal; lia.
    + cbn [chain]. rewrite app_assoc. rewrite ho. split; [apply buf_ok_more, rb_from_ok; auto|].
      split; [reflexivity|]. destruct (rb_from_views c (zlen W) f) as (_ & _ & v & _). rewrite v.
      rewrite zlen_app in g2. replace (zlen W + (zlen c + zlen (concat cs)))
        with (zlen W + zlen c + (zlen c + zlen (concat cs) - zlen c)) by lia. auto.
    + rewrite sum_len_cons. destruct (rb_from_views c (sb_off s) f) as (_ & v & _). rewrite v. lia.
    + intros x hx. apply consumed_cons in hx as [hx|hx]; [|apply (g4 x hx)].
      destruct (rb_from_views c (sb_off s) f) as (v & _). rewrite v in hx. cbn in hx. lia.
Qed.

Lemma chunks_concat n fuel : 0 < n -> forall l, (length l <= fuel)%nat ->
  concat (chunks fuel n l) = l /\ Forall (fun c => c <> []) (chunks fuel n l).
Proof.
  intros hn. induction fuel as [|fuel IH]; intros l hl.
  - destruct l; [|cbn in hl; lia]. cbn. auto.
  - destruct l as [|x l]; [cbn; auto|]. cbn [chunks concat].
    destruct (IH (drop n (x :: l))) as (i1 & i2).
    { unfold drop. rewrite skipn_length. cbn [length] in *. lia. }
    rewrite i1, take_drop. split; auto. constructor; auto.
    unfold take. destruct (Z.to_nat n) eqn:E; [lia|]. discriminate.
Qed.

(** Extending the stream with fresh buffers. *)
Lemma Sb_extend W s d bufs f :
  Sb W s -> ~ is_reset s ->
  chain (W ++ d) (zlen W) bufs (zlen W + zlen d) -> sum_len bufs = zlen d ->
  (forall x, ~ consumed bufs x) -> sb_off s + zlen d <= sb_max_data s ->
  f = None \/ f = Some (sb_off s + zlen d) ->
  Sb (W ++ d) (mkSend (sb_data s ++ bufs) (sb_pos s) (sb_off s + zlen d) (sb_emit_off s)
                (sb_buffered s + zlen d) (sb_max_data s) (sb_blocked s) f
                (sb_shut s) (sb_acked s) (sb_error s)).
Proof.
  intros h hr hc hs hn hm hf. pose proof (zlen_nonneg d). pose proof (i_live _ _ h hr) as hl.
  pose proof (i_off _ _ h) as io. pose proof (i_emit _ _ h) as ie. pose proof (i_pos _ _ h) as ip.
  constructor; cbn [sb_data sb_pos sb_off sb_emit_off sb_max_data sb_buffered
      sb_acked sb_fin_off sb_shut sb_error].
  - destruct (i_chain _ _ h) as (base & b1 & b2 & b3). exists base. repeat split; try lia; auto.
    apply chain_app. exists (zlen W). rewrite hl in b2 |- *. split; [apply chain_more; auto|auto].
  - rewrite app_length. lia.
  - unfold all_empty. rewrite firstn_app. replace (sb_pos s - length (sb_data s))%nat with O by lia.
    cbn [firstn]. rewrite app_nil_r. apply (i_emp _ _ h).
  - rewrite zlen_app. lia.
  - lia.
  - intros x hx. apply consumed_app in hx as [hx|hx]; [apply (i_cons _ _ h x hx)|destruct (hn x hx)].
  - rewrite sum_len_app, (i_buf _ _ h). lia.
  - apply (i_ack _ _ h).
  - auto.
  - intros q. destruct (hr q).
  - intros _. rewrite zlen_app. lia.
Qed.

Definition write_result (W : list Z) (s : sendbuf) (data : list Z) (fin : bool) (n : Z) (s' : sendbuf) : Prop :=
  0 <= n <= zlen data /\ Sb (W ++ take n data) s' /\
  (sb_shut s = true -> n = 0) /\
  n = Z.min (zlen data) (sb_max_data s - sb_off s) /\
  sb_off s' = sb_off s + n /\ sb_emit_off s' = sb_emit_off s /\ sb_max_data s' = sb_max_data s /\
  sb_shut s' = sb_shut s /\ sb_error s' = None /\ sb_error s = None /\ sb_acked s' = sb_acked s /\
  sb_buffered s' = sb_buffered s + n /\
  (sb_fin_off s <> None -> n = 0 /\ fin = true /\ data = [] /\ sb_fin_off s' = sb_fin_off s) /\
  (sb_fin_off s = None ->
     sb_fin_off s' = if fin && (n =? zlen data) then Some (sb_off s') else None) /\
  (forall x, pending (sb_data s') x <-> pending (sb_data s) x \/ sb_off s <= x < sb_off s + n) /\
  (forall x, consumed (sb_data s') x <-> consumed (sb_data s) x).

Lemma sb_reserve_spec W s len fin : Sb W s -> 0 <= len ->
  match sb_reserve len fin s with
  | Panic => False
  | Err (StreamStopped e) => sb_error s = Some e
  | Err FinalSize => sb_error s = None /\ sb_fin_off s <> None /\ (0 < len \/ fin = false)
  | Err _ => False
  | Ok (n, f, s') =>
      sb_error s = None /\ n = Z.min len (sb_max_data s - sb_off s) /\ f = fin && (n =? len) /\
      s' = sb_set_fin (if f then Some (sb_off s + len) else sb_fin_off s) s /\
      (sb_fin_off s <> None -> len = 0 /\ fin = true)
  end.
Proof.
  intros h hl. unfold sb_reserve, sb_cap. pose proof (i_off _ _ h) as io.
  destruct (sb_error s) as [e|] eqn:Ee; cbn [bind]; [reflexivity|].
  replace (sb_max_data s <? sb_off s) with false by lia. cbn [bind].
  set (n := Z.min len (sb_max_data s - sb_off s)).
  assert (en : (if sb_max_data s - sb_off s <? len then (sb_max_data s - sb_off s, false) else (len, fin))
               = (n, fin && (n =? len))).
  { unfold n. destruct (Z.ltb_spec (sb_max_data s - sb_off s) len).
    - replace (Z.min len (sb_max_data s - sb_off s)) with (sb_max_data s - sb_off s) by lia.
      replace (sb_max_data s - sb_off s =? len) with false by lia. rewrite andb_false_r. reflexivity.
    - replace (Z.min len (sb_max_data s - sb_off s)) with len by lia. rewrite Z.eqb_refl, andb_true_r. reflexivity. }
  rewrite en. set (f := fin && (n =? len)).
  assert (fin_case : sb_fin_off s <> None -> sb_fin_off s = Some (sb_off s)).
  { destruct (i_fin _ _ h); [congruence|auto]. }
  destruct (match sb_fin_off s with Some f0 => f0 <? sb_off s + len | None => false end) eqn:E1.
  { destruct (sb_fin_off s) as [g|] eqn:Eg; [|discriminate]. specialize (fin_case ltac:(discriminate)).
    inv fin_case. repeat split; [discriminate|]. left. lia. }
  destruct (match sb_fin_off s with Some f0 => (sb_off s + len =? f0) && negb f | None => false end) eqn:E2.
  { destruct (sb_fin_off s) as [g|] eqn:Eg; [|discriminate]. specialize (fin_case ltac:(discriminate)).
    inv fin_case. repeat split; [discriminate|]. right. unfold f in E2.
    replace (n =? len) with true in E2 by lia. destruct fin; [|reflexivity]. lia. }
  assert (key : sb_fin_off s <> None -> len = 0 /\ fin = true).
  { intros q. rewrite (fin_case q) in E1, E2. unfold f in E2. split; [lia|].
    replace (n =? len) with true in E2 by lia. destruct fin; [reflexivity|]. lia. }
  assert (es : (if f then sb_set_fin (Some (sb_off s + len)) s else s)
            = sb_set_fin (if f then Some (sb_off s + len) else sb_fin_off s) s).
  { destruct f; [reflexivity|]. destruct s; reflexivity. }
  rewrite es.
  match goal with |- context [if ?c then _ else _] => destruct c eqn:E3 end.
  - rewrite ack_off_eq in E3. cbn [sb_set_fin sb_acked] in E3.
    pose proof (i_ack _ _ h) as (a1 & a2 & a3). pose proof (i_emit _ _ h) as ie.
    pose proof (ack_end_bound _ _ a1 a3 ltac:(lia)).
    assert (n0 : n = 0) by (unfold n; lia). unfold f. rewrite n0. repeat split; auto; try apply key; auto.
  - repeat split; auto; apply key; auto.
Qed.

Lemma sb_set_fin_eta s f : f = sb_fin_off s -> sb_set_fin f s = s.
Proof. intros ->. destruct s; reflexivity. Qed.

Lemma finish_write W s data fin n s' cs :
  Sb W s -> sb_error s = None -> n = Z.min (zlen data) (sb_max_data s - sb_off s) ->
  concat cs = take n data -> Forall (fun c => c <> []) cs ->
  (sb_fin_off s <> None -> zlen data = 0 /\ fin = true) ->
  let f := fin && (n =? zlen data) in
  s' = sb_set_fin (if f then Some (sb_off s + zlen data) else sb_fin_off s) s ->
  exists s2, append_all cs n f s' = Ok (0, s2) /\ write_result W s data fin n s2.
Proof.
  intros h he hn hc hf hfin f ->. pose proof (i_off _ _ h) as io.
  pose proof (zlen_nonneg data).
  assert (zl : zlen (take n data) = n) by (rewrite zlen_take by lia; lia).
  destruct (is_reset_dec s) as [hr|hr].
  - destruct (i_reset _ _ h hr) as (r1 & r2 & r3). destruct (hfin ltac:(congruence)) as (q1 & q2).
    assert (n = 0) by lia. subst fin. assert (ef : f = true) by (unfold f; lia). rewrite ef.
    destruct cs as [|c cs].
    2:{ inversion hf; subst. exfalso. cbn in hc. rewrite <- hc in zl. rewrite zlen_app in zl.
        pose proof (zlen_nonneg (concat cs)). destruct c; [congruence|]. rewrite zlen_cons in zl.
        pose proof (zlen_nonneg c). lia. }
    cbn [append_all]. rewrite q1, Z.add_0_r. rewrite sb_set_fin_eta by auto.
    exists s. split; [congruence|]. unfold write_result.
    assert (data = []) by (destruct data; [auto|rewrite zlen_cons in q1; pose proof (zlen_nonneg data); lia]).
    subst data. cbn [concat] in hc. rewrite <- hc, app_nil_r.
    repeat match goal with |- _ /\ _ => split end; auto; try lia; try tauto; try congruence.
    intros x. split; [auto|]. intros [q|q]; [auto|lia].
  - assert (lv : sb_off s = zlen W) by (apply (i_live _ _ h hr)).
    destruct (append_all_ok cs W (sb_set_fin (if f then Some (sb_off s + zlen data) else sb_fin_off s) s) n f)
      as (bufs & g1 & g2 & g3 & g4); auto.
    { rewrite hc. auto. }
    rewrite g1. eexists. split; [reflexivity|].
    cbn [sb_set_fin sb_data sb_pos sb_off sb_emit_off sb_max_data sb_buffered sb_blocked sb_acked sb_fin_off sb_shut sb_error] in *.
    rewrite hc in g2.
    assert (mainSb : Sb (W ++ take n data)
      (mkSend (sb_data s ++ bufs) (sb_pos s) (sb_off s + n) (sb_emit_off s) (sb_buffered s + n)
              (sb_max_data s) (sb_blocked s) (if f then Some (sb_off s + zlen data) else sb_fin_off s)
              (sb_shut s) (sb_acked s) (sb_error s))).
    { rewrite <- zl at 2 3. apply Sb_extend; auto; rewrite ?zl; auto; try lia.
      destruct f eqn:Ef.
      - right. f_equal. unfold f in Ef. lia.
      - destruct (i_fin _ _ h) as [q|q]; [auto|]. right. rewrite q. f_equal.
        destruct (hfin ltac:(congruence)). lia. }
    unfold write_result.
    cbn [sb_data sb_pos sb_off sb_emit_off sb_max_data sb_buffered sb_blocked sb_acked sb_fin_off sb_shut sb_error].
    repeat match goal with |- _ /\ _ => split end; auto; try lia.
    + intros q. exfalso. apply hr. left. auto.
    + intros q. destruct (hfin q) as (q1 & q2).
      assert (data = []) by (destruct data; [auto|rewrite zlen_cons in q1; pose proof (zlen_nonneg data); lia]).
      repeat split; auto; try lia. destruct f; [|auto].
      destruct (i_fin _ _ h) as [p|p]; [congruence|]. rewrite p. f_equal. lia.
    + intros q. fold f. destruct f eqn:Ef; [|auto]. f_equal. unfold f in Ef. lia.
    + intros x. rewrite pending_app. pose proof (chain_cover _ _ _ _ x g2) as cc. rewrite <- lv in cc.
      specialize (g4 x). tauto.
    + intros x. rewrite consumed_app. specialize (g4 x). tauto.
Qed.

Definition write_post (W : list Z) (s : sendbuf) (data : list Z) (fin : bool)
  (r : res error (Z * sendbuf)) : Prop :=
  match r with
  | Panic => False
  | Err (StreamStopped e) => sb_error s = Some e
  | Err FinalSize => sb_error s = None /\ sb_fin_off s <> None /\ (data <> [] \/ fin = false)
  | Err _ => False
  | Ok (n, s') => write_result W s data fin n s'
  end.

Lemma nonnil_len {A} (l : list A) : 0 < zlen l -> l <> [].
Proof. intros h ->. cbn in h. lia. Qed.

Lemma sb_write_spec W s data fin : Sb W s -> write_post W s data fin (sb_write data fin s).
Proof.
  intros h. unfold sb_write. pose proof (zlen_nonneg data).
  pose proof (sb_reserve_spec W s (zlen data) fin h ltac:(lia)) as hr.
  destruct (sb_reserve (zlen data) fin s) as [[[n f] s1]|e|]; cbn [bind]; [|destruct e; auto|auto].
  2:{ cbn. intuition. left. apply nonnil_len; auto. }
  destruct hr as (r1 & r2 & r3 & r4 & r5).
  pose proof (i_off _ _ h) as io.
  assert (zl : zlen (take n data) = n) by (rewrite zlen_take by lia; lia).
  set (cs := chunks (length (take n data)) SEND_BUFFER_SIZE (take n data)).
  destruct (chunks_concat SEND_BUFFER_SIZE (length (take n data)) ltac:(reflexivity) (take n data) ltac:(lia)) as (c1 & c2).
  fold cs in c1, c2. subst f.
  destruct (finish_write W s data fin n s1 cs h r1 r2 c1 c2 r5 r4) as (s2 & g1 & g2).
  destruct (Z.eqb_spec n 0) as [z|z].
  - assert (cs = []).
    { unfold cs. rewrite z. reflexivity. }
    rewrite H0 in g1. cbn [append_all] in g1. injection g1 as _ g1. rewrite z in g2. rewrite g1. exact g2.
  - cbv zeta. fold cs. rewrite g1. cbn [bind]. exact g2.
Qed.

Lemma sb_write_zc_spec W s data cap fin : Sb W s -> 0 <= cap <= zlen data ->
  write_post W s (take cap data) fin (sb_write_zc data cap fin s).
Proof.
  intros h hcap. unfold sb_write_zc. replace (Z.min cap (zlen data)) with cap by lia.
  assert (zc : zlen (take cap data) = cap) by (rewrite zlen_take by lia; lia).
  pose proof (sb_reserve_spec W s cap fin h ltac:(lia)) as hr.
  destruct (sb_reserve cap fin s) as [[[n f] s1]|e|]; cbn [bind]; [|destruct e; auto|auto].
  2:{ cbn. intuition. left. apply nonnil_len; lia. }
  destruct hr as (r1 & r2 & r3 & r4 & r5).
  pose proof (i_off _ _ h) as io.
  assert (en : take n data = take n (take cap data)) by (rewrite take_take by lia; f_equal; lia).
  assert (zl : zlen (take n data) = n) by (rewrite zlen_take by lia; lia).
  set (cs := if n =? 0 then [] else [take n data]). subst f. rewrite <- zc in r2, r4, r5.
  destruct (finish_write W s (take cap data) fin n s1 cs) as (s2 & g1 & g2); auto.
  { unfold cs. destruct (Z.eqb_spec n 0) as [z|z]; cbn [concat].
    - rewrite z. reflexivity.
    - rewrite app_nil_r. auto. }
  { unfold cs. destruct (Z.eqb_spec n 0); constructor; auto. apply nonnil_len. lia. }
  unfold cs in g1. destruct (Z.eqb_spec n 0) as [z|z].
  - cbn [append_all] in g1. injection g1 as _ g1. rewrite z in g2. rewrite g1. exact g2.
  - cbn [append_all] in g1. rewrite zc in g1.
    destruct (sb_append (take n data) n (fin && (n =? cap)) s1) as [[rest s3]|?|];
      cbn [bind] in *; try discriminate. injection g1 as -> ->. exact g2.
Qed.

(** ** Reset *)
Lemma uins_nonnil l : forall s e, uins s e l <> [].
Proof.
  induction l as [|[c d] l IH]; intros s e; cbn [uins]; repeat destr_if; try discriminate. apply IH.
Qed.

Lemma sb_reset_spec W s : Sb W s ->
  exists s', sb_reset s = Ok (sb_emit_off s, sb_off s - sb_emit_off s, s') /\
    sb_data s' = [] /\ sb_pos s' = O /\ sb_off s' = sb_emit_off s /\ sb_emit_off s' = sb_emit_off s /\
    sb_buffered s' = 0 /\ sb_max_data s' = sb_max_data s /\ sb_fin_off s' = Some (sb_emit_off s) /\
    sb_shut s' = sb_shut s /\ sb_error s' = sb_error s /\
    rs_inv (sb_acked s') /\ rs_cap (sb_acked s') = usize_max /\
    ends_below (sb_emit_off s) (sb_acked s') /\
    (forall x, covers (rs_ranges (sb_acked s')) x <-> 0 <= x < sb_emit_off s) /\
    rs_ranges (sb_acked s') <> [].
Proof.
  intros h. destruct (off_front_spec _ _ h) as (f1 & f2 & f3 & f4).
  pose proof (i_emit _ _ h) as ie. pose proof (i_off _ _ h) as io.
  pose proof (i_ack _ _ h) as (a1 & a2 & a3).
  unfold sb_reset. replace (Z.max (sb_off_front s) (sb_emit_off s)) with (sb_emit_off s) by lia.
  cbn [sb_off sb_acked]. unfold sb_ack. cbn [sb_acked].
  destruct (rs_ack (sb_acked s) 0 (0 + sb_emit_off s) (sb_emit_off s)) as (r & r1 & r2 & r3 & r4 & r5 & r6);
    auto; try lia.
  rewrite r1. cbn [bind]. eexists. split.
  { f_equal. f_equal. f_equal. unfold sat_sub. lia. }
  cbn [sb_data sb_pos sb_off sb_emit_off sb_max_data sb_buffered sb_blocked sb_acked sb_fin_off sb_shut sb_error].
  repeat match goal with |- _ /\ _ => split end; auto.
  - intros x. rewrite r6. split; [|intros; left; lia]. intros [q|(s1 & e1 & q1 & q2)]; [lia|].
    destruct a1 as (w & _). pose proof (wf_in _ _ _ _ w q1).
    unfold ends_below in a3. rewrite Forall_forall in a3. specialize (a3 _ q1). cbn in a3. lia.
  - rewrite r5. apply uins_nonnil.
Qed.
