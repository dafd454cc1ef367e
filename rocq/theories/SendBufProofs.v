(** Invariants of the send buffer. *)
Require Import Verif.Base Verif.Errors Verif.RangesModel Verif.RangesProofs Verif.RangeBufModel
  Verif.RangeBufProofs Verif.SendBufModel.

(** ** One buffer *)
Definition buf_ok (W : list Z) (b : rangebuf) : Prop :=
  rb_wf b /\ 0 < rb_len b /\ rb_off b + rb_len b <= zlen W /\
  slice (rb_start b) (rb_start b + rb_len b) (rb_data b)
  = slice (rb_off b) (rb_off b + rb_len b) W.

Lemma rbM_eq b : rbM b = rb_off b + rb_len b.
Proof. unfold rbM, rbO, rbL. lia. Qed.

Lemma buf_ok_bounds W b : buf_ok W b ->
  0 <= rb_off b /\ rb_off b <= rbO b <= rbM b /\ 0 <= rbL b /\ rbM b <= zlen W /\ rb_off b < rbM b.
Proof.
  intros ((h1 & h2 & h3 & h4) & h5 & h6 & h7). rewrite rbM_eq. unfold rbO, rbL. lia.
Qed.

Lemma buf_ok_bytes W b : buf_ok W b -> rb_bytes b = slice (rbO b) (rbM b) W.
Proof.
  intros ((h1 & h2 & h3 & h4) & h5 & h6 & h7). rewrite rbM_eq. unfold rb_bytes.
  assert (e : slice (rb_pos b) (rb_start b + rb_len b) (rb_data b)
          = drop (rb_pos b - rb_start b) (slice (rb_start b) (rb_start b + rb_len b) (rb_data b))).
  { rewrite drop_slice by lia. f_equal. lia. }
  rewrite e, h7, drop_slice by lia. f_equal. unfold rbO. lia.
Qed.

Lemma buf_ok_more W X b : buf_ok W b -> buf_ok (W ++ X) b.
Proof.
  intros (h1 & h2 & h3 & h4). pose proof h1 as (k1 & k2 & k3 & k4).
  pose proof (zlen_nonneg X). rewrite <- (slice_app_l (rb_off b) _ W X) in h4 by lia.
  repeat split; auto; try apply h1. rewrite zlen_app; lia.
Qed.

Lemma rb_split_ok W at_ b : buf_ok W b -> 0 < at_ < rb_len b ->
  exists lo hi, rb_split_off at_ b = Ok (lo, hi) /\ buf_ok W lo /\ buf_ok W hi /\
    rb_off lo = rb_off b /\ rb_len lo = at_ /\ rb_off hi = rb_off b + at_ /\
    rb_len hi = rb_len b - at_ /\
    rbO lo = Z.min (rbO b) (rb_off b + at_) /\ rbO hi = Z.max (rbO b) (rb_off b + at_).
Proof.
  intros ((h1 & h2 & h3 & h4) & h5 & h6 & h7) ha.
  unfold rb_split_off. replace (rb_len b <? at_) with false by lia.
  eexists _, _. split; [reflexivity|].
  unfold buf_ok, rb_wf, rbO; cbn [rb_data rb_start rb_pos rb_len rb_off rb_fin].
  repeat match goal with |- _ /\ _ => split end; try lia.
  - rewrite <- (take_slice at_ _ (rb_start b + rb_len b)) by lia.
    rewrite <- (take_slice at_ _ (rb_off b + rb_len b)) by lia. f_equal. exact h7.
  - replace (rb_start b + at_ + (rb_len b - at_)) with (rb_start b + rb_len b) by lia.
    replace (rb_off b + at_ + (rb_len b - at_)) with (rb_off b + rb_len b) by lia.
    rewrite <- !drop_slice by lia. f_equal. exact h7.
Qed.

(** The same buffer with another position. *)
Lemma buf_ok_pos W b p : buf_ok W b -> rb_start b <= p <= rb_start b + rb_len b ->
  buf_ok W (mkRB (rb_data b) (rb_start b) p (rb_len b) (rb_off b) (rb_fin b)).
Proof.
  intros ((h1 & h2 & h3 & h4) & h5 & h6 & h7) hp.
  unfold buf_ok, rb_wf; cbn [rb_data rb_start rb_pos rb_len rb_off rb_fin]. auto 10 with zarith.
Qed.

(** ** Contiguous buffers *)
Fixpoint chain (W : list Z) (base : Z) (l : list rangebuf) (e : Z) : Prop :=
  match l with
  | [] => base = e
  | b :: tl => buf_ok W b /\ rb_off b = base /\ chain W (rbM b) tl e
  end.

Definition pending (l : list rangebuf) (x : Z) : Prop :=
  exists b, In b l /\ rbO b <= x < rbM b.
Definition consumed (l : list rangebuf) (x : Z) : Prop :=
  exists b, In b l /\ rb_off b <= x < rbO b.
Definition all_empty (l : list rangebuf) : Prop := Forall (fun b => rbL b = 0) l.

Lemma pending_nil x : ~ pending [] x.
Proof. intros (b & [] & _). Qed.
Lemma consumed_nil x : ~ consumed [] x.
Proof. intros (b & [] & _). Qed.
Lemma pending_cons b l x : pending (b :: l) x <-> rbO b <= x < rbM b \/ pending l x.
Proof.
  split.
  - intros (c & [h|h] & k); [subst; auto | right; exists c; auto].
  - intros [k|(c & h & k)]; [exists b | exists c]; cbn; auto.
Qed.
Lemma consumed_cons b l x : consumed (b :: l) x <-> rb_off b <= x < rbO b \/ consumed l x.
Proof.
  split.
  - intros (c & [h|h] & k); [subst; auto | right; exists c; auto].
  - intros [k|(c & h & k)]; [exists b | exists c]; cbn; auto.
Qed.
Lemma pending_app a b x : pending (a ++ b) x <-> pending a x \/ pending b x.
Proof.
  induction a as [|c a IH]; cbn [app].
  - split; [auto|intros [h|h]; auto; destruct (pending_nil _ h)].
  - rewrite !pending_cons, IH; tauto.
Qed.
Lemma consumed_app a b x : consumed (a ++ b) x <-> consumed a x \/ consumed b x.
Proof.
  induction a as [|c a IH]; cbn [app].
  - split; [auto|intros [h|h]; auto; destruct (consumed_nil _ h)].
  - rewrite !consumed_cons, IH; tauto.
Qed.
Lemma all_empty_pending l x : all_empty l -> ~ pending l x.
Proof.
  intros h (b & hb & k). unfold all_empty in h. rewrite Forall_forall in h.
  specialize (h b hb). unfold rbM in k. lia.
Qed.

Lemma chain_le W l : forall base e, chain W base l e -> base <= e /\ (l = [] \/ (0 <= base /\ base < e /\ e <= zlen W)).
Proof.
  induction l as [|b tl IH]; cbn [chain]; intros base e h.
  - split; [lia|auto].
  - destruct h as (h1 & h2 & h3). destruct (IH _ _ h3) as (i1 & i2).
    pose proof (buf_ok_bounds _ _ h1). split; [lia|]. right.
    destruct i2 as [->|i2]; [cbn in h3|]; lia.
Qed.

Lemma chain_cover W l : forall base e x, chain W base l e ->
  (base <= x < e <-> pending l x \/ consumed l x).
Proof.
  induction l as [|b tl IH]; cbn [chain]; intros base e x h.
  - split; [lia|]. intros [k|k]; [destruct (pending_nil _ k)|destruct (consumed_nil _ k)].
  - destruct h as (h1 & h2 & h3). pose proof (buf_ok_bounds _ _ h1).
    destruct (chain_le _ _ _ _ h3) as (c1 & _).
    rewrite pending_cons, consumed_cons. specialize (IH _ _ x h3).
    split.
    + intros hx. assert (x < rbM b \/ rbM b <= x) as [c|c] by lia.
      * assert (x < rbO b \/ rbO b <= x) as [d|d] by lia; [right|left]; left; lia.
      * destruct (proj1 IH ltac:(lia)); auto.
    + intros [[k|k]|[k|k]]; try lia.
      * assert (rbM b <= x < e) by (apply IH; auto). lia.
      * assert (rbM b <= x < e) by (apply IH; auto). lia.
Qed.

Lemma chain_app W a : forall base b e,
  chain W base (a ++ b) e <-> exists m, chain W base a m /\ chain W m b e.
Proof.
  induction a as [|c a IH]; cbn [app chain]; intros base b e.
  - split; [intros h; exists base; auto | intros (m & -> & h); auto].
  - split.
    + intros (h1 & h2 & h3). apply IH in h3 as (m & k1 & k2). exists m. auto.
    + intros (m & (h1 & h2 & h3) & k). repeat split; auto; try apply h1. apply IH. eauto.
Qed.

Lemma chain_more W X l : forall base e, chain W base l e -> chain (W ++ X) base l e.
Proof.
  induction l as [|b tl IH]; cbn [chain]; auto. intros base e (h1 & h2 & h3).
  split; [apply buf_ok_more; auto|auto].
Qed.

Lemma sum_len_app a b : sum_len (a ++ b) = sum_len a + sum_len b.
Proof. induction a; cbn [app sum_len fold_right]; [reflexivity|]. unfold sum_len in *. lia. Qed.

Lemma sum_len_cons b l : sum_len (b :: l) = rbL b + sum_len l.
Proof. reflexivity. Qed.

Lemma chain_sum_nonneg W l : forall base e, chain W base l e -> 0 <= sum_len l.
Proof.
  induction l as [|b tl IH]; cbn [chain]; intros base e h; [cbn; lia|].
  destruct h as (h1 & h2 & h3). rewrite sum_len_cons. pose proof (buf_ok_bounds _ _ h1).
  specialize (IH _ _ h3). lia.
Qed.

(** ** emit *)
Lemma front_of_spec W l : forall base e, chain W base l e ->
  let ff := front_of l e in base <= ff <= e /\
  (forall x, pending l x -> ff <= x) /\ (ff < e -> pending l ff).
Proof.
  induction l as [|b tl IH]; cbn [chain front_of]; intros base e h.
  - repeat split; try lia. intros x k; destruct (pending_nil _ k).
  - destruct h as (h1 & h2 & h3). pose proof (buf_ok_bounds _ _ h1) as bb.
    destruct (chain_le _ _ _ _ h3) as (c1 & _). unfold rb_is_empty.
    destruct (Z.eqb_spec (rbL b) 0) as [z|z].
    + destruct (IH _ _ h3) as (i1 & i2 & i3). cbv zeta in *. repeat split; try lia.
      * intros x k. apply pending_cons in k as [k|k]; [unfold rbM in k; lia|auto].
      * intros k. apply pending_cons. auto.
    + cbv zeta. repeat split; try lia.
      * intros x k. apply pending_cons in k as [k|k]; [lia|].
        assert (rbM b <= x < e) by (apply (chain_cover _ _ _ _ _ h3); auto). lia.
      * intros k. apply pending_cons. left. unfold rbM in *. lia.
Qed.

Lemma emit_bufs_spec W post : forall base soff maxd cap next out_off written buffered,
  chain W base post soff -> soff <= maxd -> 0 <= cap -> sum_len post <= buffered ->
  next - out_off = written -> next <= front_of post soff ->
  exists post' k out next' buffered',
    emit_bufs cap next out_off written soff maxd buffered post
    = Ok (post', k, out, next', buffered') /\
    chain W base post' soff /\ length post' = length post /\ (k <= length post)%nat /\
    all_empty (firstn k post') /\
    next <= next' /\ zlen out = next' - next /\ out = slice next next' W /\ zlen out <= cap /\
    buffered' = buffered - zlen out /\ sum_len post' = sum_len post - zlen out /\
    (next < next' -> next = front_of post soff /\ next' <= soff) /\
    (forall x, pending post' x <-> pending post x /\ ~ next <= x < next') /\
    (forall x, consumed post' x <-> consumed post x \/ next <= x < next') /\
    (forall x, next <= x < next' -> pending post x) /\
    (front_of post soff = next -> next < soff -> 0 < cap -> 0 < zlen out).
Proof.
  induction post as [|b tl IH]; intros base soff maxd cap next out_off written buffered
    hc hm hcap hs hw hn.
  - cbn [emit_bufs]. exists [], O, [], next, buffered. cbn [chain length firstn front_of] in *.
    rewrite zlen_nil, slice_nil. cbn [sum_len fold_right].
    repeat match goal with |- _ /\ _ => split end; auto; try lia.
    + constructor.
    + intros x. split; [intros h; split; auto; lia | tauto].
    + intros x. split; [auto | intros [h|h]; auto; lia].
  - cbn [emit_bufs].
    set (ff := front_of (b :: tl) soff) in *.
    pose proof (front_of_spec _ _ _ _ hc) as (f1 & f2 & f3). fold ff in f1, f2, f3.
    destruct ((cap <=? 0) || (soff <=? ff) || negb (ff =? next) || (maxd <=? ff)) eqn:E.
    + exists (b :: tl), O, [], next, buffered. rewrite zlen_nil, slice_nil. cbn [firstn length].
      repeat match goal with |- _ /\ _ => split end; auto; try lia.
      * constructor.
      * intros x. split; [intros h; split; auto; lia | tauto].
      * intros x. split; [auto | intros [h|h]; auto; lia].
    + cbn [chain] in hc. destruct hc as (h1 & h2 & h3).
      pose proof (buf_ok_bounds _ _ h1) as bb. pose proof (chain_sum_nonneg _ _ _ _ h3) as sn.
      rewrite sum_len_cons in hs. destruct (chain_le _ _ _ _ h3) as (c1 & _).
      unfold ff in *. cbn [front_of] in *. unfold rb_is_empty in *.
      destruct (Z.eqb_spec (rbL b) 0) as [z|z].
      * destruct (IH _ soff maxd cap next out_off written buffered h3)
          as (p & k & out & next' & bu & g0 & g1 & g2 & g3 & g4 & g5 & g6 & g7 & g8 & g9 & g10 & g11 & g12 & g13 & g14 & g15);
          auto; try lia.
        rewrite g0. cbn [bind]. eexists _, _, _, _, _. split; [reflexivity|].
        cbn [chain length firstn]. rewrite !sum_len_cons.
        repeat match goal with |- _ /\ _ => split end; auto; try lia; try apply h1.
        -- constructor; auto.
        -- intros x. rewrite !pending_cons, g12. unfold rbM. intuition lia.
        -- intros x. rewrite !consumed_cons, g13. tauto.
        -- intros x hx. apply pending_cons. auto.
      * assert (ef : rbO b = next) by lia.
        replace (negb (next - out_off =? written)) with false by lia.
        set (n := Z.min (rbL b) cap).
        replace (buffered <? n) with false by lia.
        assert (hnl : 0 < n <= rbL b) by lia.
        assert (eb : take n (rb_bytes b) = slice next (rbO b + n) W).
        { rewrite (buf_ok_bytes _ _ h1), take_slice by (unfold rbM in *; lia). rewrite ef. reflexivity. }
        assert (ez : zlen (take n (rb_bytes b)) = n).
        { rewrite eb, slice_len by (unfold rbM in *; lia). lia. }
        assert (hb' : buf_ok W (rb_consume n b)).
        { unfold rb_consume. apply buf_ok_pos; auto. destruct h1 as ((k1 & k2 & k3 & k4) & _).
          unfold rbL in hnl. lia. }
        assert (v : rbO (rb_consume n b) = rbO b + n /\ rbM (rb_consume n b) = rbM b /\
                    rbL (rb_consume n b) = rbL b - n /\ rb_off (rb_consume n b) = rb_off b).
        { unfold rbM, rbO, rbL, rb_consume; cbn [rb_data rb_start rb_pos rb_len rb_off rb_fin]. lia. }
        destruct v as (v1 & v2 & v3 & v4).
        destruct (n <? rbL b) eqn:E2.
        -- eexists _, _, _, _, _. split; [reflexivity|].
           cbn [chain length firstn]. rewrite !sum_len_cons, v2, v3, v4, ez.
           repeat match goal with |- _ /\ _ => split end; auto; try lia; try apply hb'; try (unfold rbM in *; lia).
           ++ constructor.
           ++ intros x. rewrite !pending_cons, v1, v2. split.
              ** intros [k|k]; [split; [left|]; lia|]. split; [auto|].
                 assert (rbM b <= x < soff) by (apply (chain_cover _ _ _ _ _ h3); auto).
                 unfold rbM in *; lia.
              ** intros [[k|k] k']; [left; lia|auto].
           ++ intros x. rewrite !consumed_cons, v1, v4. intuition lia.
           ++ intros x hx. apply pending_cons. left. unfold rbM. lia.
        -- assert (n = rbL b) by lia.
           destruct (IH _ soff maxd (cap - n) (rbO b + n) out_off (written + n) (buffered - n) h3)
          as (p & k & out & next' & bu & g0 & g1 & g2 & g3 & g4 & g5 & g6 & g7 & g8 & g9 & g10 & g11 & g12 & g13 & g14 & g15);
             auto; try lia.
           { pose proof (front_of_spec _ _ _ _ h3) as (q1 & _). unfold rbM in q1. cbv zeta in q1. lia. }
           rewrite g0. cbn [bind]. eexists _, _, _, _, _. split; [reflexivity|].
           cbn [chain length firstn]. rewrite !sum_len_cons, v2, v3, v4, zlen_app, ez.
           repeat match goal with |- _ /\ _ => split end; auto; try lia; try apply hb'.
           ++ constructor; [lia|auto].
           ++ rewrite g7, eb. apply slice_split; lia.
           ++ intros _. split; [lia|].
              destruct (Z_lt_ge_dec (rbO b + n) next') as [q|q]; [apply g11; auto|unfold rbM in *; lia].
           ++ intros x. rewrite !pending_cons, v1, v2, g12. split.
              ** intros [k'|(k1 & k2)]; [unfold rbM in k'; lia|]. split; [auto|].
                 assert (rbM b <= x < soff) by (apply (chain_cover _ _ _ _ _ h3); auto).
                 unfold rbM in *; lia.
              ** intros [[k'|k'] k2]; [unfold rbM in k'; lia|]. right. split; [auto|lia].
           ++ intros x. rewrite !consumed_cons, v1, v4, g13. intuition lia.
           ++ intros x hx. apply pending_cons.
              destruct (Z_lt_ge_dec x (rbO b + n)); [left; unfold rbM; lia|right; apply g14; lia].
Qed.
