(** Invariant of a receive stream and the specification of each call. *)
Require Import Verif.Base Verif.Errors Verif.FlowControlModel Verif.RangeBufModel
  Verif.RangeBufProofs Verif.RecvBufModel Verif.RecvBufProofs.

Record rv_inv (st : recvbuf) : Prop := {
  i_chain : chain (rv_off st) (rv_data st);
  i_below : forall b, In b (rv_data st) -> rbM b <= rv_len st;
  i_off : 0 <= rv_off st <= rv_len st;
  i_limit : rv_len st <= fc_max_data (rv_fc st);
  i_empty : forall b, In b (rv_data st) -> rbL b = 0 -> rv_fin_off st = Some (rbM b);
  i_fin : forall f, rv_fin_off st = Some f -> rv_len st = f;
  i_drain : rv_drain st = true -> rv_data st = [] /\ rv_off st = rv_len st;
  i_error : forall e, rv_error st = Some e ->
              rv_off st = rv_len st /\ rv_fin_off st = Some (rv_len st);
  i_consumed : 0 <= fc_consumed (rv_fc st) <= rv_off st;
  i_window : 0 <= fc_window (rv_fc st) <= fc_max_window (rv_fc st);
  i_committed : fc_last_update (rv_fc st) <> None ->
                fc_max_data (rv_fc st) <= fc_max_data_next (rv_fc st) }.

Lemma rv_new_inv max_data window max_window :
  0 <= max_data -> 0 <= window -> 0 <= max_window ->
  rv_inv (rv_new max_data window max_window).
Proof.
  intros. constructor; cbn; try lia; try tauto; try discriminate.
  all: intros; try tauto; congruence.
Qed.

(** *** write *)
Definition touches (data : list Z) (fin : bool) : bool := fin || negb (zlen data =? 0).

Lemma rv_write_spec data off fin st :
  rv_inv st -> 0 <= off ->
  let fend := off + zlen data in
  match rv_write (rb_from data off fin) st with
  | Panic => False
  | Err e =>
      (e = FlowControlE /\ fc_max_data (rv_fc st) < fend) \/
      (e = FinalSize /\ fend <= fc_max_data (rv_fc st) /\
        ((exists f, rv_fin_off st = Some f /\ (f < fend \/ (fin = true /\ f <> fend))) \/
         (fin = true /\ fend < rv_len st)))
  | Ok st' =>
      rv_inv st' /\ rv_drain st' = rv_drain st /\ rv_error st' = rv_error st /\
      rv_fc st' = rv_fc st /\ fend <= fc_max_data (rv_fc st) /\
      (forall f, rv_fin_off st = Some f -> fend <= f /\ (fin = true -> f = fend)) /\
      (fin = true -> rv_len st <= fend) /\
      rv_fin_off st' = (if fin then Some fend else rv_fin_off st) /\
      rv_len st' = (if touches data fin then Z.max (rv_len st) fend else rv_len st) /\
      (rv_drain st = false -> rv_off st' = rv_off st /\
         forall o, rv_off st <= o ->
           look (rv_data st') o =
           match look (rv_data st) o with Some x => Some x | None => zget data (o - off) end) /\
      (rv_drain st = true -> rv_off st' = rv_len st')
  end.
Proof.
  intros inv hoff. cbv zeta.
  destruct (rb_from_views data off fin) as (vO & vL & vM & vB).
  destruct (rb_from_wf data off fin hoff) as (hw & hf).
  pose proof (zlen_nonneg data) as hzl.
  set (buf := rb_from data off fin) in *.
  assert (vF : rb_fin buf = fin) by reflexivity.
  assert (bg : forall o, bget buf o = zget data (o - off)).
  { intros o. unfold bget. now rewrite vB, vO. }
  destruct inv as [i1 i2 i3 i4 i5 i6 i7 i8 i9 i10 i11].
  unfold rv_write. rewrite vM, vF. unfold rb_is_empty. rewrite vL.
  destruct (fc_max_data (rv_fc st) <? off + zlen data) eqn:E1; [left; split; [reflexivity|lia]|].
  destruct (match rv_fin_off st with Some f => f <? off + zlen data | None => false end) eqn:E2.
  { right. split; [auto|]. split; [lia|]. left. destruct (rv_fin_off st) as [f|]; [|discriminate].
    exists f. split; auto. left; lia. }
  destruct (match rv_fin_off st with Some f => fin && negb (f =? off + zlen data) | None => false end) eqn:E3.
  { right. split; [auto|]. split; [lia|]. left. destruct (rv_fin_off st) as [f|]; [|discriminate].
    exists f. split; auto. right. apply andb_true_iff in E3. split; [tauto|lia]. }
  destruct (fin && (off + zlen data <? rv_len st)) eqn:E4.
  { right. split; [auto|]. split; [lia|]. right. apply andb_true_iff in E4. split; [tauto|lia]. }
  assert (hfo : forall f, rv_fin_off st = Some f -> off + zlen data <= f /\ (fin = true -> f = off + zlen data)).
  { intros f hfin. rewrite hfin in E2, E3. lia. }
  assert (hlen : fin = true -> rv_len st <= off + zlen data) by lia.
  assert (lk0 : zlen data = 0 -> forall o, match look (rv_data st) o with Some x => Some x
                 | None => zget data (o - off) end = look (rv_data st) o).
  { intros z o. destruct (look (rv_data st) o); auto.
    destruct (zget data (o - off)) eqn:E; auto. apply zget_some_range in E. lia. }
  destruct (match rv_fin_off st with Some _ => true | None => false end && (zlen data =? 0)) eqn:E5.
  { (* size known, empty frame *)
    assert (hz : zlen data = 0) by (apply andb_true_iff in E5; lia).
    split; [constructor; auto|]. repeat (split; [solve [auto | lia]|]).
    destruct (rv_fin_off st) as [f|] eqn:Ef; [|discriminate].
    destruct (hfo f eq_refl) as (a & b).
    split. { destruct fin; auto. rewrite b; auto. }
    split. { unfold touches. specialize (i6 f eq_refl). destruct fin; cbn [orb]; [lia|].
             replace (zlen data =? 0) with true by lia. reflexivity. }
    split. { intros _. split; auto. intros o ho. symmetry. apply lk0; auto. }
    intros hd. apply i7 in hd. lia. }
  set (st1 := if fin then set_fin_off (Some (off + zlen data)) st else st).
  assert (s1 : rv_data st1 = rv_data st /\ rv_off st1 = rv_off st /\ rv_len st1 = rv_len st /\
               rv_fc st1 = rv_fc st /\ rv_error st1 = rv_error st /\ rv_drain st1 = rv_drain st /\
               rv_fin_off st1 = if fin then Some (off + zlen data) else rv_fin_off st).
  { unfold st1. destruct fin; cbn; repeat split. }
  destruct s1 as (d1 & o1 & l1 & c1 & e1 & dr1 & f1).
  destruct (negb fin && (zlen data =? 0)) eqn:E6.
  { (* empty, no fin: ignored *)
    assert (hz : zlen data = 0) by lia. assert (hfn : fin = false) by lia.
    assert (hst : st1 = st) by (unfold st1; rewrite hfn; auto). rewrite hst, hfn.
    split; [constructor; auto|].
    repeat match goal with |- _ /\ _ => split end.
    all: try solve [auto | lia | discriminate
      | intros f hfin; destruct (hfo f hfin); split; [auto|discriminate]
      | unfold touches; cbn [orb]; replace (zlen data =? 0) with true by lia; reflexivity
      | intros _; split; [reflexivity|]; intros o ho; symmetry; apply lk0; auto
      | intros hd; apply i7 in hd; lia]. }
  assert (htouch : touches data fin = true) by (unfold touches; destruct fin; cbn in *; lia).
  rewrite htouch.
  assert (hi5 : forall b, In b (rv_data st1) -> rbL b = 0 -> rv_fin_off st1 = Some (rbM b)).
  { intros b hin hz. rewrite d1 in hin. specialize (i5 b hin hz). rewrite f1.
    destruct fin; auto. destruct (hfo _ i5) as (_ & q). rewrite <- q; auto. }
  assert (hfin1 : forall f, rv_fin_off st1 = Some f -> off + zlen data <= f /\ rv_len st <= f).
  { intros f hfin. rewrite f1 in hfin. destruct fin.
    - injection hfin as hfin. lia.
    - destruct (hfo f hfin). specialize (i6 f hfin). lia. }
  destruct ((off + zlen data <=? rv_off st1) && negb (zlen data =? 0)) eqn:E7.
  { (* fully duplicate *)
    assert (hle : off + zlen data <= rv_off st) by (rewrite <- o1; lia).
    split.
    { constructor; rewrite ?d1, ?o1, ?l1, ?c1, ?e1, ?dr1; auto.
      - intros b hin. rewrite <- d1 in hin. auto.
      - intros f hfin. destruct (hfin1 f hfin). rewrite f1 in hfin. destruct fin.
        + injection hfin as hfin. lia.
        + auto.
      - intros e he. destruct (i8 e he) as (a & b). split; auto. rewrite f1.
        destruct fin; auto. destruct (hfo _ b) as (_ & q). rewrite <- q; auto. }
    rewrite dr1, e1, c1, o1, l1, f1.
    repeat match goal with |- _ /\ _ => split end.
    all: try solve [auto | lia | intros hd; apply i7 in hd; lia].
    intros _. split; auto. intros o ho. rewrite d1. destruct (look (rv_data st) o); auto.
    destruct (zget data (o - off)) eqn:E; auto. apply zget_some_range in E. lia. }
  destruct (rv_drain st) eqn:Ed.
  - (* draining: validated but not stored *)
    destruct (i7 eq_refl) as (q1 & q2).
    cbn [write_loop]. rewrite vO, o1.
    assert (hb1 : exists b1, (if off <? rv_off st
       then let* '(_, hi) := rb_split_off (rv_off st - off) buf in Ok hi else Ok buf) = @Ok error _ b1
       /\ rbM b1 = off + zlen data /\ rb_wf b1).
    { destruct (off <? rv_off st) eqn:E.
      - destruct (rb_split_fresh (rv_off st - off) buf hw hf) as
          (lo & hi & hs & _ & _ & whi & fhi & _ & _ & _ & _ & p1 & p2 & p3 & _).
        { rewrite vL. split; [lia|]. destruct (zlen data =? 0) eqn:Ez; [|lia].
          destruct fin; [|cbn in E6; lia]. lia. }
        rewrite hs. cbn [bind]. exists hi. split; auto. split; auto. unfold rbM. lia.
      - exists buf. auto. }
    destruct hb1 as (b1 & -> & hm1 & w1). cbn [bind].
    rewrite d1, q1. unfold data_range; cbn [filter].
    assert (hsc : (if (rbO b1 <? rv_len st1) || rb_is_empty b1 then overlap_scan [] b1 [] else Ok (Some b1, []))
                 = Ok (Some b1, [])) by (cbn [overlap_scan]; destr_if; auto).
    rewrite hsc. cbn [bind app]. rewrite dr1, l1, hm1, c1, f1, e1.
    cbn [write_loop].
    cbn [rv_data rv_off rv_len rv_fc rv_fin_off rv_error rv_drain].
    split.
    { constructor; cbn [rv_data rv_off rv_len rv_fc rv_fin_off rv_error rv_drain];
        try solve [auto | lia | cbn; tauto].
      - intros f hfin. destruct (hfin1 f). { rewrite f1; auto. }
        destruct fin; [injection hfin as hfin; lia|]. specialize (i6 f hfin). lia.
      - intros e he. destruct (i8 e he) as (a & b). split; auto.
        destruct (hfo _ b) as (x & y). destruct fin; [f_equal; lia|]. rewrite b. f_equal. lia. }
    repeat match goal with |- _ /\ _ => split end.
    all: solve [auto | lia | discriminate].
  - (* stored *)
    destruct (write_loop_spec (S (S (length (rb_data buf)))) buf st1)
      as (data' & p1 & p2 & p3 & p4 & p5); rewrite ?d1, ?o1, ?l1, ?vM, ?vL, ?dr1; auto.
    + cbn. unfold zlen. lia.
    + intros b hin. rewrite <- d1 in hin. auto.
    + assert (zlen data = 0 -> fin = true) by (intros; destruct fin; auto; cbn in E6; lia).
      rewrite o1 in E7. lia.
    + rewrite o1 in E7. lia.
    + intros hz. rewrite f1. destruct fin; auto. cbn in E6; lia.
    + rewrite p1. rewrite d1, o1, l1, vM in *. rewrite c1, e1, f1 in *.
      cbn [rv_data rv_off rv_len rv_fc rv_fin_off rv_error rv_drain].
      split.
      { constructor; cbn [rv_data rv_off rv_len rv_fc rv_fin_off rv_error rv_drain];
          try solve [auto | lia].
        - intros f hfin. destruct (hfin1 f hfin).
          destruct fin; [injection hfin as hfin; lia|]. specialize (i6 f hfin). lia.
        - intros e he. destruct (i8 e he) as (a & b).
          destruct (hfo _ b) as (x & y). specialize (i6 _ b). split; [lia|].
          destruct fin; [f_equal; lia|]. rewrite b. f_equal. lia. }
      repeat match goal with |- _ /\ _ => split end.
      all: try solve [auto | lia | discriminate].
      intros _. split; auto. intros o ho. rewrite p5 by auto. now rewrite bg.
Qed.

(** *** emit *)
Lemma emit_loop_spec data : forall cap off out data' off' out',
  chain off data -> 0 <= cap ->
  emit_loop cap data off out = (data', off', out') ->
  exists bytes, out' = out ++ bytes /\ off' = off + zlen bytes /\ zlen bytes <= cap /\
    chain off' data' /\ (forall b, In b data' -> exists c, In c data /\ rbM b = rbM c /\ (rbL b = 0 -> rbL c = 0)) /\
    (forall i, 0 <= i < zlen bytes -> zget bytes i = look data (off + i)) /\
    (forall o, off' <= o -> look data' o = look data o) /\
    (zlen bytes = cap \/ look data off' = None).
Proof.
  induction data as [|b tl IH]; intros cap off out data' off' out' hc hcap h; cbn [emit_loop] in h.
  - inv h. exists []. rewrite app_nil_r, zlen_nil. split; auto. split; [lia|]. split; [lia|].
    split; [cbn; auto|]. split; [intros ? []|]. split; [intros; lia|]. split; auto.
  - destruct hc as (w & h2 & h3 & h4 & h5).
    pose proof (rbL_nonneg b w) as hL. pose proof (rb_bytes_len b w) as hB.
    assert (hM : rbM b = rbO b + rbL b) by reflexivity.
    destruct ((0 <? cap) && (rbO b =? off)) eqn:E.
    + assert (hob : rbO b = off) by lia.
      set (n := Z.min (rbL b) cap) in *.
      assert (hn : zlen (take n (rb_bytes b)) = n) by (rewrite zlen_take; lia).
      assert (gb : forall i, 0 <= i < n -> zget (take n (rb_bytes b)) i = look (b :: tl) (off + i)).
      { intros i hi. rewrite zget_take by lia.
        destruct (bget_some b (off + i) w) as (x & hx); [lia|].
        cbn [look]. rewrite hx. unfold bget in hx. rewrite <- hx. f_equal; lia. }
      destruct (n <? rbL b) eqn:E2.
      * inv h. destruct (rb_consume_views n b w) as (v1 & v2 & v3 & v4 & v5); [lia|].
        exists (take n (rb_bytes b)). rewrite hn. split; auto. split; [auto|]. split; [lia|].
        split. { cbn [chain]. rewrite v4. split; auto. split; [lia|]. split; [lia|]. split; auto. }
        split. { intros c [<- | hin]; [exists b; cbn; split; auto; split; auto; lia | exists c; cbn; auto]. }
        split; [exact gb|].
        split. { intros o ho. cbn [look].
                 assert (bget (rb_consume n b) o = bget b o) as ->; auto.
                 unfold bget. rewrite v2, v5, zget_drop by lia. f_equal; lia. }
        left. lia.
      * assert (hnl : n = rbL b) by lia.
        apply IH in h; [|rewrite hnl, <- hob; exact h5|lia].
        destruct h as (bytes & -> & -> & q1 & q2 & q3 & q4 & q5 & q6).
        exists (take n (rb_bytes b) ++ bytes).
        rewrite zlen_app, hn, app_assoc. split; auto. split; [lia|]. split; [lia|].
        split; [replace (off + (n + zlen bytes)) with (off + n + zlen bytes) by lia; auto|].
        split. { intros c hin. destruct (q3 c hin) as (d & i1 & i2). exists d; cbn; auto. }
        pose proof (zlen_nonneg bytes).
        assert (lk : forall o, off + n <= o -> look (b :: tl) o = look tl o).
        { intros o ho. cbn [look]. rewrite bget_none; auto. right; lia. }
        split.
        { intros i hi. destruct (Z_lt_ge_dec i n).
          - rewrite zget_app_l by lia. apply gb; lia.
          - rewrite zget_app_r by lia. rewrite hn, q4 by lia. rewrite lk by lia. f_equal; lia. }
        split. { intros o ho. rewrite q5 by lia. symmetry. apply lk; lia. }
        destruct q6 as [q6|q6]; [left; lia|right].
        replace (off + (n + zlen bytes)) with (off + n + zlen bytes) by lia.
        rewrite lk by lia. exact q6.
    + inv h. exists []. rewrite app_nil_r, zlen_nil. split; auto. split; [lia|]. split; [lia|].
      split. { cbn; auto. }
      split. { intros c hin; exists c; auto. }
      split; [intros; lia|]. split; [auto|].
      destruct (Z.eq_dec cap 0); [left; lia|]. right.
      assert (off' < rbO b) by lia.
      apply (look_none off'). { cbn; auto. }
      intros c [<- | hin]; [lia|]. destruct (chain_wf _ _ _ h5 hin). left; lia.
Qed.

Lemma rv_emit_spec cap st :
  rv_inv st -> 0 <= cap ->
  match rv_emit cap st with
  | (Panic, _) => False
  | (Err e, st') =>
      rv_inv st' /\ rv_off st' = rv_off st /\ rv_len st' = rv_len st /\ rv_fc st' = rv_fc st /\
      rv_fin_off st' = rv_fin_off st /\ rv_error st' = rv_error st /\ rv_drain st' = rv_drain st /\
      ((e = Done /\ rv_ready st = false /\ st' = st) \/
       exists c, e = StreamReset c /\ rv_ready st = true /\ rv_error st = Some c)
  | (Ok (bytes, fin), st') =>
      rv_ready st = true /\ rv_error st = None /\ rv_drain st = false /\
      rv_inv st' /\ rv_off st' = rv_off st + zlen bytes /\ zlen bytes <= cap /\
      rv_len st' = rv_len st /\ rv_fin_off st' = rv_fin_off st /\ rv_error st' = None /\
      rv_drain st' = false /\ rv_fc st' = fc_add_consumed (zlen bytes) (rv_fc st) /\
      fin = rv_is_fin st' /\
      (forall i, 0 <= i < zlen bytes -> zget bytes i = look (rv_data st) (rv_off st + i)) /\
      (forall o, rv_off st' <= o -> look (rv_data st') o = look (rv_data st) o) /\
      (zlen bytes = cap \/ look (rv_data st) (rv_off st') = None)
  end.
Proof.
  intros inv hcap. unfold rv_emit.
  destruct (rv_ready st) eqn:Er; cbn [negb].
  2:{ repeat (split; [solve [auto]|]). left; auto. }
  destruct (rv_error st) as [e|] eqn:Ee.
  { destruct inv as [i1 i2 i3 i4 i5 i6 i7 i8 i9 i10 i11].
    split. { constructor; cbn; auto; try tauto; try (intros; eapply i8; eassumption); try (intros ? []); try (intros; split; auto; apply i7; auto). }
    cbn. repeat (split; [solve [auto]|]). right. eauto. }
  destruct (emit_loop cap (rv_data st) (rv_off st) []) as [[data' off'] out'] eqn:El.
  destruct inv as [i1 i2 i3 i4 i5 i6 i7 i8 i9 i10 i11].
  destruct (emit_loop_spec _ _ _ _ _ _ _ i1 hcap El) as (bytes & q0 & -> & q1 & q2 & q3 & q4 & q5 & q6).
  cbn [app] in q0. subst out'.
  assert (hd : rv_drain st = false).
  { destruct (rv_drain st); auto. destruct i7 as (a & _); auto. unfold rv_ready in Er. rewrite a in Er. discriminate. }
  pose proof (zlen_nonneg bytes) as hzb.
  assert (hbound : rv_off st + zlen bytes <= rv_len st).
  { destruct (Z.eq_dec (zlen bytes) 0); [lia|].
    specialize (q4 (zlen bytes - 1) ltac:(lia)).
    destruct (zget bytes (zlen bytes - 1)) eqn:Eg.
    - symmetry in q4. apply (look_range (rv_off st) _ _ _ (rv_len st)) in q4; auto. lia.
    - apply zget_none_range in Eg. lia. }
  cbn [rv_off rv_len rv_fin_off rv_error rv_drain rv_fc rv_data].
  repeat (split; [solve [auto]|]).
  split.
  { constructor; cbn [rv_off rv_len rv_fin_off rv_error rv_drain rv_fc rv_data]; auto; try lia.
    { intros b hin. destruct (q3 b hin) as (c & p1 & p2 & p3). rewrite p2. auto. }
    { intros b hin hz. destruct (q3 b hin) as (c & p1 & p2 & p3). rewrite p2. auto. }
    all: try discriminate.
    all: cbn; try lia; try congruence.
    intros h. specialize (i11 h). unfold fc_max_data_next in *. cbn. lia. }
  repeat (split; [solve [auto]|]). auto.
Qed.

(** *** ready *)
Lemma rv_ready_spec st :
  rv_inv st ->
  (rv_ready st = true <->
   (exists x, look (rv_data st) (rv_off st) = Some x) \/
   (exists b, rv_data st = [b] /\ rbL b = 0 /\ rbO b = rv_off st /\ rv_fin_off st = Some (rv_off st))).
Proof.
  intros inv. destruct inv as [i1 i2 i3 i4 i5 i6 i7 i8 i9 i10 i11].
  unfold rv_ready. destruct (rv_data st) as [|b tl] eqn:Ed.
  - split; [discriminate|]. intros [(x & h) | (b & h & _)]; cbn in *; discriminate.
  - destruct i1 as (w & h2 & h3 & h4 & h5). pose proof (rbL_nonneg b w).
    assert (hM : rbM b = rbO b + rbL b) by reflexivity.
    split.
    + intros h. destruct (Z.eq_dec (rbL b) 0) as [z|z].
      * right. exists b. rewrite (h3 z). repeat split; auto; try lia.
        rewrite (i5 b) by (cbn; auto). f_equal; lia.
      * left. destruct (bget_some b (rv_off st) w) as (x & hx); [lia|].
        exists x. cbn [look]. now rewrite hx.
    + intros [(x & h) | (c & h & h6 & h7 & _)].
      * cbn [look] in h. destruct (bget b (rv_off st)) eqn:Eb.
        -- apply bget_range in Eb; auto. lia.
        -- destruct (look_some_in _ _ _ _ h5 h) as (c & p1 & p2 & _).
           destruct (chain_wf _ _ _ h5 p1). specialize (h4 c p1). lia.
      * inv h. lia.
Qed.
