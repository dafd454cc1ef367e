Require Import Verif.Base Verif.Errors Verif.DgramModel Verif.DgramSpec.

Lemma shuffle_move {A} (x : A) a1 : forall a2 b c, shuffle (a1 ++ x :: a2) b c ->
  exists b', shuffle (a1 ++ a2) b' c /\ forall y, In y b' -> y = x \/ In y b.
Proof.
  intros a2 b c h. remember (a1 ++ x :: a2) as a eqn:E. revert a1 a2 E.
  induction h as [|y a b c h IH|y a b c h IH]; intros a1 a2 E.
  - destruct a1; discriminate.
  - destruct a1 as [|z a1]; cbn [app] in E; injection E as -> ->.
    + exists (x :: b). cbn [app]. split; [constructor; auto|]. intros w [->|hw]; auto.
    + destruct (IH a1 a2 eq_refl) as (b' & h1 & h2). exists b'. cbn [app]. split; [constructor; auto|auto].
  - destruct (IH a1 a2 E) as (b' & h1 & h2). exists (y :: b'). split; [constructor; auto|].
    intros w [->|hw]; [right; left; auto|]. destruct (h2 w hw); [auto|right; right; auto].
Qed.

Lemma shuffle_snoc {A} (a b c : list A) x : shuffle a b c -> shuffle (a ++ [x]) b (c ++ [x]).
Proof. induction 1; cbn [app]; repeat constructor; auto. Qed.

Lemma shuffle_nil_r {A} (a c : list A) : shuffle a [] c -> a = c.
Proof. intros h. remember [] as b eqn:E. induction h; auto; [f_equal; auto|discriminate]. Qed.

Lemma shuffle_filter (p : list Z -> bool) q : forall del b c, shuffle (del ++ q) b c ->
  exists b', shuffle (del ++ filter p q) b' c /\ forall y, In y b' -> (In y q /\ p y = false) \/ In y b.
Proof.
  induction q as [|x q IH]; intros del b c h; cbn [filter].
  - exists b. split; auto.
  - destruct (p x) eqn:E.
    + change (shuffle (del ++ [x] ++ q) b c) in h; rewrite app_assoc in h. destruct (IH (del ++ [x]) b c h) as (b' & h1 & h2).
      exists b'. rewrite <- app_assoc in h1. split; auto. intros y hy. destruct (h2 y hy) as [(i & j)|i]; auto.
      left. split; auto. right. auto.
    + destruct (shuffle_move x del q b c h) as (b1 & h1 & h2). destruct (IH del b1 c h1) as (b' & h3 & h4).
      exists b'. split; auto. intros y hy. destruct (h4 y hy) as [(i & j)|i]; [left; split; auto; right; auto|].
      destruct (h2 y i) as [->|]; auto. left. split; auto. left. auto.
Qed.

Lemma total_app a b : total_bytes (a ++ b) = total_bytes a + total_bytes b.
Proof. induction a; cbn [app total_bytes fold_right] in *; [reflexivity|]. unfold total_bytes in *. cbn [fold_right]. lia. Qed.

Lemma total_cons d l : total_bytes (d :: l) = zlen d + total_bytes l.
Proof. reflexivity. Qed.

Lemma total_nonneg l : 0 <= total_bytes l.
Proof. induction l as [|d l IH]; [cbn; lia|]. rewrite total_cons. pose proof (zlen_nonneg d). lia. Qed.

Lemma fold_total l : forall n, fold_left (fun total (d : list Z) => total + zlen d) l n = n + total_bytes l.
Proof. induction l as [|d l IH]; intros n; cbn [fold_left]; [cbn; lia|]. rewrite IH, total_cons. lia. Qed.

(** State invariant. *)
Definition dq_ok (cap : Z) (q : dgq) : Prop :=
  dq_max q = cap /\ zlen (dq_queue q) <= cap /\ dq_bytes q = total_bytes (dq_queue q).

Lemma dq_push_ok cap d q : dq_ok cap q ->
  (zlen (dq_queue q) < cap /\ exists q', dq_push d q = (Ok tt, q') /\ dq_ok cap q' /\ dq_queue q' = dq_queue q ++ [d]) \/
  (zlen (dq_queue q) = cap /\ dq_push d q = (Err Done, q)).
Proof.
  intros (h1 & h2 & h3). unfold dq_push, dq_is_full, dq_len. rewrite h1.
  destruct (zlen (dq_queue q) =? cap) eqn:E; [right; split; auto; lia|]. left. split; [lia|].
  eexists. split; [reflexivity|]. split; [|reflexivity]. split; auto. cbn. rewrite zlen_app, total_app, total_cons.
  change (zlen [d]) with 1. cbn. lia.
Qed.

Lemma dq_pop_ok cap q : dq_ok cap q ->
  match dq_pop q with
  | (Some d, q') => dq_queue q = d :: dq_queue q' /\ dq_ok cap q'
  | (None, q') => q' = q /\ dq_queue q = []
  end.
Proof.
  intros (h1 & h2 & h3). unfold dq_pop. destruct (dq_queue q) as [|d tl] eqn:E; [auto|]. cbn [dq_queue].
  split; auto. split; auto. cbn [dq_queue dq_max dq_bytes]. rewrite zlen_cons in h2. rewrite h3, total_cons. unfold sat_sub.
  pose proof (total_nonneg tl). pose proof (zlen_nonneg d). split; lia.
Qed.

Lemma emit_loop_ok max l : forall bytes room out l' bytes' room',
  bytes = total_bytes l -> dgram_emit_loop l bytes room max = (out, l', bytes', room') ->
  bytes' = total_bytes l' /\ zlen l' <= zlen l /\
  total_bytes out + 3 * zlen out + room' = room /\ (0 <= room -> 0 <= room') /\
  match l' with [] => True | d :: _ => room' < 3 + zlen d /\ zlen d <= max end /\
  forall del b c, shuffle (del ++ l) b c ->
    exists b', shuffle (del ++ out ++ l') b' c /\ forall y, In y b' -> max < zlen y \/ In y b.
Proof.
  induction l as [|d l IH]; intros bytes room out l' bytes' room' hb h; cbn [dgram_emit_loop] in h.
  - injection h as <- <- <- <-. split; auto. split; [lia|]. split; [cbn; lia|]. split; auto. split; auto.
    intros del b c hs. exists b. split; auto.
  - rewrite total_cons in hb. pose proof (total_nonneg l). pose proof (zlen_nonneg d).
    assert (hs : sat_sub bytes (zlen d) = total_bytes l) by (unfold sat_sub; lia). rewrite zlen_cons.
    destruct (3 + zlen d <=? room) eqn:E1.
    + destruct (dgram_emit_loop l (sat_sub bytes (zlen d)) (room - (3 + zlen d)) max) as [[[o1 l1] b1] r1] eqn:E.
      injection h as <- <- <- <-. destruct (IH _ _ _ _ _ _ hs E) as (i1 & i2 & i3 & i4 & i5 & i6).
      split; auto. split; [lia|]. rewrite total_cons, zlen_cons. split; [lia|]. split; [lia|]. split; auto.
      intros del b c hh. change (shuffle (del ++ [d] ++ l) b c) in hh; rewrite app_assoc in hh. destruct (i6 (del ++ [d]) b c hh) as (b' & j1 & j2).
      exists b'. rewrite <- app_assoc in j1. split; auto.
    + destruct (max <? zlen d) eqn:E2.
      * destruct (IH _ _ _ _ _ _ hs h) as (i1 & i2 & i3 & i4 & i5 & i6). split; auto. split; [lia|].
        split; auto. split; auto. split; auto. intros del b c hh.
        destruct (shuffle_move d del l b c hh) as (b1 & j1 & j2). destruct (i6 del b1 c j1) as (b' & j3 & j4).
        exists b'. split; auto. intros y hy. destruct (j4 y hy) as [|i]; auto. destruct (j2 y i) as [->|]; auto. left. lia.
      * injection h as <- <- <- <-. rewrite total_cons. split; auto. split; [rewrite zlen_cons; lia|]. split; [cbn; lia|]. split; auto.
        split; [lia|]. intros del b c hh. exists b. cbn [app]. split; auto.
Qed.

Lemma zlen_filter {A} (p : A -> bool) l : zlen (filter p l) <= zlen l.
Proof. induction l as [|x l IH]; cbn [filter]; [lia|]. destruct (p x); rewrite ?zlen_cons; lia. Qed.

Definition discard_by (op : dg_op) (d : list Z) : Prop :=
  match op with
  | DgPurge f => f d = true
  | DgRecv buf => zlen buf < zlen d
  | DgFrame _ => True
  | DgEmit _ (Some max) => max < zlen d
  | _ => False
  end.

Lemma take_copy (d buf : list Z) : zlen d <= zlen buf -> take (zlen d) (d ++ drop (zlen d) buf) = d.
Proof. intros. apply take_app_exact. Qed.

Lemma dg_step_ok cap op q o q' : 0 <= cap -> dq_ok cap q -> dg_step op q = (o, q') ->
  dq_ok cap q' /\
  forall del b c, shuffle (del ++ dq_queue q) b c ->
    exists b', shuffle ((del ++ delivered1 op o) ++ dq_queue q') b' (c ++ accepted1 op o) /\
      forall y, In y b' -> discard_by op y \/ In y b.
Proof.
  intros hc hq hs.
  assert (push : forall d r q1, dq_push d q = (r, q1) -> dq_ok cap q1 /\
    forall del b c, shuffle (del ++ dq_queue q) b c ->
      shuffle (del ++ dq_queue q1) b (c ++ match r with Ok _ => [d] | _ => [] end)).
  { intros d r q1 e. destruct (dq_push_ok cap d q hq) as [(_ & q2 & e2 & k & l)|(_ & e2)]; rewrite e2 in e; injection e as <- <-.
    - split; auto. intros del b c h. rewrite l, app_assoc. apply shuffle_snoc. auto.
    - split; auto. intros del b c h. rewrite app_nil_r. auto. }
  destruct op; cbn [dg_step discard_by] in *.
  - destruct (dq_push d q) as [r q1] eqn:E. injection hs as <- <-. destruct (push _ _ _ E) as (k & h). split; auto.
    intros del b c hh. exists b. cbn [accepted1 delivered1]. rewrite app_nil_r. split; [|auto].
    specialize (h del b c hh). destruct r; auto.
  - pose proof (dq_pop_ok cap q hq) as hp. destruct (dq_pop q) as [[d|] q1]; injection hs as <- <-.
    + destruct hp as (e & k). split; auto. intros del b c hh. exists b. cbn [accepted1 delivered1].
      rewrite app_nil_r, <- app_assoc. cbn [app]. rewrite <- e. split; auto.
    + destruct hp as (-> & _). split; auto. intros del b c hh. exists b. cbn [accepted1 delivered1]. rewrite !app_nil_r. auto.
  - injection hs as <- <-. split; auto. intros del b c hh. exists b. cbn [accepted1 delivered1]. rewrite !app_nil_r. auto.
  - destruct (dq_peek_bytes buf len q). injection hs as <- <-. split; auto. intros del b c hh. exists b.
    cbn [accepted1 delivered1]. rewrite !app_nil_r. auto.
  - injection hs as <- <-. destruct hq as (h1 & h2 & h3). split.
    { split; auto. cbn [dq_purge dq_queue dq_max dq_bytes]. rewrite fold_total. pose proof (zlen_filter (fun d => negb (f d)) (dq_queue q)). split; lia. }
    intros del b c hh. cbn [accepted1 delivered1 dq_purge dq_queue]. rewrite !app_nil_r.
    destruct (shuffle_filter (fun d => negb (f d)) _ _ _ _ hh) as (b' & j1 & j2). exists b'. split; auto.
    intros y hy. destruct (j2 y hy) as [(_ & j)|]; auto. left. now apply negb_false_iff.
  - unfold dgram_send in hs. destruct max as [m|]; [destruct (m <? zlen d)|].
    + injection hs as <- <-. split; auto. intros del b c hh. exists b. cbn [accepted1 delivered1]. rewrite !app_nil_r. auto.
    + destruct (dq_push d q) as [r q1] eqn:E. injection hs as <- <-. destruct (push _ _ _ E) as (k & h). split; auto.
      intros del b c hh. exists b. cbn [accepted1 delivered1]. rewrite app_nil_r. split; [|auto].
      specialize (h del b c hh). destruct r; auto.
    + injection hs as <- <-. split; auto. intros del b c hh. exists b. cbn [accepted1 delivered1]. rewrite !app_nil_r. auto.
  - unfold dgram_recv in hs. pose proof (dq_pop_ok cap q hq) as hp. destruct (dq_pop q) as [[d|] q1].
    + destruct hp as (e & k). destruct (zlen buf <? zlen d) eqn:El; injection hs as <- <-; split; auto; intros del b c hh;
        cbn [accepted1 delivered1]; rewrite ?app_nil_r; rewrite e in hh.
      * destruct (shuffle_move d del _ b c hh) as (b' & j1 & j2). exists b'. split; auto.
        intros y hy. destruct (j2 y hy) as [->|]; auto. left. lia.
      * exists b. rewrite take_copy, <- app_assoc by lia. split; auto.
    + destruct hp as (-> & _). injection hs as <- <-. split; auto. intros del b c hh. exists b. cbn [accepted1 delivered1]. rewrite !app_nil_r. auto.
  - unfold dgram_recv_frame in hs. cbn [negb] in hs.
    set (q0 := if dq_is_full q then snd (dq_pop q) else q) in *.
    assert (k0 : dq_ok cap q0 /\ forall del b c, shuffle (del ++ dq_queue q) b c -> exists b', shuffle (del ++ dq_queue q0) b' c /\ forall y, In y b' -> True \/ In y b).
    { unfold q0. destruct (dq_is_full q); [|split; auto; intros del b c hh; exists b; split; auto].
      pose proof (dq_pop_ok cap q hq) as hp. destruct (dq_pop q) as [[x|] q1]; cbn [snd].
      - destruct hp as (e & k). split; auto. intros del b c hh. rewrite e in hh.
        destruct (shuffle_move x del _ b c hh) as (b' & j1 & j2). exists b'. split; auto.
      - destruct hp as (-> & _). split; auto. intros del b c hh. exists b. auto. }
    destruct k0 as (k0 & k1). destruct (dq_push d q0) as [r q1] eqn:E. injection hs as <- <-.
    cbn [accepted1 delivered1].
    destruct (dq_push_ok cap d q0 k0) as [(_ & q2 & e2 & k & l)|(_ & e2)]; rewrite e2 in E; injection E as <- <-;
      (split; [auto|]); intros del b c hh; destruct (k1 del b c hh) as (b' & j1 & j2); exists b'; rewrite ?app_nil_r; (split; [|auto]).
    + rewrite l, app_assoc. apply shuffle_snoc. auto.
    + auto.
  - unfold dgram_emit in hs. destruct hq as (h1 & h2 & h3).
    assert (nop : o = OSent [] -> q' = q -> dq_ok cap q' /\ forall del b c, shuffle (del ++ dq_queue q) b c ->
      exists b', shuffle ((del ++ delivered1 (DgEmit room max) o) ++ dq_queue q') b' (c ++ accepted1 (DgEmit room max) o) /\
      forall y, In y b' -> match max with Some max0 => max0 < zlen y | None => False end \/ In y b).
    { intros -> ->. split; [split; auto|]. intros del b c hh. exists b. cbn [accepted1 delivered1]. rewrite !app_nil_r. auto. }
    destruct (dq_is_empty q); [injection hs as <- <-; apply nop; auto|].
    destruct max as [m|]; [|injection hs as <- <-; apply nop; auto].
    destruct (2 <? room); [|injection hs as <- <-; apply nop; auto].
    destruct (dgram_emit_loop (dq_queue q) (dq_bytes q) room m) as [[[out l] by'] r'] eqn:E. injection hs as <- <-.
    destruct (emit_loop_ok _ _ _ _ _ _ _ _ h3 E) as (i1 & i2 & i3 & i4 & i5 & i6).
    split; [split; auto; cbn; split; [lia|auto]|]. intros del b c hh. cbn [accepted1 delivered1 dq_queue]. rewrite app_nil_r.
    destruct (i6 del b c hh) as (b' & j1 & j2). exists b'. rewrite <- app_assoc. split; auto.
Qed.

Lemma dg_run_ok cap ops : forall q outs q' del b c, 0 <= cap -> dq_ok cap q -> shuffle (del ++ dq_queue q) b c ->
  dg_run ops q = (outs, q') ->
  dq_ok cap q' /\ exists b', shuffle ((del ++ delivered ops outs) ++ dq_queue q') b' (c ++ accepted ops outs) /\
    forall y, In y b' -> (exists op, In op ops /\ discard_by op y) \/ In y b.
Proof.
  induction ops as [|op ops IH]; intros q outs q' del b c hc hq hs h; cbn [dg_run] in h.
  - injection h as <- <-. split; auto. exists b. cbn. rewrite !app_nil_r. auto.
  - destruct (dg_step op q) as [o q1] eqn:E1. destruct (dg_run ops q1) as [os q2] eqn:E2. injection h as <- <-.
    destruct (dg_step_ok cap op q o q1 hc hq E1) as (k1 & s1). destruct (s1 del b c hs) as (b1 & j1 & j2).
    destruct (IH _ _ _ _ _ _ hc k1 j1 E2) as (k2 & b2 & j3 & j4). split; auto. exists b2.
    unfold delivered, accepted. cbn [over]. rewrite !app_assoc. split; [rewrite <- !app_assoc in *; exact j3|].
    intros y hy. destruct (j4 y hy) as [(op' & i & j)|i]; [left; exists op'; split; auto; right; auto|].
    destruct (j2 y i) as [j|]; auto. left. exists op. split; auto. left. auto.
Qed.

Lemma dq_new_ok cap : 0 <= cap -> dq_ok cap (dq_new cap).
Proof. intros. split; auto. Qed.

Theorem dgram_fifo cap ops outs q : 0 <= cap -> dg_run ops (dq_new cap) = (outs, q) ->
  exists discarded, shuffle (delivered ops outs ++ dq_queue q) discarded (accepted ops outs) /\
    forall d, In d discarded -> may_discard ops d.
Proof.
  intros hc h. destruct (dg_run_ok cap ops _ _ _ [] [] [] hc (dq_new_ok cap hc) sh_nil h) as (_ & b & hs & hb).
  exists b. cbn [app] in hs. split; auto. intros d hd. destruct (hb d hd) as [(op & i & j)|[]].
  unfold may_discard. destruct op; cbn in j; try contradiction; eauto 10.
  destruct max; [eauto 10|contradiction].
Qed.

Theorem dgram_no_loss cap ops outs q : 0 <= cap -> dg_run ops (dq_new cap) = (outs, q) ->
  (forall d, ~ may_discard ops d) -> delivered ops outs ++ dq_queue q = accepted ops outs.
Proof.
  intros hc h hn. destruct (dgram_fifo cap ops outs q hc h) as (b & hs & hb). apply shuffle_nil_r.
  destruct b as [|d b]; auto. exfalso. apply (hn d). apply hb. left. auto.
Qed.

Theorem dgram_bounded cap ops outs q : 0 <= cap -> dg_run ops (dq_new cap) = (outs, q) ->
  dq_len q <= cap /\ dq_bytes q = total_bytes (dq_queue q).
Proof.
  intros hc h. destruct (dg_run_ok cap ops _ _ _ [] [] [] hc (dq_new_ok cap hc) sh_nil h) as ((_ & h2 & h3) & _). auto.
Qed.

Theorem dgram_push_exact cap ops outs q d : 0 <= cap -> dg_run ops (dq_new cap) = (outs, q) ->
  (dq_len q < cap -> exists q', dq_push d q = (Ok tt, q') /\ dq_queue q' = dq_queue q ++ [d]) /\
  (dq_len q = cap -> dq_push d q = (Err Done, q)).
Proof.
  intros hc h. destruct (dg_run_ok cap ops _ _ _ [] [] [] hc (dq_new_ok cap hc) sh_nil h) as (k & _).
  destruct (dq_push_ok cap d q k) as [(l & q' & e & _ & e')|(l & e)]; unfold dq_len; split; intros; try lia; eauto.
Qed.

(** purge removes exactly the matching ones: order kept, counts kept. *)
Lemma subseq_filter {A} (p : A -> bool) l : subseq (filter p l) l.
Proof. induction l as [|x l IH]; cbn [filter]; [constructor|]. destruct (p x); [apply ss_take|apply ss_skip]; auto. Qed.

Theorem dgram_purge_exact f q :
  let q' := dq_purge f q in
  subseq (dq_queue q') (dq_queue q) /\
  (forall d, In d (dq_queue q') -> f d = false) /\
  (forall d, f d = false -> count_occ dgeq_dec (dq_queue q') d = count_occ dgeq_dec (dq_queue q) d).
Proof.
  cbn. split; [apply subseq_filter|]. split.
  - intros d hd. apply filter_In in hd as (_ & hd). now apply negb_true_iff.
  - intros d hd. induction (dq_queue q) as [|x l IH]; auto. cbn [filter].
    destruct (f x) eqn:E; cbn [negb count_occ]; destruct (dgeq_dec x d); subst; try congruence; auto.
Qed.

(** A received datagram is always queued when the queue can hold any; only the
    oldest can go. *)
Theorem dgram_newest_kept cap ops outs q d : 1 <= cap -> dg_run ops (dq_new cap) = (outs, q) ->
  exists q', dgram_recv_frame true d q = (Ok tt, q') /\
    (dq_len q < cap -> dq_queue q' = dq_queue q ++ [d]) /\
    (dq_len q = cap -> exists old rest, dq_queue q = old :: rest /\ dq_queue q' = rest ++ [d]).
Proof.
  intros hc h. assert (hc0 : 0 <= cap) by lia.
  destruct (dg_run_ok cap ops _ _ _ [] [] [] hc0 (dq_new_ok cap hc0) sh_nil h) as (k & _).
  unfold dgram_recv_frame. cbn [negb]. pose proof k as (k1 & k2 & k3).
  destruct (dq_is_full q) eqn:E; unfold dq_is_full, dq_len in *; rewrite k1 in E.
  - pose proof (dq_pop_ok cap q k) as hp. destruct (dq_pop q) as [[x|] q1]; cbn [snd].
    + destruct hp as (e & kk). rewrite e, zlen_cons in *.
      destruct (dq_push_ok cap d q1 kk) as [(_ & q' & e1 & _ & e2)|(l & _)]; [|lia].
      exists q'. split; auto. split; [lia|]. intros _. exists x, (dq_queue q1). auto.
    + destruct hp as (_ & e). rewrite e in *. change (zlen (@nil (list Z))) with 0 in *. lia.
  - destruct (dq_push_ok cap d q k) as [(_ & q' & e1 & _ & e2)|(l & _)]; [|lia].
    exists q'. split; auto. split; auto. lia.
Qed.

(** Packing a packet: what goes in fits, and packing stops only at a datagram
    that does not fit now but will fit an empty packet. *)
Theorem dgram_emit_fits cap ops outs q room max out q' : 0 <= cap -> dg_run ops (dq_new cap) = (outs, q) ->
  2 < room -> dgram_emit room (Some max) q = (out, q') ->
  total_bytes out + 3 * zlen out <= room /\
  match dq_queue q' with
  | [] => True
  | d :: _ => zlen d <= max /\ room < total_bytes out + 3 * zlen out + 3 + zlen d
  end.
Proof.
  intros hc h hr he. destruct (dg_run_ok cap ops _ _ _ [] [] [] hc (dq_new_ok cap hc) sh_nil h) as ((k1 & k2 & k3) & _).
  unfold dgram_emit in he. destruct (dq_is_empty q) eqn:E0.
  - injection he as <- <-. unfold dq_is_empty, dq_len in E0. destruct (dq_queue q) as [|d l]; [cbn; lia|].
    rewrite zlen_cons in E0. pose proof (zlen_nonneg l). lia.
  - replace (2 <? room) with true in he by lia.
    destruct (dgram_emit_loop (dq_queue q) (dq_bytes q) room max) as [[[o l] b] r] eqn:E. injection he as <- <-.
    destruct (emit_loop_ok _ _ _ _ _ _ _ _ k3 E) as (i1 & i2 & i3 & i4 & i5 & i6). cbn [dq_queue].
    specialize (i4 ltac:(lia)). split; [lia|]. destruct l; auto. lia.
Qed.

Theorem dgram_send_iff cap ops outs q max d : 0 <= cap -> dg_run ops (dq_new cap) = (outs, q) ->
  (forall q', dgram_send max d q = (Ok tt, q') <->
     (exists m, max = Some m /\ zlen d <= m) /\ dq_len q < cap /\ q' = mkDgq (dq_queue q ++ [d]) (dq_max q) (dq_bytes q + zlen d)) /\
  (forall r q', dgram_send max d q = (r, q') -> r <> Ok tt -> q' = q /\
     r = Err match max with None => InvalidState | Some m => if m <? zlen d then BufferTooShort else Done end).
Proof.
  intros hc h. destruct (dg_run_ok cap ops _ _ _ [] [] [] hc (dq_new_ok cap hc) sh_nil h) as (k & _).
  destruct (dgram_bounded cap ops outs q hc h) as (b & _).
  assert (hf : dq_is_full q = (dq_len q =? cap)).
  { unfold dq_is_full. destruct k as (k & _). rewrite k. reflexivity. }
  unfold dgram_send, dq_push. rewrite hf. split.
  - intros q'. destruct max as [m|]; [|split; [discriminate|intros ((m & e & _) & _); discriminate]].
    destruct (m <? zlen d) eqn:E1.
    { split; [discriminate|]. intros ((m' & e & hm) & _). injection e as <-. lia. }
    destruct (dq_len q =? cap) eqn:E2.
    { split; [discriminate|]. intros (_ & hl & _). lia. }
    split.
    + intros e. injection e as <-. split; [exists m; split; auto; lia|]. split; auto. lia.
    + intros (_ & _ & ->). reflexivity.
  - intros r q' e hr. destruct max as [m|]; [|injection e as <- <-; auto].
    destruct (m <? zlen d); [injection e as <- <-; auto|]. destruct (dq_len q =? cap); injection e as <- <-; auto. congruence.
Qed.

Theorem dgram_peek_exact buf len q : 0 <= len ->
  match dq_queue q with
  | [] => dq_peek_len q = None /\ dq_peek_bytes buf len q = (Err Done, buf)
  | d :: _ =>
      dq_peek_len q = Some (zlen d) /\
      (zlen (take len d) <= zlen buf ->
         dq_peek_bytes buf len q = (Ok (zlen (take len d)), take len d ++ drop (zlen (take len d)) buf)) /\
      (zlen buf < zlen (take len d) -> dq_peek_bytes buf len q = (Err BufferTooShort, buf))
  end.
Proof.
  intros hl. unfold dq_peek_len, dq_peek_bytes. destruct (dq_queue q) as [|d l]; [split; reflexivity|].
  rewrite zlen_take by auto. split; [reflexivity|].
  split; intros h.
  - replace (zlen buf <? Z.min len (zlen d)) with false by lia. f_equal. f_equal.
    destruct (Z_le_dec len (zlen d)); [rewrite Z.min_l by lia; auto|]. rewrite Z.min_r by lia. rewrite !take_all by lia. reflexivity.
  - replace (zlen buf <? Z.min len (zlen d)) with true by lia. reflexivity.
Qed.

Theorem dgram_recv_exact buf q d rest : dq_queue q = d :: rest -> zlen d <= zlen buf ->
  exists buf' q', dgram_recv buf q = (Ok (zlen d), buf', q') /\ dq_queue q' = rest /\
    take (zlen d) buf' = d /\ drop (zlen d) buf' = drop (zlen d) buf.
Proof.
  intros e h. unfold dgram_recv, dq_pop. rewrite e. replace (zlen buf <? zlen d) with false by lia.
  eexists _, _. split; [reflexivity|]. cbn [dq_queue]. split; auto. split; [apply take_app_exact|apply drop_app_exact].
Qed.
