(** Queues over histories. *)
Require Import Verif.Base Verif.Errors Verif.Assoc Verif.OctetsModel Verif.FlowControlModel Verif.RangeBufModel
  Verif.RangesModel Verif.RangesProofs Verif.RecvBufModel Verif.RecvBufProofs2
  Verif.SendBufModel Verif.SendSpec Verif.SendBufProofs Verif.SendBufProofs2 Verif.SendBufProofs3
  Verif.StreamsModel Verif.StreamsSpec Verif.StreamsProofs
  Verif.StreamsEffects Verif.StreamsShape Verif.StreamsShape2 Verif.StreamsShape3 Verif.StreamsRecv Verif.StreamsTx Verif.StreamsTx2 Verif.StreamsTx3 Verif.StreamsTx4
  Verif.StreamsQ Verif.StreamsQ2 Verif.StreamsQ3 Verif.StreamsQ4 Verif.StreamsSpec2.
Require Import Sorted.




Lemma flushable_iff W b : Sb W b -> (sb_is_flushable b = true <-> exists r, In r (sb_data b) /\ rb_is_empty r = false).
Proof.
  intros hs. destruct (off_front_spec _ _ hs) as (f1 & f2 & f3 & _). pose proof (i_off _ _ hs) as io. unfold sb_is_flushable. cbv zeta.
  destruct (i_chain _ _ hs) as (base & hb & hc & _). split.
  - intros h. apply andb_true_iff in h as (h & _). apply andb_true_iff in h as (_ & h). destruct (f3 ltac:(lia)) as (r & r1 & r2). exists r. split; auto.
    unfold rb_is_empty. unfold rbM in r2. lia.
  - intros (r & r1 & r2). unfold rb_is_empty in r2.
    assert (hr : 0 <= rbL r).
    { clear - hc r1. revert base hc. induction (sb_data b) as [|a l IH]; intros base hc; [destruct r1|]. destruct hc as (h1 & h2 & h3).
      destruct r1 as [->|r1]; [|eapply IH; eauto]. pose proof (buf_ok_bounds _ _ h1). lia. }
    assert (hp : pending (sb_data b) (rbO r)) by (exists r; split; auto; unfold rbM; lia).
    pose proof (f2 _ hp). assert (rbO r < sb_off b) by (apply (chain_cover _ _ _ _ (rbO r) hc); auto).
    assert (he : sb_is_empty b = false) by (unfold sb_is_empty; destruct (sb_data b); [destruct r1|auto]). rewrite he. cbn [negb andb]. lia.
Qed.

Section P.
Variable P : params.
Variable i : start.

Lemma hist_kinds ops outs c : history P i ops outs c -> kinds P c.
Proof. intros h. eapply shape_kinds. eapply shape_history. eauto. Qed.

Lemma since_ind (L : conn -> Prop) (op0 : cn_op) (o0 : cn_out) : ~ L (cn_new P i) ->
  (forall ops outs c op o c', history P i ops outs c -> op_ok op -> cn_step P op c = Ok (o, c') -> L c' -> (op = op0 /\ o = o0) \/ L c) ->
  forall ops outs c, history P i ops outs c -> L c -> since P i op0 o0 L ops outs.
Proof.
  intros h0 hs. apply (history_ind P i (fun ops outs c => L c -> since P i op0 o0 L ops outs)).
  - intros _ _ h. destruct (h0 h).
  - intros ops outs c op o c' hist IH hok h hl. pose proof (history_step _ _ _ _ _ _ _ _ hist hok h) as hist'.
    destruct (hs _ _ _ _ _ _ hist hok h hl) as [(-> & ->)|hc].
    + exists ops, []. split; [auto|]. split.
      * rewrite (run_length _ _ _ _ _ (proj2 (proj2 (proj2 hist)))). rewrite nth_error_app2, Nat.sub_diag by lia. reflexivity.
      * intros a b outs' c2 e h2. symmetry in e. apply app_eq_nil in e as (-> & ->). destruct h2 as (_ & _ & _ & h2). destruct hist' as (_ & _ & _ & h3).
        rewrite h3 in h2. injection h2 as _ <-. auto.
    + destruct (IH hc) as (pre & post & e & h1 & h2). exists pre, (post ++ [op]). split; [rewrite e, <- app_assoc; auto|]. split.
      * rewrite nth_error_app1; auto. apply nth_error_Some. congruence.
      * intros a b outs' c2 e2 h3. destruct b as [|b0 b1] using rev_ind.
        -- rewrite app_nil_r in e2. subst a. assert (e3 : pre ++ op0 :: post ++ [op] = ops ++ [op]) by (rewrite e, <- app_assoc; auto).
           rewrite e3 in h3. destruct h3 as (_ & _ & _ & h3). destruct hist' as (_ & _ & _ & h4). rewrite h4 in h3. injection h3 as _ <-. auto.
        -- rewrite app_assoc in e2. apply app_inj_tail in e2 as (e2 & _). eapply h2; eauto.
Qed.

Lemma readable_since ops outs c x : history P i ops outs c -> can_read x c -> ~ in_readable x c ->
  since P i CnReadableNext (CoNext (Some x)) (fun c => can_read x c /\ ~ in_readable x c) ops outs.
Proof.
  intros hist h1 h2. refine (since_ind (fun c => can_read x c /\ ~ in_readable x c) _ _ _ _ ops outs c hist (conj h1 h2)).
  - intros ((s & hs & _) & _). discriminate.
  - clear. intros ops outs c op o c' hist hok h ((s & h1 & h2) & h3).
    destruct (r_step P x op c o c' (hist_kinds _ _ _ hist) h) as [q|((s0 & q1 & q2) & q3)]; auto.
    + exists s. split; auto. apply get_ent. auto.
    + apply linked_not. exact h3.
    + right. split; [exists s0; split; auto; apply get_ent; auto|]. apply linked_not in q3. exact q3.
Qed.

Lemma writable_iff g c x s : TxC P g c -> ent x c = Some (s, false) -> (st_writable s = true <->
  sb_shut (st_send s) = false /\ sb_fin_off (st_send s) = None /\ st_lowat s < sb_max_data (st_send s) - sb_off (st_send s)).
Proof.
  intros H he. pose proof (t_sb _ _ _ _ _ _ H he) as hs. unfold st_writable, sb_is_fin. rewrite !andb_true_iff, !negb_true_iff.
  destruct (i_fin _ _ hs) as [e|e]; rewrite e.
  - split; [intros ((h1 & _) & h2); ands; auto; lia|intros (h1 & _ & h2); ands; auto; lia].
  - rewrite Z.eqb_refl. split; [intros ((_ & h) & _); discriminate|intros (_ & h & _); discriminate].
Qed.
Lemma can_write_lW g c x : TxC P g c -> (can_write x c <-> lW x c).
Proof.
  intros H. split.
  - intros (s & h1 & h2). apply get_ent in h1. exists s. split; auto. eapply writable_iff; eauto.
  - intros (s & h1 & h2). exists s. split; [apply get_ent; auto|]. eapply writable_iff in h2; eauto.
Qed.

Lemma writable_since ops outs c x : history P i ops outs c -> can_write x c -> ~ in_writable x c ->
  since P i CnWritableNext (CoNext (Some x)) (fun c => can_write x c /\ ~ in_writable x c) ops outs.
Proof.
  intros hist h1 h2. refine (since_ind (fun c => can_write x c /\ ~ in_writable x c) _ _ _ _ ops outs c hist (conj h1 h2)).
  - intros ((s & hs & _) & _). discriminate.
  - clear. intros ops outs c op o c' hist hok h (h1 & h3).
    destruct (tx_history _ _ _ _ _ hist) as (T & _). destruct (tx_history _ _ _ _ _ (history_step _ _ _ _ _ _ _ _ hist hok h)) as (T' & _).
    destruct (w_step P (proj1 hist) _ x op c o c' (hist_kinds _ _ _ hist) T h) as [q|(q1 & q2)]; auto.
    + apply (can_write_lW _ _ _ T'). auto.
    + apply linked_not. exact h3.
    + right. split; [apply (can_write_lW _ _ _ T); auto|]. apply linked_not in q2. exact q2.
Qed.

Lemma waiting_LF g c x : TxC P g c -> (waiting x c <-> LF x c).
Proof.
  intros H. split.
  - intros (s & h1 & h2 & h3). apply get_ent in h1. exists s. split; auto. unfold FL. rewrite h2, andb_true_r. unfold st_flushable. eapply flushable_iff; eauto. eapply t_sb; eauto.
  - intros (s & h1 & h2). unfold FL in h2. apply andb_true_iff in h2 as (h2 & h3). apply negb_true_iff in h3. exists s. split; [apply get_ent; auto|]. split; auto.
    eapply flushable_iff in h2; eauto. eapply t_sb; eauto.
Qed.

Lemma waiting_queued ops outs c x : history P i ops outs c -> Forall roomy ops -> waiting x c -> linked x (c_fq c) = true.
Proof.
  intros hist. revert ops outs c hist. apply (history_ind P i (fun ops outs c => Forall roomy ops -> waiting x c -> linked x (c_fq c) = true)).
  - intros _ _ _ (s & h & _). discriminate.
  - intros ops outs c op o c' hist IH hok h hr hw. apply Forall_app in hr as (hr1 & hr2). inversion hr2 as [|? ? hr3 _]; subst.
    destruct (tx_history _ _ _ _ _ hist) as (T & _). destruct (tx_history _ _ _ _ _ (history_step _ _ _ _ _ _ _ _ hist hok h)) as (T' & _).
    destruct (linked x (c_fq c')) eqn:E; auto.
    destruct (f_step P _ x op c o c' (hist_kinds _ _ _ hist) T h) as [(room & -> & q)|(q1 & q2)]; auto.
    + apply (waiting_LF _ _ _ T'). auto.
    + cbn in hr3. lia.
    + apply (waiting_LF _ _ _ T) in q1. rewrite IH in q2 by auto. discriminate.
Qed.

(** ** Priorities *)
Lemma prio_history ops outs c x : history P i ops outs c ->
  match keyof c x with
  | Some k => (forall s, ent x c = Some (s, false) -> k = mkKey (fst (priority_of x ops outs)) (snd (priority_of x ops outs)) x)
  | None => priority_of x ops outs = (127, true)
  end.
Proof.
  intros hist. revert ops outs c hist. apply history_ind.
  - intros _ _. reflexivity.
  - intros ops outs c op o c' hist IH hok h. pose proof (q_history _ _ _ _ _ hist) as hq. pose proof (hist_kinds _ _ _ hist) as hk.
    unfold priority_of in *. rewrite events_snoc by (eapply run_length; apply hist). rewrite fold_left_app. cbn [fold_left].
    set (p := fold_left (prio_step x) (events ops outs) (127, true)) in *.
    assert (hov : forall s', ent x c' = Some (s', false) -> keyof c x = None \/ exists s, ent x c = Some (s, false)).
    { intros s' hs'. destruct (ent x c) as [[s0 [|]]|] eqn:E; [|eauto|left; unfold keyof; rewrite E; auto].
      exfalso. assert (ho : over x c) by (unfold over, collected; unfold ent in E; rewrite E; auto).
      apply (over_step P x op o c c' hok) in ho; auto; [|intros y s1 f1 hy; apply (hk _ _ _ hy)]. unfold over, collected in ho. unfold ent in hs'. rewrite hs' in ho. discriminate. }
    assert (hnp : (forall sid u b, op <> CnPriority sid u b) -> match keyof c' x with
      | Some k => forall s, ent x c' = Some (s, false) -> k = mkKey (fst (prio_step x p (op, o))) (snd (prio_step x p (op, o))) x
      | None => prio_step x p (op, o) = (127, true) end).
    { intros hnp. assert (ep : prio_step x p (op, o) = p) by (destruct op; auto; destruct (hnp _ _ _ eq_refl)). rewrite ep.
      destruct (q_step_np _ _ _ _ _ hq hk h hnp) as (km & _). specialize (km x). destruct (keyof c x) as [k|] eqn:Ek.
      - rewrite km. intros s' hs'. destruct (hov _ hs') as [q|(s & hs)]; [discriminate|eauto].
      - destruct km as [-> | ->]; auto. intros s' hs'. rewrite IH. reflexivity. }
    destruct op; try (apply hnp; discriminate). clear hnp. pose proof h as h0. cbn [cn_step] in h.
    apply priority_ok in h as [(-> & (e & h1 & h2))|(s & c1 & hg & -> & h)].
    + assert (hn : forall s, sid = x -> ent x c <> Some (s, false)).
      { intros s -> hs. unfold cn_get_or_create in h1. unfold ent in hs. rewrite hs in h1. discriminate. }
      destruct (keyof c x) as [k|] eqn:Ek.
      * intros s hs. destruct (sid =? x) eqn:E; [destruct (hn s ltac:(lia) hs)|]. destruct o; cbn [prio_step]; rewrite ?E; eauto.
      * cbn [prio_step]. destruct h2 as [->|(-> & ->)]; auto. destruct (sid =? x) eqn:E; auto.
        exfalso. assert (sid = x) by lia. subst sid. unfold keyof in Ek. destruct (ent x c) eqn:Ee; [discriminate|]. unfold cn_get_or_create in h1. unfold ent in Ee. rewrite Ee in h1.
        dif h1; [discriminate|]. cbv zeta in h1. destruct (new_limits _ _ _). destruct (is_local x (p_server P)); (match type of h1 with context [if ?b then _ else _] => destruct b end; discriminate).
    + cbn [prio_step]. destruct (q_goc _ _ _ _ _ _ hq hk hg) as (km & _ & g3 & g4).
      destruct h as [(-> & e1 & e2)| ->].
      * destruct (sid =? x) eqn:E.
        -- assert (e0 : x = sid) by lia. rewrite e0, g3. intros _ _. destruct (st_key s) as [a b d]. cbn in *. congruence.
        -- specialize (km x). destruct (keyof c x) as [k|] eqn:Ek.
           ++ rewrite km. intros s' hs'. destruct (hov _ hs') as [q|(s0 & hs)]; [discriminate|eauto].
           ++ destruct km as [-> | ->]; auto. intros s' hs'. rewrite IH. reflexivity.
      * cbv zeta. unfold keyof, ent. cn. destruct (sid =? x) eqn:E.
        -- assert (e0 : x = sid) by lia. rewrite e0, aget_aset_same. cbn. auto.
        -- rewrite aget_aset_other by lia. fold (ent x c1). fold (keyof c1 x). specialize (km x). destruct (keyof c x) as [k|] eqn:Ek.
           ++ rewrite km. intros s' hs'. destruct (hov s') as [q|(s0 & hs)]; [unfold ent; cn; rewrite aget_aset_other by lia; auto|discriminate|eauto].
           ++ destruct km as [-> | ->]; auto. intros s' hs'. rewrite IH. reflexivity.
Qed.
End P.
