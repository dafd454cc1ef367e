(** A stream that was reset has nothing more to do: its send side is complete
    from then on. *)
Require Import Verif.Base Verif.Errors Verif.OctetsModel Verif.RangeBufModel Verif.RangesModel Verif.RangesProofs
  Verif.SendBufModel Verif.SendSpec Verif.SendBufProofs Verif.SendBufProofs2 Verif.SendBufProofs3
  Verif.SendProofs Verif.SendProofs2 Verif.SendProofs3 Verif.SendProofs5.

Lemma complete_iff W s : Sb W s -> sb_fin_off s = Some (sb_off s) ->
  (sb_is_complete s = true <->
   rs_ranges (sb_acked s) <> [] /\ forall x, 0 <= x < sb_off s -> covers (rs_ranges (sb_acked s)) x).
Proof.
  intros h hf. pose proof (i_ack _ _ h) as (a1 & a2 & a3). pose proof (i_emit _ _ h) as ie.
  pose proof (ends_weaken _ _ (sb_off s) a3 (proj2 ie)) as a4. unfold sb_is_complete. rewrite hf.
  destruct (Z.eq_dec (sb_off s) 0) as [z|z].
  - rewrite z in *. rewrite (eq_range_zero _ a1 a4). split; [|tauto]. intros q. split; auto. intros; lia.
  - rewrite (eq_range_iff _ _ a1 a4) by lia. split; [|tauto]. intros q. split; auto. intros e.
    rewrite e in q. destruct (covers_nil 0 (q 0 ltac:(lia))).
Qed.

(** What keeps a buffer complete. *)
Lemma complete_keep W W' s s' : Sb W s -> Sb W' s' -> is_reset s' ->
  sb_off s' = sb_off s -> sb_is_complete s = true ->
  rs_ranges (sb_acked s') <> [] -> (forall x, covers (rs_ranges (sb_acked s)) x -> covers (rs_ranges (sb_acked s')) x) ->
  sb_is_complete s' = true.
Proof.
  intros h h' hr ho hc hn hg. destruct (i_reset _ _ h' hr) as (_ & e & _). apply (complete_iff _ _ h' e). split; auto.
  intros x hx. apply hg. rewrite ho in hx. apply (complete_covers _ _ _ h hc hx).
Qed.

Lemma complete_nonnil W s : Sb W s -> sb_is_complete s = true -> rs_ranges (sb_acked s) <> [].
Proof.
  intros h hc. pose proof (complete_fin _ hc). destruct (i_fin _ _ h) as [q|q]; [congruence|]. apply (complete_iff _ _ h q). auto.
Qed.

Lemma reset_complete W s f u s' : Sb W s -> sb_reset s = Ok (f, u, s') -> sb_is_complete s' = true.
Proof.
  intros h e. destruct (sb_reset_spec _ _ h) as (s1 & e1 & _ & _ & k1 & _ & _ & _ & k2 & _ & _ & r1 & r2 & r3 & r4 & r5).
  rewrite e in e1. injection e1 as -> -> ->. unfold sb_is_complete. rewrite k2. pose proof (i_emit _ _ h).
  destruct (Z.eq_dec (sb_emit_off s) 0) as [z|z].
  - rewrite z in *. apply (eq_range_zero _ r1 r3). auto.
  - apply (eq_range_iff _ _ r1 r3); [lia|]. intros x hx. apply r4. auto.
Qed.

Lemma done_step md ops outs st op o st' : Hist md ops outs st -> sn_op_ok op -> sn_step op st = Ok (o, st') ->
  (is_reset (ss_buf st) -> sb_is_complete (ss_buf st) = true) -> is_reset (ss_buf st') -> sb_is_complete (ss_buf st') = true.
Proof.
  intros h hok hs hd hr. destruct (hist_step md ops outs st op h hok) as (o2 & st2 & g1 & g2). rewrite hs in g1. injection g1 as <- <-.
  pose proof (h_sb _ _ _ _ h) as hb. pose proof (h_sb _ _ _ _ g2) as hb'.
  assert (hw : forall zc data cap fin, 0 <= cap -> sn_write zc data cap fin st = Ok (o, st') -> sb_is_complete (ss_buf st') = true).
  { intros zc data cap fin hc e. unfold sn_write in e. destruct (ss_gone st) eqn:Eg; [injection e as <- <-; auto|].
    destruct (sb_error (ss_buf st)) as [er|] eqn:Ee; [injection e as <- <-; auto|].
    destruct (_ && _) eqn:Eb in e; [injection e as <- <-; auto|].
    set (p := if cap <? zlen data then (cap, false) else (zlen data, fin)) in e.
    assert (hp : 0 <= fst p <= zlen data) by (pose proof (zlen_nonneg data); unfold p; destruct (cap <? zlen data) eqn:?; cbn; lia).
    destruct p as [cap' fin']. cbn [fst] in hp.
    assert (wp : write_post (written ops outs) (ss_buf st) (take cap' data) fin'
              (if zc then sb_write_zc data cap' fin' (ss_buf st) else sb_write (take cap' data) fin' (ss_buf st))).
    { destruct zc; [apply sb_write_zc_spec; auto|apply sb_write_spec; auto]. }
    destruct (if zc then _ else _) as [[n b]|er|] in e, wp; [|injection e as <- <-; auto|discriminate].
    cbn in wp. destruct wp as (w1 & w2 & w3 & w4 & w5 & w6 & w7 & w8 & w9 & w10 & w11 & w12 & w13 & w14 & _).
    assert (hsame : forall b0, sb_is_complete (sb_update_blocked b0 b) = sb_is_complete b /\ (is_reset (sb_update_blocked b0 b) <-> is_reset b)) by (intros; split; [reflexivity|unfold is_reset; tauto]).
    assert (hb2 : is_reset b -> sb_is_complete b = true).
    { intros q. assert (r : is_reset (ss_buf st)) by (unfold is_reset in *; rewrite w8, w9 in q; rewrite w10; auto).
      specialize (hd r). destruct (i_reset _ _ hb r) as (_ & ef & _). destruct (w13 ltac:(congruence)) as (n0 & _ & _ & ef').
      eapply complete_keep; [exact hb|exact w2|exact q|lia|exact hd| |].
      - rewrite w11. eapply complete_nonnil; eauto.
      - rewrite w11. auto. }
    injection e as <- <-. cbn [ss_buf] in *. destruct (n <? cap'); apply hb2, hr. }
  destruct op; cbn [sn_step sn_op_ok] in *.
  - eapply hw; eauto.
  - eapply hw; eauto.
  - unfold sn_emit in hs. destruct (negb (ss_flush st)); [injection hs as <- <-; auto|]. destruct (ss_gone st); [injection hs as <- <-; auto|].
    destruct (sb_error (ss_buf st)) eqn:Ee; [injection hs as <- <-; auto|].
    destruct (sb_emit_spec _ _ max_len hb ltac:(lia)) as (out & fin & s' & e & _ & _ & _ & _ & _ & _ & k1 & _ & _ & k2 & k3 & k4 & _).
    cbv zeta in hs. rewrite e in hs. cbn [bind] in hs. injection hs as <- <-. cbn [ss_buf] in *.
    assert (r : is_reset (ss_buf st)) by (unfold is_reset in *; rewrite k2, k3 in hr; auto).
    eapply complete_keep; [exact hb|exact hb'|exact hr|exact k1|auto|rewrite k4; eapply complete_nonnil; eauto|rewrite k4; auto].
  - injection hs as <- <-. auto.
  - unfold sn_ack in hs. destruct (nth_error (ss_sent st) i) as [[[f a] l]|] eqn:En; [|injection hs as <- <-; auto].
    destruct (ss_gone st); [injection hs as <- <-; auto|].
    assert (hf : In f (frames outs)).
    { rewrite <- (h_sent _ _ _ _ h). apply in_map_iff. exists (f, a, l). split; [reflexivity|]. eapply nth_error_In; eauto. }
    destruct (h_frame _ _ _ _ h f hf) as (f1 & _ & f3). unfold frame_end in f3.
    destruct (sb_ack_and_drop_spec _ _ (sf_off f) (zlen (sf_bytes f)) hb f1 (zlen_nonneg _) f3) as (n & s' & e & _ & k & _ & _ & ku & kc & _).
    cbv zeta in hs. rewrite e in hs. cbn [bind] in hs. injection hs as <- <-. cbn [ss_buf] in *.
    unfold same_rest in k. decompose [and] k. clear k.
    assert (r : is_reset (ss_buf st)) by (unfold is_reset in *; intuition congruence).
    eapply complete_keep; [exact hb|exact hb'|exact hr|assumption|auto|rewrite ku; apply uins_nonnil|intros x hx; apply kc; auto].
  - unfold sn_lost in hs. destruct (nth_error (ss_sent st) i) as [[[f a] l]|] eqn:En; [|injection hs as <- <-; auto].
    destruct (ss_gone st); [injection hs as <- <-; auto|]. destruct (sb_error (ss_buf st)) eqn:Ee; [injection hs as <- <-; auto|].
    assert (hf : In f (frames outs)).
    { rewrite <- (h_sent _ _ _ _ h). apply in_map_iff. exists (f, a, l). split; [reflexivity|]. eapply nth_error_In; eauto. }
    destruct (h_frame _ _ _ _ h f hf) as (f1 & _ & f3). unfold frame_end in f3.
    destruct (sb_retransmit_spec _ _ (sf_off f) (zlen (sf_bytes f)) hb f1 (zlen_nonneg _) f3) as (n & s' & e & _ & k & ka & _).
    cbv zeta in hs. rewrite e in hs. cbn [bind] in hs. injection hs as <- <-. cbn [ss_buf] in *.
    unfold same_rest in k. decompose [and] k. clear k.
    assert (r : is_reset (ss_buf st)) by (unfold is_reset in *; intuition congruence).
    eapply complete_keep; [exact hb|exact hb'|exact hr|assumption|auto|rewrite ka; eapply complete_nonnil; eauto|rewrite ka; auto].
  - unfold sn_max_data in hs. destruct (ss_gone st); injection hs as <- <-; auto.
  - unfold sn_stop, sb_stop in hs. destruct (ss_gone st); [injection hs as <- <-; auto|]. destruct (sb_error (ss_buf st)); [injection hs as <- <-; auto|].
    destruct (sb_reset (ss_buf st)) as [[[f u] s']|e|] eqn:E; cbn [bind] in hs; [|injection hs as <- <-; auto|discriminate].
    injection hs as <- <-. cbn [ss_buf]. apply (reset_complete _ _ _ _ _ hb E).
  - unfold sn_shutdown, sb_shutdown in hs. destruct (ss_gone st); [injection hs as <- <-; auto|]. destruct (sb_shut (ss_buf st)) eqn:Es; [injection hs as <- <-; auto|].
    match type of hs with match sb_reset ?b with _ => _ end = _ => set (b0 := b) in hs end.
    destruct (is_reset_dec (ss_buf st)) as [r|r].
    + destruct (sb_reset b0) as [[[f u] s']|e|] eqn:E; [|injection hs as <- <-; auto|discriminate].
      injection hs as <- <-. cbn [ss_buf]. eapply (reset_complete (written ops outs) b0); [|exact E].
      destruct (i_reset _ _ hb r) as (r1 & r2 & r3). destruct hb. constructor; cbn; auto. intros q. destruct q. left. reflexivity.
    + destruct (sb_reset b0) as [[[f u] s']|e|] eqn:E; [|injection hs as <- <-; auto|discriminate].
      injection hs as <- <-. cbn [ss_buf]. destruct (sb_reset_spec _ _ hb) as (s1 & e1 & _ & _ & _ & _ & _ & _ & k2 & _ & _ & r1 & r2 & r3 & r4 & r5).
      assert (q : sb_fin_off s' = sb_fin_off s1 /\ sb_acked s' = sb_acked s1).
      { unfold sb_reset, sb_ack, b0 in E, e1. cbn [sb_off sb_acked sb_off_front sb_data sb_pos sb_emit_off] in E, e1.
        change (sb_off_front _) with (sb_off_front (ss_buf st)) in E.
        match type of E with context [rs_insert ?x ?y] => destruct (rs_insert x y) as [rr| |] eqn:Er end; try discriminate.
        cbn [bind] in E, e1. try rewrite Er in e1. cbn [bind] in e1. apply (f_equal (fun r => match r with Ok (_, _, x) => x | _ => s1 end)) in e1. cbn in e1.
        apply (f_equal (fun r => match r with Ok (_, _, x) => x | _ => s1 end)) in E. cbn in E. rewrite <- E, <- e1. auto. }
      destruct q as (q1 & q2). unfold sb_is_complete. rewrite q1, q2, k2. pose proof (i_emit _ _ hb).
      destruct (Z.eq_dec (sb_emit_off (ss_buf st)) 0) as [z|z].
      * rewrite z in *. apply (eq_range_zero _ r1 r3). auto.
      * apply (eq_range_iff _ _ r1 r3); [lia|]. intros x hx. apply r4. auto.
  - unfold sn_collect in hs. injection hs as <- <-. auto.
Qed.

Lemma done_run md ops : 0 <= md <= max_varint -> Forall sn_op_ok ops -> forall outs st, sn_run ops (sn_new md) = Ok (outs, st) ->
  was_reset outs -> sb_is_complete (ss_buf st) = true.
Proof.
  intros hm hops outs st hrun hw.
  assert (q : is_reset (ss_buf st) -> sb_is_complete (ss_buf st) = true);
    [|apply q, (h_reset _ _ _ _ (hist_of _ _ _ _ hm hops hrun)); auto].
  clear hw. revert outs st hrun. induction ops as [|op ops IH] using rev_ind; intros outs st hrun.
  { injection hrun as <- <-. intros [r|r]; cbn in r; [discriminate|congruence]. }
  apply Forall_app in hops as (h1 & h2). inversion h2 as [|? ? h3 _]; subst.
  destruct (hist_run md ops hm h1) as (o1 & st1 & g1 & g2). rewrite sn_run_app, g1 in hrun. cbn [bind sn_run] in hrun.
  destruct (sn_step op st1) as [[o s2]| |] eqn:E; cbn [bind] in hrun; try discriminate. injection hrun as <- <-.
  eapply done_step; eauto.
Qed.
