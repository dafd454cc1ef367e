(** The pacer's invariants, and the spacing of what it paces. *)
Require Import Verif.Base Verif.BwModel Verif.PacerModel Verif.PacerSpec.

Definition pc_inv (p : pacer) : Prop := 0 <= pc_lumpy p <= 1 /\ pc_burst p <= initial_unpaced_burst.

Lemma pc_new_inv en mx : pc_inv (pacer_new en mx).
Proof. split; cbn; unfold initial_unpaced_burst; lia. Qed.

Lemma pc_sent_ok p t k : pc_inv p -> exists p', pc_sent p t k = Ok p' /\ pc_inv p'.
Proof.
  intros (h1 & h2). unfold pc_sent. destruct (_ || _); [exists p; split; [reflexivity|split; auto]|]. cbv zeta.
  set (b := if _ && _ then _ else pc_burst p).
  assert (hb : b <= initial_unpaced_burst) by (unfold b; destruct (_ && _); [apply Z.le_min_l|auto]).
  destruct (0 <? b) eqn:E; [eexists; split; [reflexivity|split; cbn [pc_lumpy pc_burst]; auto; lia]|].
  set (l := if negb (pc_limited p) || _ then _ else pc_lumpy p).
  assert (hl : 1 <= l <= 2).
  { unfold l, lumpy_size. cbv zeta. clear l. destruct (negb (pc_limited p) || (pc_lumpy p =? 0)) eqn:E1.
    - destruct (k_cwnd k <=? _); [lia|]. destruct (k_estimate k <? _); lia.
    - apply Bool.orb_false_iff in E1. lia. }
  replace (l <? 1) with false by lia. eexists. split; [reflexivity|]. split; cbn [pc_lumpy pc_burst]; auto; lia.
Qed.

Lemma pc_step_ok tn p e : pc_inv p -> exists p' o, pc_step tn p e = Ok (p', o) /\ pc_inv p'.
Proof.
  intros hi. destruct e as [k|l|]; cbn [pc_step].
  - unfold pc_packet. destruct (k_inflight k).
    + destruct (pc_sent_ok p (if tn then k_now k else pc_send_time p (k_now k)) k hi) as (p' & e & h). rewrite e. cbn [bind]. eauto.
    + cbn [bind]. eauto.
  - do 2 eexists. split; [reflexivity|]. destruct hi as (h1 & h2). unfold pc_congestion. destruct (negb _); [split; auto|]. destruct l; split; cbn [pc_lumpy pc_burst]; auto. unfold initial_unpaced_burst. lia.
  - do 2 eexists. split; [reflexivity|]. exact hi.
Qed.

Lemma pc_run_ok tn es : forall p, pc_inv p -> exists p' l, pc_run tn p es = Ok (p', l) /\ pc_inv p'.
Proof.
  induction es as [|e es IH]; intros p hi; [exists p, []; auto|]. cbn [pc_run].
  destruct (pc_step_ok tn p e hi) as (p1 & o & e1 & h1). rewrite e1. cbn [bind].
  destruct (IH p1 h1) as (p2 & l & e2 & h2). rewrite e2. cbn [bind]. eauto.
Qed.

(** A run in two parts *)
Lemma pc_run_app tn es1 es2 : forall p p1 l1, pc_run tn p es1 = Ok (p1, l1) ->
  pc_run tn p (es1 ++ es2) = (let* r := pc_run tn p1 es2 in let (p2, l2) := r in Ok (p2, l1 ++ l2)).
Proof.
  induction es1 as [|e es1 IH]; intros p p1 l1 h; cbn [pc_run app] in *.
  - injection h as <- <-. destruct (pc_run tn p es2) as [[p2 l2]| |]; reflexivity.
  - destruct (pc_step tn p e) as [[q o]| |]; cbn [bind] in *; try discriminate.
    destruct (pc_run tn q es1) as [[q2 l]| |] eqn:E; cbn [bind] in *; try discriminate. injection h as <- <-.
    rewrite (IH _ _ _ E). destruct (pc_run tn q2 es2) as [[p2 l2]| |]; cbn [bind]; try reflexivity.
    destruct e, o; reflexivity.
Qed.

(** What a packet does, once the run is not leaving quiescence *)
Lemma pc_packet_idle tn p k p' : pc_packet tn p k = Ok p' -> charged k = false -> p' = p.
Proof.
  unfold pc_packet, charged, pc_sent. intros h hc. destruct (k_inflight k); [|injection h as <-; auto]. cbn [andb] in hc. rewrite hc in h.
  rewrite Bool.orb_true_r in h. injection h as <-. auto.
Qed.

Lemma pc_packet_burst tn p k p' : pc_packet tn p k = Ok p' -> pc_enabled p = true -> charged k = true -> leaves_idle (PSend k) = false -> 0 < pc_burst p ->
  p' = MkPacer (pc_enabled p) (pc_max p) (pc_burst p - 1) Immediate (pc_lumpy p) false.
Proof.
  unfold pc_packet, leaves_idle, charged, pc_sent. intros h he hc hl hb. apply andb_prop in hc as (c1 & c2). rewrite c1, c2, he in *. cbn [andb negb orb] in *.
  rewrite hl in h. cbv zeta in h. replace (0 <? pc_burst p) with true in h by lia. injection h as <-. auto.
Qed.

Lemma pc_packet_paced tn p k p' : pc_packet tn p k = Ok p' -> pc_enabled p = true -> charged k = true -> leaves_idle (PSend k) = false -> pc_burst p <= 0 ->
  pc_enabled p' = true /\ pc_max p' = pc_max p /\ pc_burst p' = pc_burst p /\
  pc_next p' = At (match pc_next p with Immediate => k_now k | At t => Z.max (k_now k) t end + bw_transfer_time (pc_rate p k) (k_bytes k)).
Proof.
  unfold pc_packet, leaves_idle, charged, pc_sent. intros h he hc hl hb. apply andb_prop in hc as (c1 & c2). rewrite c1, c2, he in *. cbn [andb negb orb] in *.
  rewrite hl in h. cbv zeta in h. replace (0 <? pc_burst p) with false in h by lia.
  match type of h with (if ?c then _ else _) = _ => destruct c end; [discriminate|]. injection h as <-. cbn [pc_enabled pc_max pc_burst pc_next].
  repeat split; auto. unfold pc_send_time, pc_release, rd_time. rewrite he. cbn [negb fst].
  destruct (pc_next p) as [|t]; cbn [rt_set_max rt_inc]; destruct tn; auto; f_equal; f_equal; destruct (_ <? _) eqn:E; lia.
Qed.

Lemma delay_enough r rate b : 0 < r <= rate -> 0 <= b -> 8 * b * 1000000000 <= u64_max ->
  0 <= bw_transfer_time r b /\ 8 * b * 1000000000 <= rate * (bw_transfer_time r b + 1).
Proof.
  intros hr h0 hb. unfold bw_transfer_time, nanos_per_second. destruct (r =? u64_max) eqn:E; [lia|]. replace (r =? 0) with false by lia.
  replace (b * (8 * 1000000000)) with (8 * b * 1000000000) by lia. replace (8 * b * 1000000000 <=? u64_max) with true by lia.
  set (n := 8 * b * 1000000000) in *. assert (hn : 0 <= n) by lia. clearbody n.
  pose proof (Z.mul_succ_div_gt n r ltac:(lia)). pose proof (Z.div_pos n r hn ltac:(lia)). split; auto. nia.
Qed.

Lemma pc_rate_capped p k : pc_enabled p = true -> pc_rate p k = capped (pc_max p) (k_rate k).
Proof. intros h. unfold pc_rate, capped. rewrite h. destruct (pc_max p); auto. Qed.

(** When the last packet is due at [t], all that follows is spaced from it. *)
Lemma pc_floor tn rate es : forall p p' l t, pc_run tn p es = Ok (p', l) -> pc_enabled p = true -> pc_burst p <= 0 -> pc_next p = At t ->
  forallb (fun e => negb (leaves_idle e)) es = true -> Forall (rated (pc_max p) rate) es ->
  forall l2 y l3, charges l = l2 ++ y :: l3 -> 8 * bytes_of (l2 ++ [y]) * 1000000000 <= rate * (snd y - t + zlen (l2 ++ [y])).
Proof.
  induction es as [|e es IH]; intros p p' l t h he hb ht hi hr l2 y l3 hl; cbn [pc_run] in h.
  { injection h as <- <-. cbn in hl. destruct l2; discriminate. }
  cbn [forallb] in hi. apply andb_prop in hi as (hi1 & hi2). apply Bool.negb_true_iff in hi1. inversion hr as [|? ? hr1 hr2]; subst.
  destruct (pc_step tn p e) as [[p1 o]| |] eqn:Es; cbn [bind] in h; try discriminate.
  destruct (pc_run tn p1 es) as [[p2 l']| |] eqn:Er; cbn [bind] in h; try discriminate. injection h as <- <-.
  destruct e as [k|lost|]; cbn [pc_step] in Es.
  - destruct (pc_packet tn p k) as [q| |] eqn:Ep; cbn [bind] in Es; try discriminate. injection Es as <- <-.
    unfold charges in hl. cbn [filter fst] in hl. destruct (charged k) eqn:Ec.
    + destruct (pc_packet_paced _ _ _ _ Ep he Ec hi1 hb) as (q1 & q2 & q3 & q4). rewrite ht in q4.
      destruct hr1 as (r1 & r2 & r3). rewrite (pc_rate_capped _ _ he) in q4. destruct (delay_enough _ _ _ r3 r1 r2) as (d1 & d2).
      set (d := bw_transfer_time _ _) in *. clearbody d.
      assert (hs : pc_send_time q (k_now k) = Z.max (k_now k) t + d).
      { unfold pc_send_time, pc_release, rd_time. rewrite q1. cbn [negb fst]. rewrite q4. destruct (_ <? _) eqn:E; lia. }
      rewrite hs in hl.
      destruct l2 as [|x l2]; cbn [app] in hl; injection hl as <- hl.
      * cbn [app bytes_of fold_right fst snd]. unfold zlen. cbn [length]. nia.
      * cbn [app bytes_of fold_right fst]. fold (bytes_of (l2 ++ [y])). rewrite zlen_cons.
        specialize (IH q p2 l' _ Er q1 ltac:(lia) q4 hi2 ltac:(rewrite q2; exact hr2) l2 y l3 hl). nia.
    + apply (pc_packet_idle _ _ _ _ Ep) in Ec. subst q. exact (IH p p2 l' t Er he hb ht hi2 hr2 l2 y l3 hl).
  - injection Es as <- <-. cbv iota in hl. refine (IH _ p2 l' t Er _ _ _ hi2 _ l2 y l3 hl); unfold pc_congestion; rewrite he; cbn [negb]; destruct lost; cbn [pc_enabled pc_burst pc_next pc_max]; auto; lia.
  - injection Es as <- <-. exact (IH _ p2 l' t Er he hb ht hi2 hr2 l2 y l3 hl).
Qed.

Lemma pc_paced tn rate es : forall p p' l, pc_run tn p es = Ok (p', l) -> pc_enabled p = true -> pc_burst p <= 0 ->
  forallb (fun e => negb (leaves_idle e)) es = true -> Forall (rated (pc_max p) rate) es -> no_faster rate (charges l).
Proof.
  induction es as [|e es IH]; intros p p' l h he hb hi hr; cbn [pc_run] in h.
  { injection h as <- <-. intros l1 x l2 y l3 e. destruct l1; discriminate. }
  cbn [forallb] in hi. apply andb_prop in hi as (hi1 & hi2). apply Bool.negb_true_iff in hi1. inversion hr as [|? ? hr1 hr2]; subst.
  destruct (pc_step tn p e) as [[p1 o]| |] eqn:Es; cbn [bind] in h; try discriminate.
  destruct (pc_run tn p1 es) as [[p2 l']| |] eqn:Er; cbn [bind] in h; try discriminate. injection h as <- <-.
  destruct e as [k|lost|]; cbn [pc_step] in Es.
  - destruct (pc_packet tn p k) as [q| |] eqn:Ep; cbn [bind] in Es; try discriminate. injection Es as <- <-.
    unfold charges. cbn [filter fst]. destruct (charged k) eqn:Ec.
    + destruct (pc_packet_paced _ _ _ _ Ep he Ec hi1 hb) as (q1 & q2 & q3 & q4).
      set (t := match pc_next p with Immediate => k_now k | At t => Z.max (k_now k) t end + bw_transfer_time (pc_rate p k) (k_bytes k)) in *.
      assert (ht : k_now k <= t).
      { destruct hr1 as (r1 & r2 & r3). destruct (delay_enough _ _ _ r3 r1 r2) as (d1 & d2). unfold t. rewrite (pc_rate_capped _ _ he). destruct (pc_next p); lia. }
      assert (hs : pc_send_time q (k_now k) = t).
      { unfold pc_send_time, pc_release, rd_time. rewrite q1. cbn [negb fst]. rewrite q4. destruct (_ <? _) eqn:E; lia. }
      intros l1 x l2 y l3 hl. destruct l1 as [|z l1]; cbn [app] in hl.
      * injection hl as <- hl. cbn [snd]. rewrite hs. eapply (pc_floor tn rate es q p2 l' t Er q1 ltac:(lia) q4 hi2); [rewrite q2; exact hr2|exact hl].
      * injection hl as _ hl. exact (IH q p2 l' Er q1 ltac:(lia) hi2 ltac:(rewrite q2; exact hr2) l1 x l2 y l3 hl).
    + apply (pc_packet_idle _ _ _ _ Ep) in Ec. subst q. exact (IH p p2 l' Er he hb hi2 hr2).
  - injection Es as <- <-. cbv iota. refine (IH _ p2 l' Er _ _ hi2 _); unfold pc_congestion; rewrite he; cbn [negb]; destruct lost; cbn [pc_enabled pc_burst pc_max]; auto; lia.
  - injection Es as <- <-. exact (IH _ p2 l' Er he hb hi2 hr2).
Qed.

(** The unpaced packets come first and are as many as the tokens. *)
Lemma pc_split tn rate es : forall p p' l, pc_run tn p es = Ok (p', l) -> pc_enabled p = true ->
  forallb (fun e => negb (leaves_idle e)) es = true -> Forall (rated (pc_max p) rate) es ->
  exists a b, charges l = a ++ b /\ zlen a <= Z.max 0 (pc_burst p) /\ no_faster rate b.
Proof.
  induction es as [|e es IH]; intros p p' l h he hi hr.
  { exists [], []. cbn in h. injection h as <- <-. split; [reflexivity|]. split; [cbn; lia|]. intros l1 x l2 y l3 e. destruct l1; discriminate. }
  destruct (Z_le_dec (pc_burst p) 0) as [hb|hb].
  { exists [], (charges l). split; [reflexivity|]. split; [cbn; lia|]. exact (pc_paced _ _ _ _ _ _ h he hb hi hr). }
  cbn [pc_run] in h. cbn [forallb] in hi. apply andb_prop in hi as (hi1 & hi2). apply Bool.negb_true_iff in hi1. inversion hr as [|? ? hr1 hr2]; subst.
  destruct (pc_step tn p e) as [[p1 o]| |] eqn:Es; cbn [bind] in h; try discriminate.
  destruct (pc_run tn p1 es) as [[p2 l']| |] eqn:Er; cbn [bind] in h; try discriminate. injection h as <- <-.
  destruct e as [k|lost|]; cbn [pc_step] in Es.
  - destruct (pc_packet tn p k) as [q| |] eqn:Ep; cbn [bind] in Es; try discriminate. injection Es as <- <-.
    unfold charges. cbn [filter fst]. destruct (charged k) eqn:Ec.
    + pose proof (pc_packet_burst _ _ _ _ Ep he Ec hi1 ltac:(lia)) as e. subst q.
      destruct (IH _ p2 l' Er he hi2 hr2) as (a & b & e1 & e2 & e3). cbn [pc_burst] in e2.
      eexists (_ :: a), b. split; [cbn [app]; f_equal; exact e1|]. split; [rewrite zlen_cons; lia|exact e3].
    + apply (pc_packet_idle _ _ _ _ Ep) in Ec. subst q. exact (IH p p2 l' Er he hi2 hr2).
  - injection Es as <- <-. cbv iota.
    destruct (IH _ p2 l' Er ltac:(unfold pc_congestion; rewrite he; destruct lost; cbn; auto) hi2 ltac:(unfold pc_congestion; rewrite he; destruct lost; cbn; auto)) as (a & b & e1 & e2 & e3).
    exists a, b. split; [exact e1|]. split; [|exact e3]. unfold pc_congestion in e2. rewrite he in e2. cbn [negb] in e2. destruct lost; cbn [pc_burst] in e2; lia.
  - injection Es as <- <-. exact (IH _ p2 l' Er he hi2 hr2).
Qed.

Lemma pc_step_keeps tn p e p' o : pc_step tn p e = Ok (p', o) -> pc_enabled p' = pc_enabled p /\ pc_max p' = pc_max p.
Proof.
  destruct e as [k|lost|]; cbn [pc_step]; intros h.
  - destruct (pc_packet tn p k) as [q| |] eqn:E; cbn [bind] in h; try discriminate. injection h as <- _.
    unfold pc_packet, pc_sent in E. destruct (k_inflight k); [|injection E as <-; auto]. destruct (_ || _); [injection E as <-; auto|]. cbv zeta in E.
    destruct (0 <? _); [injection E as <-; auto|]. match type of E with (if ?c then _ else _) = _ => destruct c end; [discriminate|]. injection E as <-. auto.
  - injection h as <- _. unfold pc_congestion. destruct (negb _), lost; auto.
  - injection h as <- _. auto.
Qed.
Lemma pc_run_keeps tn es : forall p p' l, pc_run tn p es = Ok (p', l) -> pc_enabled p' = pc_enabled p /\ pc_max p' = pc_max p.
Proof.
  induction es as [|e es IH]; intros p p' l h; cbn [pc_run] in h; [injection h as <- _; auto|].
  destruct (pc_step tn p e) as [[p1 o]| |] eqn:Es; cbn [bind] in h; try discriminate.
  destruct (pc_run tn p1 es) as [[p2 l']| |] eqn:Er; cbn [bind] in h; try discriminate. injection h as <- _.
  destruct (pc_step_keeps _ _ _ _ _ Es) as (a & b). destruct (IH _ _ _ Er) as (c & d). rewrite c, d. auto.
Qed.
