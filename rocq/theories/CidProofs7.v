Require Import Verif.Base Verif.Errors Verif.TpModel Verif.CidModel Verif.CidSpec Verif.CidProofs Verif.CidProofs2 Verif.CidProofs3 Verif.CidProofs4 Verif.CidProofs5 Verif.CidProofs6.

Lemma x_eta x : with_ids (x_ids x) x = x.
Proof. destruct x; reflexivity. Qed.

(** A list without repetition inside another is not longer. *)
Lemma nodup_incl_len (a b : list Z) : NoDup a -> incl a b -> zlen a <= zlen b.
Proof. intros h1 h2. unfold zlen. pose proof (NoDup_incl_length h1 h2). lia. Qed.

Lemma announced_lt sc st h s n r c t : sinv sc st h s -> In (SendNewCid, OFrame n r c t) h -> 0 <= n < c_next s.
Proof. intros hs hi. destruct (si_frame _ _ _ _ hs _ _ _ _ hi) as [h1 _]. eapply si_isb; eauto. Qed.

(** What the peer counts when it gets the frame. *)
Lemma peer_limit_frame sc st h x n r c t A : sinv sc st h (x_ids x) ->
  fst (cid_step SendNewCid x) = OFrame n r c t ->
  NoDup A ->
  (forall m, In m A -> r <= m /\ (m = 0 \/ m = n \/ announced h m) /\ ~ retired_by_peer h m) ->
  zlen A <= peer_limit h.
Proof.
  intros hs hf hn hA. cbn [cid_step] in hf.
  destruct (c_adv (x_ids x)) as [|q l] eqn:Ea; [discriminate|]. unfold new_cid_frame in hf.
  destruct (dq_get q (c_s (x_ids x))) as [e|] eqn:Eg; [|discriminate]. destruct (e_tok e); [|discriminate].
  cbn in hf. injection hf as <- <- <- <-. apply dq_get_some in Eg. destruct Eg as [g1 g2].
  pose proof (si_seqs _ _ _ _ hs) as hq. rewrite Forall_forall in hq.
  transitivity (zlen (map e_seq (filter (fun e => c_rpt (x_ids x) <=? e_seq e) (c_s (x_ids x))))).
  - apply nodup_incl_len; auto. intros m hm. destruct (hA m hm) as (h1 & h2 & h3).
    assert (0 <= m < c_next (x_ids x)) as hb.
    { destruct h2 as [->|[->|(r' & c' & t' & h2)]].
      - pose proof (si_next _ _ _ _ hs). lia.
      - subst q. apply hq; auto.
      - eapply announced_lt; eauto. }
    destruct (si_gone _ _ _ _ hs m hb) as [h4|]; [|tauto].
    apply in_map_iff in h4. destruct h4 as (y & <- & hy). apply in_map. apply filter_In. split; auto. lia.
  - unfold zlen. rewrite map_length. apply (si_use _ _ _ _ hs).
Qed.

Lemma frame_legal sc st h x n r c t : sinv sc st h (x_ids x) -> fst (cid_step SendNewCid x) = OFrame n r c t ->
  In (n, c, Some t) (all_ids sc st h) /\ active_s x n /\ (never_forced h -> r <= n).
Proof.
  intros hs hf. cbn [cid_step] in hf.
  destruct (c_adv (x_ids x)) as [|q l] eqn:Ea; [discriminate|]. unfold new_cid_frame in hf.
  destruct (dq_get q (c_s (x_ids x))) as [e|] eqn:Eg; [|discriminate]. destruct (e_tok e) as [t'|] eqn:Et; [|discriminate].
  cbn in hf. injection hf as <- <- <- <-. apply dq_get_some in Eg. destruct Eg as [g1 g2]. subst q. ands.
  - rewrite <- Et. apply (si_iss _ _ _ _ hs); auto.
  - apply in_map. auto.
  - intros hn. pose proof (si_forced _ _ _ _ hs hn) as hh. rewrite Forall_forall in hh. auto.
Qed.

(** Sending as often as numbers are queued announces them all, in order. *)
Lemma send_all : forall l x, c_adv (x_ids x) = l ->
  (forall n, In n l -> exists e, In e (s_ids x) /\ e_seq e = n /\ e_tok e <> None) ->
  NoDup (map e_seq (s_ids x)) ->
  exists x', cid_run (repeat SendNewCid (length l)) x =
    (map (fun n => match dq_get n (s_ids x) with
                   | Some e => match e_tok e with Some t => OFrame n (c_rpt (x_ids x)) (e_cid e) t | None => OUnit end
                   | None => OUnit end) l, x') /\ c_adv (x_ids x') = [].
Proof.
  induction l as [|q l IH]; intros x hl hall hn; cbn [length repeat cid_run].
  - exists x. auto.
  - cbn [cid_step]. rewrite hl. unfold new_cid_frame.
    destruct (hall q (or_introl eq_refl)) as (e & h1 & h2 & h3).
    destruct (dq_get_in q (s_ids x)) as (e' & he'); [rewrite <- h2; apply in_map; auto|].
    assert (e' = e) as ->. { apply dq_get_some in he'. destruct he' as [a b]. eapply nodup_seq_eq; eauto; congruence. }
    unfold s_ids in he'. rewrite he'. destruct (e_tok e) as [t|] eqn:Et; [|congruence].
    set (x1 := with_ids (mark_adv q false (x_ids x)) x).
    assert (c_adv (x_ids x1) = l) as e1 by (unfold x1; cbn; rewrite hl; cbn; rewrite Z.eqb_refl; auto).
    destruct (IH x1 e1) as (x' & hr & hx').
    + intros n hi. apply hall. right. auto.
    + exact hn.
    + exists x'. split; auto. rewrite hr. unfold s_ids. cbn [map]. rewrite he', Et. reflexivity.
Qed.

(** When RETIRE_CONNECTION_ID is accepted. *)
Lemma retire_exact sc st h x n d : sinv sc st h (x_ids x) -> c_zs (x_ids x) = false ->
  let '(o, x') := cid_step (GotRetire n d) x in
  (o = OUnit <->
     n < c_next (x_ids x) /\ 2 <= zlen (s_ids x) /\
     forall e, In e (s_ids x) -> e_seq e = n ->
       e_cid e <> d /\ exists e', In e' (s_ids x) /\ e_seq e' <> n /\ c_rpt (x_ids x) <= e_seq e') /\
  (o = OUnit -> forall m, active_s x' m <-> active_s x m /\ m <> n).
Proof.
  intros hs hz. cbn [cid_step]. rewrite hz. unfold retire_scid, s_ids, active_s.
  destruct (Z.leb_spec (c_next (x_ids x)) n).
  { cbn. split; [split; [discriminate|lia]|discriminate]. }
  destruct (dq_remove_cases n (c_s (x_ids x))) as [[hl ->]|[(hl & hni & ->)|(hl & e & he1 & he2 & _ & ->)]].
  - cbn. split; [split; [discriminate|lia]|discriminate].
  - cbn [out_of]. split.
    + split; auto. intros _. ands; auto; [lia|]. intros e he <-. exfalso. apply hni. apply in_map. auto.
    + intros _ m. rewrite x_eta. split; [|tauto]. intros hm. split; auto. intros ->. auto.
  - assert (forall m, In m (map e_seq (dq_del n (c_s (x_ids x)))) <-> In m (map e_seq (c_s (x_ids x))) /\ m <> n) as hdel.
    { intros m. split.
      - intros hm. split; [eapply del_seq_in; eauto|]. intros ->. revert hm. apply dq_del_gone. apply (si_nds _ _ _ _ hs).
      - intros [a b]. apply dq_del_seqs; auto. }
    destruct (cid_eqb (e_cid e) d) eqn:Ec.
    + apply cid_eqb_iff in Ec. cbn. split; [split; [discriminate|]|discriminate]. intros (_ & _ & hx). destruct (hx e he1 he2). congruence.
    + assert (e_cid e <> d) as hne by (intros hx; apply cid_eqb_iff in hx; congruence). cbv zeta.
      destruct (lowest_usable _) as [l|] eqn:El; cbn [out_of].
      * apply lowest_usable_some in El. cbn [w_s w_retired c_s c_rpt] in El. destruct El as (l1 & l2 & _). split.
        -- split; auto. intros _. ands; auto; [lia|]. intros e0 h0 h1. assert (e0 = e) as ->.
           { apply (nodup_seq_eq (c_s (x_ids x))); auto; [apply (si_nds _ _ _ _ hs)|congruence]. }
           split; auto. apply in_map_iff in l1. destruct l1 as (e' & <- & he'). exists e'. ands; auto.
           ++ eapply dq_del_in; eauto.
           ++ apply (in_map e_seq) in he'. apply hdel in he'. tauto.
        -- intros _ m. apply hdel.
      * split; [split; [discriminate|]|discriminate]. intros (_ & _ & hx). destruct (hx e he1 he2) as (_ & e' & a & b & c).
        pose proof (lowest_usable_none _ El e') as hh. cbn [w_s w_retired c_s c_rpt] in hh. specialize (hh (dq_del_in' _ _ _ a b)). lia.
Qed.

(** No operation panics. *)
Lemma no_panic_step op x : fst (cid_step op x) <> OPanic.
Proof.
  assert (forall q l, dq_remove q l <> Panic) as hrm.
  { intros q l. unfold dq_remove. destruct (_ <=? _); [discriminate|]. destruct (dq_get _ _); discriminate. }
  assert (forall q s, fst (mark_retire q s) <> Panic) as hmr.
  { intros q s. unfold mark_retire. destruct (set_insert_spec q (c_rcap s) (c_ret s)) as [[_ ->]|(_ & l & -> & _)]; discriminate. }
  destruct op; cbn [cid_step].
  - rewrite new_scid_go. assert (forall s, fst (ns_go cid tok s) <> Panic) as hg.
    { intros s. unfold ns_go. destruct (find _ _) as [e|]; [destruct (e_tok e); [destruct (_ =? _)|]; discriminate|].
      cbv zeta. destruct (dq_insert _ _ _) eqn:E; try discriminate. exfalso. eapply dq_insert_nopanic; eauto. }
    destruct (c_zs _); [discriminate|]. destruct (_ <=? _).
    + destruct (negb _); [discriminate|]. destruct (lowest_usable _); [|discriminate].
      specialize (hg (w_rpt (z + 1) (x_ids x))). destruct (ns_go _ _ _) as [[]]; cbn in *; congruence.
    + specialize (hg (x_ids x)). destruct (ns_go _ _ _) as [[]]; cbn in *; congruence.
  - destruct (c_zs _); [discriminate|]. unfold retire_scid. destruct (_ <=? _); [discriminate|].
    specialize (hrm seq (c_s (x_ids x))). destruct (dq_remove _ _) as [[[e|] l]| |]; try discriminate; try tauto.
    destruct (cid_eqb _ _); [discriminate|]. cbv zeta. destruct (lowest_usable _); discriminate.
  - discriminate.
  - destruct (c_adv _); [discriminate|]. unfold new_cid_frame. destruct (dq_get _ _) as [e|]; [|discriminate]. destruct (e_tok e); discriminate.
  - discriminate.
  - destruct (c_retired _); discriminate.
  - destruct (c_zd _) eqn:Ez; [discriminate|]. unfold new_dcid. rewrite Ez. destruct (find _ _) as [e|].
    + destruct (_ || _ || _); discriminate.
    + destruct (_ <? _); [discriminate|]. destruct (seq <? _).
      * specialize (hmr seq (x_ids x)). destruct (mark_retire _ _) as [[]]; cbn in *; congruence.
      * destruct (_ <? _).
        -- destruct (retire_loop _ _ _ _) as [[[k p] ret] err]. cbv zeta.
           destruct (dq_insert _ _ _) eqn:E; cbn; [destruct err; discriminate|discriminate|]. exfalso. eapply dq_insert_nopanic; eauto.
        -- cbv zeta. destruct (dq_insert _ _ _) eqn:E; cbn; try discriminate. exfalso. eapply dq_insert_nopanic; eauto.
  - discriminate.
  - destruct (c_zd _) eqn:Ez; [discriminate|]. destruct (path_seq _ _); [|discriminate]. destruct (_ && _ && _); [discriminate|].
    unfold retire_dcid. rewrite Ez. specialize (hrm seq (c_d (x_ids x))). destruct (dq_remove _ _) as [[[e|] l]| |]; try discriminate; try tauto.
    specialize (hmr seq (w_d l (x_ids x))). destruct (mark_retire _ _) as [[]]; cbn in *; try congruence. destruct (e_pid e); discriminate.
  - destruct (path_seq _ _); [|discriminate]. destruct (_ && _); discriminate.
  - specialize (hmr seq (x_ids x)). destruct (mark_retire _ _) as [[]]; cbn in *; congruence.
  - destruct client; [|discriminate]. destruct (if c_zd _ then _ else _); discriminate.
  - destruct (negb _); [discriminate|]. destruct (_ =? _); [discriminate|]. destruct (path_seq _ _); discriminate.
  - destruct (negb _); [discriminate|]. destruct (_ =? _); [destruct (path_seq _ _); discriminate|]. destruct (path_seq _ _); [discriminate|].
    destruct (lowest_available _); discriminate.
Qed.
Lemma no_panic_reach x0 h x op : reach x0 h x -> ~ In (op, OPanic) h.
Proof.
  intros hr. induction hr as [|h x o hr IH]; [auto|]. intros hi. apply in_app_iff in hi. destruct hi as [hi|[hi|[]]]; auto.
  injection hi as _ hi. revert hi. apply no_panic_step.
Qed.

(** NEW_CONNECTION_ID, seen from outside. *)
Lemma got_conflict x c n t r e : c_zd (x_ids x) = false -> Forall (fun e => c_lrpt (x_ids x) <= e_seq e) (c_d (x_ids x)) ->
  NoDup (map e_seq (c_d (x_ids x))) -> NoDup (map e_cid (c_d (x_ids x))) ->
  In e (d_ids x) -> e_cid e = c \/ e_seq e = n -> (e_seq e, e_cid e, e_tok e) <> (n, c, Some t) ->
  cid_step (GotNewCid c n t r) x = (OFail InvalidFrame, x).
Proof.
  intros hz hl hn1 hn2 he ho hk. cbn [cid_step]. rewrite hz. unfold d_ids in he.
  destruct (new_dcid_case c n t r (x_ids x) hl) as
    [hz'|e' hz' he' hk'|e' hz' he' ho' hk'|hz' h1 h2 h3|l hz' h1 h2 h3 h4 h5|hz' h1 h2 h3 h4|p ret err hz' h1 h2 h3 h4 m k h5 h6 h7 h8 h9 h9b h10 h11|p ret hz' h1 h2 h3 h4 m k h5 h6 h7 h10 h11].
  - congruence.
  - exfalso. apply hk. unfold key in hk'. injection hk' as k1 k2 k3. assert (e = e') as ->.
    { destruct ho as [ho|ho]; [|apply (nodup_seq_eq (c_d (x_ids x))); auto; congruence].
      clear - hn2 he he' ho k2. revert hn2 he he'. rewrite <- k2 in ho. clear k2. induction (c_d (x_ids x)) as [|y l IH]; intros hn he he'; [destruct he|].
      cbn in hn. inversion hn as [|? ? h1 h2]; subst. destruct he as [->|he], he' as [->|he']; auto; exfalso; apply h1; [rewrite ho|rewrite <- ho]; apply in_map; auto. }
    congruence.
  - cbn. rewrite x_eta. auto.
  - exfalso. destruct ho as [<-|<-]; [apply h1|apply h2]; apply in_map; auto.
  - exfalso. destruct ho as [<-|<-]; [apply h1|apply h2]; apply in_map; auto.
  - exfalso. destruct ho as [<-|<-]; [apply h1|apply h2]; apply in_map; auto.
  - exfalso. destruct ho as [<-|<-]; [apply h1|apply h2]; apply in_map; auto.
  - exfalso. destruct ho as [<-|<-]; [apply h1|apply h2]; apply in_map; auto.
Qed.

Lemma got_new x c n t r : c_zd (x_ids x) = false -> Forall (fun e => c_lrpt (x_ids x) <= e_seq e) (c_d (x_ids x)) ->
  ~ In c (map e_cid (d_ids x)) -> ~ active_d x n -> c_lrpt (x_ids x) <= n ->
  let kept := filter (fun e => Z.max r (c_lrpt (x_ids x)) <=? e_seq e) (d_ids x) in
  let '(o, x') := cid_step (GotNewCid c n t r) x in
  (n < r -> o = OFail InvalidFrame /\ x' = x) /\
  (r <= n -> c_dcap (x_ids x) <= zlen kept -> o = OFail IdLimit) /\
  (r <= n -> zlen kept < c_dcap (x_ids x) -> zlen (c_ret (x_ids x)) + zlen (d_ids x) <= c_rcap (x_ids x) ->
     o = OUnit /\ forall m, active_d x' m <-> m = n \/ In m (map e_seq kept)).
Proof.
  intros hz hl hc hn hln kept. cbn [cid_step]. rewrite hz. unfold d_ids, active_d in *. unfold d_ids in hn.
  destruct (new_dcid_case c n t r (x_ids x) hl) as
    [hz'|e' hz' he' hk'|e' hz' he' ho' hk'|hz' h1 h2 h3|l hz' h1 h2 h3 h4 h5|hz' h1 h2 h3 h4|p ret err hz' h1 h2 h3 h4 m k h5 h6 h7 h8 h9 h9b h10 h11|p ret hz' h1 h2 h3 h4 m k h5 h6 h7 h10 h11].
  - congruence.
  - exfalso. unfold key in hk'. injection hk' as k1 k2 k3. apply hn. rewrite <- k1. apply in_map. auto.
  - exfalso. destruct ho' as [<-|<-]; [apply hc|apply hn]; apply in_map; auto.
  - cbn. rewrite x_eta. ands; auto; lia.
  - lia.
  - lia.
  - ands.
    + lia.
    + intros _. unfold k, m in h5. unfold kept, d_ids. lia.
    + intros _ _ hr. rewrite (h9b hr). cbn [out_of]. split; auto. intros y. unfold d_ids.
      rewrite (key_seqs _ _ (reassign_all_k _ _)). cbn [with_ids x_ids w_d c_d]. rewrite map_app, in_app_iff. cbn. unfold kept, d_ids, k, m. intuition.
  - ands.
    + lia.
    + cbn. auto.
    + intros _ hx. unfold k, m in h5. unfold kept, d_ids in hx. lia.
Qed.
