Require Import Verif.Base Verif.Errors Verif.TpModel Verif.CidModel Verif.CidSpec Verif.CidProofs Verif.CidProofs2 Verif.CidProofs3 Verif.CidProofs4 Verif.CidProofs5 Verif.CidProofs6 Verif.CidProofs7.

(** The flags for empty ids never change. *)
Definition zz (x : cst) := (c_zs (x_ids x), c_zd (x_ids x)).
Lemma zz_reassign pid x : zz (reassign pid x) = zz x.
Proof. unfold zz. destruct (reassign_ids pid x) as [d ->]. auto. Qed.
Lemma zz_reassign_all l : forall x, zz (reassign_all l x) = zz x.
Proof.
  induction l as [|[q pid] l IH]; intros x; cbn [reassign_all]; auto. rewrite IH.
  destruct (path_seq x pid); auto. destruct (_ =? _); auto. apply zz_reassign.
Qed.
Lemma zz_fill l : forall x, zz (fill l x) = zz x.
Proof.
  induction l as [|pid l IH]; intros x; cbn [fill]; auto. destruct (path_seq x pid); auto.
  destruct (c_zd _); [rewrite IH; auto|]. destruct (lowest_available _); auto. rewrite IH. apply zz_reassign.
Qed.
Lemma zz_step op x : zz (snd (cid_step op x)) = zz x.
Proof.
  destruct op; cbn [cid_step].
  - rewrite new_scid_go. assert (forall s, c_zs (snd (ns_go cid tok s)) = c_zs s /\ c_zd (snd (ns_go cid tok s)) = c_zd s) as hg.
    { intros s. unfold ns_go. destruct (find _ _) as [e|]; [destruct (e_tok e); [destruct (_ =? _)|]; auto|].
      cbv zeta. destruct (dq_insert _ _ _); auto. }
    destruct (c_zs _); [reflexivity|]. destruct (_ <=? _).
    + destruct (negb _); [reflexivity|]. destruct (lowest_usable _); [|reflexivity].
      specialize (hg (w_rpt (z + 1) (x_ids x))). destruct (ns_go _ _ _) as [r s]. cbn in *. unfold zz. cbn. destruct hg as [-> ->]. auto.
    + specialize (hg (x_ids x)). destruct (ns_go _ _ _) as [r s]. cbn in *. unfold zz. cbn. destruct hg as [-> ->]. auto.
  - destruct (c_zs _) eqn:Ez; [reflexivity|]. unfold retire_scid. destruct (_ <=? _); [reflexivity|].
    destruct (dq_remove _ _) as [[[e|] l]| |]; try reflexivity. destruct (cid_eqb _ _); [reflexivity|]. cbv zeta. destruct (lowest_usable _); reflexivity.
  - unfold set_limit. destruct (_ <=? _); reflexivity.
  - destruct (c_adv _); [reflexivity|]. unfold new_cid_frame. destruct (dq_get _ _) as [e|]; [|reflexivity]. destruct (e_tok e); reflexivity.
  - reflexivity.
  - destruct (c_retired _); reflexivity.
  - destruct (c_zd _) eqn:Ez; [reflexivity|]. unfold new_dcid. rewrite Ez. destruct (find _ _) as [e|].
    + destruct (_ || _ || _); reflexivity.
    + destruct (_ <? _); [reflexivity|]. destruct (seq <? _).
      * unfold mark_retire. destruct (set_insert _ _ _); reflexivity.
      * destruct (_ <? _).
        -- destruct (retire_loop _ _ _ _) as [[[k p] ret] err]. cbv zeta.
           destruct (dq_insert _ _ _) eqn:E; cbn [snd]; rewrite zz_reassign_all; reflexivity.
        -- cbv zeta. destruct (dq_insert _ _ _) eqn:E; cbn [snd]; rewrite zz_reassign_all; reflexivity.
  - apply zz_fill.
  - destruct (c_zd _) eqn:Ez; [reflexivity|]. destruct (path_seq _ _); [|reflexivity]. destruct (_ && _ && _); [reflexivity|].
    unfold retire_dcid. rewrite Ez. destruct (dq_remove _ _) as [[[e|] l]| |]; try reflexivity.
    unfold mark_retire. destruct (set_insert _ _ _); try reflexivity. destruct (e_pid e); [|reflexivity]. cbn [snd]. rewrite zz_reassign. reflexivity.
  - destruct (path_seq _ _); [|reflexivity]. destruct (_ && _); reflexivity.
  - unfold mark_retire. destruct (set_insert _ _ _); reflexivity.
  - destruct client; [|reflexivity]. destruct (if c_zd _ then _ else _); reflexivity.
  - destruct (negb _); [reflexivity|]. destruct (_ =? _); [reflexivity|]. destruct (path_seq _ _); [reflexivity|]. destruct disable_dcid_reuse; reflexivity.
  - destruct (negb _); [reflexivity|]. destruct (_ =? _); [destruct (path_seq _ _); reflexivity|]. destruct (path_seq _ _); [reflexivity|].
    destruct (lowest_available _); [|reflexivity]. cbn [snd]. apply (zz_reassign pid x).
Qed.
Lemma zz_reach dl sc st dc dt h x : reach (x_init (cids_new dl sc st dc dt)) h x -> c_zs (x_ids x) = is_empty sc /\ c_zd (x_ids x) = is_empty dc.
Proof.
  intros hr. assert (zz x = (is_empty sc, is_empty dc)) as h1; [|unfold zz in h1; injection h1; auto].
  induction hr as [|h x op hr IH]; [reflexivity|]. rewrite zz_step. auto.
Qed.
Lemma empty_not {A} (l : list A) : l <> [] -> is_empty l = false.
Proof. destruct l; cbn; congruence. Qed.

(** Entries marked with a path belong to it. *)
Definition cinv (x : cst) : Prop := forall e pid, In e (c_d (x_ids x)) -> e_pid e = Some pid -> path_seq x pid = Some (e_seq e).

Lemma link_elim q p l e : In e (link q p l) -> (In e l /\ (NoDup (map e_seq l) -> e_seq e <> q)) \/ (e_seq e = q /\ e_pid e = Some p).
Proof.
  induction l as [|y l IH]; cbn [link]; [intros []|]. destruct (Z.eqb_spec (e_seq y) q).
  - intros [<-|h]; [right; cbn; auto|left]. split; [right; auto|]. intros hn hx. cbn in hn. inversion hn as [|? ? h1 h2]; subst.
    apply h1. rewrite <- hx. apply in_map. auto.
  - intros [<-|h]; [left; split; [left; auto|auto]|]. destruct (IH h) as [[h1 h2]|h1]; [left|right; auto].
    split; [right; auto|]. intros hn. cbn in hn. inversion hn; subst. auto.
Qed.

Lemma reassign_cinv pid x : cinv x -> known_pid pid x = true -> (forall e, In e (c_d (x_ids x)) -> e_pid e <> Some pid) -> cinv (reassign pid x).
Proof.
  intros hc hk hno. unfold reassign. destruct (lowest_available (x_ids x)) as [q|] eqn:El.
  - intros e p. cbn [x_ids set_path with_ids w_d c_d]. intros he hp. rewrite path_set.
    change (known_pid pid (with_ids (w_d (link q pid (c_d (x_ids x))) (x_ids x)) x)) with (known_pid pid x). rewrite hk.
    apply link_elim in he. destruct he as [[he _]|[h1 h2]].
    + destruct (Z.eqb_spec p pid) as [->|]; [exfalso; eapply hno; eauto|]. apply (hc e p he hp).
    + assert (p = pid) as -> by congruence. rewrite Z.eqb_refl. congruence.
  - intros e p he hp. rewrite path_set. destruct (Z.eqb_spec p pid) as [->|]; [exfalso; eapply hno; eauto|]. apply (hc e p he hp).
Qed.
Lemma reassign_all_cinv L : forall x, cinv x -> (forall q pid, In (q, pid) L -> ~ In q (map e_seq (c_d (x_ids x)))) -> cinv (reassign_all L x).
Proof.
  induction L as [|[q pid] L IH]; intros x hc hL; cbn [reassign_all]; auto.
  destruct (path_seq x pid) as [a|] eqn:Ea; [destruct (Z.eqb_spec a q) as [->|]|].
  - apply IH.
    + apply reassign_cinv; auto; [eapply path_known; eauto|]. intros e he hp. specialize (hc e pid he hp). rewrite Ea in hc. injection hc as ->.
      apply (hL (e_seq e) pid); [left; auto|apply in_map; auto].
    + intros q' pid' hi. rewrite (key_seqs _ _ (reassign_k pid x)). eapply hL. right. eauto.
  - apply IH; auto. intros q' pid' hi. eapply hL. right. eauto.
  - apply IH; auto. intros q' pid' hi. eapply hL. right. eauto.
Qed.
Lemma fill_cinv l : forall x, (forall pid, In pid l -> known_pid pid x = true) -> cinv x -> cinv (fill l x).
Proof.
  induction l as [|pid l IH]; intros x hk hc; cbn [fill]; auto.
  destruct (path_seq x pid) eqn:Ep; [apply IH; auto; intros p hp; apply hk; right; auto|].
  assert (forall e, In e (c_d (x_ids x)) -> e_pid e <> Some pid) as hno by (intros e he hp; specialize (hc e pid he hp); congruence).
  destruct (c_zd (x_ids x)).
  - apply IH; [intros p hp; rewrite set_path_known; apply hk; right; auto|]. intros e p he hp. rewrite path_set.
    destruct (Z.eqb_spec p pid) as [->|]; [exfalso; eapply hno; eauto|]. apply hc; auto.
  - destruct (lowest_available (x_ids x)) eqn:El; auto. apply IH; [intros p hp; rewrite reassign_known; apply hk; right; auto|].
    apply reassign_cinv; auto. apply hk. left. auto.
Qed.
Lemma all_pids_known x pid : In pid (all_pids x) <-> known_pid pid x = true.
Proof.
  unfold all_pids, known_pid, zlen. rewrite in_map_iff. split.
  - intros (n & <- & hn). apply in_seq in hn. lia.
  - intros hk. exists (Z.to_nat pid). split; [lia|]. apply in_seq. lia.
Qed.

Lemma cinv_step x op : cinv x -> Forall (fun e => c_lrpt (x_ids x) <= e_seq e) (c_d (x_ids x)) -> NoDup (map e_seq (c_d (x_ids x))) -> cinv (snd (cid_step op x)).
Proof.
  intros hc hl hn.
  assert (s_op op \/ ~ s_op op) as [hop|hop] by (destruct op; cbn; tauto).
  { pose proof (s_op_d op x hop) as hx. cbv zeta in hx. destruct hx as (hx & h2 & h3). apply dpart_zd in hx. destruct hx as [z1 z2].
    intros e pid. rewrite z2. intros he hp. specialize (hc e pid he hp). unfold path_seq in *. rewrite h2. auto. }
  assert (forall l, incl l (c_d (x_ids x)) -> forall s a, c_d s = l -> cinv (mkX s (x_paths x) a)) as hsub.
  { intros l hi s a hs e pid he hp. cbn [x_ids] in he. rewrite hs in he. apply hc; auto. }
  destruct op; cbn in hop; try tauto; clear hop; cbn [cid_step].
  - destruct (c_zd (x_ids x)) eqn:Ez; [exact hc|].
    destruct (new_dcid_case cid seq tok rpt (x_ids x) hl) as
      [hz|e hz he hk|e hz he ho hk|hz h1 h2 h3|l hz h1 h2 h3 h4 h5|hz h1 h2 h3 h4|p ret err hz h1 h2 h3 h4 m k h5 h6 h7 h8 h9 h9b h10 h11|p ret hz h1 h2 h3 h4 m k h5 h6 h7 h10 h11];
      cbn [snd reassign_all]; try (apply (hsub (c_d (x_ids x))); [intros y hy; exact hy|reflexivity]).
    + apply reassign_all_cinv.
      * intros e pid. cbn [with_ids x_ids w_d w_lrpt w_ret c_d]. intros he hp. apply in_app_or in he. destruct he as [he|[<-|[]]]; [|discriminate].
        apply hc; auto. unfold k in he. apply filter_In in he. tauto.
      * intros q pid hi. destruct (h11 q pid hi) as (e & a & b & c & d). cbn [with_ids x_ids w_d w_lrpt w_ret c_d]. rewrite map_app, in_app_iff.
        unfold k. intros [hx|[hx|[]]].
        -- apply in_map_iff in hx. destruct hx as (e' & a' & b'). apply filter_In in b'. destruct b' as [_ b']. lia.
        -- cbn in hx. lia.
    + apply reassign_all_cinv.
      * intros e pid. cbn [with_ids x_ids w_d w_lrpt w_ret c_d]. intros he hp.
        apply hc; auto. unfold k in he. apply filter_In in he. tauto.
      * intros q pid hi. destruct (h11 q pid hi) as (e & a & b & c & d). cbn [with_ids x_ids w_d w_lrpt w_ret c_d].
        unfold k. intros hx. apply in_map_iff in hx. destruct hx as (e' & a' & b'). apply filter_In in b'. destruct b' as [_ b']. lia.
  - apply fill_cinv; auto. intros pid. apply all_pids_known.
  - destruct (c_zd (x_ids x)) eqn:Ez; [exact hc|].
    destruct (path_seq x (x_active x)) eqn:Ea; [|exact hc]. destruct (_ && _ && _); [exact hc|].
    unfold retire_dcid. rewrite Ez.
    destruct (dq_remove_cases seq (c_d (x_ids x))) as [[_ ->]|[(_ & _ & ->)|(hlen & e & he1 & he2 & _ & ->)]]; try exact hc.
    assert (incl (dq_del seq (c_d (x_ids x))) (c_d (x_ids x))) as hi by (intros y hy; eapply dq_del_in; eauto).
    unfold mark_retire. cbn [w_d c_rcap c_ret].
    destruct (set_insert _ _ _) as [l| |]; cbn [fst snd]; try (apply (hsub _ hi); reflexivity).
    destruct (e_pid e) as [pid|] eqn:Ep; cbn [snd]; try (apply (hsub _ hi); reflexivity).
    apply reassign_cinv.
    + apply (hsub _ hi). reflexivity.
    + apply path_known with (e_seq e). apply (hc e pid he1 Ep).
    + cbn [with_ids x_ids w_ret w_d c_d]. intros e' he' hp. pose proof (hc e' pid (hi e' he') hp) as h1. rewrite (hc e pid he1 Ep) in h1. injection h1 as h1.
      apply (dq_del_gone seq _ hn). assert (seq = e_seq e') as hx by congruence. rewrite hx at 1. apply in_map. exact he'.
  - destruct (path_seq x pid); [|exact hc]. destruct (_ && _); exact hc.
  - unfold mark_retire. destruct (set_insert _ _ _); exact hc.
  - assert (path_seq x (zlen (x_paths x)) = None) as hnone.
    { destruct (path_seq x (zlen (x_paths x))) eqn:E; auto. apply path_known in E. unfold known_pid in E. lia. }
    destruct client; cbn [snd].
    + destruct (if c_zd (x_ids x) then Some 0 else lowest_available (x_ids x)) as [q|]; [|exact hc]. cbn [snd].
      intros e pid he hp. rewrite path_new. cbn [x_ids w_d c_d] in he. apply link_elim in he. destruct he as [[he _]|[h1 h2]].
      * pose proof (hc e pid he hp) as hx. destruct (Z.eqb_spec pid (zlen (x_paths x))) as [->|]; [congruence|auto].
      * assert (pid = zlen (x_paths x)) as -> by congruence. rewrite Z.eqb_refl. congruence.
    + intros e pid he hp. rewrite path_new. pose proof (hc e pid he hp) as hx. destruct (Z.eqb_spec pid (zlen (x_paths x))) as [->|]; [congruence|auto].
  - destruct (negb (known_pid pid x)); [exact hc|]. destruct (_ =? _); [exact hc|].
    destruct (path_seq x pid) eqn:Ep; [exact hc|]. destruct disable_dcid_reuse; [exact hc|]. cbn [snd].
    intros e p he hp. rewrite path_set. pose proof (hc e p he hp) as hx. destruct (Z.eqb_spec p pid) as [->|]; [congruence|]. exact hx.
  - destruct (negb (known_pid pid x)) eqn:Ek; [exact hc|]. destruct (_ =? _); [exact hc|].
    destruct (path_seq x pid) eqn:Ep; [exact hc|]. destruct (lowest_available (x_ids x)) as [q0|] eqn:El; [|exact hc]. cbn [snd].
    assert (cinv (reassign pid x)) as hh.
    { apply reassign_cinv; auto; [apply negb_false_iff in Ek; auto|]. intros e he hp. specialize (hc e pid he hp). congruence. }
    intros e p he hp. apply (hh e p he hp).
Qed.
Lemma cinv_reach dl sc st dc dt h x : reach (x_init (cids_new dl sc st dc dt)) h x -> cinv x.
Proof.
  intros hr. induction hr as [|h x op hr IH].
  - intros e pid [<-|[]] hp. cbn in hp. injection hp as <-. reflexivity.
  - pose proof (dinv_reach dl dc dt sc st _ _ hr) as hd. apply cinv_step; auto; [apply (di_lrpt _ _ _ _ _ hd)|apply (di_nds _ _ _ _ _ hd)].
Qed.

(** ** Lemmas for PropCid *)
Lemma again_same dl sc st dc dt ops h x c t e : cid_trace dl sc st dc dt ops h x ->
  In e (s_ids x) -> e_cid e = c -> zlen (s_ids x) < c_lim (x_ids x) -> sc <> [] ->
  cid_step (NewScid c t false) x = (match e_tok e with Some t' => if t' =? t then OSeq (e_seq e) else OFail InvalidState | None => OFail InvalidState end, x).
Proof.
  intros ht he hc hl hz. apply trace_reach in ht. destruct (zz_reach _ _ _ _ _ _ _ ht) as [z1 _]. rewrite (empty_not _ hz) in z1.
  apply sinv_reach in ht. pose proof (si_ndc _ _ _ _ ht) as hn. cbn [cid_step]. rewrite new_scid_go, z1. unfold s_ids in *.
  replace (c_lim (x_ids x) <=? zlen (c_s (x_ids x))) with false by lia. unfold ns_go.
  assert (find (fun e0 => cid_eqb (e_cid e0) c) (c_s (x_ids x)) = Some e) as ->.
  { clear - he hc hn. subst c. induction (c_s (x_ids x)) as [|y l IH]; [destruct he|]. cbn in *. inversion hn as [|? ? h1 h2]; subst.
    destruct he as [->|he].
    - replace (cid_eqb (e_cid e) (e_cid e)) with true by (symmetry; apply cid_eqb_iff; auto). auto.
    - destruct (cid_eqb (e_cid y) (e_cid e)) eqn:E; auto. apply cid_eqb_iff in E. exfalso. apply h1. rewrite E. apply in_map. auto. }
  destruct (e_tok e) as [t'|]; cbn; [destruct (t' =? t)|]; cbn; rewrite x_eta; auto.
Qed.

Lemma given_in h n : In n (given h) -> exists c t, In (n, c, Some t) (issued h).
Proof.
  induction h as [|[op o] h IH]; [intros []|]. destruct op; cbn [given issued]; auto. destruct o; cbn [given issued]; auto.
  intros [<-|hi]; [eexists; eexists; left; reflexivity|]. destruct (IH hi) as (c & t & h1). exists c, t. right. auto.
Qed.
Lemma given_announced dl sc st dc dt ops h x n : cid_trace dl sc st dc dt ops h x -> In n (given h) -> 1 <= n ->
  announced h n \/ In n (c_adv (x_ids x)).
Proof.
  intros ht hg h1. apply trace_reach, sinv_reach in ht. apply given_in in hg. destruct hg as (c & t & hg).
  destruct (si_isb _ _ _ _ ht n c (Some t)) as [a b]; [right; auto|]. destruct (si_ann _ _ _ _ ht n); auto.
Qed.

Lemma announce_all dl sc st dc dt ops h x : cid_trace dl sc st dc dt ops h x ->
  (forall n, In n (c_adv (x_ids x)) -> exists e, In e (s_ids x) /\ e_seq e = n /\ e_tok e <> None) ->
  exists outs x', cid_run (repeat SendNewCid (length (c_adv (x_ids x)))) x = (outs, x') /\ c_adv (x_ids x') = [] /\
    Forall2 (fun n o => exists e t, In e (s_ids x) /\ e_seq e = n /\ e_tok e = Some t /\ o = OFrame n (c_rpt (x_ids x)) (e_cid e) t) (c_adv (x_ids x)) outs.
Proof.
  intros ht ha. apply trace_reach, sinv_reach in ht. destruct (send_all _ x eq_refl ha (si_nds _ _ _ _ ht)) as (x' & h1 & h2).
  eexists; exists x'. ands; [exact h1|exact h2|]. clear h1 h2. induction (c_adv (x_ids x)) as [|n l IH]; cbn [map]; constructor.
  - destruct (ha n (or_introl eq_refl)) as (e & a & b & c). destruct (dq_get_in n (s_ids x)) as (e' & he'); [rewrite <- b; apply in_map; auto|].
    rewrite he'. apply dq_get_some in he'. destruct he' as [a' b'].
    assert (e' = e) as -> by (apply (nodup_seq_eq (s_ids x)); auto; [apply (si_nds _ _ _ _ ht)|congruence]).
    destruct (e_tok e) as [t|] eqn:Et; [|congruence]. exists e, t. auto.
  - apply IH. intros m hm. apply ha. right. auto.
Qed.

Lemma retire_exact' dl sc st dc dt ops h x n d : cid_trace dl sc st dc dt ops h x -> sc <> [] ->
  let '(o, x') := cid_step (GotRetire n d) x in
  (o = OUnit <->
     n < c_next (x_ids x) /\ 2 <= zlen (s_ids x) /\
     forall e, In e (s_ids x) -> e_seq e = n ->
       e_cid e <> d /\ exists e', In e' (s_ids x) /\ e_seq e' <> n /\ c_rpt (x_ids x) <= e_seq e') /\
  (o = OUnit -> forall m, active_s x' m <-> active_s x m /\ m <> n).
Proof.
  intros ht hz. apply trace_reach in ht. destruct (zz_reach _ _ _ _ _ _ _ ht) as [z1 _]. rewrite (empty_not _ hz) in z1.
  apply sinv_reach in ht. exact (retire_exact _ _ _ _ n d ht z1).
Qed.

Lemma told_once dl sc st dc dt ops h x : cid_trace dl sc st dc dt ops h x ->
  exists rs, NoDup rs /\
    Forall2 (fun n c => exists t, In (n, c, t) ((0, sc, st) :: issued h)) rs (told h ++ c_retired (x_ids x)) /\
    Forall (fun n => ~ active_s x n /\ retired_by_peer h n) rs /\
    ((forall n d, ~ In (GotRetire n d, OFail InvalidState) h) ->
     forall n, n = 0 \/ In n (given h) -> ~ active_s x n -> In n rs).
Proof.
  intros ht. apply trace_reach, sinv_reach in ht. destruct (si_told _ _ _ _ ht) as (rs & h1 & h2 & h3 & h4). exists rs. ands; auto.
  intros hb n hn ha. apply h4; auto. destruct hn as [->|hn].
  - pose proof (si_next _ _ _ _ ht). lia.
  - apply given_in in hn. destruct hn as (c & t & hn). apply (si_isb _ _ _ _ ht n c (Some t)). right. auto.
Qed.

Lemma conflict_rejected dl sc st dc dt ops h x c n t r e : cid_trace dl sc st dc dt ops h x -> dc <> [] ->
  In e (d_ids x) -> e_cid e = c \/ e_seq e = n -> (e_seq e, e_cid e, e_tok e) <> (n, c, Some t) ->
  cid_step (GotNewCid c n t r) x = (OFail InvalidFrame, x).
Proof.
  intros ht hz. apply trace_reach in ht. destruct (zz_reach _ _ _ _ _ _ _ ht) as [_ z1]. rewrite (empty_not _ hz) in z1.
  apply dinv_reach in ht. apply got_conflict; auto; [apply (di_lrpt _ _ _ _ _ ht)|apply (di_nds _ _ _ _ _ ht)|apply (di_ndc _ _ _ _ _ ht)].
Qed.

Lemma new_frame dl sc st dc dt ops h x c n t r : cid_trace dl sc st dc dt ops h x -> dc <> [] ->
  ~ In c (map e_cid (d_ids x)) -> ~ active_d x n -> c_lrpt (x_ids x) <= n ->
  let kept := filter (fun e => Z.max r (c_lrpt (x_ids x)) <=? e_seq e) (d_ids x) in
  let '(o, x') := cid_step (GotNewCid c n t r) x in
  (n < r -> o = OFail InvalidFrame /\ x' = x) /\
  (r <= n -> Z.max dl 2 <= zlen kept -> o = OFail IdLimit) /\
  (r <= n -> zlen kept < Z.max dl 2 -> zlen (c_ret (x_ids x)) + zlen (d_ids x) <= 3 * Z.max dl 2 ->
     o = OUnit /\ forall m, active_d x' m <-> m = n \/ In m (map e_seq kept)).
Proof.
  intros ht hz h1 h2 h3. apply trace_reach in ht. destruct (zz_reach _ _ _ _ _ _ _ ht) as [_ z1]. rewrite (empty_not _ hz) in z1.
  apply dinv_reach in ht. rewrite <- (di_cap _ _ _ _ _ ht).
  assert (c_rcap (x_ids x) = 3 * c_dcap (x_ids x)) as e1 by (rewrite (di_cap _ _ _ _ _ ht); apply (di_rcap _ _ _ _ _ ht)). rewrite <- e1.
  apply got_new; auto. apply (di_lrpt _ _ _ _ _ ht).
Qed.

Lemma never_empty dl sc st dc dt ops h x : cid_trace dl sc st dc dt ops h x ->
  (exists e, oldest (s_ids x) = Ok e) /\ (exists e, oldest (d_ids x) = Ok e) /\ forall op, ~ In (op, OPanic) h.
Proof.
  intros ht. apply trace_reach in ht. ands.
  - apply sinv_reach in ht. pose proof (si_ne _ _ _ _ ht) as hh. unfold s_ids, oldest. destruct (c_s (x_ids x)); [cbn in hh; lia|eauto].
  - apply dinv_reach in ht. pose proof (di_len _ _ _ _ _ ht) as hh. unfold d_ids, oldest. destruct (c_d (x_ids x)); [cbn in hh; lia|eauto].
  - intros op. eapply no_panic_reach; eauto.
Qed.

Lemma paths_have_ids dl sc st dc dt ops h x pid q : cid_trace dl sc st dc dt ops h x ->
  no_reuse h -> no_id_limit h -> path_seq x pid = Some q ->
  active_d x q /\ (exists e, In e (d_ids x) /\ e_seq e = q /\ send_dcid pid x = Ok (e_cid e)) /\
  (dc <> [] -> forall pid' q', path_seq x pid' = Some q' -> pid <> pid' -> q <> q' /\ send_dcid pid x <> send_dcid pid' x).
Proof.
  intros ht hu hm hq. apply trace_reach in ht. pose proof (pinv_reach _ _ _ _ _ _ _ ht hu hm) as hp. destruct (zz_reach _ _ _ _ _ _ _ ht) as [_ z1].
  pose proof (dinv_reach _ _ _ _ _ _ _ ht) as hd. destruct hp as [hn hp].
  assert (forall pid q, path_seq x pid = Some q -> active_d x q) as hact.
  { intros pid' q' hq'. unfold active_d, d_ids. destruct (c_zd (x_ids x)).
    - destruct hp as [h1 h2]. rewrite h1. left. symmetry. eauto.
    - destruct (hp pid' q' hq') as [(e & a & <- & _)|[]]. apply in_map. auto. }
  assert (forall pid q, path_seq x pid = Some q -> exists e, In e (d_ids x) /\ e_seq e = q /\ send_dcid pid x = Ok (e_cid e)) as hsend.
  { intros pid' q' hq'. destruct (dq_get_in q' (d_ids x) (hact _ _ hq')) as (e & he). exists e. unfold send_dcid. rewrite hq'. unfold d_ids in he. rewrite he.
    apply dq_get_some in he. destruct he. auto. }
  ands; eauto. intros hz pid' q' hq' hne. rewrite (empty_not _ hz) in z1. rewrite z1 in hp.
  assert (q <> q') as hqq.
  { intros <-. destruct (hp pid q hq) as [(e & a & b & c)|[]]. destruct (hp pid' q hq') as [(e' & a' & b' & c')|[]].
    assert (e = e') by (apply (nodup_seq_eq (c_d (x_ids x))); auto; congruence). congruence. }
  split; auto. destruct (hsend _ _ hq) as (e & a & b & ->). destruct (hsend _ _ hq') as (e' & a' & b' & ->). intros hx. injection hx as hx.
  apply hqq. subst q q'. f_equal. pose proof (di_ndc _ _ _ _ _ hd) as hc. unfold d_ids in *. clear - a a' hx hc.
  induction (c_d (x_ids x)) as [|y l IH]; [destruct a|]. cbn in hc. inversion hc as [|? ? h1 h2]; subst.
  destruct a as [->|a], a' as [->|a']; auto; exfalso; apply h1; [rewrite hx|rewrite <- hx]; apply in_map; auto.
Qed.

Lemma retire_with_other dl sc st dc dt ops h x pid q : cid_trace dl sc st dc dt ops h x ->
  no_reuse h -> no_id_limit h -> fst (cid_step (SendRetire pid q) x) = OSeq q ->
  exists e, In e (d_ids x) /\ send_dcid pid x = Ok (e_cid e) /\ e_seq e <> q.
Proof.
  intros ht hu hm hs. cbn [cid_step] in hs. destruct (path_seq x pid) as [a|] eqn:Ea; [|discriminate].
  destruct (Z.eqb_spec a q); [destruct (existsb _ _); discriminate|].
  destruct (paths_have_ids _ _ _ _ _ _ _ _ _ _ ht hu hm Ea) as (_ & (e & h1 & h2 & h3) & _). exists e. ands; auto. congruence.
Qed.

Lemma filled x pid : known_pid pid x = true ->
  let x' := snd (cid_step AfterRecv x) in
  path_seq x' pid <> None \/ forall e, In e (d_ids x') -> e_pid e <> None.
Proof.
  intros hk. cbn [cid_step snd]. destruct (fill_all (all_pids x) x pid) as [h|h]; auto; [apply all_pids_known; auto|].
  right. apply lowest_available_none. auto.
Qed.

Lemma retire_keeps_active dl sc st dc dt ops h x q x' : cid_trace dl sc st dc dt ops h x -> no_reuse h -> no_id_limit h ->
  cid_step (RetireDcid q false) x = (OUnit, x') -> x_active x' = x_active x /\ (exists c, send_dcid (x_active x') x' = Ok c) /\ ~ active_d x' q /\ retire_queued x' q.
Proof.
  intros ht hu hm hs. apply trace_reach in ht. pose proof (pinv_reach _ _ _ _ _ _ _ ht hu hm) as hp.
  pose proof (cinv_reach _ _ _ _ _ _ _ ht) as hc.
  assert (pinv x') as hp'.
  { pose proof (reach_step _ _ _ (RetireDcid q false) ht) as hr. rewrite hs in hr. cbn [fst snd] in hr. eapply pinv_reach; eauto.
    - intros a b hi. apply in_app_or in hi. destruct hi as [hi|[hi|[]]]; [apply (hu a b hi)|discriminate].
    - intros a b hi. apply in_app_or in hi. destruct hi as [hi|[hi|[]]]; [apply (hm a b hi)|discriminate]. }
  assert (forall pid qq, path_seq x' pid = Some qq -> exists c, send_dcid pid x' = Ok c) as hsend.
  { intros pid' q' hq'. assert (active_d x' q') as ha.
    { destruct hp' as [hn' hp']. unfold active_d, d_ids. destruct (c_zd (x_ids x')).
      - destruct hp' as [h1 h2]. rewrite h1. left. symmetry. eauto.
      - destruct (hp' pid' q' hq') as [(e & a & <- & _)|[]]. apply in_map. auto. }
    destruct (dq_get_in q' (d_ids x') ha) as (e & he). exists (e_cid e). unfold send_dcid. rewrite hq'. unfold d_ids in he. rewrite he. auto. }
  revert hs. cbn [cid_step]. destruct (c_zd (x_ids x)) eqn:Ez; [discriminate|]. destruct (path_seq x (x_active x)) as [a|] eqn:Ea; [|discriminate].
  destruct (_ && _ && _) eqn:Eb; [discriminate|]. unfold retire_dcid. rewrite Ez.
  destruct (dq_remove_cases q (c_d (x_ids x))) as [[_ ->]|[(_ & _ & ->)|(hlen & e & he1 & he2 & _ & ->)]]; try discriminate.
  unfold mark_retire. cbn [w_d c_rcap c_ret].
  destruct (set_insert_spec q (c_rcap (x_ids x)) (c_ret (x_ids x))) as [[_ ->]|(_ & l & -> & h2 & _)]; [discriminate|].
  destruct hp as [hn hp]. rewrite Ez in hp.
  assert (In q l) as hql by (apply h2; auto).
  destruct (e_pid e) as [pid|] eqn:Ep; intros hs; injection hs as <-.
  - rewrite reassign_active. cbn [with_ids x_active]. ands; auto.
    + assert (path_seq (reassign pid (with_ids (w_ret l (w_d (dq_del q (c_d (x_ids x))) (x_ids x))) x)) (x_active x) <> None) as hh.
      { destruct (Z.eq_dec pid (x_active x)) as [->|hne].
        - pose proof (hc e _ he1 Ep) as hx. rewrite Ea in hx. injection hx as ->. rewrite he2, Z.eqb_refl in Eb. cbn in Eb.
          destruct (lowest_available (x_ids x)) as [q0|] eqn:El; [|discriminate]. unfold reassign.
          destruct (lowest_available (x_ids (with_ids _ _))) eqn:El2.
          + rewrite path_set, Z.eqb_refl. apply path_known in Ea. unfold known_pid in *. cbn [with_ids x_paths]. rewrite Ea. discriminate.
          + exfalso. apply lowest_available_some in El. destruct El as (e0 & a0 & b0 & c0).
            apply (lowest_available_none _ El2 e0); auto. cbn [with_ids x_ids w_ret w_d c_d]. apply dq_del_in'; auto.
            intros hx. assert (e0 = e) by (apply (nodup_seq_eq (c_d (x_ids x))); auto; congruence). congruence.
        - unfold reassign. destruct (lowest_available (x_ids (with_ids _ _))); rewrite path_set; destruct (Z.eqb_spec (x_active x) pid); try congruence;
            (change (path_seq x (x_active x) <> None); congruence). }
      destruct (path_seq (reassign _ _) (x_active x)) as [qq|] eqn:Eq; [|congruence]. apply (hsend _ _ Eq).
    + unfold active_d, d_ids. rewrite (key_seqs _ _ (reassign_k _ _)). cbn [with_ids x_ids w_ret w_d c_d]. apply dq_del_gone. auto.
    + unfold retire_queued. destruct (reassign_ids pid (with_ids (w_ret l (w_d (dq_del q (c_d (x_ids x))) (x_ids x))) x)) as [d ->]. exact hql.
  - cbn [with_ids x_active]. ands; auto.
    + apply (hsend _ a). exact Ea.
    + unfold active_d, d_ids. cbn [with_ids x_ids w_ret w_d c_d]. apply dq_del_gone. auto.
Qed.
