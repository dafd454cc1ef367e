Require Import Verif.Base Verif.Errors Verif.TpModel Verif.CidModel Verif.CidSpec Verif.CidSpec2 Verif.CidProofs Verif.CidProofs2 Verif.CidProofs3 Verif.CidProofs4 Verif.CidProofs5.

Lemma tally_app f a b : tally f (a ++ b) = tally f a + tally f b.
Proof. induction a as [|p a IH]; cbn [app tally]; [lia|]. rewrite IH. lia. Qed.
Lemma tally_pos f h : 0 <= tally f h.
Proof. induction h as [|p h IH]; cbn [tally]; [lia|]. destruct (f p); lia. Qed.

Fixpoint occ (n : Z) (l : list Z) : Z := match l with [] => 0 | x :: l => (if x =? n then 1 else 0) + occ n l end.
Lemma occ_app n a b : occ n (a ++ b) = occ n a + occ n b.
Proof. induction a as [|x a IH]; cbn [app occ]; [lia|]. rewrite IH. lia. Qed.
Lemma occ_in n l : 0 < occ n l -> In n l.
Proof. induction l as [|x l IH]; cbn [occ]; [lia|]. destruct (Z.eqb_spec x n); [left; auto|]. intros h. right. apply IH. lia. Qed.

(** Announcements waiting, sent and lost balance. *)
Definition once (n : Z) (s : cids) : Z := if (1 <=? n) && (n <? c_next s) then 1 else 0.
Definition bal (h : trace) (s : cids) : Prop := forall n, occ n (c_adv s) + new_sent n h = once n s + new_lost n h.

Lemma bal_same h s s' op o : bal h s -> c_adv s' = c_adv s -> c_next s' = c_next s ->
  (forall n, new_sent n [(op, o)] = 0) -> (forall n, new_lost n [(op, o)] = 0) -> bal (h ++ [(op, o)]) s'.
Proof.
  intros hb e1 e2 h1 h2 n. specialize (hb n). unfold new_sent, new_lost, once in *. rewrite !tally_app. specialize (h1 n). specialize (h2 n).
  rewrite e1, e2. unfold new_sent, new_lost in h1, h2. rewrite h1, h2. lia.
Qed.

Lemma ns_go_bal cid tok r h s : 1 <= c_next s -> bal h s ->
  bal (h ++ [(NewScid cid tok r, out_of OSeq (fst (ns_go cid tok s)))]) (snd (ns_go cid tok s)).
Proof.
  intros hp hb. unfold ns_go. destruct (find _ _) as [e|].
  - destruct (e_tok e) as [t|]; [destruct (t =? tok)|]; cbn [fst snd]; apply (bal_same _ _ _ _ _ hb); auto.
  - cbv zeta. destruct (dq_insert _ _ _) as [l|x|]; cbn [fst snd]; try (apply (bal_same _ _ _ _ _ hb); auto; fail).
    intros n. specialize (hb n). unfold new_sent, new_lost in *. rewrite !tally_app. cbn [mark_adv w_adv w_next w_s c_adv c_next tally] in *.
    unfold mark_adv, once in *. cbn [w_adv w_next w_s c_adv c_next] in *. rewrite occ_app. cbn [occ].
    destruct (Z.eqb_spec (c_next s) n); destruct ((1 <=? n) && (n <? c_next s)) eqn:E1; destruct ((1 <=? n) && (n <? c_next s + 1)) eqn:E2; lia.
Qed.

Section S.
Variables (dl : Z) (sc : list Z) (st : option Z) (dc : list Z) (dt : option Z).

Lemma bal_step h x op : sinv sc st h (x_ids x) -> bal h (x_ids x) ->
  bal (h ++ [(op, fst (cid_step op x))]) (x_ids (snd (cid_step op x))).
Proof.
  intros hs hb.
  assert (s_op op \/ ~ s_op op) as [hop|hop] by (destruct op; cbn; tauto).
  2: { pose proof (d_op_s op x hop) as e. unfold spart in e. injection e as _ _ e1 _ e2 _ _ _.
       apply (bal_same _ (x_ids x)); auto; intros n; destruct op; cbn in hop; try tauto; reflexivity. }
  destruct op; cbn in hop; try tauto; clear hop; cbn [cid_step].
  - rewrite new_scid_go. pose proof (si_next _ _ _ _ hs) as hp.
    destruct (c_zs (x_ids x)); [apply (bal_same _ _ _ _ _ hb); auto|].
    destruct (c_lim (x_ids x) <=? zlen (c_s (x_ids x))).
    + destruct (negb retire); [apply (bal_same _ _ _ _ _ hb); auto|].
      destruct (lowest_usable (x_ids x)) as [l|]; [|apply (bal_same _ _ _ _ _ hb); auto].
      pose proof (ns_go_bal cid tok retire h (w_rpt (l + 1) (x_ids x)) hp hb) as q. destruct (ns_go _ _ _). exact q.
    + pose proof (ns_go_bal cid tok retire h (x_ids x) hp hb) as q. destruct (ns_go _ _ _). exact q.
  - destruct (c_zs (x_ids x)); [apply (bal_same _ _ _ _ _ hb); auto|].
    destruct (retire_scid seq pkt_dcid (x_ids x)) as [r s'] eqn:E. cbn [fst snd with_ids x_ids].
    assert (c_adv s' = c_adv (x_ids x) /\ c_next s' = c_next (x_ids x)) as [e1 e2].
    { unfold retire_scid in E. destruct (_ <=? _); [injection E as _ <-; auto|].
      destruct (dq_remove _ _) as [[[e|] l]| |]; try (injection E as _ <-; auto; fail).
      destruct (cid_eqb _ _); [injection E as _ <-; auto|]. cbv zeta in E. destruct (lowest_usable _); injection E as _ <-; auto. }
    apply (bal_same _ _ _ _ _ hb); auto.
  - apply (bal_same _ _ _ _ _ hb); auto; cbn; unfold set_limit; destruct (2 <=? v); auto.
  - destruct (c_adv (x_ids x)) as [|q l] eqn:Ea; [apply (bal_same _ _ _ _ _ hb); auto|].
    unfold new_cid_frame. destruct (dq_get q (c_s (x_ids x))) as [e|]; [|apply (bal_same _ _ _ _ _ hb); auto].
    destruct (e_tok e) as [t|]; [|apply (bal_same _ _ _ _ _ hb); auto].
    intros n. specialize (hb n). cbn [fst snd with_ids x_ids]. unfold mark_adv, new_sent, new_lost, once in *. rewrite Ea in *. rewrite !tally_app.
    cbn [w_adv c_adv c_next tally occ del_first] in *. rewrite Z.eqb_refl. destruct (q =? n); lia.
  - intros n. specialize (hb n). cbn [fst snd with_ids x_ids]. unfold mark_adv, new_sent, new_lost, once in *. rewrite !tally_app.
    cbn [w_adv c_adv c_next tally] in *. rewrite occ_app. cbn [occ]. destruct (seq =? n); lia.
  - destruct (c_retired (x_ids x)); apply (bal_same _ _ _ _ _ hb); auto.
Qed.

Lemma bal_reach h x : reach (x_init (cids_new dl sc st dc dt)) h x -> bal h (x_ids x).
Proof.
  intros hr. induction hr as [|h x op hr IH]; [|apply bal_step; auto; eapply sinv_reach; eauto].
  intros n. unfold once. cbn. destruct (Z.leb_spec 1 n), (Z.ltb_spec n 1); cbn [andb]; lia.
Qed.

Lemma new_not_lost ops h x n : cid_trace dl sc st dc dt ops h x -> In n (given h) -> 1 <= n ->
  new_lost n h < new_sent n h \/ In n (c_adv (x_ids x)).
Proof.
  intros ht hg h1. apply trace_reach in ht. pose proof (bal_reach _ _ ht n) as hb. pose proof (sinv_reach _ _ _ _ _ _ _ ht) as hs.
  assert (hn : n < c_next (x_ids x)).
  { assert (hi : exists c t, In (n, c, t) (issued h)).
    { clear - hg. induction h as [|[op o] h IH]; cbn in hg; [tauto|].
      destruct op; cbn [issued]; auto. destruct o; auto. destruct hg as [<-|hg]; [eexists; eexists; left; reflexivity|].
      destruct (IH hg) as (c & t & q). exists c, t. right. auto. }
    destruct hi as (c & t & hi). destruct (si_isb _ _ _ _ hs n c t); [right; auto|]. lia. }
  unfold once in hb. replace ((1 <=? n) && (n <? c_next (x_ids x))) with true in hb by lia.
  destruct (Z_lt_dec 0 (occ n (c_adv (x_ids x)))) as [q|q]; [right; apply occ_in; auto|left; lia].
Qed.

(** ** Retirements *)
Lemma ret_grows op x n : Forall (fun e => c_lrpt (x_ids x) <= e_seq e) (c_d (x_ids x)) ->
  (forall pid, op <> SendRetire pid n) -> In n (c_ret (x_ids x)) -> In n (c_ret (x_ids (snd (cid_step op x)))).
Proof.
  intros hl hn hi.
  assert (s_op op \/ ~ s_op op) as [hop|hop] by (destruct op; cbn; tauto).
  { pose proof (s_op_d op x hop) as hx. cbv zeta in hx. destruct hx as (hx & _). unfold dpart in hx. injection hx as _ _ e _ _ _. rewrite e. auto. }
  assert (hk : forall a b, kpart a = kpart b -> c_ret a = c_ret b) by (intros a b e; unfold kpart in e; congruence).
  destruct op; cbn in hop; try tauto; clear hop; cbn [cid_step].
  - destruct (c_zd (x_ids x)) eqn:Ez; auto. pose proof (new_dcid_case cid seq tok rpt (x_ids x) hl) as hc.
    destruct (new_dcid cid seq tok rpt (x_ids x)) as [[r p] s']. cbn [snd]. rewrite (hk _ _ (reassign_all_k p (with_ids s' x))). cbn [with_ids x_ids].
    inversion hc; subst; auto; cbn [w_ret w_d w_lrpt c_ret]; auto. match goal with q : forall y, _ <-> _ |- _ => apply q; auto end.
  - cbn [snd]. rewrite (hk _ _ (fill_k _ _)). auto.
  - destruct (c_zd (x_ids x)); auto. destruct (path_seq x (x_active x)); auto. destruct (_ && _ && _); auto.
    assert (hr : In n (c_ret (snd (retire_dcid seq (x_ids x))))).
    { unfold retire_dcid. destruct (c_zd _); auto. destruct (dq_remove _ _) as [[[e|] l]| |]; auto. unfold mark_retire. cbn [w_d c_rcap c_ret].
      destruct (set_insert_spec seq (c_rcap (x_ids x)) (c_ret (x_ids x))) as [[_ ->]|(_ & l' & -> & h2 & _)]; cbn [snd w_ret w_d c_ret]; auto. apply h2. auto. }
    destruct (retire_dcid seq (x_ids x)) as [[[pid|]| |] s']; cbn [snd] in *; auto. rewrite (hk _ _ (reassign_k _ _)). auto.
  - destruct (path_seq x pid); auto. destruct (_ && _); auto. cbn [snd with_ids x_ids unmark_retire w_ret c_ret].
    apply del_first_in'; auto. intros ->. eapply hn; eauto.
  - unfold mark_retire. destruct (set_insert_spec seq (c_rcap (x_ids x)) (c_ret (x_ids x))) as [[_ ->]|(_ & l' & -> & h2 & _)]; cbn [snd with_ids x_ids w_ret c_ret]; auto. apply h2. auto.
  - destruct client; auto. destruct (if c_zd (x_ids x) then Some 0 else lowest_available (x_ids x)); auto.
  - destruct (negb (known_pid pid x)); auto. destruct (_ =? _); auto. destruct (path_seq x pid); auto. destruct disable_dcid_reuse; auto.
  - destruct (negb (known_pid pid x)); auto. destruct (_ =? _); [destruct (path_seq x pid); auto|].
    destruct (path_seq x pid); auto. destruct (lowest_available (x_ids x)); auto. cbn [snd x_ids]. rewrite (hk _ _ (reassign_k _ _)). auto.
Qed.

Lemma losses_app h p : losses_of_sent (h ++ [p]) -> losses_of_sent h.
Proof. intros hl a b n ->. apply (hl a (b ++ [p])). rewrite app_assoc. auto. Qed.

Lemma retire_reach h x : reach (x_init (cids_new dl sc st dc dt)) h x -> d_clean h -> losses_of_sent h ->
  forall n, retire_sent h n -> In n (c_ret (x_ids x)) \/ ret_lost n h < ret_sent n h.
Proof.
  intros hr. induction hr as [|h x op hr IH]; intros hc hl n hs; [destruct hs as (pid & [])|].
  pose proof (losses_app _ _ hl) as hl0. apply Forall_app in hc as [hc0 hc1]. inversion hc1 as [|? ? hc2 _]; subst. clear hc1.
  pose proof (dinv_reach dl dc dt sc st _ _ hr) as hd. pose proof (hl0 h [] n ltac:(rewrite app_nil_r; auto)) as hle.
  specialize (IH hc0 hl0 n). set (o := fst (cid_step op x)) in *.
  assert (hsent : ret_sent n [(op, o)] = 1 \/ (ret_sent n [(op, o)] = 0 /\ retire_sent h n)).
  { destruct hs as (pid & hi). apply in_app_iff in hi as [hi|[hi|[]]].
    - destruct op; try (right; split; [reflexivity|exists pid; auto]; fail). unfold ret_sent. cbn [tally].
      destruct o; try (right; split; [reflexivity|exists pid; auto]; fail). destruct ((seq =? n) && (seq0 =? n)); [left; lia|right; split; [lia|exists pid; auto]].
    - injection hi as -> ho. left. unfold ret_sent. cbn [tally]. rewrite ho, Z.eqb_refl. auto. }
  assert (et : ret_sent n (h ++ [(op, o)]) = ret_sent n h + ret_sent n [(op, o)]) by apply tally_app.
  assert (el : ret_lost n (h ++ [(op, o)]) = ret_lost n h + ret_lost n [(op, o)]) by apply tally_app.
  destruct (Z.eq_dec (ret_lost n [(op, o)]) 0) as [e0|e0].
  - destruct hsent as [q|[q hs']]; [right; lia|]. destruct (IH hs') as [k|k]; [|right; lia].
    destruct op; try (left; apply ret_grows; auto; [apply (di_lrpt _ _ _ _ _ hd)|intros ?; discriminate]).
    destruct (Z.eq_dec seq n) as [->|]; [|left; apply ret_grows; auto; [apply (di_lrpt _ _ _ _ _ hd)|congruence]].
    left. unfold o in q. cbn [cid_step] in *. destruct (path_seq x pid); auto.
    destruct (existsb _ _ && _); auto. exfalso. unfold ret_sent in q. cbn [fst tally] in q. rewrite Z.eqb_refl in q. cbn [andb] in q. lia.
  - left. unfold ret_lost in e0. cbn [tally] in e0. destruct op; try lia. destruct (Z.eqb_spec seq n) as [->|]; [|lia].
    unfold o in hc2. cbn [cid_step] in *. unfold mark_retire in *.
    destruct (set_insert_spec n (c_rcap (x_ids x)) (c_ret (x_ids x))) as [[_ e]|(_ & l' & e & h2 & _)]; rewrite e in *; [discriminate|].
    cbn [fst snd with_ids x_ids w_ret c_ret]. apply h2. auto.
Qed.

Lemma retire_not_lost ops h x n : cid_trace dl sc st dc dt ops h x -> d_clean h -> losses_of_sent h -> n = 0 \/ accepted h n ->
  active_d x n \/ ret_lost n h < ret_sent n h \/ forall pid a, path_seq x pid = Some a -> a <> n -> fst (cid_step (SendRetire pid n) x) = OSeq n.
Proof.
  intros ht hc hl hn. apply trace_reach in ht.
  assert (hq : In n (c_ret (x_ids x)) -> forall pid a, path_seq x pid = Some a -> a <> n -> fst (cid_step (SendRetire pid n) x) = OSeq n).
  { intros hi pid a ha hne. cbn [cid_step]. rewrite ha. replace (existsb (Z.eqb n) (c_ret (x_ids x))) with true.
    - replace (a =? n) with false by lia. reflexivity.
    - symmetry. apply existsb_exists. exists n. split; auto. lia. }
  destruct (di_acc _ _ _ _ _ (dinv_reach dl dc dt sc st _ _ ht) hc n hn) as [q|[q|q]]; [left; exact q|right; right; exact (hq q)|].
  destruct (retire_reach _ _ ht hc hl n q) as [k|k]; [right; right; exact (hq k)|right; left; auto].
Qed.
End S.
