Require Import Verif.Base Verif.Errors Verif.TpModel Verif.CidModel Verif.CidSpec Verif.CidProofs Verif.CidProofs2.

Section S.
Variables (sc : list Z) (st : option Z).
Notation sinv := (sinv sc st).
Notation all_ids := (all_ids sc st).

(** A step that gives no number, tells no id and announces nothing. *)
Ltac quiet h p :=
  assert (all_ids (h ++ [p]) = all_ids h) as ea by (rewrite all_app; apply app_nil_r);
  assert (peer_limit (h ++ [p]) = peer_limit h) as el by (rewrite peer_limit_app; pose proof (peer_limit_ge h); cbn; lia);
  assert (given (h ++ [p]) = given h) as eg by (rewrite given_app; apply app_nil_r).

Lemma drop_entry_len (q : Z) l : In q (map e_seq l) -> 1 < zlen l -> 1 <= zlen (dq_del q l) <= zlen l.
Proof. intros h1 h2. rewrite dq_del_len by auto. lia. Qed.

Lemma del_seq_in q l x : In x (map e_seq (dq_del q l)) -> In x (map e_seq l).
Proof. rewrite !in_map_iff. intros (e & <- & h). exists e. split; auto. eapply dq_del_in; eauto. Qed.

Lemma retire_scid_sinv q d h s : sinv h s ->
  sinv (h ++ [(GotRetire q d, out_of (fun _ => OUnit) (fst (retire_scid q d s)))]) (snd (retire_scid q d s)).
Proof.
  intros hs. unfold retire_scid.
  assert (forall o, sinv (h ++ [(GotRetire q d, o)]) s) as hsame.
  { intros o. apply sinv_frame with (s := s); auto. intros; discriminate. }
  destruct (Z.leb_spec (c_next s) q); [apply hsame|].
  destruct (dq_remove_cases q (c_s s)) as [[_ ->]|[(_ & _ & ->)|(hl & e & he1 & he2 & _ & ->)]]; try apply hsame.
  assert (In q (map e_seq (c_s s))) as hq by (rewrite <- he2; apply in_map; auto).
  pose proof (drop_entry_len _ _ hq hl) as hlen.
  pose proof (si_iss _ _ _ _ hs e he1) as hiss.
  assert (forall o (l' : list (list Z)) (rpt : Z),
    c_rpt s <= rpt <= c_next s ->
    (forall x, In x (dq_del q (c_s s)) -> c_rpt s <= e_seq x -> rpt <= e_seq x) ->
    (l' = c_retired s /\ o = OFail InvalidState \/ l' = c_retired s ++ [e_cid e]) ->
    sinv (h ++ [(GotRetire q d, o)]) (w_rpt rpt (w_retired l' (w_s (dq_del q (c_s s)) s)))) as hmain.
  { intros o l' rpt hr1 hr2 hl'. set (p := (GotRetire q d, o)). quiet h p.
    pose proof (dq_del_filter (fun e0 => rpt <=? e_seq e0) q (c_s s)) as hf1.
    pose proof (filter_le (fun e0 => rpt <=? e_seq e0) (fun e0 => c_rpt s <=? e_seq e0) (c_s s) ltac:(intros; lia)) as hf2.
    destruct hs. constructor; cbn [w_s w_retired w_rpt c_s c_scap c_adv c_retired c_next c_rpt c_lim]; rewrite ?ea, ?el, ?eg; auto; try lia.
    - rewrite Forall_forall in *. intros x hx. apply si_seqs. eapply dq_del_in; eauto.
    - apply dq_del_map; auto.
    - apply dq_del_map; auto.
    - intros x hx. apply si_iss. eapply dq_del_in; eauto.
    - intros n hn. destruct (Z.eq_dec n q) as [->|].
      + right. exists d, o. apply in_or_app. right. cbn. auto.
      + destruct (si_gone n hn) as [hg|hg]; [left; apply dq_del_seqs; auto|right; apply rbp_app; auto].
    - intros hn. apply nf_app in hn. specialize (si_forced hn). rewrite Forall_forall in *. intros x hx. apply hr2; auto.
      apply si_forced. eapply dq_del_in; eauto.
    - intros n hn. destruct (si_ann n hn); auto. right. apply ann_app; auto.
    - intros n r c t hi. apply in_app_iff in hi. destruct hi as [hi|[hi|[]]]; [|discriminate]. destruct (si_frame _ _ _ _ hi). split; auto. lia.
    - destruct si_told as (rs & h1 & h2 & h3 & h4). rewrite told_app. cbn [told]. rewrite app_nil_r.
      assert (~ In q rs) as hnq.
      { intros hi. rewrite Forall_forall in h3. destruct (h3 q hi) as [hx _]. tauto. }
      assert (forall n, In n rs -> ~ In n (map e_seq (dq_del q (c_s s))) /\ retired_by_peer (h ++ [p]) n) as hold.
      { intros n hn. rewrite Forall_forall in h3. destruct (h3 n hn) as [a b]. split; [|apply rbp_app; auto].
        intros hi. apply a. apply del_seq_in in hi. auto. }
      destruct hl' as [(-> & ->)| ->].
      + exists rs. ands; auto.
        * rewrite Forall_forall. auto.
        * intros hb. exfalso. apply (hb q d). apply in_or_app. right. cbn. auto.
      + exists (rs ++ [q]). ands.
        * apply NoDup_snoc; auto.
        * rewrite app_assoc. apply Forall2_app; auto. constructor; [|constructor]. exists (e_tok e). rewrite <- he2. auto.
        * apply Forall_app. split; [rewrite Forall_forall; auto|]. constructor; [|constructor]. split.
          -- apply dq_del_gone; auto.
          -- exists d, o. apply in_or_app. right. cbn. auto.
        * intros hb n hn hx. apply nbr_app in hb. apply in_or_app. destruct (Z.eq_dec n q) as [->|]; [right; cbn; auto|left].
          apply h4; auto. intros hi. apply hx. apply dq_del_seqs; auto. }
  assert (forall t, w_rpt (c_rpt s) (w_retired t (w_s (dq_del q (c_s s)) s)) = w_retired t (w_s (dq_del q (c_s s)) s)) as e1 by reflexivity.
  pose proof (si_rpt _ _ _ _ hs) as hr.
  destruct (cid_eqb (e_cid e) d).
  - cbn [fst snd out_of]. specialize (hmain (OFail InvalidState) (c_retired s) (c_rpt s) ltac:(lia) ltac:(auto) ltac:(auto)).
    rewrite e1 in hmain. exact hmain.
  - cbv zeta. destruct (lowest_usable _) as [m|] eqn:Em; cbn [fst snd out_of].
    + apply lowest_usable_some in Em. cbn [w_s w_retired c_s c_rpt] in Em. destruct Em as (m1 & m2 & m3).
      apply hmain; auto. split; auto. apply in_map_iff in m1. destruct m1 as (x & <- & hx). pose proof (si_seqs _ _ _ _ hs) as hsq.
      rewrite Forall_forall in hsq. pose proof (hsq x (dq_del_in _ _ _ hx)). lia.
    + specialize (hmain (OFail InvalidState) (c_retired s ++ [e_cid e]) (c_rpt s) ltac:(lia) ltac:(auto) ltac:(auto)). rewrite e1 in hmain. exact hmain.
Qed.

Lemma set_limit_sinv v h s : sinv h s -> sinv (h ++ [(SetLimit v, OUnit)]) (set_limit v s).
Proof.
  intros hs. set (p := (SetLimit v, OUnit)).
  assert (all_ids (h ++ [p]) = all_ids h) as ea by (rewrite all_app; apply app_nil_r).
  assert (given (h ++ [p]) = given h) as eg by (rewrite given_app; apply app_nil_r).
  assert (peer_limit (h ++ [p]) = Z.max (peer_limit h) v) as el by (rewrite peer_limit_app; pose proof (peer_limit_ge h); cbn; lia).
  assert (told (h ++ [p]) = told h) as et by (rewrite told_app; cbn; apply app_nil_r).
  assert (c_s (set_limit v s) = c_s s /\ c_adv (set_limit v s) = c_adv s /\ c_retired (set_limit v s) = c_retired s /\ c_next (set_limit v s) = c_next s /\ c_rpt (set_limit v s) = c_rpt s) as (e1 & e2 & e3 & e4 & e5).
  { unfold set_limit. destruct (2 <=? v); cbn; auto. }
  assert (2 <= c_lim (set_limit v s) <= Z.max (peer_limit h) v) as hl.
  { pose proof (si_lim _ _ _ _ hs). unfold set_limit. destruct (Z.leb_spec 2 v); cbn; lia. }
  assert (c_scap (set_limit v s) = 2 * Z.max (peer_limit h) v - 1) as hc.
  { pose proof (si_cap _ _ _ _ hs). pose proof (peer_limit_ge h). unfold set_limit. destruct (Z.leb_spec 2 v); cbn [w_lim c_scap]; [|lia].
    destruct (Z.ltb_spec (c_scap s) (2 * v - 1)); lia. }
  destruct hs. constructor; rewrite ?e1, ?e2, ?e3, ?e4, ?e5, ?el, ?ea, ?eg, ?et; auto; try lia.
  - intros n hn. destruct (si_gone n hn); auto. right. apply rbp_app; auto.
  - intros hn. apply si_forced. apply nf_app in hn. auto.
  - intros n hn. destruct (si_ann n hn); auto. right. apply ann_app; auto.
  - intros n r c t hin. apply in_app_iff in hin. destruct hin as [hin|[hin|[]]]; [exact (si_frame n r c t hin)|discriminate].
  - destruct si_told as (rs & h1 & h2 & h3 & h4). exists rs. ands; auto.
    + eapply Forall_impl; [|exact h3]. cbn. intros n [a b]. split; auto. apply rbp_app; auto.
    + intros hn. apply h4. apply nbr_app in hn. auto.
Qed.

Lemma adv_sinv h s adv p : sinv h s ->
  given [p] = [] -> issued [p] = [] -> told [p] = [] -> peer_limit [p] = 2 ->
  (forall n r c t, p = (SendNewCid, OFrame n r c t) -> In (n, c, Some t) (all_ids h) /\ r <= c_rpt s) ->
  (forall n, In n (c_adv s) -> In n adv \/ announced (h ++ [p]) n) ->
  sinv (h ++ [p]) (w_adv adv s).
Proof.
  intros hs hg hi ht hp hf ha.
  assert (all_ids (h ++ [p]) = all_ids h) as ea by (rewrite all_app, hi, app_nil_r; auto).
  assert (peer_limit (h ++ [p]) = peer_limit h) as el by (rewrite peer_limit_app, hp; pose proof (peer_limit_ge h); lia).
  destruct hs. constructor; cbn [w_adv c_s c_scap c_adv c_retired c_next c_rpt c_lim]; rewrite ?el, ?ea; auto.
  - rewrite given_app, hg, app_nil_r. auto.
  - intros n hn. destruct (si_gone n hn); auto. right. apply rbp_app; auto.
  - intros hn. apply si_forced. apply nf_app in hn. auto.
  - intros n hn. destruct (si_ann n hn) as [hx|hx]; [apply ha; auto|]. right. apply ann_app; auto.
  - intros n r c t hin. apply in_app_iff in hin. destruct hin as [hin|[hin|[]]].
    + exact (si_frame n r c t hin).
    + apply hf in hin. auto.
  - destruct si_told as (rs & h1 & h2 & h3 & h4). exists rs. rewrite told_app, ht, app_nil_r. ands; auto.
    + eapply Forall_impl; [|exact h3]. cbn. intros n [a b]. split; auto. apply rbp_app; auto.
    + intros hn. apply h4. apply nbr_app in hn. auto.
Qed.

Lemma pop_sinv h s c l : sinv h s -> c_retired s = c :: l -> sinv (h ++ [(PopRetired, ORetired (Some c))]) (w_retired l s).
Proof.
  intros hs hc. set (p := (PopRetired, ORetired (Some c))). quiet h p.
  destruct hs. constructor; cbn [w_retired c_s c_scap c_adv c_retired c_next c_rpt c_lim]; rewrite ?el, ?ea, ?eg; auto.
  - intros n hn. destruct (si_gone n hn); auto. right. apply rbp_app; auto.
  - intros hn. apply si_forced. apply nf_app in hn. auto.
  - intros n hn. destruct (si_ann n hn); auto. right. apply ann_app; auto.
  - intros n r c' t hin. apply in_app_iff in hin. destruct hin as [hin|[hin|[]]]; [exact (si_frame n r c' t hin)|discriminate].
  - destruct si_told as (rs & h1 & h2 & h3 & h4). exists rs. rewrite told_app. unfold p at 1; cbn [told]. rewrite <- app_assoc. cbn [app].
    rewrite <- hc. ands; auto.
    + eapply Forall_impl; [|exact h3]. cbn. intros n [a b]. split; auto. apply rbp_app; auto.
    + intros hn. apply h4. apply nbr_app in hn. auto.
Qed.

Lemma sinv_step h x op : sinv h (x_ids x) -> sinv (h ++ [(op, fst (cid_step op x))]) (x_ids (snd (cid_step op x))).
Proof.
  intros hs.
  assert (s_op op \/ ~ s_op op) as [hop|hop] by (destruct op; cbn; tauto).
  2: { apply sinv_frame with (s := x_ids x); auto; try (apply d_op_s; auto); destruct op; cbn in hop; try tauto; try reflexivity; intros; discriminate. }
  destruct op; cbn in hop; try tauto; clear hop; cbn [cid_step].
  - pose proof (new_scid_sinv sc st cid tok retire h (x_ids x) hs) as hh. destruct (new_scid cid tok retire (x_ids x)). exact hh.
  - assert (forall o, sinv (h ++ [(GotRetire seq pkt_dcid, o)]) (x_ids x)) as hsame.
    { intros o. apply sinv_frame with (s := x_ids x); auto. intros; discriminate. }
    destruct (c_zs (x_ids x)); [apply hsame|].
    pose proof (retire_scid_sinv seq pkt_dcid h (x_ids x) hs) as hh. destruct (retire_scid seq pkt_dcid (x_ids x)). exact hh.
  - apply set_limit_sinv; auto.
  - assert (forall o, (forall n r c t, o <> OFrame n r c t) -> sinv (h ++ [(SendNewCid, o)]) (x_ids x)) as hsame.
    { intros o ho. apply sinv_frame with (s := x_ids x); auto. intros n r c t e. apply (ho n r c t). congruence. }
    destruct (c_adv (x_ids x)) as [|q l] eqn:Ea; [apply hsame; discriminate|].
    unfold new_cid_frame. destruct (dq_get q (c_s (x_ids x))) as [e|] eqn:Eg; [|apply hsame; discriminate].
    destruct (e_tok e) as [t|] eqn:Et; [|apply hsame; discriminate].
    cbn [fst snd with_ids x_ids]; unfold mark_adv. rewrite Ea. apply dq_get_some in Eg. destruct Eg as [g1 g2].
    pose proof (si_iss _ _ _ _ hs e g1) as hi. rewrite Et, g2 in hi.
    apply adv_sinv; auto.
    + intros n r c t' ee. injection ee as <- <- <- <-. split; auto. lia.
    + intros n. rewrite Ea. intros hn. destruct (Z.eq_dec n q) as [->|].
      * right. exists (c_rpt (x_ids x)), (e_cid e), t. apply in_or_app. right. cbn. auto.
      * left. apply del_first_in'; auto.
  - cbn [fst snd with_ids x_ids]; unfold mark_adv. apply adv_sinv; auto; [discriminate|]. intros n hn. left. apply in_or_app. auto.
  - destruct (c_retired (x_ids x)) as [|c l] eqn:Ec; cbn [fst snd with_ids x_ids].
    + apply sinv_frame with (s := x_ids x); auto. intros; discriminate.
    + apply pop_sinv; auto.
Qed.

Lemma sinv_reach dl dc dt h x : reach (x_init (cids_new dl sc st dc dt)) h x -> sinv h (x_ids x).
Proof. intros hr. induction hr as [|h x op hr IH]; [apply sinv_init|apply sinv_step; auto]. Qed.
End S.
