Require Import Verif.Base Verif.Errors Verif.TpModel Verif.CidModel Verif.CidSpec Verif.CidProofs.

Lemma Forall2_impl {A B} (P Q : A -> B -> Prop) la lb : (forall a b, P a b -> Q a b) -> Forall2 P la lb -> Forall2 Q la lb.
Proof. intros h hf. induction hf; constructor; auto. Qed.

(** ** Source ids *)
Section S.
Variables (sc : list Z) (st : option Z).

Definition all_ids (h : trace) := (0, sc, st) :: issued h.
Definition no_bad_retire (h : trace) : Prop := forall n d, ~ In (GotRetire n d, OFail InvalidState) h.

Record sinv (h : trace) (s : cids) : Prop := {
  si_count : counts_up 1 (given h) = Some (c_next s);
  si_next : 1 <= c_next s;
  si_seqs : Forall (fun e => 0 <= e_seq e < c_next s) (c_s s);
  si_nds : NoDup (map e_seq (c_s s));
  si_ndc : NoDup (map e_cid (c_s s));
  si_ne : 1 <= zlen (c_s s);
  si_iss : forall e, In e (c_s s) -> In (e_seq e, e_cid e, e_tok e) (all_ids h);
  si_isb : forall n c t, In (n, c, t) (all_ids h) -> 0 <= n < c_next s;
  si_fun : forall n c t c' t', In (n, c, t) (all_ids h) -> In (n, c', t') (all_ids h) -> c = c' /\ t = t';
  si_lim : 2 <= c_lim s <= peer_limit h;
  si_cap : c_scap s = 2 * peer_limit h - 1;
  si_len : zlen (c_s s) <= c_scap s;
  si_use : zlen (filter (fun e => c_rpt s <=? e_seq e) (c_s s)) <= peer_limit h;
  si_gone : forall n, 0 <= n < c_next s -> In n (map e_seq (c_s s)) \/ retired_by_peer h n;
  si_rpt : 0 <= c_rpt s <= c_next s;
  si_forced : never_forced h -> Forall (fun e => c_rpt s <= e_seq e) (c_s s);
  si_ann : forall n, 1 <= n < c_next s -> In n (c_adv s) \/ announced h n;
  si_frame : forall n r c t, In (SendNewCid, OFrame n r c t) h -> In (n, c, Some t) (all_ids h) /\ r <= c_rpt s;
  si_told : exists rs, NoDup rs /\
    Forall2 (fun n c => exists t, In (n, c, t) (all_ids h)) rs (told h ++ c_retired s) /\
    Forall (fun n => ~ In n (map e_seq (c_s s)) /\ retired_by_peer h n) rs /\
    (no_bad_retire h -> forall n, 0 <= n < c_next s -> ~ In n (map e_seq (c_s s)) -> In n rs)
}.

(** The operations that give no number and change no source field. *)
Lemma rbp_app h n p : retired_by_peer h n -> retired_by_peer (h ++ [p]) n.
Proof. intros (d & o & hi). exists d, o. apply in_or_app. auto. Qed.
Lemma ann_app h n p : announced h n -> announced (h ++ [p]) n.
Proof. intros (r & c & t & hi). exists r, c, t. apply in_or_app. auto. Qed.
Lemma nf_app h p : never_forced (h ++ [p]) -> never_forced h.
Proof. intros hn c t o hi. apply (hn c t o). apply in_or_app. auto. Qed.
Lemma nbr_app h p : no_bad_retire (h ++ [p]) -> no_bad_retire h.
Proof. intros hn n d hi. apply (hn n d). apply in_or_app. auto. Qed.
Lemma all_app h p : all_ids (h ++ [p]) = all_ids h ++ issued [p].
Proof. unfold all_ids. rewrite issued_app. reflexivity. Qed.

Lemma sinv_frame h s s' p :
  sinv h s -> given [p] = [] -> issued [p] = [] -> told [p] = [] -> peer_limit [p] = 2 ->
  (forall n r c t, p <> (SendNewCid, OFrame n r c t)) ->
  spart s' = spart s -> sinv (h ++ [p]) s'.
Proof.
  intros hs hg hi ht hp hf he. unfold spart in he. injection he as e1 e2 e3 e4 e5 e6 e7 e8.
  assert (all_ids (h ++ [p]) = all_ids h) as ea by (rewrite all_app, hi, app_nil_r; auto).
  assert (peer_limit (h ++ [p]) = peer_limit h) as el by (rewrite peer_limit_app, hp; pose proof (peer_limit_ge h); lia).
  destruct hs. constructor; rewrite ?e1, ?e2, ?e3, ?e4, ?e5, ?e6, ?e7, ?el, ?ea; auto.
  - rewrite given_app, hg, app_nil_r. auto.
  - intros n hn. destruct (si_gone0 n hn); auto. right. apply rbp_app; auto.
  - intros hn. apply si_forced0. apply nf_app in hn. auto.
  - intros n hn. destruct (si_ann0 n hn); auto. right. apply ann_app; auto.
  - intros n r c t hin. apply in_app_iff in hin. destruct hin as [hin|[hin|[]]].
    + exact (si_frame0 n r c t hin).
    + exfalso. eapply hf; eauto.
  - destruct si_told0 as (rs & h1 & h2 & h3 & h4). exists rs. rewrite told_app, ht, app_nil_r. ands; auto.
    + eapply Forall_impl; [|exact h3]. cbn. intros n [a b]. split; auto. apply rbp_app; auto.
    + intros hn. apply h4. apply nbr_app in hn. auto.
Qed.

Lemma sinv_init dl dc dt : sinv [] (cids_new dl sc st dc dt).
Proof.
  constructor; cbn; auto; try lia.
  - constructor; [cbn; lia|constructor].
  - constructor; auto. constructor.
  - constructor; auto. constructor.
  - intros e [<-|[]]; cbn; auto.
  - intros n c t [e|[]]. injection e as <- <- <-. lia.
  - intros n c t c' t' [e|[]] [e'|[]]. injection e as <- <- <-. injection e' as <- <-. auto.
  - intros _. constructor; [cbn; lia|constructor].
  - exists []. ands; constructor || auto. intros _ n hn hx. exfalso. apply hx. left. lia.
Qed.

(** raising retire_prior_to alone, after a forced call *)
Lemma filter_le (f g : ent -> bool) l : (forall e, f e = true -> g e = true) -> zlen (filter f l) <= zlen (filter g l).
Proof.
  intros h. induction l as [|x l IH]; cbn [filter]; [lia|].
  destruct (f x) eqn:E; [rewrite (h _ E), !zlen_cons; lia|]. destruct (g x); rewrite ?zlen_cons; lia.
Qed.
Lemma filter_lt (f g : ent -> bool) l : (forall e, f e = true -> g e = true) -> (exists e, In e l /\ g e = true /\ f e = false) ->
  zlen (filter f l) < zlen (filter g l).
Proof.
  intros h. induction l as [|x l IH]; intros (e & h1 & h2 & h3); [destruct h1|]. cbn [filter].
  pose proof (filter_le f g l h) as hle. destruct h1 as [->|h1].
  - rewrite h2, h3, zlen_cons. lia.
  - specialize (IH (ex_intro _ e (conj h1 (conj h2 h3)))). destruct (f x) eqn:E; [rewrite (h _ E), !zlen_cons; lia|].
    destruct (g x); rewrite ?zlen_cons; lia.
Qed.
Lemma filter_len (f : ent -> bool) l : zlen (filter f l) <= zlen l.
Proof. induction l as [|x l IH]; cbn [filter]; [lia|]. destruct (f x); rewrite ?zlen_cons; lia. Qed.

Lemma NoDup_snoc {A} (l : list A) x : NoDup l -> ~ In x l -> NoDup (l ++ [x]).
Proof.
  intros h hn. apply NoDup_Add with (a := x) (l := l); [|auto].
  rewrite <- (app_nil_r l) at 1. apply Add_app.
Qed.

(** The core of new_scid, after the limit was checked. *)
Definition ns_go (cid : list Z) (tok : Z) (s : cids) : res error Z * cids :=
  match find (fun e => cid_eqb (e_cid e) cid) (c_s s) with
  | Some e =>
      match e_tok e with
      | Some t => if t =? tok then (Ok (e_seq e), s) else (Err InvalidState, s)
      | None => (Err InvalidState, s)
      end
  | None =>
      let seq := c_next s in
      match dq_insert (mkE cid seq (Some tok) None) (c_scap s) (c_s s) with
      | Ok l => (Ok seq, mark_adv seq true (w_next (seq + 1) (w_s l s)))
      | Err e => (Err e, s)
      | Panic => (Panic, s)
      end
  end.
Lemma new_scid_go cid tok r s : new_scid cid tok r s =
  if c_zs s then (Err InvalidState, s)
  else if c_lim s <=? zlen (c_s s) then
      if negb r then (Err IdLimit, s)
      else match lowest_usable s with None => (Err InvalidState, s) | Some l => ns_go cid tok (w_rpt (l + 1) s) end
    else ns_go cid tok s.
Proof. reflexivity. Qed.

Lemma ns_go_sinv cid tok r h s :
  sinv h s -> zlen (filter (fun e => c_rpt s <=? e_seq e) (c_s s)) < peer_limit h ->
  (r = false -> never_forced h -> Forall (fun e => c_rpt s <= e_seq e) (c_s s)) ->
  sinv (h ++ [(NewScid cid tok r, out_of OSeq (fst (ns_go cid tok s)))]) (snd (ns_go cid tok s)).
Proof.
  intros hs hu hf. unfold ns_go. destruct (find _ _) as [e|] eqn:Ef.
  - apply find_some in Ef. destruct Ef as [e1 e2]. apply cid_eqb_iff in e2. subst cid.
    assert (sinv (h ++ [(NewScid (e_cid e) tok r, OFail InvalidState)]) s) as hfail.
    { apply sinv_frame with (s := s); auto. intros; discriminate. }
    destruct (e_tok e) as [t|] eqn:Et; [|exact hfail].
    destruct (Z.eqb_spec t tok) as [->|]; [|exact hfail]. cbn [fst snd out_of].
    pose proof (si_iss _ _ hs e e1) as hin. pose proof (si_isb _ _ hs _ _ _ hin) as hb. rewrite Et in hin.
    assert (all_ids (h ++ [(NewScid (e_cid e) tok r, OSeq (e_seq e))]) = all_ids h ++ [(e_seq e, e_cid e, Some tok)]) as ea.
    { rewrite all_app. reflexivity. }
    assert (forall y, In y (all_ids (h ++ [(NewScid (e_cid e) tok r, OSeq (e_seq e))])) -> In y (all_ids h)) as hsub.
    { intros y. rewrite ea, in_app_iff. intros [hy|[<-|[]]]; auto. }
    assert (forall y, In y (all_ids h) -> In y (all_ids (h ++ [(NewScid (e_cid e) tok r, OSeq (e_seq e))]))) as hsup.
    { intros y. rewrite ea, in_app_iff. auto. }
    assert (peer_limit (h ++ [(NewScid (e_cid e) tok r, OSeq (e_seq e))]) = peer_limit h) as el
      by (rewrite peer_limit_app; pose proof (peer_limit_ge h); cbn; lia).
    destruct hs. constructor; rewrite ?el; auto.
    + rewrite given_app, counts_up_app, si_count0. cbn. replace (e_seq e =? c_next s) with false by lia.
      replace (0 <=? e_seq e) with true by lia. replace (e_seq e <? c_next s) with true by lia. auto.
    + intros n c t hi. eapply si_isb0. apply hsub. eauto.
    + intros n c t c' t' hi hi'. eapply si_fun0; apply hsub; eauto.
    + intros n hn. destruct (si_gone0 n hn); auto. right. apply rbp_app; auto.
    + intros hn. apply si_forced0. apply nf_app in hn. auto.
    + intros n hn. destruct (si_ann0 n hn); auto. right. apply ann_app; auto.
    + intros n r' c t hi. apply in_app_iff in hi. destruct hi as [hi|[hi|[]]]; [|discriminate].
      destruct (si_frame0 _ _ _ _ hi). split; auto.
    + destruct si_told0 as (rs & h1 & h2 & h3 & h4). exists rs. rewrite told_app. cbn [told]. rewrite app_nil_r. ands; auto.
      * eapply Forall2_impl; [|exact h2]. intros n c (t & ht). exists t. auto.
      * eapply Forall_impl; [|exact h3]. cbn. intros n [a b]. split; auto. apply rbp_app; auto.
      * intros hn. apply h4. apply nbr_app in hn. auto.
  - cbv zeta. destruct (dq_insert _ _ _) as [l|x|] eqn:Ei.
    2, 3: cbn [fst snd out_of]; apply sinv_frame with (s := s); auto; intros; discriminate.
    apply dq_insert_fresh in Ei.
    2: { cbn. intros hi. apply in_map_iff in hi. destruct hi as (e & e1 & e2). pose proof (si_seqs _ _ hs) as hq.
         rewrite Forall_forall in hq. specialize (hq e e2). lia. }
    destruct Ei as [-> hcap]. cbn [fst snd out_of].
    set (p := (NewScid cid tok r, OSeq (c_next s))).
    assert (all_ids (h ++ [p]) = all_ids h ++ [(c_next s, cid, Some tok)]) as ea by (rewrite all_app; reflexivity).
    assert (peer_limit (h ++ [p]) = peer_limit h) as el
      by (rewrite peer_limit_app; pose proof (peer_limit_ge h); cbn; lia).
    assert (~ In cid (map e_cid (c_s s))) as hnc.
    { intros hi. apply in_map_iff in hi. destruct hi as (e & <- & e2). pose proof (find_none _ _ Ef e e2) as hx. cbn in hx.
      assert (cid_eqb (e_cid e) (e_cid e) = true) by (apply cid_eqb_iff; auto). congruence. }
    destruct hs. constructor; cbn [mark_adv w_adv w_next w_s c_s c_scap c_adv c_retired c_next c_rpt c_lim]; rewrite ?el; auto.
    + rewrite given_app, counts_up_app, si_count0. cbn. rewrite Z.eqb_refl. auto.
    + lia.
    + apply Forall_app. split; [eapply Forall_impl; [|exact si_seqs0]; cbn; intros; lia|]. constructor; [cbn; lia|constructor].
    + rewrite map_app. apply NoDup_snoc; auto. cbn. intros hi. apply in_map_iff in hi. destruct hi as (e & e1 & e2).
      rewrite Forall_forall in si_seqs0. specialize (si_seqs0 e e2). lia.
    + rewrite map_app. apply NoDup_snoc; auto.
    + rewrite zlen_app. cbn. lia.
    + intros e he. rewrite ea. apply in_or_app. apply in_app_iff in he. destruct he as [he|[<-|[]]]; [left; auto|right; cbn; auto].
    + intros n c t. rewrite ea, in_app_iff. intros [hi|[hi|[]]].
      * pose proof (si_isb0 _ _ _ hi). lia.
      * injection hi as <- <- <-. lia.
    + intros n c t c' t'. rewrite ea, !in_app_iff. intros [hi|[hi|[]]] [hi'|[hi'|[]]].
      * eapply si_fun0; eauto.
      * injection hi' as <- <- <-. pose proof (si_isb0 _ _ _ hi). lia.
      * injection hi as <- <- <-. pose proof (si_isb0 _ _ _ hi'). lia.
      * injection hi as <- <- <-. injection hi' as <- <-. auto.
    + rewrite zlen_app, zlen_cons, zlen_nil. lia.
    + rewrite filter_app, zlen_app. cbn [filter e_seq]. destruct (c_rpt s <=? c_next s); rewrite ?zlen_cons, ?zlen_nil; lia.
    + intros n hn. rewrite map_app, in_app_iff. destruct (Z.eq_dec n (c_next s)) as [->|].
      * left. right. cbn. auto.
      * destruct (si_gone0 n ltac:(lia)); [auto|]. right. apply rbp_app; auto.
    + lia.
    + intros hn. apply Forall_app. split.
      * apply hf; [|apply nf_app in hn; auto]. destruct r; auto. exfalso. apply (hn cid tok (OSeq (c_next s))). apply in_or_app. right. cbn. auto.
      * constructor; [cbn; lia|constructor].
    + intros n hn. rewrite in_app_iff. destruct (Z.eq_dec n (c_next s)) as [->|].
      * left. right. cbn. auto.
      * destruct (si_ann0 n ltac:(lia)); [auto|]. right. apply ann_app; auto.
    + intros n r' c t hi. apply in_app_iff in hi. destruct hi as [hi|[hi|[]]]; [|discriminate].
      destruct (si_frame0 _ _ _ _ hi). split; auto. rewrite ea. apply in_or_app. auto.
    + destruct si_told0 as (rs & h1 & h2 & h3 & h4). exists rs. rewrite told_app. cbn [told]. rewrite app_nil_r. ands; auto.
      * eapply Forall2_impl; [|exact h2]. intros n c (t & ht). exists t. rewrite ea. apply in_or_app. auto.
      * rewrite Forall_forall in *. intros n hn. destruct (h3 n hn) as [a b]. split; [|apply rbp_app; auto].
        rewrite map_app, in_app_iff. intros [hi|[hi|[]]]; auto. cbn in hi.
        assert (exists c t, In (n, c, t) (all_ids h)) as (c & t & hc).
        { clear - h2 hn. induction h2 as [|a b la lb hab hl IH]; [destruct hn|]. destruct hn as [->|hn]; auto. destruct hab as (t & ht). eauto. }
        pose proof (si_isb0 _ _ _ hc). lia.
      * intros hn n hr. rewrite map_app, in_app_iff. intros hx. apply h4; auto.
        -- apply nbr_app in hn. auto.
        -- destruct (Z.eq_dec n (c_next s)) as [->|]; [|lia]. exfalso. apply hx. right. cbn. auto.
Qed.

Lemma sinv_rpt h s l : sinv h s -> lowest_usable s = Some l ->
  let s' := w_rpt (l + 1) s in
  zlen (filter (fun e => c_rpt s' <=? e_seq e) (c_s s')) < peer_limit h /\
  ((never_forced h -> Forall (fun e => c_rpt s' <= e_seq e) (c_s s')) -> sinv h s').
Proof.
  intros hs hl. apply lowest_usable_some in hl. destruct hl as (h1 & h2 & h3).
  apply in_map_iff in h1. destruct h1 as (e & <- & h1). cbn [w_rpt c_rpt c_s].
  assert (zlen (filter (fun e0 => e_seq e + 1 <=? e_seq e0) (c_s s)) < zlen (filter (fun e0 => c_rpt s <=? e_seq e0) (c_s s))) as hlt.
  { apply filter_lt; [intros; lia|]. exists e. ands; auto; lia. }
  pose proof (si_use _ _ hs) as hu. split; [lia|]. intros hf.
  pose proof (si_seqs _ _ hs) as hq. rewrite Forall_forall in hq. specialize (hq e h1).
  destruct hs. constructor; cbn [w_rpt c_s c_scap c_adv c_retired c_next c_rpt c_lim]; auto; try lia.
  intros n r c t hi. destruct (si_frame0 _ _ _ _ hi). split; auto. lia.
Qed.

(* The invariant without the clause about calls that were never forced, for the
   state in the middle of a forced call. *)
Lemma new_scid_sinv cid tok r h s : sinv h s ->
  sinv (h ++ [(NewScid cid tok r, out_of OSeq (fst (new_scid cid tok r s)))]) (snd (new_scid cid tok r s)).
Proof.
  intros hs. rewrite new_scid_go.
  assert (forall x, sinv (h ++ [(NewScid cid tok r, OFail x)]) s) as hfail.
  { intros x. apply sinv_frame with (s := s); auto. intros; discriminate. }
  destruct (c_zs s); [apply hfail|]. destruct (Z.leb_spec (c_lim s) (zlen (c_s s))).
  - destruct r; cbn [negb]; [|apply hfail]. destruct (lowest_usable s) as [l|] eqn:El; [|apply hfail].
    destruct (sinv_rpt h s l hs El) as [h1 h2].
    (* strengthen the history with the forced call first, then replay *)
    assert (sinv (h ++ [(NewScid cid tok true, OFail InvalidState)]) (w_rpt (l + 1) s)) as hs'.
    { assert (sinv (h ++ [(NewScid cid tok true, OFail InvalidState)]) s) as hs2 by apply hfail.
      destruct (sinv_rpt _ _ _ hs2 El) as [_ h4]. apply h4. intros hn. exfalso. apply (hn cid tok (OFail InvalidState)).
      apply in_or_app. right. cbn. auto. }
    revert hs' h1. clear - hs.
    set (s' := w_rpt (l + 1) s). intros hs' hu.
    assert (peer_limit (h ++ [(NewScid cid tok true, OFail InvalidState)]) = peer_limit h) as el
      by (rewrite peer_limit_app; pose proof (peer_limit_ge h); cbn; lia).
    pose proof (ns_go_sinv cid tok true _ s' hs' ltac:(rewrite el; exact hu) ltac:(discriminate)) as hg.
    remember (out_of OSeq (fst (ns_go cid tok s'))) as o. remember (snd (ns_go cid tok s')) as s2. clear Heqo Heqs2 hs' hu.
    set (q := (NewScid cid tok true, OFail InvalidState)) in *. set (p := (NewScid cid tok true, o)) in *.
    assert (forall y, In y (h ++ [p]) <-> In y ((h ++ [q]) ++ [p]) /\ (y = q -> In y (h ++ [p]))) as hin.
    { intros y. rewrite !in_app_iff. cbn [In]. split; [intros hy; split; tauto|]. intros [[[hy|[<-|[]]]|hy] hz]; auto. }
    assert (given ((h ++ [q]) ++ [p]) = given (h ++ [p])) as eg by (rewrite !given_app; cbn; rewrite app_nil_r; auto).
    assert (all_ids ((h ++ [q]) ++ [p]) = all_ids (h ++ [p])) as ea by (unfold all_ids; rewrite !issued_app; cbn; rewrite app_nil_r; auto).
    assert (told ((h ++ [q]) ++ [p]) = told (h ++ [p])) as et by (rewrite !told_app; cbn; rewrite app_nil_r; auto).
    assert (peer_limit ((h ++ [q]) ++ [p]) = peer_limit (h ++ [p])) as ep by (rewrite !peer_limit_app; cbn; pose proof (peer_limit_ge h); lia).
    assert (forall n, retired_by_peer ((h ++ [q]) ++ [p]) n -> retired_by_peer (h ++ [p]) n) as hrb.
    { intros n (d & oo & hi). exists d, oo. apply hin. split; auto. intros; discriminate. }
    assert (forall n, announced ((h ++ [q]) ++ [p]) n -> announced (h ++ [p]) n) as han.
    { intros n (rr & c & t & hi). exists rr, c, t. apply hin. split; auto. intros; discriminate. }
    destruct hg. rewrite eg, ?ea, ?et, ?ep in *.
    constructor; auto.
    + intros n hn. destruct (si_gone0 n hn); auto.
    + intros hn. exfalso. apply (hn cid tok o). apply in_or_app. right. cbn. auto.
    + intros n hn. destruct (si_ann0 n hn); auto.
    + intros n rr c t hi. apply si_frame0 with (1 := proj1 (proj1 (hin _) hi)).
    + destruct si_told0 as (rs & h1 & h2 & h3 & h4). exists rs. ands; auto.
      * eapply Forall_impl; [|exact h3]. cbn. intros n [a b]. split; auto.
      * intros hn. apply h4. intros n d hi. apply (hn n d). apply hin. split; auto. intros; discriminate.
  - apply ns_go_sinv; auto.
    + pose proof (filter_len (fun e => c_rpt s <=? e_seq e) (c_s s)). pose proof (si_lim _ _ hs). lia.
    + intros _. apply (si_forced _ _ hs).
Qed.
End S.
