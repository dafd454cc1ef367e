(** One packet number space. *)
Require Import Verif.Base Verif.Errors Verif.RangesModel Verif.RangesSpec Verif.RangesProofs Verif.RangesProofs2.
Require Import Verif.PktNumModel Verif.PktNumSpec Verif.PktNumProofs.

Lemma NoDup_app_comm_snoc_iff (l : list Z) x : NoDup l -> ~ In x l -> NoDup (l ++ [x]).
Proof.
  intros h hn. apply NoDup_rev in h. rewrite <- (rev_involutive (l ++ [x])). apply NoDup_rev. rewrite rev_app_distr. cbn.
  constructor; auto. rewrite <- in_rev. auto.
Qed.

Ltac ands := repeat match goal with |- _ /\ _ => split end.

Definition sp_init : pnspace * list (list range) := (sp_new, []).

Lemma sp_run_snoc ops op : forall st,
  sp_run (ops ++ [op]) st = let* '(os, st) := sp_run ops st in
                            let* '(o, st) := sp_step op st in Ok (os ++ [o], st).
Proof.
  induction ops as [|p ops IH]; intros st; cbn [app sp_run].
  - cbn. destruct (sp_step op st) as [[o st']|e|]; reflexivity.
  - destruct (sp_step p st) as [[o st1]|e|]; cbn [bind]; auto. rewrite IH.
    destruct (sp_run ops st1) as [[os st2]|e|]; cbn [bind]; auto.
    destruct (sp_step op st2) as [[o' st3]|e|]; cbn [bind]; auto.
Qed.

Definition ranges_ok (l : list range) : Prop := wf (-1) l /\ nonempty l /\ zlen l <= MAX_ACK_RANGES /\ l <> [].

Record sp_inv (ops : list sp_op) (outs : list sp_out) (s : pnspace) (sent : list (list range)) : Prop := {
  v_largest : sp_largest s = max_list (accepted_pns outs);
  v_nonneg : Forall (fun x => 0 <= x) (accepted_pns outs);
  v_jumps : small_jumps (accepted_pns outs);
  v_nodup : Forall (fun x => x < 2 ^ 62) (accepted_pns outs) -> NoDup (accepted_pns outs);
  v_win : Forall (fun x => x < 2 ^ 62) (accepted_pns outs) -> win_inv (accepted_pns outs) (sp_win s);
  v_rinv : rs_inv (sp_need s);
  v_cap : rs_cap (sp_need s) = MAX_ACK_RANGES;
  v_ne : nonempty (rs_ranges (sp_need s));
  v_sub : forall x, covers (rs_ranges (sp_need s)) x -> In x (accepted_pns outs);
  v_sent : sent = acks_sent outs;
  v_sent_ok : Forall ranges_ok sent;
  v_sent_sub : forall r x, In r sent -> covers r x -> In x (accepted_pns outs);
  v_max : forall x, In x (accepted_pns outs) -> (forall y, In y (accepted_pns outs) -> y <= x) ->
          (forall i r, In (SpAckAcked i) ops -> nth_error sent i = Some r -> ~ covers r x) ->
          covers (rs_ranges (sp_need s)) x;
}.

Lemma accepted_snoc outs o : accepted_pns (outs ++ [o]) = accepted_pns outs ++ match o with SpAccepted pn => [pn] | _ => [] end.
Proof. unfold accepted_pns. rewrite flat_map_app. cbn [flat_map]. rewrite app_nil_r. reflexivity. Qed.

Lemma acks_snoc outs o : acks_sent (outs ++ [o]) = acks_sent outs ++ match o with SpAck r => [r] | _ => [] end.
Proof. unfold acks_sent. rewrite flat_map_app. cbn [flat_map]. rewrite app_nil_r. reflexivity. Qed.

Lemma rev_last_in (l : list range) s e tl : rev l = (s, e) :: tl -> l = rev tl ++ [(s, e)].
Proof. intros h. rewrite <- (rev_involutive l), h. reflexivity. Qed.

Lemma covers_wf_max l x s e lo : wf lo (l ++ [(s, e)]) -> covers (l ++ [(s, e)]) x -> x < e.
Proof. intros hw (a & b & hi & hx). pose proof (wf_last _ _ _ hw a b hi). cbn in *. lia. Qed.

Lemma covers_tl_max l x lo : wf lo l -> 2 <= zlen l -> covers l x -> (forall y, covers l y -> y <= x) -> nonempty l -> covers (tl l) x.
Proof.
  intros hw hl hx hm hn. destruct l as [|[a b] [|[c d] l]]; cbn [tl].
  - change (zlen (@nil range)) with 0 in hl. lia.
  - rewrite zlen_cons in hl. change (zlen (@nil range)) with 0 in hl. lia.
  - destruct hw as (w1 & w2 & w3 & w4 & w5). apply covers_cons in hx as [hx|hx]; auto.
    assert (q : covers ((a, b) :: (c, d) :: l) c).
    { exists c, d. split; [right; left; auto|]. pose proof (hn c d (or_intror (or_introl eq_refl))). lia. }
    specialize (hm c q). lia.
Qed.

Lemma sp_inv_step ops outs s sent op : sp_inv ops outs s sent -> sp_legal op ->
  exists o s' sent', sp_step op (s, sent) = Ok (o, (s', sent')) /\ sp_inv (ops ++ [op]) (outs ++ [o]) s' sent'.
Proof.
  intros I hl. destruct I.
  assert (same : forall o, match o with SpAccepted _ | SpAck _ => False | _ => True end ->
    (forall i r, In (SpAckAcked i) (ops ++ [op]) -> nth_error sent i = Some r -> In (SpAckAcked i) ops) ->
    sp_inv (ops ++ [op]) (outs ++ [o]) s sent).
  { intros o ho hi. assert (ea : accepted_pns (outs ++ [o]) = accepted_pns outs) by (rewrite accepted_snoc; destruct o; try contradiction; apply app_nil_r).
    assert (es : acks_sent (outs ++ [o]) = acks_sent outs) by (rewrite acks_snoc; destruct o; try contradiction; apply app_nil_r).
    constructor; rewrite ?ea, ?es; auto. intros x hx hm hh. apply v_max0; auto. intros i r hi1 hi2. apply (hh i r); auto. apply in_or_app. auto. }
  assert (keep : forall op', op = op' -> (forall i, op' <> SpAckAcked i) -> forall i r, In (SpAckAcked i) (ops ++ [op]) -> nth_error sent i = Some r -> In (SpAckAcked i) ops).
  { intros op' -> hne i r hi _. apply in_app_or in hi as [hi|[hi|[]]]; auto. destruct (hne i hi). }
  destruct op as [trunc len el ok|req|i]; cbn [sp_step sp_legal] in *.
  - destruct hl as (hl & ht). pose proof (decode_bound (sp_largest s) trunc len hl ltac:(rewrite v_largest0; apply max_list_nonneg) ht) as hb.
    set (pn := decode_pkt_num (sp_largest s) trunc len) in *.
    destruct (pw_contains pn (sp_win s)) eqn:Ec.
    { eexists _, s, sent. split; [reflexivity|]. apply same; cbn; auto. eapply keep; [reflexivity|discriminate]. }
    destruct ok; cbn [negb].
    2:{ eexists _, s, sent. split; [reflexivity|]. apply same; cbn; auto. eapply keep; [reflexivity|discriminate]. }
    destruct (rs_insert_spec (sp_need s) pn (pn + 1) v_rinv0 ltac:(lia) ltac:(lia)) as (r' & e1 & e2 & e3 & e4).
    unfold rs_push_item. rewrite e1. eexists _, _, sent. split; [reflexivity|].
    assert (hn' : nonempty (rs_ranges r')).
    { rewrite e4. destruct (zlen (uins pn (pn + 1) (rs_ranges (sp_need s))) <=? rs_cap (sp_need s));
        apply uins_nonempty; auto; try lia. apply nonempty_tl. auto. }
    pose proof v_rinv0 as (w0 & w1 & w2 & w3).
    assert (hc : forall x, covers (rs_ranges r') x -> x = pn \/ covers (rs_ranges (sp_need s)) x).
    { intros x hx. rewrite e4 in hx. destruct (zlen (uins pn (pn + 1) (rs_ranges (sp_need s))) <=? rs_cap (sp_need s)).
      - apply (uins_covers (-1)) in hx; auto; [|lia]. destruct hx; auto. left. lia.
      - apply (uins_covers (-1)) in hx; [|apply wf_tl; auto|lia]. destruct hx as [|hx]; [left; lia|]. right. apply covers_tl. auto. }
    assert (hpn : covers (rs_ranges r') pn).
    { rewrite e4. destruct (zlen (uins pn (pn + 1) (rs_ranges (sp_need s))) <=? rs_cap (sp_need s));
        apply (uins_covers (-1)); auto; try lia. apply wf_tl. auto. }
    constructor; cbn [sp_largest sp_need sp_win sp_elicited]; rewrite ?accepted_snoc; auto.
    + rewrite max_list_snoc, v_largest0. lia.
    + apply Forall_app. split; auto. constructor; auto. lia.
    + intros a x b e. destruct b as [|y b] using rev_ind.
      * apply app_inj_tail in e as (<- & <-). rewrite <- v_largest0. lia.
      * rewrite app_comm_cons, app_assoc in e. apply app_inj_tail in e as (e & _). eapply v_jumps0; eauto.
    + intros hf. apply Forall_app in hf as (hf1 & hf2). inversion hf2 as [|? ? hx _]; subst.
      assert (hff : Forall (fun x => 0 <= x < 2 ^ 62) (accepted_pns outs)).
      { apply Forall_forall. intros y hy. split; [apply (proj1 (Forall_forall _ _) v_nonneg0 y hy)|apply (proj1 (Forall_forall _ _) hf1 y hy)]. }
      apply NoDup_app_comm_snoc_iff; [auto|]. intros hi.
      enough (pw_contains pn (sp_win s) = true) by congruence.
      apply (win_contains (accepted_pns outs)); auto. lia.
    + intros hf. apply Forall_app in hf as (hf1 & hf2). inversion hf2 as [|? ? hx _]; subst.
      apply win_insert; auto; try lia.
      apply Forall_forall. intros y hy. split; [apply (proj1 (Forall_forall _ _) v_nonneg0 y hy)|apply (proj1 (Forall_forall _ _) hf1 y hy)].
    + lia.
    + intros x hx. apply in_or_app. destruct (hc x hx) as [->|]; [right; left; auto|left; auto].
    + rewrite acks_snoc, app_nil_r. auto.
    + intros r x h1 h2. apply in_or_app. left. eauto.
    + intros x hx hm hh. apply in_app_or in hx as [hx|[<-|[]]]; auto.
      assert (hm' : forall y, In y (accepted_pns outs) -> y <= x) by (intros; apply hm, in_or_app; auto).
      assert (cx : covers (rs_ranges (sp_need s)) x).
      { apply v_max0; auto. intros j r h1 h2. apply (hh j r); auto. apply in_or_app. auto. }
      rewrite e4. destruct (zlen (uins pn (pn + 1) (rs_ranges (sp_need s))) <=? rs_cap (sp_need s)) eqn:El.
      * apply (uins_covers (-1)); auto. lia.
      * apply (uins_covers (-1)); [apply wf_tl; auto|lia|]. right.
        apply (covers_tl_max _ _ (-1)); auto.
        pose proof (uins_len pn (pn + 1) (rs_ranges (sp_need s))). unfold MAX_ACK_RANGES in *. lia.
  - destruct ((0 <? rs_len (sp_need s)) && (sp_elicited s || req)) eqn:E.
    2:{ eexists _, s, sent. split; [reflexivity|]. apply same; cbn; auto. eapply keep; [reflexivity|discriminate]. }
    eexists _, _, _. split; [reflexivity|]. pose proof v_rinv0 as (w0 & w1 & w2 & w3).
    assert (ea : accepted_pns (outs ++ [SpAck (rs_ranges (sp_need s))]) = accepted_pns outs) by (rewrite accepted_snoc; apply app_nil_r).
    constructor; cbn [sp_largest sp_need sp_win sp_elicited]; rewrite ?ea; auto.
    + rewrite acks_snoc, v_sent0. reflexivity.
    + apply Forall_app. split; auto. constructor; auto. split; auto. split; auto. split; [lia|].
      unfold rs_len in E. destruct (rs_ranges (sp_need s)); [discriminate|]. discriminate.
    + intros r x h1 h2. apply in_app_or in h1 as [h1|[<-|[]]]; eauto.
    + intros x hx hm hh. apply v_max0; auto. intros j r h1 h2. apply (hh j r); [apply in_or_app; auto|].
      rewrite nth_error_app1; auto. apply nth_error_Some. congruence.
  - destruct (nth_error sent i) as [ranges|] eqn:En.
    2:{ eexists _, s, sent. split; [reflexivity|]. apply same; cbn; auto. intros j r hj hr. apply in_app_or in hj as [hj|[hj|[]]]; auto. congruence. }
    pose proof (nth_error_In _ _ En) as hin. pose proof (proj1 (Forall_forall _ _) v_sent_ok0 _ hin) as (k1 & k2 & k3 & k4).
    destruct (rev ranges) as [|[a e] tl] eqn:Er.
    { apply (f_equal (@rev range)) in Er. rewrite rev_involutive in Er. cbn in Er. congruence. }
    apply rev_last_in in Er. rewrite Er in *.
    assert (hae : -1 < a /\ a < e).
    { assert (hi : In (a, e) (rev tl ++ [(a, e)])) by (apply in_or_app; right; left; auto).
      split; [apply (wf_in _ _ _ _ k1 hi)|apply (k2 _ _ hi)]. }
    replace (e =? 0) with false by lia.
    destruct (rs_remove_until_spec (sp_need s) (e - 1) v_rinv0) as (r' & e1 & e2 & e3 & e4 & e5). rewrite e1.
    eexists _, _, sent. split; [reflexivity|].
    assert (ea : accepted_pns (outs ++ [SpNothing]) = accepted_pns outs) by (rewrite accepted_snoc; apply app_nil_r).
    constructor; cbn [sp_largest sp_need sp_win sp_elicited]; rewrite ?ea; auto.
    + lia.
    + apply (rs_step_nonempty (RsRemoveUntil (e - 1)) (sp_need s)); auto. cbn. lia.
    + intros x hx. apply v_sub0. apply e5 in hx. tauto.
    + rewrite acks_snoc, app_nil_r. auto.
    + intros x hx hm hh. apply e5. split.
      * apply v_max0; auto. intros j r h1 h2. apply (hh j r); auto. apply in_or_app. auto.
      * assert (hs : ~ covers (rev tl ++ [(a, e)]) x).
        { apply (hh i); [apply in_or_app; right; left; auto|auto]. }
        assert (hs2 : covers (rev tl ++ [(a, e)]) (e - 1)).
        { exists a, e. split; [apply in_or_app; right; left; auto|lia]. }
        assert (he : e - 1 <= x) by (apply hm; eapply v_sent_sub0; eauto).
        destruct (Z.eq_dec x (e - 1)) as [->|]; [contradiction|lia].
Qed.

Lemma sp_inv_init : sp_inv [] [] sp_new [].
Proof.
  constructor; cbn; auto; try (intros; contradiction).
  - intros a x b e. destruct a; discriminate.
  - constructor.
  - intros _. apply win_new.
  - apply rs_new_inv. unfold MAX_ACK_RANGES. lia.
  - intros s e [].
  - intros x (s & e & [] & _).
Qed.

Lemma sp_run_ok ops : Forall sp_legal ops ->
  exists outs s sent, sp_run ops sp_init = Ok (outs, (s, sent)) /\ sp_inv ops outs s sent.
Proof.
  induction ops as [|op ops IH] using rev_ind; intros hl.
  - exists [], sp_new, []. split; [reflexivity|]. apply sp_inv_init.
  - apply Forall_app in hl as (h1 & h2). inversion h2 as [|? ? h3 _]; subst.
    destruct (IH h1) as (outs & s & sent & e & I). destruct (sp_inv_step _ _ _ _ op I h3) as (o & s' & sent' & e' & I').
    exists (outs ++ [o]), s', sent'. split; auto. rewrite sp_run_snoc, e. cbn [bind]. rewrite e'. reflexivity.
Qed.

Lemma sp_run_inv ops outs s sent : Forall sp_legal ops -> sp_run ops sp_init = Ok (outs, (s, sent)) -> sp_inv ops outs s sent.
Proof. intros hl e. destruct (sp_run_ok ops hl) as (o & s' & t & e' & I). rewrite e in e'. injection e' as -> -> ->. auto. Qed.

(** ** Which packets an ACK frame may leave out *)
Definition above (x : Z) (l : list Z) : Z := zlen (filter (fun y => x <? y) l).

Lemma above_app x a b : above x (a ++ b) = above x a + above x b.
Proof. unfold above. rewrite filter_app, zlen_app. reflexivity. Qed.

Lemma above_nonneg x l : 0 <= above x l.
Proof. unfold above. apply zlen_nonneg. Qed.

Lemma starts_sorted lo l : wf lo l -> NoDup (map fst l) /\ forall x, In x (map fst l) -> lo < x.
Proof.
  revert lo. induction l as [|[a b] l IH]; intros lo hw; cbn [map]; [split; [constructor|intros ? []]|].
  assert (hlo : lo < a /\ a <= b /\ wf b l).
  { destruct l as [|[c d] l]; cbn in hw |- *; intuition lia. }
  destruct hlo as (h1 & h2 & h3). destruct (IH b h3) as (n1 & n2). split.
  - constructor; auto. cbn [fst]. intros hi. specialize (n2 _ hi). lia.
  - cbn [fst]. intros x [<-|hx]; auto. specialize (n2 _ hx). lia.
Qed.

Lemma above_ranges x lo l acc : wf lo l -> nonempty l -> x <= lo -> (forall y, covers l y -> In y acc) -> zlen l <= above x acc.
Proof.
  intros hw hn hx hs. destruct (starts_sorted lo l hw) as (n1 & n2). unfold above, zlen.
  rewrite <- (map_length fst l). apply inj_le. apply NoDup_incl_length; auto.
  intros y hy. apply filter_In. split; [|specialize (n2 _ hy); lia].
  apply in_map_iff in hy as ([a b] & <- & hi). apply hs. exists a, b. split; auto. specialize (hn _ _ hi). cbn. lia.
Qed.

Definition missing_ok (ops : list sp_op) (outs : list sp_out) (s : pnspace) (sent : list (list range)) : Prop :=
  forall x, In x (accepted_pns outs) -> ~ covers (rs_ranges (sp_need s)) x ->
    (exists i r y, In (SpAckAcked i) ops /\ nth_error sent i = Some r /\ covers r y /\ x <= y) \/
    MAX_ACK_RANGES - 1 <= above x (accepted_pns outs).

Lemma covers_dec l x : covers l x \/ ~ covers l x.
Proof.
  induction l as [|[a b] l IH]; [right; apply covers_nil|]. rewrite covers_cons.
  destruct IH; [tauto|]. destruct (Z_le_dec a x); destruct (Z_lt_dec x b); intuition lia.
Qed.

Lemma missing_step ops outs s sent op o s' sent' : sp_inv ops outs s sent -> sp_legal op -> missing_ok ops outs s sent ->
  sp_step op (s, sent) = Ok (o, (s', sent')) -> missing_ok (ops ++ [op]) (outs ++ [o]) s' sent'.
Proof.
  intros I hl hm e.
  assert (lift : forall o sent', (exists t, sent' = sent ++ t) -> accepted_pns (outs ++ [o]) = accepted_pns outs -> missing_ok (ops ++ [op]) (outs ++ [o]) s sent').
  { intros o' se (t & ->) ea x hx hc. rewrite ea in *. destruct (hm x hx hc) as [(i & r & y & h1 & h2 & h3 & h4)|h]; auto.
    left. exists i, r, y. ands; auto; [apply in_or_app; auto|]. rewrite nth_error_app1; auto. apply nth_error_Some. congruence. }
  assert (nil : exists t, sent = sent ++ t) by (exists []; rewrite app_nil_r; auto).
  destruct op as [trunc len el ok|req|i]; cbn [sp_step sp_legal] in *.
  - destruct hl as (hl & ht). destruct I. pose proof (decode_bound (sp_largest s) trunc len hl ltac:(rewrite v_largest0; apply max_list_nonneg) ht) as hb.
    set (pn := decode_pkt_num (sp_largest s) trunc len) in *.
    destruct (pw_contains pn (sp_win s)).
    { injection e as <- <- <-. apply lift; auto. rewrite accepted_snoc. apply app_nil_r. }
    destruct ok; cbn [negb] in e.
    2:{ injection e as <- <- <-. apply lift; auto. rewrite accepted_snoc. apply app_nil_r. }
    destruct (rs_insert_spec (sp_need s) pn (pn + 1) v_rinv0 ltac:(lia) ltac:(lia)) as (r' & e1 & e2 & e3 & e4).
    unfold rs_push_item in e. rewrite e1 in e. injection e as <- <- <-. pose proof v_rinv0 as (w0 & w1 & w2 & w3).
    intros x hx hc. cbn [sp_need] in hc. rewrite accepted_snoc in *. rewrite above_app. pose proof (above_nonneg x [pn]) as hpos.
    rewrite e4 in hc. destruct (zlen (uins pn (pn + 1) (rs_ranges (sp_need s))) <=? rs_cap (sp_need s)) eqn:El.
    + assert (hc' : ~ covers (rs_ranges (sp_need s)) x /\ x <> pn).
      { split; intros h; apply hc; apply (uins_covers (-1)); auto; lia. }
      destruct hc' as (hc1 & hc2). apply in_app_or in hx as [hx|[hx|[]]]; [|congruence].
      destruct (hm x hx hc1) as [(i & r & y & h1 & h2 & h3 & h4)|h]; [|right; lia].
      left. exists i, r, y. ands; auto. apply in_or_app. auto.
    + assert (hc' : ~ covers (tl (rs_ranges (sp_need s))) x /\ x <> pn).
      { split; intros h; apply hc; apply (uins_covers (-1)); auto; try lia; apply wf_tl; auto. }
      destruct hc' as (hc1 & hc2). apply in_app_or in hx as [hx|[hx|[]]]; [|congruence].
      destruct (covers_dec (rs_ranges (sp_need s)) x) as [hd|hd].
      * right. pose proof (uins_len pn (pn + 1) (rs_ranges (sp_need s))) as hul.
        destruct (rs_ranges (sp_need s)) as [|[a b] l] eqn:Er; [destruct (covers_nil _ hd)|].
        cbn [tl] in hc1. apply covers_cons in hd as [hd|hd]; [|contradiction].
        assert (hw : wf b l). { destruct l as [|[c d] l]; cbn in w0 |- *; intuition lia. }
        assert (hz : zlen l <= above (b - 1) (accepted_pns outs)).
        { apply (above_ranges _ b); auto; try lia.
          - intros c d hi. apply v_ne0. right. auto.
          - intros y hy. apply v_sub0. apply covers_cons. auto. }
        assert (hmono : above (b - 1) (accepted_pns outs) <= above x (accepted_pns outs)).
        { unfold above. clear -hd. induction (accepted_pns outs) as [|y q IH]; cbn [filter]; [lia|].
          destruct (b - 1 <? y) eqn:E1; destruct (x <? y) eqn:E2; rewrite ?zlen_cons; lia. }
        rewrite zlen_cons in *. lia.
      * destruct (hm x hx hd) as [(i & r & y & h1 & h2 & h3 & h4)|h]; [|right; lia].
        left. exists i, r, y. ands; auto. apply in_or_app. auto.
  - destruct ((0 <? rs_len (sp_need s)) && (sp_elicited s || req)).
    2:{ injection e as <- <- <-. apply lift; auto. rewrite accepted_snoc. apply app_nil_r. }
    injection e as <- <- <-. intros x. cbn [sp_need]. apply lift; eauto. rewrite accepted_snoc. apply app_nil_r.
  - destruct I. destruct (nth_error sent i) as [ranges|] eqn:En.
    2:{ injection e as <- <- <-. apply lift; auto. rewrite accepted_snoc. apply app_nil_r. }
    pose proof (nth_error_In _ _ En) as hin. pose proof (proj1 (Forall_forall _ _) v_sent_ok0 _ hin) as (k1 & k2 & k3 & k4).
    destruct (rev ranges) as [|[a e0] tl] eqn:Er.
    { apply (f_equal (@rev range)) in Er. rewrite rev_involutive in Er. cbn in Er. congruence. }
    apply rev_last_in in Er.
    assert (hae : -1 < a /\ a < e0).
    { assert (hi : In (a, e0) ranges) by (rewrite Er; apply in_or_app; right; left; auto).
      split; [apply (wf_in _ _ _ _ k1 hi)|apply (k2 _ _ hi)]. }
    replace (e0 =? 0) with false in e by lia.
    destruct (rs_remove_until_spec (sp_need s) (e0 - 1) v_rinv0) as (r' & e1 & e2 & e3 & e4 & e5). rewrite e1 in e.
    injection e as <- <- <-. intros x hx hc. cbn [sp_need] in hc. rewrite accepted_snoc, app_nil_r in *.
    rewrite e5 in hc. destruct (covers_dec (rs_ranges (sp_need s)) x) as [hd|hd].
    + left. exists i, ranges, (e0 - 1). ands; auto; [apply in_or_app; right; left; auto| |].
      * exists a, e0. split; [rewrite Er; apply in_or_app; right; left; auto|lia].
      * destruct (Z_le_dec x (e0 - 1)); auto. exfalso. apply hc. split; auto. lia.
    + destruct (hm x hx hd) as [(j & r & y & h1 & h2 & h3 & h4)|h]; auto.
      left. exists j, r, y. ands; auto. apply in_or_app. auto.
Qed.

Lemma sp_run_missing ops : forall outs s sent, Forall sp_legal ops -> sp_run ops sp_init = Ok (outs, (s, sent)) -> missing_ok ops outs s sent.
Proof.
  induction ops as [|op ops IH] using rev_ind; intros outs s sent hl e.
  - injection e as <- <- <-. intros x [].
  - apply Forall_app in hl as (h1 & h2). inversion h2 as [|? ? h3 _]; subst.
    destruct (sp_run_ok ops h1) as (o1 & s1 & t1 & e1 & I). rewrite sp_run_snoc, e1 in e. cbn [bind] in e.
    destruct (sp_step op (s1, t1)) as [[o [s' sent']]|er|] eqn:Es; cbn [bind] in e; try discriminate.
    injection e as <- <- <-. eapply missing_step; eauto.
Qed.

(** ** Statements over whole histories *)
Theorem space_no_duplicates ops outs s sent : Forall sp_legal ops -> sp_run ops sp_init = Ok (outs, (s, sent)) ->
  Forall (fun x => x < 2 ^ 62) (accepted_pns outs) -> NoDup (accepted_pns outs).
Proof. intros hl e. apply v_nodup with (1 := sp_run_inv _ _ _ _ hl e). Qed.

Theorem space_duplicate_iff ops outs s sent trunc len el ok : Forall sp_legal ops -> sp_run ops sp_init = Ok (outs, (s, sent)) ->
  Forall (fun x => x < 2 ^ 62) (accepted_pns outs) -> sp_legal (SpRecv trunc len el ok) ->
  let pn := decode_pkt_num (max_list (accepted_pns outs)) trunc len in
  exists o st', sp_run (ops ++ [SpRecv trunc len el ok]) sp_init = Ok (outs ++ [o], st') /\
    ((In pn (accepted_pns outs) \/ pn < max_list (accepted_pns outs) - 127) -> o = SpDuplicate pn) /\
    (~ (In pn (accepted_pns outs) \/ pn < max_list (accepted_pns outs) - 127) -> o = if ok then SpAccepted pn else SpFailed pn).
Proof.
  intros hl e hf h1 pn. pose proof (sp_run_inv _ _ _ _ hl e) as I.
  destruct (sp_inv_step _ _ _ _ _ I h1) as (o & s' & sent' & e' & I'). exists o, (s', sent').
  rewrite sp_run_snoc, e. cbn [bind]. rewrite e'. split; [reflexivity|].
  destruct I. cbn [sp_step] in e'. rewrite v_largest0 in e'. fold pn in e'. cbn [sp_legal] in h1. destruct h1 as (h1 & h2).
  pose proof (decode_bound (max_list (accepted_pns outs)) trunc len h1 (max_list_nonneg _) h2) as hb. fold pn in hb.
  assert (hff : Forall (fun x => 0 <= x < 2 ^ 62) (accepted_pns outs)).
  { apply Forall_forall. intros y hy. split; [apply (proj1 (Forall_forall _ _) v_nonneg0 y hy)|apply (proj1 (Forall_forall _ _) hf y hy)]. }
  pose proof (win_contains _ _ pn (v_win0 hf) hff ltac:(lia)) as hw.
  destruct (pw_contains pn (sp_win s)).
  - injection e' as <- _ _. split; auto. intros hn. destruct hn. apply hw. auto.
  - split; [intros h; apply hw in h; discriminate|]. intros _. destruct ok; cbn [negb] in e'.
    + destruct (rs_push_item pn (sp_need s)); try discriminate. injection e' as <- _ _. auto.
    + injection e' as <- _ _. auto.
Qed.

Theorem space_never_panics ops : Forall sp_legal ops -> exists r, sp_run ops sp_init = Ok r.
Proof. intros hl. destruct (sp_run_ok ops hl) as (o & s & t & e & _). eauto. Qed.

(** The ACK frame built after any history. *)
Theorem space_ack ops req outs st r : Forall sp_legal ops ->
  sp_run (ops ++ [SpSendAck req]) sp_init = Ok (outs ++ [SpAck r], st) ->
  r <> [] /\ zlen r <= 68 /\ separated r /\ (forall s e, In (s, e) r -> 0 <= s < e) /\
  (forall x, in_ranges r x -> In x (accepted_pns outs)) /\
  (forall x, In x (accepted_pns outs) -> ~ in_ranges r x ->
     (exists i r' y, In (SpAckAcked i) ops /\ nth_error (acks_sent outs) i = Some r' /\ in_ranges r' y /\ x <= y) \/
     67 <= zlen (filter (fun y => x <? y) (accepted_pns outs))).
Proof.
  intros hl e. destruct (sp_run_ok ops hl) as (o1 & s & sent & e1 & I). rewrite sp_run_snoc, e1 in e. cbn [bind sp_step] in e.
  pose proof (sp_run_missing _ _ _ _ hl e1) as hm. destruct I. pose proof v_rinv0 as (w0 & w1 & w2 & w3).
  destruct ((0 <? rs_len (sp_need s)) && (sp_elicited s || req)) eqn:E; cbn [bind] in e; injection e as e _;
    apply app_inj_tail in e as (-> & e); [|discriminate]. injection e as <-.
  ands.
  - unfold rs_len in E. destruct (rs_ranges (sp_need s)); discriminate.
  - unfold MAX_ACK_RANGES in *. lia.
  - eapply wf_separated; eauto.
  - intros a b hi. pose proof (wf_in _ _ _ _ w0 hi). pose proof (v_ne0 _ _ hi). lia.
  - intros x hx. apply v_sub0, covers_in_ranges. auto.
  - intros x hx hn. destruct (hm x hx) as [(i & r' & y & h1 & h2 & h3 & h4)|h].
    + intros h. apply hn, covers_in_ranges. auto.
    + left. exists i, r', y. rewrite <- v_sent0. ands; auto.
    + right. exact h.
Qed.

(** A packet just accepted is in the ACK frame that follows. *)
Theorem space_ack_next ops trunc len el ok req outs pn st : Forall sp_legal ops -> sp_legal (SpRecv trunc len el ok) ->
  sp_run (ops ++ [SpRecv trunc len el ok]) sp_init = Ok (outs ++ [SpAccepted pn], st) -> el || req = true ->
  exists r st', sp_run ((ops ++ [SpRecv trunc len el ok]) ++ [SpSendAck req]) sp_init = Ok ((outs ++ [SpAccepted pn]) ++ [SpAck r], st') /\
    in_ranges r pn.
Proof.
  intros hl h1 e her. destruct (sp_run_ok ops hl) as (o1 & s & sent & e1 & I).
  rewrite sp_run_snoc, e. cbn [bind]. rewrite sp_run_snoc, e1 in e. cbn [bind sp_step] in e. destruct I. pose proof v_rinv0 as (w0 & w1 & w2 & w3).
  cbn [sp_legal] in h1. destruct h1 as (h1 & h2).
  pose proof (decode_bound (sp_largest s) trunc len h1 ltac:(rewrite v_largest0; apply max_list_nonneg) h2) as hb.
  set (p := decode_pkt_num (sp_largest s) trunc len) in *.
  destruct (pw_contains p (sp_win s)); cbn [bind] in e; [injection e as e _; apply app_inj_tail in e as (_ & e); discriminate|].
  destruct ok; cbn [negb bind] in e; [|injection e as e _; apply app_inj_tail in e as (_ & e); discriminate].
  destruct (rs_insert_spec (sp_need s) p (p + 1) v_rinv0 ltac:(lia) ltac:(lia)) as (r' & k1 & k2 & k3 & k4).
  unfold rs_push_item in e. rewrite k1 in e. cbn [bind] in e. injection e as e <-. apply app_inj_tail in e as (-> & e). injection e as <-.
  assert (hp : covers (rs_ranges r') p).
  { rewrite k4. destruct (zlen (uins p (p + 1) (rs_ranges (sp_need s))) <=? rs_cap (sp_need s));
      apply (uins_covers (-1)); auto; try lia. apply wf_tl. auto. }
  cbn [sp_step sp_need sp_elicited]. replace (sp_elicited s || el || req) with true by (rewrite <- orb_assoc, her, orb_true_r; reflexivity).
  replace (0 <? rs_len r') with true.
  2:{ symmetry. apply Z.ltb_lt. unfold rs_len. destruct (rs_ranges r'); [destruct (covers_nil _ hp)|]. rewrite zlen_cons. pose proof (zlen_nonneg l). lia. }
  cbn [andb bind]. eexists _, _. split; [reflexivity|]. apply covers_in_ranges. auto.
Qed.

(** When an ACK frame is built. *)
Lemma run_elicited ops : forall s sent outs s' sent', sp_run ops (s, sent) = Ok (outs, (s', sent')) ->
  sp_elicited s' = ack_due ops outs (sp_elicited s).
Proof.
  induction ops as [|op ops IH]; intros s sent outs s' sent' e; cbn [sp_run] in e.
  { injection e as <- <- _. reflexivity. }
  destruct (sp_step op (s, sent)) as [[o [s1 t1]]|?|] eqn:E; cbn [bind] in e; try discriminate.
  destruct (sp_run ops (s1, t1)) as [[os [s2 t2]]|?|] eqn:E2; cbn [bind] in e; try discriminate.
  injection e as <- <- <-. apply IH in E2. rewrite E2. clear IH E2.
  destruct op as [trunc len el ok|req|i]; cbn [sp_step] in E.
  - destruct (pw_contains _ _); [injection E as <- <- <-; reflexivity|].
    destruct ok; cbn [negb] in E; [|injection E as <- <- <-; reflexivity].
    destruct (rs_push_item _ _); try discriminate. injection E as <- <- <-. reflexivity.
  - destruct ((0 <? rs_len (sp_need s)) && (sp_elicited s || req)); injection E as <- <- <-; reflexivity.
  - destruct (nth_error sent i) as [l|]; [|injection E as <- <- <-; reflexivity].
    destruct (rev l) as [|[a e] tl]; [injection E as <- <- <-; reflexivity|].
    destruct (e =? 0); try discriminate. destruct (rs_remove_until (e - 1) (sp_need s)); try discriminate.
    injection E as <- <- <-. reflexivity.
Qed.

Theorem space_ack_built_iff ops outs st req : Forall sp_legal ops -> sp_run ops sp_init = Ok (outs, st) ->
  (forall i, ~ In (SpAckAcked i) ops) -> accepted_pns outs <> [] ->
  exists o st', sp_run (ops ++ [SpSendAck req]) sp_init = Ok (outs ++ [o], st') /\
    if ack_due ops outs false || req then exists r, o = SpAck r else o = SpNothing.
Proof.
  destruct st as [s sent]. intros hl e hn ha. pose proof (sp_run_inv _ _ _ _ hl e) as I. destruct I.
  pose proof (run_elicited _ _ _ _ _ _ e) as he. cbn [sp_elicited sp_new] in he.
  rewrite sp_run_snoc, e. cbn [bind sp_step]. rewrite he.
  assert (hc : covers (rs_ranges (sp_need s)) (max_list (accepted_pns outs))).
  { apply v_max0; [apply max_list_in; auto|apply max_list_ge|]. intros i r hi. destruct (hn i hi). }
  replace (0 <? rs_len (sp_need s)) with true.
  2:{ symmetry. apply Z.ltb_lt. unfold rs_len. destruct (rs_ranges (sp_need s)); [destruct (covers_nil _ hc)|].
      rewrite zlen_cons. pose proof (zlen_nonneg l). lia. }
  cbn [andb]. destruct (ack_due ops outs false || req); cbn [bind]; eexists _, _; split; eauto.
Qed.
