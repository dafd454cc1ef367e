(** Proofs for C48 and C49. *)
Require Import Verif.Base Verif.RttModel Verif.RttSpec.

Ltac ds := repeat match goal with |- context [if ?b then _ else _] => destruct b eqn:? end.

(** [s] is a sample of [h] and none received after it is smaller *)
Definition holds (s : sample) (h : list sample) : Prop :=
  exists pre post, h = pre ++ s :: post /\ Forall (fun x => sm_value s <= sm_value x) post.

Lemma holds_ext s h x : holds s h -> sm_value s <= sm_value x -> holds s (h ++ [x]).
Proof.
  intros (a & b & -> & hb) hx. exists a, (b ++ [x]). split.
  - rewrite <- app_assoc. reflexivity.
  - apply Forall_app. auto.
Qed.

Lemma holds_last x h : holds x (h ++ [x]).
Proof. exists h, []. auto. Qed.

Record mmI (win : Z) (h : list sample) (now v : Z) (m : minmax) : Prop := {
  i_a : holds (mm_a m) h; i_b : holds (mm_b m) h; i_c : holds (mm_c m) h;
  i_ab : sm_value (mm_a m) <= sm_value (mm_b m);
  i_bc : sm_value (mm_b m) <= sm_value (mm_c m);
  i_cv : sm_value (mm_c m) <= v;
  i_tab : sm_time (mm_a m) <= sm_time (mm_b m);
  i_tbc : sm_time (mm_b m) <= sm_time (mm_c m);
  i_tc : sm_time (mm_c m) <= now;
  i_win : now - sm_time (mm_a m) <= win }.

Lemma mmI_step win q hf h now v m x : 0 <= win -> mmI win h now v m -> now <= sm_time x ->
  mmI win (h ++ [x]) (sm_time x) (sm_value x) (mm_min win q hf x m).
Proof.
  intros hw [] hn. pose proof (holds_last x h). destruct m as [a b c]. cbn in *.
  assert (E : mkSample (sm_time x) (sm_value x) = x) by (destruct x; reflexivity).
  unfold mm_min, mm_reset, mm_new, mm_subwin, since in *. cbn in *.
  ds; rewrite ?E; constructor; cbn in *; auto; try apply holds_ext; auto; try lia.
Qed.

Lemma mm_run_app win q hf a b m : mm_run win q hf (a ++ b) m = mm_run win q hf b (mm_run win q hf a m).
Proof. revert m. induction a; intros m; cbn; auto. Qed.

Lemma last_cons {A} (z : A) l w : last (z :: l) w = last l z.
Proof. revert z w. induction l as [|s l IH]; intros z w; auto. change (last (z :: s :: l) w) with (last (s :: l) w). rewrite IH. symmetry. apply IH. Qed.

Lemma sorted_front x l y : Sorted before (x :: l ++ [y]) ->
  Sorted before (x :: l) /\ sm_time (last l x) <= sm_time y.
Proof.
  revert x. induction l as [|z l IH]; intros x hs.
  - cbn in *. apply Sorted_inv in hs as (h1 & h2). inversion h2; subst. repeat constructor. auto.
  - cbn [app] in hs. apply Sorted_inv in hs as (h1 & h2). apply IH in h1 as (h1 & h3).
    rewrite last_cons. split; auto. constructor; auto. inversion h2; subst. constructor; auto.
Qed.

Lemma mmI_run win q hf x l : 0 <= win -> Sorted before (x :: l) ->
  let y := last l x in
  mmI win (x :: l) (sm_time y) (sm_value y) (mm_after win q hf x l).
Proof.
  intros hw hs. unfold mm_after. revert hs. induction l as [|y l IH] using rev_ind; intros hs.
  - assert (E : mkSample (sm_time x) (sm_value x) = x) by (destruct x; reflexivity).
    unfold mm_new. cbn. rewrite E. pose proof (holds_last x []). constructor; cbn; auto; lia.
  - rewrite mm_run_app. cbv zeta. rewrite last_last. cbn [mm_run].
    apply (mmI_step win q hf (x :: l) (sm_time (last l x)) (sm_value (last l x))); auto.
    + apply IH. apply (sorted_front x l y hs).
    + apply (sorted_front x l y hs).
Qed.

Lemma c48 win q hf x l : 0 <= win -> Sorted before (x :: l) ->
  recent_minimum win (mm_get (mm_after win q hf x l)) x l.
Proof.
  intros hw hs. destruct (mmI_run win q hf x l hw hs). destruct i_a0 as (pre & post & e & hf').
  exists pre, (mm_a (mm_after win q hf x l)), post. repeat split; auto. constructor; auto; lia.
Qed.

(** Within one window of the first sample nothing is forgotten. *)
Lemma c48_all win q hf x l : 0 <= win -> Sorted before (x :: l) ->
  sm_time (last l x) - sm_time x <= win ->
  Forall (fun z => mm_get (mm_after win q hf x l) <= sm_value z) (x :: l) /\
  Exists (fun z => mm_get (mm_after win q hf x l) = sm_value z) (x :: l).
Proof.
  intros hw hs ht. split.
  - revert hs ht. induction l as [|y l IH] using rev_ind; intros hs ht.
    + repeat constructor. cbn. lia.
    + rewrite last_last in ht.
      destruct (sorted_front x l y hs) as (hs' & hl).
      pose proof (mmI_run win q hf x l hw hs') as I. cbv zeta in I.
      assert (hx : Forall (fun z => sm_time x <= sm_time z) (x :: l)).
      { constructor; [lia|]. clear - hs'. apply Sorted_extends in hs'.
        - eapply Forall_impl; [|exact hs']. auto.
        - intros a b c. unfold before. lia. }
      assert (ha : sm_time x <= sm_time (mm_a (mm_after win q hf x l))).
      { destruct I as [(pre & post & e & _) _ _]. rewrite e in hx. apply Forall_app in hx as (_ & hx).
        inversion hx; auto. }
      specialize (IH hs' ltac:(lia)). unfold mm_after in *. rewrite mm_run_app. cbn [mm_run].
      set (m := mm_run win q hf l (mm_new (sm_time x) (sm_value x))) in *.
      assert (hm : mm_get (mm_min win q hf y m) <= sm_value y /\ mm_get (mm_min win q hf y m) <= mm_get m).
      { destruct I. unfold mm_min, mm_reset, mm_new, mm_subwin, since, mm_get in *. cbn in *.
        destruct m as [a b c]. cbn in *. ds; cbn in *; lia. }
      change (x :: l ++ [y]) with ((x :: l) ++ [y]). apply Forall_app. split; [|repeat constructor; lia].
      eapply Forall_impl; [|exact IH]. cbn. lia.
  - destruct (c48 win q hf x l hw hs) as (pre & s & post & e & h1 & _). rewrite e, h1. apply Exists_exists.
    exists s. split; auto. apply in_app_iff. cbn. auto.
Qed.

(** *** RTT *)
Lemma rtt_run_app a b r : rtt_run (a ++ b) r = rtt_run b (rtt_run a r).
Proof. revert r. induction a; intros r; cbn; auto. Qed.

Lemma rtt_minmax x l r : r_has r = false ->
  let r' := rtt_run (x :: l) r in
  r_has r' = true /\
  r_min r' = mm_after RTT_WINDOW (RTT_WINDOW / 4) (RTT_WINDOW / 2) (as_sample x) (map as_sample l).
Proof.
  intros hr. cbv zeta. cbn [rtt_run]. induction l as [|y l IH] using rev_ind.
  - unfold rtt_update. rewrite hr. cbn. auto.
  - rewrite rtt_run_app, map_app. unfold mm_after in *. rewrite mm_run_app. cbn [rtt_run map mm_run].
    destruct IH as (h1 & h2). unfold rtt_update at 1 3. rewrite h1. cbn [negb r_has r_min]. rewrite h2. auto.
Qed.

Record rttI (lo hi : Z) (r : rtt) : Prop := {
  ri_s : lo - 14 <= r_srtt r <= hi /\ 0 <= r_srtt r;
  ri_v : 0 <= r_var r <= hi;
  ri_m : r_max r <= hi;
  ri_l : lo <= r_latest r <= hi }.

Lemma rtt_adjust_range x d mn : mn <= in_rtt x -> 0 <= in_delay x -> 0 <= d ->
  mn <= rtt_adjust x d mn <= in_rtt x.
Proof. intros. unfold rtt_adjust. cbv zeta. ds; lia. Qed.

Lemma rttI_run lo hi x l r : r_has r = false -> 0 <= lo -> 0 <= r_max_ack_delay r ->
  Sorted before (map as_sample (x :: l)) ->
  Forall (fun y => lo <= in_rtt y <= hi /\ 0 <= in_delay y) (x :: l) ->
  rttI lo hi (rtt_run (x :: l) r) /\ r_max_ack_delay (rtt_run (x :: l) r) = r_max_ack_delay r.
Proof.
  intros hr h0 hd. induction l as [|y l IH] using rev_ind; intros hs hf.
  - inversion hf; subst. cbn [rtt_run]. unfold rtt_update. rewrite hr. cbn. split; auto.
    constructor; cbn; lia.
  - change (x :: l ++ [y]) with ((x :: l) ++ [y]) in *. rewrite rtt_run_app.
    pose proof hs as hs2.
    rewrite map_app in hs. apply Forall_app in hf as (hf1 & hf2). inversion hf2 as [|? ? (hy1 & hy2) _]; subst.
    assert (hs' : Sorted before (map as_sample (x :: l))).
    { cbn [map app] in *. apply (sorted_front _ _ _ hs). }
    destruct (IH hs' hf1) as ([(h1 & h4) h2 h3 _] & hd'). split.
    2:{ cbn [rtt_run]. unfold rtt_update at 1. rewrite <- hd'. ds; reflexivity. }
    destruct (rtt_minmax x (l ++ [y]) r hr) as (_ & hm). cbn [rtt_run] in *.
    destruct (rtt_minmax x l r hr) as (hh & _). cbn [rtt_run] in *.
    rewrite rtt_run_app in hm. cbn [rtt_run] in hm.
    set (r1 := rtt_run l (rtt_update x r)) in *.
    assert (hmn : lo <= mm_get (mm_min RTT_WINDOW (RTT_WINDOW / 4) (RTT_WINDOW / 2) (as_sample y) (r_min r1)) <= in_rtt y).
    { assert (e : r_min (rtt_update y r1) = mm_min RTT_WINDOW (RTT_WINDOW / 4) (RTT_WINDOW / 2) (as_sample y) (r_min r1))
        by (unfold rtt_update; rewrite hh; reflexivity).
      rewrite <- e, hm.
      assert (hw : 0 <= RTT_WINDOW) by (unfold RTT_WINDOW; lia).
      assert (hs3 : Sorted before (as_sample x :: map as_sample (l ++ [y]))) by exact hs2.
      destruct (c48 RTT_WINDOW (RTT_WINDOW / 4) (RTT_WINDOW / 2) _ _ hw hs3) as (pre & s & post & e1 & e2 & _ & e3).
      rewrite e2. 
      assert (hin : In s (map as_sample ((x :: l) ++ [y]))) by (cbn [app map]; rewrite e1; apply in_app_iff; cbn; auto).
      apply in_map_iff in hin as (z & <- & hz).
      assert (hz' : lo <= in_rtt z <= hi /\ 0 <= in_delay z).
      { apply (proj1 (Forall_forall (fun z => lo <= in_rtt z <= hi /\ 0 <= in_delay z) ((x :: l) ++ [y]))); auto.
        apply Forall_app. auto. }
      split; [cbn; lia|].
      assert (hin : In (as_sample y) (as_sample z :: post)).
      { rewrite map_app in e1. clear - e1. cbn [map] in e1. rewrite app_comm_cons in e1.
        destruct (@exists_last _ (as_sample z :: post)) as (p & w & e); [discriminate|].
        rewrite e in e1. rewrite app_assoc in e1. apply app_inj_tail in e1 as (_ & e1). rewrite e.
        apply in_app_iff. rewrite e1. cbn; auto. }
      rewrite Forall_forall in e3. apply e3 in hin. exact hin. }
    pose proof (rtt_adjust_range y (r_max_ack_delay r1) _ (proj2 hmn) hy2 ltac:(cbn [rtt_run] in hd'; rewrite hd'; exact hd)) as ha.
    unfold rtt_update. rewrite hh. cbn [negb]. cbv zeta. cbn [rtt_run].
    change (mkSample (in_now y) (in_rtt y)) with (as_sample y) in *.
    set (mn := mm_get _) in *. set (adj := rtt_adjust _ _ _) in *.
    set (d := Z.abs (r_srtt r1 - adj)) in *.
    assert (0 <= d mod 2 ^ 64 <= hi).
    { pose proof (Z.mod_pos_bound d (2 ^ 64) ltac:(lia)). pose proof (Z.mod_le d (2 ^ 64) ltac:(lia) ltac:(lia)). lia. }
    set (d' := d mod 2 ^ 64) in *. clearbody d' adj.
    constructor; cbn [r_srtt r_var r_max r_latest]; lia.
Qed.

Lemma rtt_max_is x l r : r_has r = false ->
  Forall (fun y => in_rtt y <= r_max (rtt_run (x :: l) r)) (x :: l) /\
  Exists (fun y => in_rtt y = r_max (rtt_run (x :: l) r)) (x :: l).
Proof.
  intros hr. induction l as [|y l (IH1 & IH2)] using rev_ind.
  - cbn [rtt_run]. unfold rtt_update. rewrite hr. cbn. split; [constructor; auto; lia|constructor; auto].
  - change (x :: l ++ [y]) with ((x :: l) ++ [y]). rewrite rtt_run_app.
    destruct (rtt_minmax x l r hr) as (hh & _). cbv zeta in hh.
    set (r1 := rtt_run (x :: l) r) in *. cbn [rtt_run].
    assert (E : r_max (rtt_update y r1) = Z.max (r_max r1) (in_rtt y)) by (unfold rtt_update; rewrite hh; reflexivity).
    rewrite E. split.
    + apply Forall_app. split; [|repeat constructor; lia]. eapply Forall_impl; [|exact IH1]. cbn. lia.
    + apply Exists_app. destruct (Z_le_gt_dec (in_rtt y) (r_max r1)).
      * left. eapply Exists_impl; [|exact IH2]. intros a ha. cbv beta in ha. clear IH1 IH2 E hh. lia.
      * right. constructor. lia.
Qed.

Lemma c48_min win q hf x l : 0 <= win -> Sorted before (x :: l) ->
  sm_time (last l x) - sm_time x <= win ->
  smallest (mm_get (mm_after win q hf x l)) (map sm_value (x :: l)).
Proof.
  intros hw hs ht. destruct (c48_all win q hf x l hw hs ht) as (h1 & h2). split.
  - apply Exists_exists in h2 as (z & hz & ->). apply in_map. auto.
  - apply Forall_map. auto.
Qed.

Lemma map_as l : map sm_value (map as_sample l) = map in_rtt l.
Proof. rewrite map_map. reflexivity. Qed.

Lemma c49_min t initial mad x l :
  Sorted before (map as_sample (x :: l)) ->
  let r := rtt_run (x :: l) (rtt_new t initial mad) in
  exists v, rtt_min r = Some v /\ recent_minimum RTT_WINDOW v (as_sample x) (map as_sample l) /\
    (in_now (last l x) - in_now x <= RTT_WINDOW -> smallest v (map in_rtt (x :: l))).
Proof.
  intros hs r. destruct (rtt_minmax x l (rtt_new t initial mad) eq_refl) as (h1 & h2). fold r in h1, h2.
  exists (mm_get (r_min r)). unfold rtt_min. rewrite h1. split; auto. rewrite h2.
  assert (hw : 0 <= RTT_WINDOW) by (unfold RTT_WINDOW; lia).
  split; [apply c48; auto|]. intros ht. rewrite <- map_as. apply c48_min; auto.
  replace (last (map as_sample l) (as_sample x)) with (as_sample (last l x)); auto.
  clear. revert x. induction l as [|y l IH]; intros x; auto. cbn [map]. rewrite !last_cons. apply IH.
Qed.

Lemma c49_max t initial mad x l :
  exists v, rtt_max (rtt_run (x :: l) (rtt_new t initial mad)) = Some v /\ largest v (map in_rtt (x :: l)).
Proof.
  destruct (rtt_minmax x l (rtt_new t initial mad) eq_refl) as (h1 & _). cbv zeta in h1.
  destruct (rtt_max_is x l (rtt_new t initial mad) eq_refl) as (h2 & h3).
  unfold rtt_max. rewrite h1. eexists. split; [reflexivity|]. split; [|apply Forall_map; auto].
  apply Exists_exists in h3 as (y & hy & <-). apply in_map. auto.
Qed.

Lemma c49_srtt t initial mad lo hi x l :
  Sorted before (map as_sample (x :: l)) -> 0 <= lo -> 0 <= mad ->
  Forall (fun y => lo <= in_rtt y <= hi /\ 0 <= in_delay y) (x :: l) ->
  let r := rtt_run (x :: l) (rtt_new t initial mad) in
  lo - 14 <= r_srtt r <= hi /\ 0 <= r_srtt r /\ 0 <= r_var r <= hi.
Proof.
  intros hs h0 hm hf. destruct (rttI_run lo hi x l (rtt_new t initial mad) eq_refl h0 hm hs hf) as ([] & _). cbv zeta. tauto.
Qed.
