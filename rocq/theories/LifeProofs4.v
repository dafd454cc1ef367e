(** Path responses; closing and draining *)
Require Import Verif.Base Verif.Errors Verif.LifeModel Verif.LifeMicro Verif.LifeMicro2 Verif.LifeMicro3 Verif.LifeMicro4 Verif.LifeSpec Verif.LifeProofs1 Verif.LifeProofs2 Verif.LifeProofs3.

(** * Path responses *)
Lemma count_app d l1 l2 : count d (l1 ++ l2) = count d l1 + count d l2. Proof. apply sum_app. Qed.
Lemma count_nonneg d l : 0 <= count d l.
Proof. apply sum_nonneg. intros x _. destruct (x =? d); lia. Qed.
Definition wq (b : addr -> bool) (d : Z) (p : path) : Z := if b (p_addr p) then count d (p_queue p) else 0.
Lemma wq_plain b d : plain (wq b d). Proof. unfold plain. auto 12. Qed.
Lemma wq_nonneg b d p : 0 <= wq b d p. Proof. unfold wq. destruct (b _); [apply count_nonneg|lia]. Qed.
Definition psi (b : addr -> bool) (d : Z) (c : conn) : Z := sum_of (wq b d) (x_paths c) + sum_of (fun x : packet * addr => asks d (fst x)) (x_held c).
Definition answered (b : addr -> bool) (d : Z) (g : tag) : Z := sum_of (fun x : addr * Z => if b (fst x) && (snd x =? d) then 1 else 0) (answers g).
Definition queued_at (b : addr -> bool) (d : Z) (g : tag) : Z := match g with GPath _ (PQueue a _ x) => if b a && (x =? d) then 1 else 0 | _ => 0 end.

Lemma wq_budget b d v p : wq b d (set_budget v p) = wq b d p. Proof. reflexivity. Qed.
Lemma psi_credit b d a n c : sum_of (wq b d) (x_paths (credit a n c)) = sum_of (wq b d) (x_paths c).
Proof.
  unfold credit. destruct (by_addr a (x_paths c)) as [i|]; [|reflexivity]. apply (w_up (wq b d)). intros p. destruct (_ && _); reflexivity.
Qed.
Lemma psi_tag b d g c : tguard g c -> psi b d (tapply g c) + answered b d g + replayed d g <= psi b d c + queued_at b d g + held_asks d g.
Proof.
  intros hg. assert (hpl := wq_plain b d).
  assert (same : x_held (tapply g c) = x_held c -> sum_of (wq b d) (x_paths (tapply g c)) = sum_of (wq b d) (x_paths c) -> answered b d g = 0 -> replayed d g = 0 -> queued_at b d g = 0 -> held_asks d g = 0 ->
     psi b d (tapply g c) + answered b d g + replayed d g <= psi b d c + queued_at b d g + held_asks d g).
  { intros h1 h2 h3 h4 h5 h6. unfold psi. rewrite h1, h2, h3, h4, h5, h6. lia. }
  destruct g; try (apply same; reflexivity).
  - destruct hg as (p & hpn & hpg).
    assert (e : psi b d (tapply (GPath i m) c) = psi b d c - wq b d p + wq b d (pap m p)).
    { unfold psi. cbn [tapply up w_paths x_paths x_held]. rewrite (sum_upd _ _ _ _ _ hpn). lia. }
    rewrite e. cbn [replayed held_asks].
    destruct m; cbn [pap answered queued_at]; unfold answered; cbn [answers sum_of]; try (change (wq b d (set_ok true p)) with (wq b d p); lia).
    + destruct hpg as (<- & _). unfold challenge_received. pose proof (wq_nonneg b d p). destruct (_ =? max); [destruct (_ && _); lia|].
      unfold wq. cbn [set_queue p_addr p_queue]. rewrite count_app. destruct (b (p_addr p)); cbn [andb]; [|lia]. unfold count at 3. cbn [sum_of]. destruct (d0 =? d); lia.
    + destruct hpg as (<- & mid & hq). unfold wq. cbn [set_queue p_addr p_queue]. rewrite hq, !count_app.
      rewrite sum_map. cbn [fst snd]. destruct (b (p_addr p)); cbn [andb].
      * pose proof (count_nonneg d mid). fold (count d rs). lia.
      * assert (e2 : sum_of (fun _ : Z => 0) rs = 0) by (clear; induction rs as [|r rs ih]; cbn; lia). rewrite e2. lia.
    + rewrite (w_add _ hpl). lia.
    + change (wq b d (set_budget _ p)) with (wq b d p). lia.
    + change (wq b d (set_rec t o r (p_ptos p) p)) with (wq b d p). lia.
    + change (wq b d (set_dcid d0 p)) with (wq b d p). lia.
    + change (wq b d (set_want true p)) with (wq b d p). lia.
  - apply same; try reflexivity; cbn [tapply]; [apply held_credit|apply psi_credit].
  - unfold psi. assert (e : x_held (tapply (GNew p n tell) c) = x_held c) by (apply tapply_keeps; exact I). rewrite e. cbn [tapply answered queued_at replayed held_asks]. unfold answered. cbn [answers sum_of].
    pose proof (insert_sum (wq b d) p tell c (wq_nonneg b d)). destruct hg as (_ & (a & dd & w & m & ->) & _). unfold wq in H at 3. cbn [p_addr p_queue count sum_of] in H. destruct (b a); lia.
  - unfold psi. cbn [tapply w_held x_held x_paths replayed held_asks queued_at]. unfold answered. cbn [answers sum_of]. rewrite sum_app. cbn [sum_of fst]. lia.
  - destruct hg as (_ & q & hq). unfold psi. cbn [replayed held_asks queued_at]. unfold answered. cbn [answers sum_of]. cbn [tapply]. rewrite hq. cbn [tl sum_of fst].
    destruct (_ && _); [cbn [w_held x_held x_paths]; lia|]. rewrite held_credit, psi_credit. cbn [w_held x_held x_paths]. lia.
  - unfold psi. cbn [tapply w_held x_held x_paths replayed held_asks queued_at]. unfold answered. cbn [answers sum_of].
    assert (0 <= sum_of (fun x : packet * addr => asks d (fst x)) (x_held c)) by (apply sum_nonneg; intros x _; apply asks_pos). lia.
  - apply same; try reflexivity; [apply tapply_keeps; exact I|]. cbn [tapply]. rewrite restart_paths. reflexivity.
  - apply same; try reflexivity. cbn [tapply w_pool w_paths x_paths]. apply w_fill. exact hpl.
  - apply same; try reflexivity; [apply tapply_keeps; exact I|apply (w_got _ hpl)].
  - apply same; try reflexivity; [apply tapply_keeps; exact I|apply (w_set_active _ hpl)].
  - apply same; try reflexivity; [apply tapply_keeps; exact I|apply (w_migrated _ hpl)].
  - apply same; try reflexivity. cbn [tapply]. rewrite (w_tell _ hpl). cbn [w_paths x_paths]. apply w_fire. exact hpl.
Qed.
Lemma psi_via b d : forall l c c', via l c c' ->
  psi b d c' + sumz (answered b d) l + sumz (replayed d) l <= psi b d c + sumz (queued_at b d) l + sumz (held_asks d) l.
Proof.
  induction 1 as [|g l c c' hg hv ih]; [rewrite !sumz_nil; lia|]. rewrite !sumz_cons. pose proof (psi_tag b d g c hg). lia.
Qed.
Lemma sumz_flat {A B} (f : A -> list B) (w : B -> Z) l : sumz (fun x => sum_of w (f x)) l = sum_of w (flat_map f l).
Proof. induction l as [|x l ih]; [reflexivity|]. rewrite sumz_cons, ih. cbn [flat_map]. rewrite sum_app. reflexivity. Qed.
Lemma answered_sum b d l : sumz (answered b d) l = sum_of (fun x : addr * Z => if b (fst x) && (snd x =? d) then 1 else 0) (flat_map answers l).
Proof. apply sumz_flat. Qed.
Lemma sum_flat {A B} (f : A -> list B) (w : B -> Z) l : sum_of w (flat_map f l) = sum_of (fun x => sum_of w (f x)) l.
Proof. rewrite <- sumz_flat, sum_sumz. reflexivity. Qed.
Lemma sent_answers b d ss : sum_of (fun x : addr * Z => if b (fst x) && (snd x =? d) then 1 else 0) (flat_map (fun x : addr * sent => map (pair (fst x)) (s_resp (snd x))) ss) =
  sum_of (fun x => if b (fst x) then count d (s_resp (snd x)) else 0) ss.
Proof.
  rewrite sum_flat. apply sum_ext. intros [a s] _. cbn [fst snd]. rewrite sum_map. cbn [fst snd]. unfold count.
  destruct (b a); cbn [andb]; [reflexivity|]. induction (s_resp s) as [|r l ih]; [reflexivity|]. cbn [sum_of]. rewrite ih. reflexivity.
Qed.
Lemma asks_count d k : asks d k = count d (challenges_in k).
Proof.
  unfold asks, challenges_in. change (frames_of k) with (frames_in k). induction (frames_in k) as [|f l ih]; [reflexivity|]. rewrite sumz_cons, ih. cbn [flat_map]. rewrite count_app.
  destruct f; cbn [holds]; unfold count; cbn [sum_of]; try lia.
Qed.
Lemma challenges_one d o y : challenges d [(o, y)] = sumz (asks d) (op_packets o).
Proof.
  unfold challenges. rewrite in_one. destruct o; cbn [op_packets]; try reflexivity. rewrite sum_map. cbn [snd]. rewrite sum_sumz.
  induction ks as [|k ks ih]; [reflexivity|]. rewrite !sumz_cons, ih, asks_count. reflexivity.
Qed.
Lemma queued_all d g : queued_at (fun _ => true) d g = queued d g.
Proof. destruct g; reflexivity. Qed.
Lemma sumz_ext {A} (f g : A -> Z) l : (forall x, In x l -> f x = g x) -> sumz f l = sumz g l.
Proof. rewrite <- !sum_sumz. apply sum_ext. Qed.

Lemma step46 d o c y c' : step o c = (y, c') -> zheld c ->
  psi (fun _ => true) d c' + responses_to d [(o, y)] <= psi (fun _ => true) d c + challenges d [(o, y)].
Proof.
  intros h hz. destruct (step_via _ _ _ _ h hz) as (_ & l & hv & _ & hq & _ & _ & _ & hans & _).
  pose proof (psi_via (fun _ => true) d _ _ _ hv) as hp. rewrite answered_sum, hans in hp. pose proof (sent_answers (fun _ => true) d (y_sent y)) as esa. cbn beta in esa, hp. rewrite esa in hp. specialize (hq d).
  rewrite challenges_one. unfold responses_to. rewrite out_one.
  rewrite (sumz_ext (queued_at (fun _ => true) d) (queued d) l) in hp by (intros g _; apply queued_all). lia.
Qed.
Lemma run46 d : forall ops c t c', run ops c = (t, c') -> zheld c ->
  psi (fun _ => true) d c' + responses_to d t <= psi (fun _ => true) d c + challenges d t.
Proof.
  induction ops as [|o ops ih]; intros c t c' h hz; cbn [run] in h.
  - injection h as <- <-. unfold responses_to, challenges. cbn. lia.
  - destruct (step o c) as [y c1] eqn:e1. destruct (run ops c1) as [t2 c2] eqn:e2. injection h as <- <-.
    pose proof (step46 d _ _ _ _ e1 hz). pose proof (ih _ _ _ e2 (step_zheld _ _ _ _ e1 hz)).
    change ((o, y) :: t2) with ([(o, y)] ++ t2). unfold responses_to, challenges in *. rewrite all_out_app, all_in_app, !sum_app. lia.
Qed.
Lemma psi_nonneg b d c : 0 <= psi b d c.
Proof.
  unfold psi. assert (0 <= sum_of (wq b d) (x_paths c)) by (apply sum_nonneg; intros x _; apply wq_nonneg).
  assert (0 <= sum_of (fun x : packet * addr => asks d (fst x)) (x_held c)) by (apply sum_nonneg; intros x _; apply asks_pos). lia.
Qed.

(** Address by address, when no 0-RTT packet carries a challenge *)
Definition hquiet (d : Z) (c : conn) : Prop := forall x, In x (x_held c) -> asks d (fst x) = 0.
Lemma asks_in d k : asks d k = 0 -> ~ In (FChallenge d) (frames_in k).
Proof.
  unfold asks. induction (frames_in k) as [|f l ih]; intros h; [intros []|]. rewrite sumz_cons in h.
  assert (h1 : 0 <= holds d f) by (destruct f; cbn; try lia; destruct (_ =? _); lia).
  assert (h2 : 0 <= sumz (holds d) l) by (apply sumz_nonneg; apply Forall_forall; intros f2 _; destruct f2; cbn; try lia; destruct (_ =? _); lia).
  intros [->|hin]; [cbn in h; rewrite Z.eqb_refl in h; lia|]. apply ih; [lia|exact hin].
Qed.
Lemma step46_at a d o c y c' : step o c = (y, c') -> zheld c -> hquiet d c -> (forall k, In k (op_packets o) -> k_ty k = TZero -> asks d k = 0) ->
  hquiet d c' /\ psi (fun b => aeqb b a) d c' + responses_sent_to a d [(o, y)] <= psi (fun b => aeqb b a) d c + challenges_from a d [(o, y)].
Proof.
  intros h hz hq hk. destruct (step_via _ _ _ _ h hz) as (_ & l & hv & ho & hsum & _ & _ & _ & hans & _).
  assert (hhold : forall k b, In (GHold k b) l -> In k (op_packets o) /\ k_ty k = TZero \/ In (k, b) (x_held c)).
  { intros k b hin. rewrite Forall_forall in ho. specialize (ho _ hin).
    assert (hz2 : k_ty k = TZero).
    { clear - hv hin. induction hv as [|g l c c' hg hv ih]; [destruct hin|]. destruct hin as [->|hin]; [exact (proj1 hg)|exact (ih hin)]. }
    destruct o; cbn in ho; try tauto; try discriminate.
    - destruct ho as [[]|[(k0 & h1 & h2 & _)|(k0 & b0 & h1 & h2 & h3)]]; [subst; auto|subst; auto].
    - destruct ho as [[]|[[[]|(k0 & b0 & h1 & h2 & h3)]|[]]]. subst. auto. }
  assert (hhold0 : forall k b, In (GHold k b) l -> asks d k = 0).
  { intros k b hin. destruct (hhold _ _ hin) as [[h1 h2]|h1]; [exact (hk _ h1 h2)|exact (hq _ h1)]. }
  split.
  { intros x hx. destruct (via_held _ _ _ _ hv hx) as [h1|h1]; [exact (hq _ h1)|exact (hhold0 _ _ h1)]. }
  pose proof (psi_via (fun b => aeqb b a) d _ _ _ hv) as hp. rewrite answered_sum, hans in hp. pose proof (sent_answers (fun b => aeqb b a) d (y_sent y)) as esa. cbn beta in esa, hp. rewrite esa in hp. specialize (hsum d).
  assert (hr : forall k b, In (GReplay k b) l -> asks d k = 0).
  { clear - hv hq hhold0. revert hq hhold0. induction hv as [|g l c c' hg hv ih]; intros hq hh k b hin; [destruct hin|]. destruct hin as [->|hin].
    - destruct hg as (_ & q & e). apply (hq (k, b)). rewrite e. left. reflexivity.
    - refine (ih _ (fun k b h => hh k b (or_intror h)) k b hin). intros x hx. destruct (tapply_held _ _ _ hx) as [h1|h1]; [exact (hq _ h1)|]. apply (hh (fst x) (snd x)). left. exact h1. }
  assert (hr0 : sumz (replayed d) l = 0) by (apply sumz_zero; apply Forall_forall; intros g hg; destruct g; cbn; try reflexivity; exact (hr _ _ hg)).
  assert (hh0 : sumz (held_asks d) l = 0) by (apply sumz_zero; apply Forall_forall; intros g hg; destruct g; cbn; try reflexivity; exact (hhold0 _ _ hg)).
  assert (hqa : sumz (queued_at (fun b => aeqb b a) d) l <= challenges_from a d [(o, y)]).
  { assert (hrec : forall now b ks, o = ORecv now b ks -> challenges_from a d [(o, y)] = if aeqb b a then sumz (asks d) ks else 0).
    { intros now b ks ->. unfold challenges_from. rewrite in_one, sum_map. cbn [fst snd]. rewrite sum_const_if. destruct (aeqb b a); [|reflexivity].
      rewrite sum_sumz. apply sumz_ext. intros k _. symmetry. apply asks_count. }
    assert (hzt : forall g, In g l -> (forall i b m x, g <> GPath i (PQueue b m x)) -> queued_at (fun b => aeqb b a) d g = 0).
    { intros g _ hn. destruct g; try reflexivity. destruct m; try reflexivity. destruct (hn _ _ _ _ eq_refl). }
    assert (hnone : (forall i b m x, In (GPath i (PQueue b m x)) l -> x <> d) -> sumz (queued_at (fun b => aeqb b a) d) l = 0).
    { intros hn. apply sumz_zero. apply Forall_forall. intros g hg. destruct g; try reflexivity. destruct m; try reflexivity. cbn. specialize (hn _ _ _ _ hg). destruct (Z.eqb_spec d0 d); [congruence|]. rewrite andb_false_r. reflexivity. }
    rewrite Forall_forall in ho.
    assert (e0 : (forall now b ks, o <> ORecv now b ks) -> challenges_from a d [(o, y)] = 0).
    { clear. intros h. unfold challenges_from. rewrite in_one. destruct o; try reflexivity. destruct (h now a0 ks eq_refl). }
    destruct o as [now b ks|now from to max hso os|now timers|app code reason|b scid|b scid|q| |i t pto rtt|i dd];
      [|rewrite e0 by discriminate; rewrite hnone; [lia|]; intros i9 b9 m9 x9 hin; specialize (ho _ hin); cbn in ho; try tauto; try discriminate ..].
    - rewrite (hrec _ _ _ eq_refl). cbn [op_packets] in hsum, hk.
      assert (hb : forall i9 b9 m9 x9, In (GPath i9 (PQueue b9 m9 x9)) l -> x9 = d -> b9 = b).
      { intros i9 b9 m9 x9 hin ->. specialize (ho _ hin). cbn in ho. destruct ho as [[]|[(k & h1 & h2 & h3)|(k & b0 & h1 & h2 & _)]].
        - destruct h3 as [[_ h3]|h3]; [exact h3|]. destruct (asks_in d k (hk _ h1 h3) h2).
        - destruct (asks_in d k (hq _ h1) h2). }
      destruct (aeqb b a) eqn:eb.
      + assert (sumz (queued_at (fun b => aeqb b a) d) l <= sumz (queued d) l); [|lia].
        rewrite <- !sum_sumz. apply sum_le. intros g _. destruct g; cbn; try lia. destruct m; cbn; try lia. destruct (aeqb a0 a), (d0 =? d); cbn; lia.
      + rewrite sumz_zero; [lia|]. apply Forall_forall. intros g hg. destruct g; try reflexivity. destruct m; try reflexivity. cbn.
        destruct (Z.eqb_spec d0 d) as [->|]; [|rewrite andb_false_r; reflexivity]. rewrite (hb _ _ _ _ hg eq_refl), eb. reflexivity.
    - destruct ho as [[]|[[[]|(k & b0 & h1 & h2 & h3)]|[]]]. intros ->. exact (asks_in d k (hq _ h1) h2). }
  unfold responses_sent_to. rewrite out_one. lia.
Qed.
Definition no_zero_challenge (d : Z) (t : trace) : Prop := forall b k, In (b, k) (all_in t) -> k_ty k = TZero -> ~ In (FChallenge d) (frames_of k).
Lemma asks_zero d k : ~ In (FChallenge d) (frames_in k) -> asks d k = 0.
Proof.
  intros h. unfold asks. apply sumz_zero. apply Forall_forall. intros f hf. destruct f; cbn; try reflexivity. destruct (Z.eqb_spec d0 d) as [->|]; [destruct (h hf)|reflexivity].
Qed.
Lemma run46_at a d : forall ops c t c', run ops c = (t, c') -> zheld c -> hquiet d c -> no_zero_challenge d t ->
  psi (fun b => aeqb b a) d c' + responses_sent_to a d t <= psi (fun b => aeqb b a) d c + challenges_from a d t.
Proof.
  induction ops as [|o ops ih]; intros c t c' h hz hq hn; cbn [run] in h.
  - injection h as <- <-. unfold responses_sent_to, challenges_from. cbn. lia.
  - destruct (step o c) as [y c1] eqn:e1. destruct (run ops c1) as [t2 c2] eqn:e2. injection h as <- <-.
    change ((o, y) :: t2) with ([(o, y)] ++ t2) in *.
    destruct (step46_at a d _ _ _ _ e1 hz hq) as (h1 & h2).
    { intros k hk ht. apply asks_zero. destruct o; try destruct hk. apply (hn a0 k); [|exact ht]. rewrite all_in_app, in_one. apply in_or_app. left. apply in_map. exact hk. }
    assert (hn2 : no_zero_challenge d t2) by (intros b k hk; apply (hn b k); rewrite all_in_app; apply in_or_app; right; exact hk).
    pose proof (ih _ _ _ e2 (step_zheld _ _ _ _ e1 hz) h1 hn2).
    unfold responses_sent_to, challenges_from in *. rewrite all_out_app, all_in_app, !sum_app. lia.
Qed.

(** The queue *)
Definition qok (q : Z) (c : conn) : Prop := forall i p, nth_error (x_paths c) i = Some p -> zlen (p_queue p) <= q.
Lemma zlen_cons9 {A} (x : A) l : zlen (x :: l) = 1 + zlen l. Proof. unfold zlen. cbn [length]. lia. Qed.
Lemma zlen_app9 {A} (l1 l2 : list A) : zlen (l1 ++ l2) = zlen l1 + zlen l2. Proof. unfold zlen. rewrite app_length. lia. Qed.
Lemma resp_queue d p v q : response_received d p = (v, q) -> p_queue q = p_queue p.
Proof.
  unfold response_received, promote_to. cbv zeta. intros h.
  destruct (_ =? _) in h; [destruct (_ <=? _) in h|]; injection h as _ <-;
    repeat match goal with |- context[if ?b then _ else _] => destruct b end; auto.
Qed.
Lemma qok_tag q g c : 0 <= q -> g_qlen (x_cfg c) = q -> tguard g c -> qok q c -> qok q (tapply g c).
Proof.
  intros h0 hq hg h i p' hp'. destruct (tapply_nth _ _ _ _ hg hp') as [(p & hp & hc)|(q9 & n & tell & -> & ->)].
  - specialize (h _ _ hp). destruct g; cbn [pch] in hc; try (subst p'; exact h).
    + destruct hc as [->|[hpg ->]]; [exact h|]. destruct m; cbn [pap] in *; try exact h.
      * unfold challenge_received. destruct (Z.eqb_spec (zlen (p_queue p)) max); [exact h|]. cbn [set_queue p_queue]. destruct hpg as (_ & ->). rewrite zlen_app9. unfold zlen at 2. cbn. lia.
      * destruct hpg as (_ & mid & e). cbn [set_queue p_queue]. rewrite e, !zlen_app9 in h. pose proof (zlen_nonneg mid). pose proof (zlen_nonneg rs). lia.
      * unfold add_challenge, promote_to. destruct (_ <? _); exact h.
    + destruct hc as [->|(_ & _ & _ & ->)]; exact h.
    + destruct hc as [->|(_ & _ & _ & ->)]; exact h.
    + destruct (soft_keeps _ _ hc) as (_ & _ & _ & _ & -> & _). exact h.
    + destruct hc as [->|(_ & v & q9 & h2 & h3)]; [exact h|]. pose proof (resp_queue _ _ _ _ h2) as e. destruct h3 as [->|[_ ->]]; cbn; rewrite e; exact h.
    + destruct (soft_keeps _ _ hc) as (_ & _ & _ & _ & -> & _). exact h.
    + destruct (soft_keeps _ _ hc) as (_ & _ & _ & _ & -> & _). exact h.
    + destruct (fired_keeps _ _ _ _ hc) as (_ & _ & _ & -> & _). exact h.
  - destruct hg as (_ & (a & d & w & m & ->) & _). cbn. unfold zlen. cbn. lia.
Qed.
