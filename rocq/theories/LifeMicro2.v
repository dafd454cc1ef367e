(** LifeMicro continued: whole operations *)
Require Import Verif.Base Verif.Errors Verif.LifeModel Verif.LifeMicro.

Definition replayed (d : Z) (g : tag) : Z := match g with GReplay k _ => asks d k | _ => 0 end.
Definition endtag (g : tag) : Prop := match g with GErr _ | GClosed => True | _ => False end.

Lemma close_via app code reason c r c' : close app code reason c = (r, c') ->
  exists l, via l c c' /\ Forall endtag l /\ r <> Panic.
Proof.
  unfold close. intros h. destruct (is_closed c || is_draining c); [injection h as <- <-; exists []; split; [constructor|]; split; [constructor|discriminate]|].
  destruct (l_err (x_life c)) as [e|] eqn:e1; cbn [is_some] in h; [injection h as <- <-; exists []; split; [constructor|]; split; [constructor|discriminate]|].
  set (er := if app && negb (h_est (x_hs c) || h_early (x_hs c)) then (false, 12, []) else (app, code, reason)) in *.
  assert (v : via [GErr er] c (on_life (set_err (Some er)) c)) by (apply (via_one (GErr er)); exact e1).
  destruct (x_recv (on_life (set_err (Some er)) c) =? 0); injection h as <- <-.
  - exists ([GErr er] ++ [GClosed]). split; [apply (via_app _ _ _ _ _ v); apply (via_one GClosed); exact I|]. split; [repeat constructor|discriminate].
  - exists [GErr er]. split; [exact v|]. split; [repeat constructor|discriminate].
Qed.

Lemma index_map {A B} (g : A -> B) (f : B -> bool) : forall l, index f (map g l) = index (fun x => f (g x)) l.
Proof. induction l as [|x l ih]; cbn [map index]; [reflexivity|]. rewrite ih. reflexivity. Qed.
Lemma by_addr_same a ps ps' : map p_addr ps' = map p_addr ps -> by_addr a ps' = by_addr a ps.
Proof. intros h. unfold by_addr. rewrite <- !(index_map p_addr (fun x => aeqb x a)). rewrite h. reflexivity. Qed.
Lemma pid_ok_same a pid ps ps' : map p_addr ps' = map p_addr ps -> pid_ok a pid ps -> pid_ok a pid ps'.
Proof.
  intros h hp. destruct pid as [i|]; cbn [pid_ok] in *.
  - destruct hp as (p & h1 & h2). destruct (addr_nth _ _ _ _ h h1) as (p' & h3 & h4). exists p'. split; [exact h3|congruence].
  - rewrite (by_addr_same _ _ _ h). exact hp.
Qed.
Lemma pid_ok_by a ps : pid_ok a (by_addr a ps) ps.
Proof. destruct (by_addr a ps) eqn:e; cbn [pid_ok]; [apply by_addr_some; exact e|exact e]. Qed.

Definition ltag (now : Z) (a : addr) (ks : list packet) (g : tag) : Prop :=
  (exists k, In k ks /\ ptag now a k g) \/ endtag g.
Definition zeros (ks : list packet) : Z := sumz (fun k => if is_zero k then k_len k else 0) ks.
Lemma total_sum ks : total ks = sumz k_len ks. Proof. reflexivity. Qed.
Lemma sumz_nonneg {A} (f : A -> Z) l : Forall (fun x => 0 <= f x) l -> 0 <= sumz f l.
Proof. induction 1 as [|x l h1 h2 ih]; [cbn; lia|]. rewrite sumz_cons. lia. Qed.
Lemma zeros_nonneg ks : Forall (fun k => 0 <= k_len k) ks -> 0 <= zeros ks.
Proof. intros h. apply sumz_nonneg. revert h. apply Forall_impl. intros k hk. destruct (is_zero k); lia. Qed.
Lemma asks_nonneg d ks : 0 <= sumz (asks d) ks.
Proof. apply sumz_nonneg. apply Forall_forall. intros k _. apply asks_pos. Qed.
Lemma end_zero (f : tag -> Z) l : (forall g, endtag g -> f g = 0) -> Forall endtag l -> sumz f l = 0.
Proof. intros h1 h2. exact (sumz_zero' _ _ _ h2 h1). Qed.
Lemma endtag_keeps l : Forall endtag l -> Forall keeps l.
Proof. apply Forall_impl. intros g h. destruct g; cbn in *; tauto. Qed.
Lemma ptag_short_noadd now a k l : is_short k = false -> Forall (ptag now a k) l -> Forall (fun g => ~ adds g) l.
Proof.
  intros h. apply Forall_impl. intros g hg h2. destruct g; cbn in h2; try tauto. cbn in hg. unfold is_short in h. destruct hg as [h3 _]. rewrite h3 in h. discriminate.
Qed.

Lemma recv_loop_via now a pid : forall ks c r c', recv_loop now a pid ks c = (r, c') -> pid_ok a pid (x_paths c) ->
  r <> Panic /\
  exists l, via l c c' /\ Forall (ltag now a ks) l /\
   (forall d, sumz (queued d) l + sumz (held_asks d) l <= sumz (asks d) ks) /\
   (forall a0, Forall (fun k => 0 <= k_len k) ks -> 0 <= g_factor (x_cfg c) ->
      sumz (gain (g_factor (x_cfg c)) a0) l <= if aeqb a a0 then ((if is_some pid then 0 else total ks) + zeros ks) * g_factor (x_cfg c) else 0) /\
   (forall k, ks = [k] -> k_ty k = TZero -> h_zkey (x_hs c) = true -> x_held c' = x_held c /\ h_zkey (x_hs c') = true /\ Forall nohold l).
Proof.
  induction ks as [|k ks ih]; intros c r c' h hp; cbn [recv_loop] in h.
  - injection h as <- <-. split; [discriminate|]. exists []. split; [constructor|]. split; [constructor|]. split; [intros d; cbn; lia|].
    split; [|discriminate]. intros a0 _ h2. rewrite sumz_nil. destruct (aeqb a a0); [|lia]. destruct pid; cbn; lia.
  - destruct (recv_single now a pid k c) as [r1 c1] eqn:e1.
    destruct (recv_single_via _ _ _ _ _ _ _ e1 hp) as (n1 & l1 & v1 & f1 & q1 & g1 & o1 & z1).
    assert (f1' : Forall (ltag now a (k :: ks)) l1).
    { revert f1. apply Forall_impl. intros g hg. left. exists k. split; [left; reflexivity|exact hg]. }
    assert (gb : forall a0, Forall (fun k => 0 <= k_len k) (k :: ks) -> 0 <= g_factor (x_cfg c) ->
      sumz (gain (g_factor (x_cfg c)) a0) l1 <= if aeqb a a0 then ((if is_some pid then 0 else total (k :: ks)) + zeros (k :: ks)) * g_factor (x_cfg c) else 0).
    { intros a0 h1 h2. inversion h1 as [|? ? hk hks]; subst. specialize (g1 a0 hk h2). destruct (aeqb a a0); [|lia].
      etransitivity; [exact g1|]. apply Z.mul_le_mono_nonneg_r; [exact h2|].
      pose proof (zeros_nonneg _ hks) as h5. pose proof (sumz_nonneg _ _ hks) as h6. rewrite total_sum, sumz_cons. unfold zeros in *. rewrite sumz_cons. unfold worth.
      destruct (is_some pid), (is_short k), (is_zero k); cbn [andb negb]; lia. }
    assert (qb : forall d, sumz (queued d) l1 + sumz (held_asks d) l1 <= sumz (asks d) (k :: ks)).
    { intros d. rewrite sumz_cons. specialize (q1 d). pose proof (asks_nonneg d ks). lia. }
    assert (zb : forall k0, k :: ks = [k0] -> k_ty k0 = TZero -> h_zkey (x_hs c) = true -> x_held c1 = x_held c /\ h_zkey (x_hs c1) = true /\ Forall nohold l1).
    { intros k0 hk. injection hk as <- _. exact z1. }
    assert (fin : forall r0 c0, r1 <> Panic -> (exists l0, via l0 c1 c0 /\ Forall endtag l0) -> r0 <> Panic -> (r0, c0) = (r, c') -> r <> Panic /\
       exists l, via l c c' /\ Forall (ltag now a (k :: ks)) l /\
        (forall d, sumz (queued d) l + sumz (held_asks d) l <= sumz (asks d) (k :: ks)) /\
        (forall a0, Forall (fun k => 0 <= k_len k) (k :: ks) -> 0 <= g_factor (x_cfg c) ->
           sumz (gain (g_factor (x_cfg c)) a0) l <= if aeqb a a0 then ((if is_some pid then 0 else total (k :: ks)) + zeros (k :: ks)) * g_factor (x_cfg c) else 0) /\
        (forall k0, k :: ks = [k0] -> k_ty k0 = TZero -> h_zkey (x_hs c) = true -> x_held c' = x_held c /\ h_zkey (x_hs c') = true /\ Forall nohold l)).
    { intros r0 c0 _ (l0 & v0 & f0) hr0 heq. injection heq as <- <-. split; [exact hr0|]. exists (l1 ++ l0).
      split; [exact (via_app _ _ _ _ _ v1 v0)|].
      split; [apply Forall_app; split; [exact f1'|]; revert f0; apply Forall_impl; intros g hg; right; exact hg|].
      split; [intros d; rewrite !sumz_app; rewrite !(end_zero _ l0) by (try assumption; intros g hg; destruct g; cbn in *; tauto); specialize (qb d); lia|].
      split.
      { intros a0 h1 h2. rewrite sumz_app. rewrite (end_zero _ l0) by (try assumption; intros g hg; destruct g; cbn in *; tauto). specialize (gb a0 h1 h2). lia. }
      intros k0 h1 h2 h3. destruct (zb k0 h1 h2 h3) as (ha & hb & hc).
      destruct (via_keeps _ _ _ v0 (endtag_keeps _ f0)) as (hd & he). rewrite hd, he. split; [exact ha|]. split; [exact hb|].
      apply Forall_app. split; [exact hc|]. apply keeps_nohold. apply endtag_keeps. exact f0. }
    assert (same : exists l0, via l0 c1 c1 /\ Forall endtag l0) by (exists []; split; constructor).
    destruct r1 as [v|e|]; [| |destruct (n1 eq_refl)].
    + assert (cont : recv_loop now a pid ks c1 = (r, c') -> is_short k = false -> r <> Panic /\
       exists l, via l c c' /\ Forall (ltag now a (k :: ks)) l /\
        (forall d, sumz (queued d) l + sumz (held_asks d) l <= sumz (asks d) (k :: ks)) /\
        (forall a0, Forall (fun k => 0 <= k_len k) (k :: ks) -> 0 <= g_factor (x_cfg c) ->
           sumz (gain (g_factor (x_cfg c)) a0) l <= if aeqb a a0 then ((if is_some pid then 0 else total (k :: ks)) + zeros (k :: ks)) * g_factor (x_cfg c) else 0) /\
        (forall k0, k :: ks = [k0] -> k_ty k0 = TZero -> h_zkey (x_hs c) = true -> x_held c' = x_held c /\ h_zkey (x_hs c') = true /\ Forall nohold l)).
      { intros h2 hs. pose proof (via_addr _ _ _ v1 (ptag_short_noadd _ _ _ _ hs f1)) as ha.
        destruct (ih _ _ _ h2 (pid_ok_same _ _ _ _ ha hp)) as (n2 & l2 & v2 & f2 & q2 & g2 & z2). split; [exact n2|].
        rewrite (via_cfg _ _ _ v1) in g2.
        exists (l1 ++ l2). split; [exact (via_app _ _ _ _ _ v1 v2)|].
        split; [apply Forall_app; split; [exact f1'|]; revert f2; apply Forall_impl; intros g [(k2 & hk2 & hg)|hg]; [left; exists k2; split; [right; exact hk2|exact hg]|right; exact hg]|].
        split; [intros d; rewrite !sumz_app, sumz_cons; specialize (q1 d); specialize (q2 d); lia|].
        split.
        - intros a0 h3 h4. inversion h3 as [|? ? hk hks]; subst. rewrite sumz_app. specialize (g1 a0 hk h4). specialize (g2 a0 hks h4).
          destruct (aeqb a a0); [|lia]. etransitivity; [apply Z.add_le_mono; [exact g1|exact g2]|].
          rewrite <- Z.mul_add_distr_r. apply Z.mul_le_mono_nonneg_r; [exact h4|].
          unfold worth, zeros. rewrite hs. change total with (sumz k_len). rewrite !sumz_cons. cbn [andb]. destruct (is_some pid), (is_zero k); lia.
        - intros k0 h3 h4 h5. injection h3 as <- ->. cbn [recv_loop] in h2. injection h2 as <- <-. destruct (z1 h4 h5) as (ha1 & hb1 & hc1).
          assert (fe : Forall endtag l2) by (revert f2; apply Forall_impl; intros g [(k2 & [] & _)|hg]; exact hg).
          destruct (via_keeps _ _ _ v2 (endtag_keeps _ fe)) as (hd & he). split; [exact ha1|]. split; [exact hb1|].
          apply Forall_app. split; [exact hc1|]. apply keeps_nohold. apply endtag_keeps. exact fe. }
      destruct (k_ty k) eqn:et; try (apply cont; [exact h|unfold is_short; rewrite et; reflexivity]).
      eapply fin; [discriminate|exact same| |exact h]. discriminate.
    + assert (he : (Ok tt, if k_reset k then mark_closed c1 else c1) = (r, c') \/ (Err e, snd (close false (to_wire e) [] c1)) = (r, c')) by (destruct e; auto).
      destruct he as [he|he].
      * eapply fin; [discriminate| | |exact he]; [|discriminate]. destruct (k_reset k); [|exact same].
        exists [GClosed]. split; [apply (via_one GClosed); exact I|repeat constructor].
      * eapply fin; [discriminate| | |exact he]; [|discriminate]. destruct (close false (to_wire e) [] c1) as [rc cc] eqn:ec.
        destruct (close_via _ _ _ _ _ _ ec) as (lc & vc & fc & _). exists lc. auto.
Qed.

(** The packets that were held *)
Definition rtag (now : Z) (held : list (packet * addr)) (g : tag) : Prop :=
  match g with
  | GReplay k b => In (k, b) held
  | GClear => True
  | _ => endtag g \/ exists k b, In (k, b) held /\ ptag now b k g
  end.
Lemma replay_via now : forall fuel c r c', replay fuel now c = (r, c') ->
  Forall (fun x => k_ty (fst x) = TZero) (x_held c) -> (length (x_held c) <= fuel)%nat ->
  r <> Panic /\
  exists l, via l c c' /\ Forall (rtag now (x_held c)) l /\
   (forall d, sumz (queued d) l + sumz (held_asks d) l <= sumz (replayed d) l) /\
   (forall f a0, sumz (gain f a0) l = 0).
Proof.
  induction fuel as [|fuel ih]; intros c r c' h hz hl; cbn [replay] in h.
  - destruct (negb (h_zkey (x_hs c))); [|destruct (x_held c) as [|[k a] q]; [|cbn in hl; lia]];
      (injection h as <- <-; split; [discriminate|]; exists []; split; [constructor|]; split; [constructor|]; split; [intros d; cbn; lia|reflexivity]).
  - destruct (h_zkey (x_hs c)) eqn:ek; cbn [negb] in h;
      [|injection h as <- <-; split; [discriminate|]; exists []; split; [constructor|]; split; [constructor|]; split; [intros d; cbn; lia|reflexivity]].
    destruct (x_held c) as [|[k a] q] eqn:eh;
      [injection h as <- <-; split; [discriminate|]; exists []; split; [constructor|]; split; [constructor|]; split; [intros d; cbn; lia|reflexivity]|].
    inversion hz as [|? ? hk hq]; subst. cbn [fst] in hk.
    destruct (recv_packets now a [k] (w_held q c)) as [r1 c1] eqn:e1. unfold recv_packets in e1. cbn [x_paths w_held] in e1.
    change (server (w_held q c)) with (server c) in e1.
    set (cr := tapply (GReplay k a) c).
    assert (vr : via [GReplay k a] c cr) by (apply (via_one (GReplay k a)); split; [exact ek|eexists; exact eh]).
    assert (main : exists l1, via l1 cr c1 /\ Forall (ltag now a [k]) l1 /\ (forall d, sumz (queued d) l1 + sumz (held_asks d) l1 <= asks d k) /\
        (forall f a0, sumz (gain f a0) l1 = 0) /\ x_held c1 = q /\ h_zkey (x_hs c1) = true /\ r1 <> Panic).
    { destruct (negb (is_some (by_addr a (x_paths c))) && negb (server c)) eqn:eu.
      - injection e1 as <- <-. assert (hcr : cr = w_held q c) by (subst cr; cbn [tapply]; rewrite eu, eh; reflexivity).
        exists []. rewrite hcr. split; [constructor|]. split; [constructor|]. split; [intros d; rewrite !sumz_nil; pose proof (asks_pos d k); lia|].
        split; [reflexivity|]. split; [reflexivity|]. split; [exact ek|discriminate].
      - assert (hcr : credit a (total [k]) (w_held q c) = cr).
        { subst cr. cbn [tapply]. rewrite eu, eh. cbn [tl]. rewrite total_sum, sumz_cons, sumz_nil, Z.add_0_r. reflexivity. }
        rewrite hcr in e1.
        assert (hp : pid_ok a (by_addr a (x_paths c)) (x_paths cr)).
        { apply (pid_ok_same _ _ (x_paths c)); [|apply pid_ok_by]. apply (via_addr _ _ _ vr). repeat constructor; cbn; tauto. }
        destruct (recv_loop_via _ _ _ _ _ _ _ e1 hp) as (n1 & l1 & v1 & f1 & q1 & g1 & z1).
        assert (hck : x_held cr = q /\ h_zkey (x_hs cr) = true).
        { rewrite <- hcr. destruct (credit_same a (total [k]) (w_held q c)) as (ha & hb & _). rewrite ha, hb. auto. }
        destruct hck as (hck1 & hck2).
        destruct (z1 k eq_refl hk hck2) as (hh & hkk & hn).
        exists l1. split; [exact v1|]. split; [exact f1|]. split; [intros d; specialize (q1 d); rewrite sumz_cons, sumz_nil in q1; lia|].
        split.
        { intros f a0. apply sumz_zero. rewrite Forall_forall in *. intros g hg. specialize (f1 g hg). specialize (hn g hg).
          destruct g; cbn in hn |- *; try tauto.
          - destruct f1 as [(k2 & [<-|[]] & hp2)|[]]. cbn in hp2. tauto.
          - destruct f1 as [(k2 & [<-|[]] & (hp2 & _))|[]]. rewrite hk in hp2. discriminate. }
        split; [rewrite hh; exact hck1|]. split; [exact hkk|exact n1]. }
    destruct main as (l1 & v1 & f1 & q1 & g1 & hh1 & hk1 & n1).
    assert (f1' : Forall (rtag now ((k, a) :: q)) ([GReplay k a] ++ l1)).
    { constructor; [left; reflexivity|]. revert f1. apply Forall_impl. intros g [(k2 & [<-|[]] & hg)|hg].
      - destruct g; cbn [rtag]; try (right; exists k, a; split; [left; reflexivity|exact hg]); try exact I. destruct hg.
      - destruct g; cbn in hg |- *; try tauto. }
    destruct r1 as [u|e|]; [| |destruct (n1 eq_refl)].
    + rewrite <- hh1 in hq.
      destruct (ih _ _ _ h hq ltac:(rewrite hh1; cbn in hl; lia)) as (n2 & l2 & v2 & f2 & q2 & g2). split; [exact n2|].
      exists (([GReplay k a] ++ l1) ++ l2). split; [exact (via_app _ _ _ _ _ (via_app _ _ _ _ _ vr v1) v2)|].
      split.
      { apply Forall_app. split; [exact f1'|]. revert f2. rewrite hh1. apply Forall_impl. intros g hg.
        destruct g; cbn [rtag] in *; auto; try (destruct hg as [hg|(k2 & b2 & hg1 & hg2)]; [left; exact hg|right; exists k2, b2; split; [right; exact hg1|exact hg2]]).
        right. exact hg. }
      split.
      * intros d. rewrite !sumz_app. specialize (q1 d). specialize (q2 d). cbn [sumz fold_right queued held_asks replayed]. fold (sumz (replayed d) l1).
        assert (0 <= sumz (replayed d) l1) by (apply sumz_nonneg; apply Forall_forall; intros g _; destruct g; cbn; try lia; apply asks_pos). lia.
      * intros f a0. rewrite !sumz_app, g1, g2. reflexivity.
    + injection h as <- <-. split; [discriminate|]. exists (([GReplay k a] ++ l1) ++ [GClear]).
      split; [apply (via_app _ _ _ _ _ (via_app _ _ _ _ _ vr v1)); apply (via_one GClear); exact I|].
      split; [apply Forall_app; split; [exact f1'|repeat constructor]|].
      split.
      * intros d. rewrite !sumz_app. specialize (q1 d). cbn [sumz fold_right queued held_asks replayed]. fold (sumz (replayed d) l1).
        assert (0 <= sumz (replayed d) l1) by (apply sumz_nonneg; apply Forall_forall; intros g _; destruct g; cbn; try lia; apply asks_pos). lia.
      * intros f a0. rewrite !sumz_app, g1. reflexivity.
Qed.

(** Receiving a datagram *)
Definition rectag (now : Z) (a : addr) (ks : list packet) (held : list (packet * addr)) (g : tag) : Prop :=
  match g with
  | GCredit b n => b = a /\ n = total ks
  | GReplay k b => In (k, b) held \/ In k ks /\ b = a
  | GClear => True
  | _ => endtag g \/ (exists k, In k ks /\ ptag now a k g) \/ (exists k b, In (k, b) held /\ ptag now b k g)
  end.
Definition zheld (c : conn) : Prop := Forall (fun x => k_ty (fst x) = TZero) (x_held c).

Lemma tapply_zheld g c : tguard g c -> zheld c -> zheld (tapply g c).
Proof.
  unfold zheld. intros hg h. destruct g; try (match goal with |- context[tapply ?g c] => rewrite (proj1 (tapply_keeps g c (I : keeps g))); exact h end); cbn [tapply].
  - cbn [w_held x_held]. apply Forall_app. split; [exact h|]. constructor; [exact (proj1 hg)|constructor].
  - assert (ht : Forall (fun x => k_ty (fst x) = TZero) (tl (x_held c))) by (destruct (x_held c); [constructor|inversion h; assumption]).
    destruct (_ && _); [exact ht|]. destruct (credit_same a (k_len k) (w_held (tl (x_held c)) c)) as (-> & _). exact ht.
  - constructor.
  - exact h.
  - exact h.
Qed.
Lemma via_zheld l c c' : via l c c' -> zheld c -> zheld c'.
Proof. induction 1 as [|g l c c' hg v ih]; intros h; [exact h|]. apply ih. apply tapply_zheld; assumption. Qed.

(** What is held afterwards was held before, or came in *)
Definition held_from (l : list tag) (held : list (packet * addr)) (x : packet * addr) : Prop :=
  In x held \/ In (GHold (fst x) (snd x)) l.
Lemma tapply_held g c x : In x (x_held (tapply g c)) -> In x (x_held c) \/ g = GHold (fst x) (snd x).
Proof.
  intros h. destruct g; try (match type of h with context[tapply ?g c] => rewrite (proj1 (tapply_keeps g c (I : keeps g))) in h; left; exact h end); cbn [tapply] in h.
  - cbn [w_held x_held] in h. apply in_app_or in h. destruct h as [h|[<-|[]]]; [left; exact h|right; reflexivity].
  - left. assert (ht : In x (tl (x_held c))).
    { destruct (_ && _); [exact h|]. destruct (credit_same a (k_len k) (w_held (tl (x_held c)) c)) as (e & _). rewrite e in h. exact h. }
    destruct (x_held c); [destruct ht|right; exact ht].
  - destruct h.
  - left. exact h.
  - left. exact h.
Qed.
Lemma via_held l c c' x : via l c c' -> In x (x_held c') -> held_from l (x_held c) x.
Proof.
  induction 1 as [|g l c c' hg v ih]; intros h; [left; exact h|]. destruct (ih h) as [h1|h1].
  - destruct (tapply_held _ _ _ h1) as [h2| ->]; [left; exact h2|right; left; reflexivity].
  - right. right. exact h1.
Qed.

Lemma rtag_rectag now a ks held held' g : (forall k b, In (k, b) held' -> In (k, b) held \/ In k ks /\ b = a) ->
  rtag now held' g -> rectag now a ks held g.
Proof.
  intros h hg. destruct g; cbn [rtag rectag] in *; auto;
    try (destruct hg as [hg|(k0 & b0 & h1 & h2)]; [left; exact hg|]; destruct (h _ _ h1) as [h3|[h3 ->]]; [right; right; eauto|right; left; eauto]).
  destruct hg as [[]|(k0 & b0 & h1 & [])].
Qed.

Lemma recv_via now a ks c r c' : recv now a ks c = (r, c') -> zheld c ->
  r <> Panic /\
  exists l, via l c c' /\ Forall (rectag now a ks (x_held c)) l /\
   (forall d, sumz (queued d) l + sumz (held_asks d) l <= sumz (asks d) ks + sumz (replayed d) l) /\
   (forall a0, Forall (fun k => 0 <= k_len k) ks -> 0 <= g_factor (x_cfg c) ->
      sumz (gain (g_factor (x_cfg c)) a0) l <= if aeqb a a0 then (total ks + zeros ks) * g_factor (x_cfg c) else 0).
Proof.
  intros h hz. unfold recv in h.
  assert (triv : forall x, x <> Panic -> (x, c) = (r, c') -> r <> Panic /\ exists l, via l c c' /\ Forall (rectag now a ks (x_held c)) l /\
   (forall d, sumz (queued d) l + sumz (held_asks d) l <= sumz (asks d) ks + sumz (replayed d) l) /\
   (forall a0, Forall (fun k => 0 <= k_len k) ks -> 0 <= g_factor (x_cfg c) ->
      sumz (gain (g_factor (x_cfg c)) a0) l <= if aeqb a a0 then (total ks + zeros ks) * g_factor (x_cfg c) else 0)).
  { intros x hx he. injection he as <- <-. split; [exact hx|]. exists []. split; [constructor|]. split; [constructor|].
    split; [intros d; rewrite !sumz_nil; pose proof (asks_nonneg d ks); lia|]. intros a0 h1 h2. rewrite sumz_nil.
    destruct (aeqb a a0); [|lia]. apply Z.mul_nonneg_nonneg; [|exact h2]. pose proof (zeros_nonneg _ h1). pose proof (sumz_nonneg _ _ h1). change total with (sumz k_len). lia. }
  destruct (total ks =? 0); [refine (triv _ _ h); discriminate|].
  destruct (negb (is_some (by_addr a (x_paths c))) && negb (server c)) eqn:eu; [refine (triv _ _ h); discriminate|].
  clear triv.
  destruct (recv_packets now a ks c) as [r1 c1] eqn:e1. unfold recv_packets in e1. rewrite eu in e1.
  set (pid := by_addr a (x_paths c)) in *. set (c0 := credit a (total ks) c) in *.
  assert (v0 : exists l0, via l0 c c0 /\ Forall (fun g => g = GCredit a (total ks)) l0 /\ (forall f a0, sumz (gain f a0) l0 = if aeqb a a0 then if is_some pid then total ks * f else 0 else 0)).
  { destruct pid as [i|] eqn:ep.
    - exists [GCredit a (total ks)]. split; [apply (via_one (GCredit a (total ks))); exact I|]. split; [repeat constructor|].
      intros f a0. cbn [sumz fold_right gain is_some]. destruct (aeqb a a0); lia.
    - exists []. assert (c0 = c) by (subst c0; unfold credit; fold pid; rewrite ep; reflexivity). rewrite H. split; [constructor|]. split; [constructor|].
      intros f a0. cbn. destruct (aeqb a a0); reflexivity. }
  destruct v0 as (l0 & v0 & f0 & g0).
  assert (hp : pid_ok a pid (x_paths c0)).
  { apply (pid_ok_same _ _ (x_paths c)); [apply credit_paths_addr|apply pid_ok_by]. }
  destruct (recv_loop_via _ _ _ _ _ _ _ e1 hp) as (n1 & l1 & v1 & f1 & q1 & g1 & _).
  rewrite (via_cfg _ _ _ v0) in g1.
  assert (z0 : forall f, (forall b n, f (GCredit b n) = 0) -> sumz f l0 = 0).
  { intros f hf. apply (sumz_zero' _ _ _ f0). intros g ->. apply hf. }
  assert (fr : Forall (rectag now a ks (x_held c)) (l0 ++ l1)).
  { apply Forall_app. split; [revert f0; apply Forall_impl; intros g ->; cbn; auto|].
    revert f1. apply Forall_impl. intros g [hg|hg].
    - destruct g; cbn [rectag]; auto; try (right; left; exact hg); destruct hg as (k0 & h1 & []).
    - destruct g; cbn in *; tauto. }
  assert (gr : forall a0, Forall (fun k => 0 <= k_len k) ks -> 0 <= g_factor (x_cfg c) ->
      sumz (gain (g_factor (x_cfg c)) a0) (l0 ++ l1) <= if aeqb a a0 then (total ks + zeros ks) * g_factor (x_cfg c) else 0).
  { intros a0 h1 h2. rewrite sumz_app, g0. specialize (g1 a0 h1 h2). destruct (aeqb a a0); [|lia]. destruct (is_some pid); lia. }
  assert (qr : forall d, sumz (queued d) (l0 ++ l1) + sumz (held_asks d) (l0 ++ l1) <= sumz (asks d) ks + sumz (replayed d) (l0 ++ l1)).
  { intros d. rewrite !sumz_app, !z0 by reflexivity. specialize (q1 d).
    assert (0 <= sumz (replayed d) l1) by (apply sumz_nonneg; apply Forall_forall; intros g _; destruct g; cbn; try lia; apply asks_pos). lia. }
  assert (v01 : via (l0 ++ l1) c c1) by exact (via_app _ _ _ _ _ v0 v1).
  destruct r1 as [u|e|]; [| |destruct (n1 eq_refl)].
  - destruct (replay_via now _ _ _ _ h (via_zheld _ _ _ v01 hz) (le_n _)) as (n2 & l2 & v2 & f2 & q2 & g2). split; [exact n2|].
    exists ((l0 ++ l1) ++ l2). split; [exact (via_app _ _ _ _ _ v01 v2)|]. split.
    { apply Forall_app. split; [exact fr|]. revert f2. apply Forall_impl. intros g. apply rtag_rectag. intros k b hk.
      destruct (via_held _ _ _ _ v01 hk) as [h1|h1]; [left; exact h1|]. cbn [fst snd] in h1.
      rewrite Forall_forall in fr. specialize (fr _ h1). cbn [rectag endtag] in fr.
      destruct fr as [[]|[(k2 & h2 & h3)|(k2 & b2 & h2 & h3)]]; cbn [ptag] in h3; destruct h3 as [-> ->]; [right; auto|left; exact h2]. }
    split; [intros d; rewrite (sumz_app _ (l0 ++ l1)), (sumz_app _ (l0 ++ l1)), (sumz_app _ (l0 ++ l1)); specialize (qr d); specialize (q2 d); lia|].
    intros a0 h1 h2. rewrite (sumz_app _ (l0 ++ l1)), g2. specialize (gr a0 h1 h2). lia.
  - injection h as <- <-. split; [discriminate|]. exists (l0 ++ l1). auto.
Qed.

