(** Proofs about RangesModel. *)
Require Import Verif.Base Verif.RangesModel.

(** Well-formed list: starts above [lo], ranges ordered and not touching. *)
Fixpoint wf (lo : Z) (l : list range) : Prop :=
  match l with
  | [] => True
  | (s, e) :: tl => lo < s /\ s <= e /\ wf e tl
  end.

Definition covers (l : list range) (x : Z) : Prop :=
  exists s e, In (s, e) l /\ s <= x < e.

(** Canonical union-insert. *)
Fixpoint uins (s e : Z) (l : list range) : list range :=
  match l with
  | [] => [(s, e)]
  | (a, b) :: tl =>
      if b <? s then (a, b) :: uins s e tl
      else if e <? a then (s, e) :: l
      else uins (Z.min s a) (Z.max e b) tl
  end.

Lemma wf_weaken lo lo' l : lo' <= lo -> wf lo l -> wf lo' l.
Proof. destruct l as [|[s e] tl]; cbn; intuition lia. Qed.

Lemma wf_in lo l s e : wf lo l -> In (s, e) l -> lo < s /\ s <= e.
Proof.
  revert lo; induction l as [|[a b] tl IH]; cbn; [tauto|].
  intros lo (h1 & h2 & h3) [h | h].
  - inv h; lia.
  - destruct (IH b h3 h); lia.
Qed.

Lemma wf_app lo a b :
  wf lo (a ++ b) -> wf lo a /\ (forall s e, In (s, e) a -> wf e b) /\ wf lo b.
Proof.
  revert lo; induction a as [|[s e] tl IH]; cbn; intros lo h.
  - intuition.
  - destruct h as (h1 & h2 & h3). destruct (IH e h3) as (i1 & i2 & i3).
    repeat split; auto.
    + intros s' e' [k | k]; [inv k; auto | eauto].
    + eapply wf_weaken; [|exact i3]; lia.
Qed.

Lemma wf_app_intro lo a b :
  wf lo a -> wf lo b -> (forall s e, In (s, e) a -> wf e b) -> wf lo (a ++ b).
Proof.
  revert lo; induction a as [|[s e] tl IH]; cbn; intros lo h hb h'; auto.
  destruct h as (h1 & h2 & h3). repeat split; auto.
  apply IH; eauto.
Qed.

Lemma uins_wf lo s e l : wf lo l -> lo < s -> s <= e -> wf lo (uins s e l).
Proof.
  revert lo s e; induction l as [|[a b] tl IH]; cbn; intros lo s e h h1 h2.
  - lia.
  - destruct h as (i1 & i2 & i3). repeat destr_if; cbn.
    + repeat split; auto. apply IH; auto; lia.
    + repeat split; auto; lia.
    + apply IH; try lia. eapply wf_weaken; [|exact i3]; lia.
Qed.

Lemma covers_nil x : ~ covers [] x.
Proof. intros (s & e & h & _); inv h. Qed.

Lemma covers_cons s e l x : covers ((s, e) :: l) x <-> s <= x < e \/ covers l x.
Proof.
  split.
  - intros (a & b & [h | h] & h'); [inv h; auto | right; exists a, b; auto].
  - intros [h | (a & b & h & h')]; [exists s, e | exists a, b]; cbn; auto.
Qed.

Lemma covers_app a b x : covers (a ++ b) x <-> covers a x \/ covers b x.
Proof.
  induction a as [|[s e] tl IH]; cbn [app].
  - split; [auto | intros [h|h]; auto; destruct (covers_nil _ h)].
  - rewrite !covers_cons, IH; tauto.
Qed.

Lemma covers_low lo l x : wf lo l -> covers l x -> lo < x.
Proof.
  intros h (s & e & i & j). destruct (wf_in _ _ _ _ h i); lia.
Qed.

Lemma uins_covers lo s e l x :
  wf lo l -> s <= e -> (covers (uins s e l) x <-> s <= x < e \/ covers l x).
Proof.
  revert lo s e; induction l as [|[a b] tl IH]; cbn [uins]; intros lo s e h h2.
  - rewrite covers_cons; tauto.
  - destruct h as (i1 & i2 & i3). repeat destr_if.
    + rewrite !covers_cons, (IH b) by (auto; lia). tauto.
    + rewrite !covers_cons; tauto.
    + rewrite (IH b) by (auto; lia). rewrite covers_cons.
      split; intros [h | h]; auto.
      * assert (s <= x < e \/ a <= x < b) as [|] by lia; auto.
      * left; lia.
      * destruct h as [h|h]; auto; left; lia.
Qed.

(** ** Inline *)
Lemma inl_merge_uins s0 fin post :
  s0 <= fin -> wf s0 post -> inl_merge s0 fin post = uins s0 fin post.
Proof.
  revert s0 fin; induction post as [|[a b] tl IH]; cbn; intros s0 fin h hw; auto.
  destruct hw as (i1 & i2 & i3).
  replace (b <? s0) with false by lia. destr_if; auto.
  rewrite IH; try lia.
  - f_equal; lia.
  - eapply wf_weaken; [|exact i3]; lia.
Qed.

Lemma inl_scan_uins start fin cap pre post :
  start <= fin -> (forall s e, In (s, e) pre -> e < start) ->
  (exists lo, wf lo post) -> zlen (pre ++ post) < cap ->
  inl_scan start fin cap pre post = Ok (pre ++ uins start fin post).
Proof.
  intros h; revert pre; induction post as [|[s e] tl IH]; intros pre hp hw hc.
  - cbn. rewrite app_nil_r in hc. replace (zlen pre =? cap) with false by lia. reflexivity.
  - destruct hw as (lo & i1 & i2 & i3). cbn [inl_scan uins].
    destr_if.
    + rewrite IH.
      * rewrite <- app_assoc; reflexivity.
      * intros a b hin; apply in_app_or in hin; destruct hin as [hin | [hin | []]].
        -- eauto. -- inv hin; lia.
      * exists e; auto.
      * rewrite <- app_assoc; exact hc.
    + destr_if.
      * replace (zlen (pre ++ (s, e) :: tl) =? cap) with false by lia. reflexivity.
      * destr_if.
        -- rewrite inl_merge_uins.
           ++ replace (if start <? s then start else s) with (Z.min start s)
                by (destruct (start <? s) eqn:?; lia).
              replace (Z.max fin e) with fin by lia. reflexivity.
           ++ destr_if; lia.
           ++ apply (wf_weaken e); [destr_if; lia | exact i3].
        -- f_equal. f_equal.
           destruct tl as [|[a b] tl']; cbn [uins].
           ++ f_equal. f_equal; repeat destr_if; lia.
           ++ cbn in i3. replace (b <? Z.min start s) with false by lia.
              replace (Z.max fin e <? a) with true by lia.
              f_equal. f_equal; repeat destr_if; lia.
Qed.

(** ** BTree *)

(** Decomposition of a list around an inserted range. *)
Lemma split_around s e l lo :
  wf lo l -> s <= e ->
  exists A M B, l = A ++ M ++ B
    /\ (forall a b, In (a, b) A -> b < s)
    /\ (forall a b, In (a, b) M -> s <= b /\ a <= e)
    /\ (forall a b, In (a, b) B -> e < a).
Proof.
  intros h hse; revert lo h; induction l as [|[a b] tl IH]; intros lo h.
  - exists [], [], []; cbn; intuition.
  - destruct h as (i1 & i2 & i3). destruct (IH b i3) as (A & M & B & -> & hA & hM & hB).
    destruct (Z_lt_ge_dec b s).
    + exists ((a, b) :: A), M, B; cbn; intuition; try (inv H0; lia); eauto.
    + destruct A as [|[a' b'] A].
      * destruct (Z_le_gt_dec a e).
        -- exists [], ((a, b) :: M), B. cbn. repeat split; auto; try tauto.
           ++ destruct H as [H|H]; [inv H; lia | apply (hM _ _ H)].
           ++ destruct H as [H|H]; [inv H; lia | apply (hM _ _ H)].
        -- exists [], [], ((a, b) :: M ++ B). cbn. repeat split; auto; try tauto.
           intros a0 b0 [H|H]; [inv H; lia|].
           destruct (wf_in _ _ _ _ i3 H). lia.
      * exfalso. cbn in i3. specialize (hA a' b' (or_introl eq_refl)). lia.
Qed.

Lemma bt_remove_app k a b l :
  (forall s e, In (s, e) a -> s < k) ->
  bt_remove k (a ++ (k, b) :: l) = a ++ l.
Proof.
  intros h; induction a as [|[s e] tl IH]; cbn [app bt_remove].
  - rewrite Z.eqb_refl; auto.
  - assert (s < k) by (apply (h s e); cbn; auto).
    replace (k =? s) with false by lia. f_equal. apply IH; intros; apply (h s0 e0); cbn; auto.
Qed.

Lemma bt_insert_app k v a b :
  (forall s e, In (s, e) a -> s < k) -> (forall s e, In (s, e) b -> k < s) ->
  bt_insert k v (a ++ b) = a ++ (k, v) :: b.
Proof.
  intros h hb; induction a as [|[s e] tl IH]; cbn [app bt_insert].
  - destruct b as [|[s e] tl]; cbn; auto.
    replace (k <? s) with true; auto.
    specialize (hb s e (or_introl eq_refl)); lia.
  - assert (s < k) by (apply (h s e); cbn; auto).
    replace (k <? s) with false by lia. replace (k =? s) with false by lia.
    f_equal. apply IH; intros; apply (h s0 e0); cbn; auto.
Qed.

Lemma next_to_app a l item :
  (forall s e, In (s, e) a -> s < item) -> next_to (a ++ l) item = next_to l item.
Proof.
  intros h; induction a as [|[s e] tl IH]; cbn [app next_to]; auto.
  assert (s < item) by (apply (h s e); cbn; auto).
  replace (item <=? s) with false by lia. apply IH; intros; apply (h s0 e0); cbn; auto.
Qed.

Lemma prev_to_none l item :
  (forall s e, In (s, e) l -> item < s) -> prev_to l item = None.
Proof.
  destruct l as [|[s e] tl]; cbn; auto. intros h.
  specialize (h s e (or_introl eq_refl)). replace (s <=? item) with false by lia. auto.
Qed.

Lemma prev_to_app a x l item :
  (forall s e, In (s, e) a -> s <= item) -> fst x <= item ->
  (forall s e, In (s, e) l -> item < s) ->
  prev_to (a ++ x :: l) item = Some x.
Proof.
  intros ha hx hl; induction a as [|[s e] tl IH]; cbn [app prev_to].
  - destruct x as [s e]; cbn in *. replace (s <=? item) with true by lia.
    rewrite prev_to_none; auto.
  - assert (s <= item) by (apply (ha s e); cbn; auto).
    replace (s <=? item) with true by lia.
    rewrite IH; auto. intros; apply (ha s0 e0); cbn; auto.
Qed.

(** Absorbing the touching ranges [M] that all start at or after [start]. *)
Lemma bt_absorb_spec M : forall A B is ie start fin fuel lo,
  (length (M ++ B) < fuel)%nat ->
  is <= ie -> start <= is -> ie <= fin ->
  wf lo (A ++ M ++ B) ->
  (forall a b, In (a, b) A -> a < start /\ b < start) ->
  (forall a b, In (a, b) M -> is <= b /\ a <= ie /\ start <= a) ->
  (forall a b, In (a, b) B -> fin < a) ->
  exists fin', bt_absorb fuel (is, ie) start fin (A ++ M ++ B)
     = Ok (start, fin', A ++ B)
     /\ (A ++ uins start fin (M ++ B) = A ++ (start, fin') :: B)
     /\ fin <= fin' /\ (forall a b, In (a, b) B -> fin' < a).
Proof.
  induction M as [|[a b] M IH]; intros A B is ie start fin fuel lo hf h1 h2 h2' hw hA hM hB.
  - cbn [app] in *. destruct fuel as [|fuel]; [lia|].
    exists fin. split; [|split; [|split; [lia|exact hB]]].
    + cbn [bt_absorb]. rewrite next_to_app by (intros; apply (hA _ _ H)).
      destruct B as [|[s e] B]; cbn [next_to].
      * reflexivity.
      * specialize (hB s e (or_introl eq_refl)).
        replace (start <=? s) with true by lia. cbn [fst snd].
        unfold in_range, range_overlaps; cbn [fst snd].
        replace (is <=? s) with true by lia.
        replace (s <? ie) with false by lia. cbn [andb].
        apply wf_app in hw. destruct hw as (_ & _ & hw). cbn in hw.
        replace (s <=? is) with false by lia. replace (s <=? ie) with false by lia.
        reflexivity.
    + f_equal. destruct B as [|[s e] B]; cbn; auto.
      specialize (hB s e (or_introl eq_refl)).
      apply wf_app in hw. destruct hw as (_ & _ & hw). cbn in hw.
      replace (e <? start) with false by lia. replace (fin <? s) with true by lia. auto.
  - destruct fuel as [|fuel]; [cbn in hf; lia|].
    destruct (hM a b (or_introl eq_refl)) as (m1 & m2 & m3).
    pose proof hw as hw'. apply wf_app in hw'. destruct hw' as (hwA & hwA' & hwM).
    cbn [app] in hwM. destruct hwM as (w1 & w2 & w3).
    assert (wfAMB : wf lo (A ++ M ++ B)).
    { apply wf_app_intro; auto.
      - eapply wf_weaken; [|exact w3]; lia.
      - intros s e hin. specialize (hwA' s e hin). cbn in hwA'.
        eapply wf_weaken; [|exact (proj2 (proj2 hwA'))]; lia. }
    assert (hrem : bt_remove a (A ++ (a, b) :: M ++ B) = A ++ M ++ B).
    { apply bt_remove_app. intros s e hin. destruct (hA s e hin). lia. }
    assert (hB' : forall s e, In (s, e) B -> Z.max fin b < s).
    { intros s e hin. specialize (hB s e hin). apply wf_app in w3.
      destruct w3 as (_ & _ & w3). destruct (wf_in _ _ _ _ w3 hin). lia. }
    cbn [app] in *. cbn [bt_absorb].
    rewrite next_to_app by (intros; apply (hA _ _ H)).
    cbn [next_to]. replace (start <=? a) with true by lia.
    cbn [fst snd]. cbn [uins].
    replace (b <? start) with false by lia. replace (fin <? a) with false by lia.
    replace (Z.min start a) with start by lia.
    assert (hlen : (length (M ++ B) < fuel)%nat) by (cbn in hf; lia).
    unfold in_range; cbn [fst snd].
    destruct ((is <=? a) && (a <? ie) && ((is <=? b) && (b <? ie))) eqn:E.
    + rewrite hrem. replace (Z.max fin b) with fin by lia.
      apply (IH A B is ie start fin fuel lo); auto.
      intros; apply hM; cbn; auto.
    + unfold range_overlaps; cbn [fst snd].
      replace ((a <=? is) && (is <=? b) || (a <=? ie) && (ie <=? b)) with true by lia.
      cbn [negb]. replace (Z.min start a) with start by lia. rewrite hrem.
      destruct (IH A B is ie start (Z.max fin b) fuel lo) as (fin' & p1 & p2 & p3 & p4); auto.
      * lia.
      * intros; apply hM; cbn; auto.
      * exists fin'; repeat split; auto; lia.
Qed.

Lemma uins_skip A s e l :
  (forall a b, In (a, b) A -> b < s) -> uins s e (A ++ l) = A ++ uins s e l.
Proof.
  intros h; induction A as [|[a b] A IH]; cbn [app uins]; auto.
  assert (b < s) by (apply (h a b); cbn; auto).
  replace (b <? s) with true by lia. f_equal. apply IH; intros; apply (h a0 b0); cbn; auto.
Qed.

Lemma uins_before s e l :
  (forall a b, In (a, b) l -> e < a) -> (exists lo, wf lo l) -> s <= e -> uins s e l = (s, e) :: l.
Proof.
  destruct l as [|[a b] l]; cbn; auto. intros h (lo & w1 & w2 & w3) hse.
  specialize (h a b (or_introl eq_refl)).
  replace (b <? s) with false by lia. replace (e <? a) with true by lia. auto.
Qed.

Lemma in_app_split {A} (x : A) a b : In x (a ++ b) -> In x a \/ In x b.
Proof. apply in_app_or. Qed.

Lemma wf_tl lo l : wf lo l -> wf lo (tl l).
Proof.
  destruct l as [|[s e] l]; cbn; auto. intros (h1 & h2 & h3).
  eapply wf_weaken; [|exact h3]; lia.
Qed.

Lemma rev_ind_case {A} (l : list A) : l = [] \/ exists l' x, l = l' ++ [x].
Proof.
  destruct l using rev_ind; auto. right; eauto.
Qed.

Lemma btree_insert_spec s e l cap lo :
  wf lo l -> s <= e -> 1 <= cap -> zlen l <= cap ->
  btree_insert (s, e) l cap =
  Ok (if zlen (uins s e l) <=? cap then uins s e l else uins s e (tl l)).
Proof.
  intros hw hse hcap hlen.
  destruct (split_around s e l lo hw hse) as (A & M & B & -> & hA & hM & hB).
  assert (hAw : forall a b, In (a, b) A -> a <= b).
  { intros a b hin. apply (wf_in lo (A ++ M ++ B)); auto. apply in_or_app; auto. }
  assert (hA2 : forall a b, In (a, b) A -> a < s).
  { intros a b hin. specialize (hA a b hin). specialize (hAw a b hin). lia. }
  pose proof hw as hw'. apply wf_app in hw'. destruct hw' as (wA & wAMB & wMB).
  pose proof wMB as wMB'. apply wf_app in wMB'. destruct wMB' as (wM & wMB' & wB).
  assert (hAB : forall a b c d, In (a, b) A -> In (c, d) B -> b < c).
  { intros a b c d h1 h2. specialize (hA _ _ h1). specialize (hB _ _ h2). lia. }
  (* state after the prev_to step: start', fin', remaining M' *)
  assert (step : exists start fin M',
    match prev_to (A ++ M ++ B) s with
    | Some r =>
        if range_overlaps r (s, e)
        then (Z.min s (fst r), Z.max e (snd r), bt_remove (fst r) (A ++ M ++ B))
        else (s, e, A ++ M ++ B)
    | None => (s, e, A ++ M ++ B)
    end = (start, fin, A ++ M' ++ B)
    /\ start <= s /\ e <= fin /\ lo < Z.max (lo + 1) start
    /\ (forall a b, In (a, b) A -> a < start /\ b < start)
    /\ (forall a b, In (a, b) M' -> s <= b /\ a <= e /\ start <= a)
    /\ (forall a b, In (a, b) B -> fin < a)
    /\ wf lo (A ++ M' ++ B)
    /\ uins s e (M ++ B) = uins start fin (M' ++ B)
    /\ (M = [] -> M' = []) /\ (M' = M \/ length M = S (length M'))
    /\ (M' = M -> start = s /\ fin = e)).
  { destruct M as [|[a b] M].
    - (* no touching range *)
      exists s, e, []. cbn [app].
      assert (match prev_to (A ++ B) s with
              | Some r => if range_overlaps r (s, e) then
                  (Z.min s (fst r), Z.max e (snd r), bt_remove (fst r) (A ++ B))
                  else (s, e, A ++ B)
              | None => (s, e, A ++ B) end = (s, e, A ++ B)) as ->.
      { destruct (rev_ind_case A) as [-> | (A' & [a b] & ->)].
        - cbn [app]. rewrite prev_to_none; auto.
          intros a b hin; specialize (hB a b hin); lia.
        - rewrite <- app_assoc. cbn [app].
          rewrite prev_to_app.
          + unfold range_overlaps; cbn [fst snd].
            assert (b < s) by (apply (hA a b); apply in_or_app; cbn; auto).
            replace (s <=? b) with false by lia. replace (e <=? b) with false by lia.
            rewrite !andb_false_r. reflexivity.
          + intros; assert (s0 < s) by (apply (hA2 s0 e0); apply in_or_app; auto). lia.
          + cbn. assert (a < s) by (apply (hA2 a b); apply in_or_app; cbn; auto). lia.
          + intros s0 e0 hin; specialize (hB s0 e0 hin); lia. }
      split; [reflexivity|]. split; [lia|]. split; [lia|]. split; [lia|].
      split; [intros a b hin; split; eauto|].
      split; [intros ? ? []|]. split; [exact hB|]. split; [exact hw|].
      split; [reflexivity|]. split; [reflexivity|]. split; [auto|]. auto.
    - destruct (hM a b (or_introl eq_refl)) as (m1 & m2).
      assert (hab : a <= b) by (apply (wf_in lo ((a,b)::M) a b wM); cbn; auto).
      assert (hMB : forall c d, In (c, d) (M ++ B) -> b < c).
      { intros c d hin. cbn [app] in wMB. destruct wMB as (_ & _ & w).
        apply (wf_in b (M ++ B) c d w hin). }
      assert (hAa : forall c d, In (c, d) A -> d < a).
      { intros c d hin. specialize (wAMB c d hin). cbn in wAMB. lia. }
      assert (wAM : wf lo (A ++ M ++ B)).
      { apply wf_app_intro; auto.
        - cbn [app] in wMB. destruct wMB as (w1 & w2 & w). eapply wf_weaken; [|exact w]; lia.
        - intros c d hin. specialize (wAMB c d hin). cbn [app wf] in wAMB.
          destruct wAMB as (w1 & w2 & w). eapply wf_weaken; [|exact w]; lia. }
      destruct (Z_le_gt_dec a s) as [has|has].
      + (* prev_to finds the first touching range *)
        exists a, (Z.max e b), M. cbn [app].
        rewrite prev_to_app.
        * unfold range_overlaps; cbn [fst snd].
          replace ((a <=? s) && (s <=? b)) with true by lia. cbn [orb].
          rewrite bt_remove_app.
          2:{ intros c d hin. specialize (hAa c d hin). specialize (hAw c d hin). lia. }
          replace (Z.min s a) with a by lia.
          split; [reflexivity|]. split; [lia|]. split; [lia|]. split; [lia|].
          split; [intros c d hin; specialize (hAa c d hin); specialize (hAw c d hin); lia|].
          split; [intros c d hin; assert (In (c,d) (M ++ B)) by (apply in_or_app; auto);
                  specialize (hMB c d H); destruct (hM c d) as (n1 & n2); cbn; auto; lia|].
          split; [intros c d hin; assert (In (c,d) (M ++ B)) by (apply in_or_app; auto);
                  specialize (hMB c d H); specialize (hB c d hin); lia|].
          split; [exact wAM|].
          split.
          { cbn [uins]. replace (b <? s) with false by lia. replace (e <? a) with false by lia.
            repeat f_equal; lia. }
          split; [discriminate|]. split; [right; reflexivity|].
          intros hE; exfalso; revert hE; clear; intros hE.
          assert (length M = length ((a, b) :: M)) by (rewrite <- hE; auto). cbn in H; lia.
        * intros c d hin. specialize (hA2 c d hin). lia.
        * cbn; lia.
        * intros c d hin. specialize (hMB c d hin). lia.
      + (* the first touching range starts above [s]: prev_to misses *)
        exists s, e, ((a, b) :: M).
        assert (match prev_to (A ++ ((a, b) :: M) ++ B) s with
                | Some r => if range_overlaps r (s, e) then
                    (Z.min s (fst r), Z.max e (snd r), bt_remove (fst r) (A ++ ((a, b) :: M) ++ B))
                    else (s, e, A ++ ((a, b) :: M) ++ B)
                | None => (s, e, A ++ ((a, b) :: M) ++ B) end = (s, e, A ++ ((a, b) :: M) ++ B)) as ->.
        { assert (hgt : forall c d, In (c, d) (((a, b) :: M) ++ B) -> s < c).
          { intros c d [hin | hin]; [inv hin; lia | specialize (hMB c d hin); lia]. }
          destruct (rev_ind_case A) as [-> | (A' & [c d] & ->)].
          - cbn [app]. rewrite prev_to_none; auto.
          - rewrite <- (app_assoc A'). cbn [app].
            rewrite prev_to_app.
            + unfold range_overlaps; cbn [fst snd].
              assert (d < s) by (apply (hA c d); apply in_or_app; cbn; auto).
              replace (s <=? d) with false by lia. replace (e <=? d) with false by lia.
              rewrite !andb_false_r. reflexivity.
            + intros; assert (s0 < s) by (apply (hA2 s0 e0); apply in_or_app; auto). lia.
            + cbn. assert (c < s) by (apply (hA2 c d); apply in_or_app; cbn; auto). lia.
            + exact hgt. }
        split; [reflexivity|]. split; [lia|]. split; [lia|]. split; [lia|].
        split; [intros c d hin; split; eauto|].
        split; [intros c d hin; destruct (hM c d hin); split; auto; split; auto;
                destruct hin as [hin|hin]; [inv hin; lia |
                assert (In (c,d) (M ++ B)) by (apply in_or_app; auto);
                specialize (hMB c d H1); lia]|].
        split; [exact hB|]. split; [exact hw|].
        split; [reflexivity|]. split; [discriminate|]. split; [auto|]. auto. }
  destruct step as (start & fin & M' & heq & g1 & g2 & _ & gA & gM & gB & gw & gu & gn & gl & gm).
  unfold btree_insert. cbn [fst snd]. rewrite heq.
  destruct (bt_absorb_spec M' A B s e start fin (S (length (A ++ M' ++ B))) lo)
    as (fin' & p1 & p2 & p3 & p4); auto.
  { rewrite !app_length. lia. }
  rewrite p1. cbn [bind]. f_equal.
  rewrite uins_skip by exact hA. rewrite gu.
  apply app_inv_head in p2. rewrite p2.
  assert (zl1 : zlen (A ++ (start, fin') :: B) = zlen (A ++ B) + 1).
  { rewrite !zlen_app, zlen_cons; lia. }
  destruct (zlen (A ++ (start, fin') :: B) <=? cap) eqn:E.
  - replace (cap <=? zlen (A ++ B)) with false by lia.
    apply bt_insert_app.
    + intros a b hin; apply (gA a b hin).
    + intros a b hin. specialize (gB a b hin). lia.
  - replace (cap <=? zlen (A ++ B)) with true by lia.
    (* full: nothing was merged *)
    assert (M = []).
    { destruct M as [|m M]; auto. exfalso.
      rewrite !zlen_app, zlen_cons in hlen.
      pose proof (zlen_nonneg M).
      assert (zlen (A ++ B) = zlen A + zlen B) by apply zlen_app. lia. }
    subst M. rewrite (gn eq_refl) in *. destruct (gm eq_refl); subst start fin.
    cbn [app] in *.
    assert (fin' = e).
    { destruct B as [|[c d] B]; cbn in p2.
      - inv p2; auto.
      - specialize (gB c d (or_introl eq_refl)). cbn in wB.
        replace (d <? s) with false in p2 by lia. replace (e <? c) with true in p2 by lia.
        inv p2; auto. }
    subst fin'.
    destruct A as [|[a b] A]; cbn [app tl].
    + destruct B as [|[c d] B]; cbn [tl].
      * reflexivity.
      * rewrite uins_before; auto.
        -- destruct B as [|[c' d'] B]; cbn; auto.
           specialize (gB c' d' (or_intror (or_introl eq_refl))).
           replace (s <? c') with true by lia. auto.
        -- intros a b hin; apply (gB a b); cbn; auto.
        -- cbn in wB. destruct wB as (_ & _ & w). eauto.
    + rewrite uins_skip by (intros; apply (hA a0 b0); cbn; auto).
      rewrite bt_insert_app.
      * rewrite uins_before; auto. exists lo; auto.
      * intros; apply (hA2 s0 e0); cbn; auto.
      * intros a0 b0 hin; specialize (gB a0 b0 hin). lia.
Qed.

(** ** remove_until *)

Lemma inline_remove_until_wf largest lo l :
  wf lo l -> wf lo (inline_remove_until largest l).
Proof.
  revert lo; induction l as [|[s e] tl IH]; cbn; auto; intros lo (h1 & h2 & h3).
  repeat destr_if.
  - apply IH. eapply wf_weaken; [|exact h3]; lia.
  - eapply wf_weaken; [|exact h3]; lia.
  - cbn. repeat split; auto; lia.
Qed.

Lemma inline_remove_until_covers largest lo l x :
  wf lo l ->
  (covers (inline_remove_until largest l) x <-> covers l x /\ largest < x).
Proof.
  revert lo; induction l as [|[s e] tl IH]; cbn [inline_remove_until]; intros lo h.
  - split; [intros k; destruct (covers_nil _ k) | tauto].
  - destruct h as (h1 & h2 & h3).
    assert (low : covers tl x -> e < x) by (apply covers_low; auto).
    rewrite covers_cons.
    repeat destr_if.
    + rewrite (IH e h3). split; [tauto|]. intros [[k|k] k']; [lia|auto].
    + split; [intros k; split; auto; specialize (low k); lia|].
      intros [[k|k] k']; [lia|auto].
    + rewrite covers_cons. split.
      * intros [k|k]; [lia|]. specialize (low k). split; auto; lia.
      * intros [[k|k] k']; [left; lia|auto].
Qed.

Lemma inline_remove_until_len largest l :
  zlen (inline_remove_until largest l) <= zlen l.
Proof.
  induction l as [|[s e] tl IH]; cbn [inline_remove_until]; [lia|].
  rewrite zlen_cons. repeat destr_if; rewrite ?zlen_cons; lia.
Qed.

Fixpoint rm (largest : Z) (l : list range) : list range :=
  match l with
  | [] => []
  | (s, e) :: tl =>
      if largest <? s then l
      else if largest + 1 <? e then (largest + 1, e) :: tl
      else rm largest tl
  end.

Lemma filter_none (l : list range) largest lo :
  wf lo l -> largest <= lo -> filter (fun r => fst r <=? largest) l = [].
Proof.
  revert lo; induction l as [|[s e] tl IH]; cbn; auto; intros lo (h1 & h2 & h3) hlo.
  replace (s <=? largest) with false by lia. apply (IH e); auto; lia.
Qed.

Lemma btree_remove_until_rm largest lo l cap :
  wf lo l -> 1 <= cap -> zlen l <= cap ->
  btree_remove_until largest l cap = Ok (rm largest l).
Proof.
  unfold btree_remove_until.
  revert lo; induction l as [|[s e] tl IH]; intros lo h hc hl; cbn [filter]; auto.
  destruct h as (h1 & h2 & h3). cbn [fst rm].
  rewrite zlen_cons in hl.
  destruct (s <=? largest) eqn:E.
  - replace (largest <? s) with false by lia.
    cbn [bt_remove_each fst snd bt_remove]. rewrite Z.eqb_refl.
    destruct (largest + 1 <? e) eqn:E2.
    + rewrite btree_insert_spec with (lo := largest); auto; try lia.
      * cbn [bind]. rewrite (filter_none tl largest e); auto; [|lia].
        cbn [bt_remove_each].
        rewrite uins_before; eauto; try lia.
        -- rewrite zlen_cons. replace (1 + zlen tl <=? cap) with true by lia. reflexivity.
        -- intros a b hin. apply (wf_in e tl a b h3 hin).
      * eapply wf_weaken; [|exact h3]; lia.
    + cbn [bind]. apply (IH e); auto; lia.
  - replace (largest <? s) with true by lia.
    rewrite (filter_none tl largest e); auto. lia.
Qed.

Lemma rm_wf largest lo l : wf lo l -> wf lo (rm largest l).
Proof.
  revert lo; induction l as [|[s e] tl IH]; cbn; auto; intros lo (h1 & h2 & h3).
  repeat destr_if; cbn.
  - repeat split; auto.
  - repeat split; auto; lia.
  - apply IH. eapply wf_weaken; [|exact h3]; lia.
Qed.

Lemma rm_len largest l : zlen (rm largest l) <= zlen l.
Proof.
  induction l as [|[s e] tl IH]; cbn [rm]; [lia|].
  repeat destr_if; rewrite ?zlen_cons; lia.
Qed.

Lemma rm_covers largest lo l x :
  wf lo l -> (covers (rm largest l) x <-> covers l x /\ largest < x).
Proof.
  revert lo; induction l as [|[s e] tl IH]; cbn [rm]; intros lo h.
  - split; [intros k; destruct (covers_nil _ k) | tauto].
  - destruct h as (h1 & h2 & h3).
    assert (low : covers tl x -> e < x) by (apply covers_low; auto).
    rewrite covers_cons.
    repeat destr_if.
    + rewrite covers_cons. split; [|tauto]. intros [k|k]; [lia|].
      specialize (low k). split; auto; lia.
    + rewrite covers_cons. split.
      * intros [k|k]; [lia|]. specialize (low k). split; auto; lia.
      * intros [[k|k] k']; [left; lia|auto].
    + rewrite (IH e h3). split; [tauto|]. intros [[k|k] k']; [lia|auto].
Qed.

(** ** The set as a whole *)

(** Invariant of a range set. *)
Definition rs_inv (r : rangeset) : Prop :=
  wf (-1) (rs_ranges r) /\ zlen (rs_ranges r) <= rs_cap r /\ 4 <= rs_cap r /\
  match r with Inline l _ => zlen l < 4 | BTree l _ => True end.

Lemma fixup_ranges r : rs_ranges (fixup r) = rs_ranges r.
Proof. destruct r; cbn; destr_if; reflexivity. Qed.
Lemma fixup_cap r : rs_cap (fixup r) = rs_cap r.
Proof. destruct r; cbn; destr_if; reflexivity. Qed.

Lemma fixup_inv r :
  wf (-1) (rs_ranges r) -> zlen (rs_ranges r) <= rs_cap r -> 4 <= rs_cap r ->
  match r with Inline l _ => zlen l <= 4 | BTree _ _ => True end ->
  rs_inv (fixup r).
Proof.
  intros h1 h2 h3 h4. unfold rs_inv.
  rewrite fixup_ranges, fixup_cap. repeat split; auto.
  destruct r; cbn; unfold MAX_INLINE_CAPACITY, MIN_TO_INLINE in *; destr_if; auto; lia.
Qed.

Lemma uins_len s e l : zlen (uins s e l) <= zlen l + 1.
Proof.
  revert s e; induction l as [|[a b] tl IH]; intros s e; cbn [uins].
  - cbv; discriminate.
  - repeat destr_if; rewrite ?zlen_cons.
    + specialize (IH s e); lia.
    + lia.
    + specialize (IH (Z.min s a) (Z.max e b)); lia.
Qed.

Lemma rs_new_inv cap : 4 <= cap -> rs_inv (rs_new cap).
Proof. intros; unfold rs_inv, rs_new; cbn [rs_ranges rs_cap wf]; rewrite zlen_nil; lia. Qed.

Lemma rs_insert_spec r s e :
  rs_inv r -> 0 <= s -> s <= e ->
  exists r', rs_insert (s, e) r = Ok r' /\ rs_inv r' /\ rs_cap r' = rs_cap r /\
    rs_ranges r' = if zlen (uins s e (rs_ranges r)) <=? rs_cap r
                   then uins s e (rs_ranges r) else uins s e (tl (rs_ranges r)).
Proof.
  intros (w & hl & hc & hi) hs hse.
  pose proof (uins_len s e (rs_ranges r)) as hu.
  pose proof (uins_len s e (tl (rs_ranges r))) as hu2.
  assert (ht : zlen (tl (rs_ranges r)) + 1 <= Z.max 1 (zlen (rs_ranges r))).
  { destruct (rs_ranges r); cbn [tl]; rewrite ?zlen_cons, ?zlen_nil; lia. }
  destruct r as [l cap | l cap]; cbn [rs_ranges rs_cap] in *; cbn [rs_insert].
  - unfold inline_insert; cbn [fst snd]. rewrite inl_scan_uins; cbn [app]; eauto; try lia.
    2:{ intros ? ? []. }
    cbn [bind]. eexists; split; [reflexivity|].
    rewrite fixup_cap, fixup_ranges. cbn [rs_ranges rs_cap].
    replace (zlen (uins s e l) <=? cap) with true by lia.
    split; [|auto]. apply fixup_inv; cbn [rs_ranges rs_cap]; auto; try lia.
    apply uins_wf; auto; lia.
  - rewrite (btree_insert_spec s e l cap (-1)); auto; try lia. cbn [bind].
    eexists; split; [reflexivity|].
    rewrite fixup_cap, fixup_ranges. cbn [rs_ranges rs_cap].
    split; [|auto]. apply fixup_inv; cbn [rs_ranges rs_cap]; auto.
    + destr_if; apply uins_wf; auto; try lia. apply wf_tl; auto.
    + destr_if; lia.
Qed.

Lemma rs_remove_until_spec r largest :
  rs_inv r ->
  exists r', rs_remove_until largest r = Ok r' /\ rs_inv r' /\ rs_cap r' = rs_cap r /\
    zlen (rs_ranges r') <= zlen (rs_ranges r) /\
    (forall x, covers (rs_ranges r') x <-> covers (rs_ranges r) x /\ largest < x).
Proof.
  intros (w & hl & hc & hi).
  destruct r as [l cap | l cap]; cbn [rs_ranges rs_cap] in *; cbn [rs_remove_until].
  - eexists; split; [reflexivity|]. rewrite fixup_cap, fixup_ranges. cbn [rs_ranges rs_cap].
    pose proof (inline_remove_until_len largest l).
    split; [|split; [auto|split; [auto|intros x; apply (inline_remove_until_covers _ _ _ _ w)]]].
    apply fixup_inv; cbn [rs_ranges rs_cap]; auto; try lia.
    apply inline_remove_until_wf; auto.
  - rewrite (btree_remove_until_rm largest (-1)); auto; try lia. cbn [bind].
    eexists; split; [reflexivity|]. rewrite fixup_cap, fixup_ranges. cbn [rs_ranges rs_cap].
    pose proof (rm_len largest l).
    split; [|split; [auto|split; [auto|intros x; apply (rm_covers _ _ _ _ w)]]].
    apply fixup_inv; cbn [rs_ranges rs_cap]; auto; try lia.
    apply rm_wf; auto.
Qed.
