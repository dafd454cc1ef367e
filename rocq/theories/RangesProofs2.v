(** Histories of range sets. *)
Require Import Verif.Base Verif.RangesModel Verif.RangesSpec Verif.RangesProofs.
From Coq Require Import Sorting.Sorted.

Lemma wf_separated lo l : wf lo l -> separated l.
Proof.
  intros h; split.
  - revert lo h; induction l as [|[s e] tl IH]; intros lo h; constructor.
    + destruct h as (_ & _ & h); eauto.
    + destruct h as (_ & _ & h). apply Forall_forall. intros [a b] hin. cbn.
      apply (wf_in e tl a b h hin).
  - revert lo h; induction l as [|[s e] tl IH]; intros lo h; constructor.
    + cbn; destruct h; lia.
    + destruct h as (_ & _ & h); eauto.
Qed.

Lemma rs_run_app a b r :
  rs_run (a ++ b) r = let* r := rs_run a r in rs_run b r.
Proof.
  revert r; induction a as [|op a IH]; intros r; cbn; auto.
  destruct (rs_step op r); cbn; auto.
Qed.

Lemma in_history_snoc ops op x :
  in_history (ops ++ [op]) x <->
  op_adds op x \/ (in_history ops x /\ ~ op_removes op x).
Proof.
  split.
  - intros (bf & o & af & heq & ha & hr).
    destruct (rev_ind_case af) as [-> | (af' & o' & ->)].
    + apply app_inj_tail in heq. destruct heq; subst; auto.
    + rewrite app_comm_cons, app_assoc in heq. apply app_inj_tail in heq.
      destruct heq as [-> ->]. right. split.
      * exists bf, o, af'. repeat split; auto. intros; apply hr; apply in_or_app; auto.
      * apply hr; apply in_or_app; cbn; auto.
  - intros [h | [(bf & o & af & -> & ha & hr) h]].
    + exists ops, op, []. repeat split; auto.
    + exists bf, o, (af ++ [op]). rewrite <- app_assoc. repeat split; auto.
      intros o' hin; apply in_app_or in hin; destruct hin as [hin | [<- | []]]; auto.
Qed.

Definition covers_in_ranges l x : covers l x <-> in_ranges l x.
Proof. reflexivity. Qed.

Lemma covers_tl l x : covers (tl l) x -> covers l x.
Proof. destruct l as [|[s e] l]; cbn; auto. rewrite covers_cons; auto. Qed.

(** One step, exact version. *)
Lemma rs_step_ok op r :
  rs_inv r -> rs_op_ok op ->
  exists r', rs_step op r = Ok r' /\ rs_inv r' /\ rs_cap r' = rs_cap r /\
    zlen (rs_ranges r') <= zlen (rs_ranges r) + 1 /\
    (forall x, covers (rs_ranges r') x -> op_adds op x \/ (covers (rs_ranges r) x /\ ~ op_removes op x)) /\
    (zlen (rs_ranges r) < rs_cap r ->
     forall x, op_adds op x \/ (covers (rs_ranges r) x /\ ~ op_removes op x) -> covers (rs_ranges r') x).
Proof.
  intros hi ho.
  assert (ins : forall s e, 0 <= s -> s <= e -> exists r', rs_insert (s, e) r = Ok r' /\ rs_inv r' /\ rs_cap r' = rs_cap r /\
    zlen (rs_ranges r') <= zlen (rs_ranges r) + 1 /\
    (forall x, covers (rs_ranges r') x -> s <= x < e \/ (covers (rs_ranges r) x /\ ~ False)) /\
    (zlen (rs_ranges r) < rs_cap r ->
     forall x, s <= x < e \/ (covers (rs_ranges r) x /\ ~ False) -> covers (rs_ranges r') x)).
  { intros s e h1 h2. destruct (rs_insert_spec r s e hi h1 h2) as (r' & p1 & p2 & p3 & p4).
    pose proof (uins_len s e (rs_ranges r)). pose proof (uins_len s e (tl (rs_ranges r))).
    assert (zlen (tl (rs_ranges r)) <= zlen (rs_ranges r)).
    { destruct (rs_ranges r); cbn [tl]; rewrite ?zlen_cons; lia. }
    destruct hi as (w & _).
    exists r'. split; [auto|]. split; [auto|]. split; [auto|].
    rewrite p4. split; [destr_if; lia|]. split.
    - intros x. destr_if.
      + rewrite (uins_covers (-1)) by auto. tauto.
      + rewrite (uins_covers (-1)) by (auto using wf_tl).
        intros [k|k]; auto. apply covers_tl in k; auto.
    - intros hl x. replace (zlen (uins s e (rs_ranges r)) <=? rs_cap r) with true by lia.
      rewrite (uins_covers (-1)) by auto. tauto. }
  destruct op as [s e | y | n]; cbn [rs_step op_adds op_removes] in *.
  - apply ins; cbn in ho; lia.
  - unfold rs_push_item. cbn in ho. destruct (ins y (y + 1)) as (r' & p); try lia.
    exists r'. destruct p as (p1 & p2 & p3 & p4 & p5 & p6).
    split; [auto|]. split; [auto|]. split; [auto|]. split; [auto|]. split.
    + intros x hx. destruct (p5 x hx); auto. left; lia.
    + intros hl x hx. apply p6; auto. destruct hx; [left; lia | auto].
  - destruct (rs_remove_until_spec r n hi) as (r' & p1 & p2 & p3 & p4 & p5).
    exists r'. split; [auto|]. split; [auto|]. split; [auto|]. split; [lia|]. split.
    + intros x. rewrite p5. intros [h1 h2]. right; split; auto; lia.
    + intros _ x [[]|[h1 h2]]. rewrite p5. split; auto; lia.
Qed.

Lemma rs_run_inv ops : forall r, rs_inv r -> Forall rs_op_ok ops ->
  exists r', rs_run ops r = Ok r' /\ rs_inv r' /\ rs_cap r' = rs_cap r /\
    zlen (rs_ranges r') <= zlen (rs_ranges r) + zlen ops.
Proof.
  induction ops as [|op ops IH]; intros r hi hf; cbn [rs_run].
  - exists r; rewrite zlen_nil; repeat split; try apply hi; auto; lia.
  - inv hf. destruct (rs_step_ok op r hi H1) as (r1 & -> & i1 & c1 & l1 & _).
    cbn [bind]. destruct (IH r1 i1 H2) as (r2 & -> & i2 & c2 & l2).
    exists r2; rewrite zlen_cons; split; auto; split; auto; split; [congruence|lia].
Qed.

Lemma rs_new_run_subset cap ops :
  4 <= cap -> Forall rs_op_ok ops ->
  exists r, rs_run ops (rs_new cap) = Ok r /\ rs_inv r /\ rs_cap r = cap /\ zlen (rs_ranges r) <= zlen ops /\
    (forall x, covers (rs_ranges r) x -> in_history ops x) /\
    (zlen ops <= cap -> forall x, in_history ops x -> covers (rs_ranges r) x).
Proof.
  intros hc. induction ops as [|op ops IH] using rev_ind; intros hf.
  - exists (rs_new cap). split; [reflexivity|]. split; [apply rs_new_inv; auto|].
    split; [reflexivity|]. split; [cbv; discriminate|]. split.
    + intros x h; destruct (covers_nil _ h).
    + intros _ x (bf & o & af & h & _). destruct bf; discriminate.
  - apply Forall_app in hf. destruct hf as [hf1 hf2]. inv hf2.
    destruct (IH hf1) as (r & p1 & p2 & p3 & p4 & p5 & p6).
    destruct (rs_step_ok op r p2 H1) as (r' & q1 & q2 & q3 & q4 & q5 & q6).
    exists r'. rewrite rs_run_app, p1. cbn [bind rs_run]. rewrite q1. cbn [bind].
    rewrite zlen_app, zlen_cons, zlen_nil.
    split; [auto|]. split; [auto|]. split; [congruence|]. split; [lia|]. split.
    + intros x h. rewrite in_history_snoc. destruct (q5 x h) as [k | [k k']]; auto.
    + intros hl x h. rewrite in_history_snoc in h. apply q6; [lia|].
      destruct h as [h | [h1 h2]]; auto. right; split; auto. apply p6; auto; lia.
Qed.

Lemma ranges_exact cap ops :
  4 <= cap -> zlen ops <= cap -> Forall rs_op_ok ops ->
  exists r, rs_run ops (rs_new cap) = Ok r /\
    (forall x, in_ranges (rs_ranges r) x <-> in_history ops x) /\
    separated (rs_ranges r).
Proof.
  intros h1 h2 h3. destruct (rs_new_run_subset cap ops h1 h3) as (r & p1 & p2 & p3 & p4 & p5 & p6).
  exists r. split; auto. split.
  - intros x; split; [apply p5 | apply p6; auto].
  - destruct p2 as (w & _). eapply wf_separated; eauto.
Qed.

Lemma ranges_bounded cap ops :
  4 <= cap -> Forall rs_op_ok ops ->
  exists r, rs_run ops (rs_new cap) = Ok r /\ rs_len r <= cap /\
    (forall x, in_ranges (rs_ranges r) x -> in_history ops x) /\
    separated (rs_ranges r).
Proof.
  intros h1 h3. destruct (rs_new_run_subset cap ops h1 h3) as (r & p1 & p2 & p3 & p4 & p5 & p6).
  exists r. split; auto. destruct p2 as (w & hl & _). split; [unfold rs_len; lia|]. split; auto.
  eapply wf_separated; eauto.
Qed.

(** A bounded set agrees with the unbounded one while the latter fits. *)
Definition same_repr (r u : rangeset) : Prop :=
  match r, u with
  | Inline l _, Inline l' _ | BTree l _, BTree l' _ => l = l'
  | _, _ => False
  end.

Lemma same_repr_fixup r u : same_repr r u -> same_repr (fixup r) (fixup u).
Proof.
  destruct r, u; cbn; intros h; try tauto; subst; destr_if; cbn; auto.
Qed.

Lemma same_repr_ranges r u : same_repr r u -> rs_ranges r = rs_ranges u.
Proof. destruct r, u; cbn; tauto. Qed.

Lemma same_repr_insert r u r' u' s e :
  rs_inv r -> rs_inv u -> same_repr r u -> 0 <= s -> s <= e ->
  rs_insert (s, e) r = Ok r' -> rs_insert (s, e) u = Ok u' ->
  zlen (rs_ranges r) < rs_cap u -> zlen (rs_ranges u') <= rs_cap r ->
  same_repr r' u'.
Proof.
  intros ir iu hs h1 h2 e1 e2 lu lr.
  destruct (rs_insert_spec u s e iu h1 h2) as (u2 & y1 & _ & _ & y2).
  rewrite e2 in y1; inv y1.
  pose proof (uins_len s e (rs_ranges u)) as hlu.
  rewrite <- (same_repr_ranges _ _ hs) in *.
  replace (zlen (uins s e (rs_ranges r)) <=? rs_cap u) with true in y2 by lia.
  rewrite y2 in lr.
  destruct ir as (wr & a1 & a2 & a3), iu as (wu & b1 & b2 & b3).
  destruct r as [l c | l c], u as [m d | m d]; cbn in hs; try tauto; subst m;
    cbn [rs_insert rs_ranges rs_cap] in *.
  - unfold inline_insert in e1, e2; cbn [fst snd] in *.
    assert (X : forall c, zlen l < c -> inl_scan s e c [] l = Ok (uins s e l)).
    { intros c' hc'. rewrite inl_scan_uins; cbn [app]; eauto. intros ? ? []. }
    rewrite X in e1, e2 by lia.
    cbn [bind app] in *. apply (f_equal (fun x => match x with Ok a => a | _ => rs_default end)) in e1, e2; cbv beta iota in e1, e2; subst. apply same_repr_fixup. reflexivity.
  - rewrite (btree_insert_spec s e l c (-1)) in e1; auto; try lia.
    rewrite (btree_insert_spec s e l d (-1)) in e2; auto; try lia.
    cbn [bind] in *.
    replace (zlen (uins s e l) <=? c) with true in e1 by lia.
    replace (zlen (uins s e l) <=? d) with true in e2 by lia.
    apply (f_equal (fun x => match x with Ok a => a | _ => rs_default end)) in e1, e2; cbv beta iota in e1, e2; subst. apply same_repr_fixup. reflexivity.
Qed.

Lemma ranges_capacity_irrelevant cap ops :
  4 <= cap -> zlen ops <= usize_max -> Forall rs_op_ok ops ->
  (forall pre suf rp, ops = pre ++ suf -> rs_run pre rs_default = Ok rp -> rs_len rp <= cap) ->
  exists r u, rs_run ops (rs_new cap) = Ok r /\ rs_run ops rs_default = Ok u /\
    rs_ranges r = rs_ranges u.
Proof.
  intros hc hz hf hcap.
  cut (exists r u, rs_run ops (rs_new cap) = Ok r /\ rs_run ops rs_default = Ok u /\ same_repr r u).
  { intros (r & u & a & b & c); exists r, u; auto using same_repr_ranges. }
  revert hz hf hcap.
  induction ops as [|op ops IH] using rev_ind; intros hz hf hcap.
  - exists (rs_new cap), rs_default; repeat split.
  - apply Forall_app in hf. destruct hf as [hf1 hf2]. inv hf2.
    rewrite zlen_app, zlen_cons, zlen_nil in hz.
    destruct IH as (r & u & p1 & p2 & p3); auto; [lia| |].
    { intros pre suf rp -> hr. apply (hcap pre (suf ++ [op]) rp); auto. now rewrite app_assoc. }
    assert (hu : rs_inv u /\ rs_cap u = usize_max /\ zlen (rs_ranges u) <= zlen ops).
    { destruct (rs_new_run_subset usize_max ops) as (u' & a1 & a2 & a3 & a4 & _); auto.
      - cbv; discriminate.
      - change (rs_new usize_max) with rs_default in a1. rewrite p2 in a1. inv a1. auto. }
    assert (hr : rs_inv r /\ rs_cap r = cap).
    { destruct (rs_new_run_subset cap ops) as (u' & a1 & a2 & a3 & _); auto.
      rewrite p1 in a1. inv a1. auto. }
    destruct hu as (iu & cu & lu), hr as (ir & cr).
    destruct (rs_step_ok op r ir H1) as (r' & q1 & q2 & q3 & _).
    destruct (rs_step_ok op u iu H1) as (u' & t1 & t2 & t3 & _).
    assert (hul : zlen (rs_ranges u') <= cap).
    { apply (hcap (ops ++ [op]) [] u'); [now rewrite app_nil_r|].
      rewrite rs_run_app, p2; cbn [bind rs_run]; rewrite t1; reflexivity. }
    exists r', u'. rewrite !rs_run_app, p1, p2. cbn [bind rs_run]. rewrite q1, t1. cbn [bind].
    split; auto. split; auto.
    pose proof (same_repr_ranges _ _ p3) as hsr.
    destruct op as [s e | y | n]; cbn [rs_step rs_op_ok] in *.
    + apply (same_repr_insert r u r' u' s e); auto; try lia. rewrite hsr; lia.
    + apply (same_repr_insert r u r' u' y (y + 1)); auto; try lia. rewrite hsr; lia.
    + destruct ir as (wr & a1 & a2 & a3), iu as (wu & b1 & b2 & b3).
      destruct r as [l c | l c], u as [m d | m d]; cbn in p3; try tauto; subst m;
        cbn [rs_remove_until rs_ranges rs_cap] in *.
      * apply (f_equal (fun x => match x with Ok a => a | _ => rs_default end)) in q1, t1; cbv beta iota in q1, t1; subst. apply same_repr_fixup; reflexivity.
      * rewrite (btree_remove_until_rm n (-1)) in q1, t1; auto; try lia.
        cbn [bind] in *. apply (f_equal (fun x => match x with Ok a => a | _ => rs_default end)) in q1, t1; cbv beta iota in q1, t1; subst. apply same_repr_fixup; reflexivity.
Qed.

(** Non-empty inserts leave no empty range. *)
Definition nonempty (l : list range) : Prop := forall s e, In (s, e) l -> s < e.

Lemma uins_nonempty s e l : nonempty l -> s < e -> nonempty (uins s e l).
Proof.
  revert s e; induction l as [|[a b] tl IH]; intros s e h hse; cbn [uins].
  - intros ? ? [k | []]; inv k; auto.
  - assert (nonempty tl) by (intros ? ? k; apply h; cbn; auto).
    assert (a < b) by (apply h; cbn; auto).
    repeat destr_if.
    + intros ? ? [k | k]; [inv k; auto | revert k; apply IH; auto].
    + intros ? ? [k | k]; [inv k; auto | apply h; auto].
    + apply IH; auto; lia.
Qed.

Lemma nonempty_tl l : nonempty l -> nonempty (tl l).
Proof. destruct l; auto. intros h s e k; apply h; cbn; auto. Qed.

Lemma rm_nonempty n l : nonempty l -> nonempty (rm n l).
Proof.
  induction l as [|[s e] tl IH]; cbn [rm]; auto. intros h.
  assert (nonempty tl) by (intros ? ? k; apply h; cbn; auto).
  repeat destr_if; auto. intros ? ? [k|k]; [inv k; lia | apply h; cbn; auto].
Qed.

Lemma iru_nonempty n l : nonempty l -> nonempty (inline_remove_until n l).
Proof.
  induction l as [|[s e] tl IH]; cbn [inline_remove_until]; auto. intros h.
  assert (nonempty tl) by (intros ? ? k; apply h; cbn; auto).
  assert (s < e) by (apply h; cbn; auto).
  repeat destr_if; auto. intros ? ? [k|k]; [inv k; lia | apply h; cbn; auto].
Qed.

Lemma rs_step_nonempty op r r' :
  rs_inv r -> rs_op_nonempty op -> nonempty (rs_ranges r) ->
  rs_step op r = Ok r' -> nonempty (rs_ranges r').
Proof.
  intros hi ho hn.
  assert (ins : forall s e, 0 <= s < e -> rs_insert (s, e) r = Ok r' -> nonempty (rs_ranges r')).
  { intros s e h1 h2. destruct (rs_insert_spec r s e hi) as (r2 & p1 & _ & _ & p2); try lia.
    rewrite h2 in p1; inv p1. rewrite p2. destr_if; apply uins_nonempty; try lia; auto.
    apply nonempty_tl; auto. }
  destruct op as [s e | y | n]; cbn [rs_step rs_op_nonempty] in *.
  - apply ins; auto.
  - apply ins; lia.
  - destruct hi as (w & a1 & a2 & a3). destruct r as [l c | l c]; cbn [rs_remove_until rs_ranges rs_cap] in *.
    + intros k; oki k. rewrite fixup_ranges. apply iru_nonempty; auto.
    + rewrite (btree_remove_until_rm n (-1)); auto; try lia. cbn [bind].
      intros k; oki k. rewrite fixup_ranges. apply rm_nonempty; auto.
Qed.

Lemma op_nonempty_ok op : rs_op_nonempty op -> rs_op_ok op.
Proof. destruct op; cbn; lia. Qed.

Lemma rs_run_nonempty ops : forall r r',
  rs_inv r -> Forall rs_op_nonempty ops -> nonempty (rs_ranges r) ->
  rs_run ops r = Ok r' -> nonempty (rs_ranges r').
Proof.
  induction ops as [|op ops IH]; cbn [rs_run]; intros r r' hi hf hn h.
  - inv h; auto.
  - inv hf. destruct (rs_step_ok op r hi (op_nonempty_ok _ H1)) as (r1 & e1 & i1 & _).
    rewrite e1 in h; cbn [bind] in h. apply (IH r1 r'); auto.
    apply (rs_step_nonempty op r r1); auto.
Qed.

Lemma wf_last l x lo : wf lo (l ++ [x]) -> forall s e, In (s, e) (l ++ [x]) -> e <= snd x.
Proof.
  revert lo; induction l as [|[a b] l IH]; cbn [app]; intros lo h s e hin.
  - destruct hin as [k | []]; subst x; cbn; lia.
  - destruct h as (h1 & h2 & h3). destruct hin as [k | k].
    + inv k. assert (In x (l ++ [x])) by (apply in_or_app; cbn; auto).
      destruct x as [c d]. destruct (wf_in _ _ _ _ h3 H). cbn; lia.
    + eapply IH; eauto.
Qed.

(** [first]/[last] are the minimum and maximum of the set. *)
Lemma ranges_first_last cap ops :
  4 <= cap -> Forall rs_op_nonempty ops ->
  exists r, rs_run ops (rs_new cap) = Ok r /\
    match rs_first r with
    | None => forall x, ~ in_ranges (rs_ranges r) x
    | Some f => in_ranges (rs_ranges r) f /\ forall x, in_ranges (rs_ranges r) x -> f <= x
    end /\
    match rs_last r with
    | Ok None => forall x, ~ in_ranges (rs_ranges r) x
    | Ok (Some f) => in_ranges (rs_ranges r) f /\ forall x, in_ranges (rs_ranges r) x -> x <= f
    | _ => False
    end.
Proof.
  intros hc hf.
  assert (hf' : Forall rs_op_ok ops).
  { eapply Forall_impl; [|exact hf]. apply op_nonempty_ok. }
  destruct (rs_run_inv ops (rs_new cap) (rs_new_inv cap hc) hf') as (r & p1 & (w & _) & _).
  assert (hn : nonempty (rs_ranges r)).
  { eapply rs_run_nonempty; eauto. apply rs_new_inv; auto. intros ? ? []. }
  exists r. split; auto. unfold rs_first, rs_last. split.
  - destruct (rs_ranges r) as [|[s e] tl].
    + intros x h. apply (covers_nil _ h).
    + split.
      * exists s, e. split; [cbn; auto|]. assert (s < e) by (apply hn; cbn; auto). lia.
      * intros x (a & b & [k | k] & k'); [inv k; lia|].
        destruct w as (w1 & w2 & w3). destruct (wf_in _ _ _ _ w3 k). lia.
  - destruct (rev_ind_case (rs_ranges r)) as [k | (l' & [s e] & k)]; rewrite k in *.
    + intros x h. apply (covers_nil _ h).
    + rewrite rev_app_distr. cbn [rev app].
      assert (hin : In (s, e) (l' ++ [(s, e)])) by (apply in_or_app; cbn; auto).
      assert (hse : s < e) by (apply hn; auto).
      destruct (wf_in _ _ _ _ w hin). replace (e =? 0) with false by lia. split.
      * exists s, e. split; auto; lia.
      * intros x (a & b & i1 & i2). pose proof (wf_last _ _ _ w a b i1). cbn in *. lia.
Qed.
