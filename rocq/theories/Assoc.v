(** Association lists keyed by [Z]: the model of a map or slab. *)
Require Import Verif.Base.

Section Assoc.
Context {A : Type}.

Fixpoint aget (k : Z) (m : list (Z * A)) : option A :=
  match m with
  | [] => None
  | (k', v) :: tl => if k =? k' then Some v else aget k tl
  end.

(** Replace the value under [k], or add it at the end. *)
Fixpoint aset (k : Z) (v : A) (m : list (Z * A)) : list (Z * A) :=
  match m with
  | [] => [(k, v)]
  | (k', v') :: tl => if k =? k' then (k, v) :: tl else (k', v') :: aset k v tl
  end.

Definition adel (k : Z) (m : list (Z * A)) : list (Z * A) :=
  filter (fun p => negb (fst p =? k)) m.

Definition akeys (m : list (Z * A)) : list Z := map fst m.

Fixpoint asum (f : A -> Z) (m : list (Z * A)) : Z :=
  match m with [] => 0 | (_, v) :: tl => f v + asum f tl end.

Lemma aget_aset_same k v m : aget k (aset k v m) = Some v.
Proof.
  induction m as [|[k' v'] tl IH]; cbn; [now rewrite Z.eqb_refl|].
  destruct (k =? k') eqn:E; cbn; [now rewrite Z.eqb_refl|now rewrite E].
Qed.

Lemma aget_aset_other k k' v m : k <> k' -> aget k' (aset k v m) = aget k' m.
Proof.
  intros h. induction m as [|[k0 v0] tl IH]; cbn.
  - replace (k' =? k) with false by lia. reflexivity.
  - destruct (k =? k0) eqn:E; cbn; destruct (k' =? k0) eqn:E2; auto.
    + lia.
    + replace (k' =? k) with false by lia. reflexivity.
Qed.

Lemma aset_aset k v v' m : aset k v' (aset k v m) = aset k v' m.
Proof.
  induction m as [|[k0 v0] tl IH]; cbn; [now rewrite Z.eqb_refl|].
  destruct (k =? k0) eqn:E; cbn; [now rewrite Z.eqb_refl|]. rewrite E. f_equal. exact IH.
Qed.

Lemma aget_adel_same k m : aget k (adel k m) = None.
Proof.
  induction m as [|[k' v'] tl IH]; cbn; auto.
  destruct (k' =? k) eqn:E; cbn; auto. replace (k =? k') with false by lia. auto.
Qed.

Lemma aget_adel_other k k' m : k <> k' -> aget k' (adel k m) = aget k' m.
Proof.
  intros h. induction m as [|[k0 v0] tl IH]; cbn; auto.
  destruct (k0 =? k) eqn:E; cbn; destruct (k' =? k0) eqn:E2; auto. lia.
Qed.

Lemma aget_in k v m : aget k m = Some v -> In (k, v) m.
Proof.
  induction m as [|[k' v'] tl IH]; cbn; [discriminate|].
  destruct (k =? k') eqn:E; intros h.
  - inv h. left. f_equal. lia.
  - auto.
Qed.

Lemma aget_in_key k v m : aget k m = Some v -> In k (akeys m).
Proof. intros h. apply aget_in in h. apply (in_map fst) in h. exact h. Qed.

Lemma in_aget k v m : NoDup (akeys m) -> In (k, v) m -> aget k m = Some v.
Proof.
  induction m as [|[k' v'] tl IH]; cbn; [tauto|]. intros hn [h|h].
  - inv h. now rewrite Z.eqb_refl.
  - inv hn. destruct (k =? k') eqn:E; auto. exfalso. apply H1.
    apply (in_map fst) in h. cbn in h. unfold akeys. replace k' with k by lia. exact h.
Qed.

Lemma aget_none_key k m : aget k m = None <-> ~ In k (akeys m).
Proof.
  induction m as [|[k' v'] tl IH]; cbn; [tauto|].
  destruct (k =? k') eqn:E.
  - split; [discriminate|]. intros h. exfalso. apply h. left. lia.
  - rewrite IH. split; [|tauto]. intros h [q|q]; [lia|tauto].
Qed.

Lemma akeys_aset k v m : akeys (aset k v m) = if match aget k m with Some _ => true | None => false end
  then akeys m else akeys m ++ [k].
Proof.
  induction m as [|[k' v'] tl IH]; cbn; auto.
  destruct (k =? k') eqn:E; cbn.
  - f_equal. lia.
  - fold (akeys (aset k v tl)). rewrite IH. destr_if; reflexivity.
Qed.

Lemma nodup_aset k v m : NoDup (akeys m) -> NoDup (akeys (aset k v m)).
Proof.
  intros h. rewrite akeys_aset. destruct (aget k m) eqn:E; auto.
  apply aget_none_key in E. revert h E. generalize (akeys m). intros l h hk.
  induction l as [|x l IH]; cbn.
  - constructor; [tauto|constructor].
  - inv h. constructor.
    + rewrite in_app_iff. cbn. intros [q|[q|[]]]; [tauto|]. apply hk. left; auto.
    + apply IH; auto. intros q. apply hk. right; auto.
Qed.

Lemma nodup_adel k m : NoDup (akeys m) -> NoDup (akeys (adel k m)).
Proof.
  induction m as [|[k' v'] tl IH]; cbn; auto. intros h. inv h.
  destruct (k' =? k); cbn; auto. constructor; auto.
  intros q. apply H1. unfold akeys, adel in *. apply in_map_iff in q as ([a b] & q1 & q2).
  apply filter_In in q2 as (q2 & _). apply in_map_iff. exists (a, b). auto.
Qed.

Lemma in_aset k v m k' v' : In (k', v') (aset k v m) -> (k' = k /\ v' = v) \/ In (k', v') m.
Proof.
  induction m as [|[k0 v0] tl IH]; cbn.
  - intros [h|[]]. inv h. auto.
  - destruct (k =? k0) eqn:E; cbn; intros [h|h]; auto.
    + inv h. auto.
    + apply IH in h. tauto.
Qed.

Lemma asum_aset f k v m :
  asum f (aset k v m) = asum f m + f v - match aget k m with Some v0 => f v0 | None => 0 end.
Proof.
  induction m as [|[k0 v0] tl IH]; cbn [aset asum aget]; [lia|].
  destruct (k =? k0) eqn:E; cbn [asum]; lia.
Qed.

Lemma asum_adel f k m :
  NoDup (akeys m) ->
  asum f (adel k m) = asum f m - match aget k m with Some v0 => f v0 | None => 0 end.
Proof.
  induction m as [|[k0 v0] tl IH]; cbn [adel asum aget filter fst akeys map]; [lia|].
  intros h. inv h. fold (adel k tl). destruct (k0 =? k) eqn:E; cbn [negb].
  - replace (k =? k0) with true by lia.
    rewrite IH by auto. assert (aget k tl = None) as ->; [|lia].
    apply aget_none_key. replace k with k0 by lia. exact H1.
  - replace (k =? k0) with false by lia. cbn [asum]. fold (adel k tl). rewrite IH by auto. lia.
Qed.

Lemma asum_nonneg f m : (forall k v, In (k, v) m -> 0 <= f v) -> 0 <= asum f m.
Proof.
  induction m as [|[k v] tl IH]; cbn [asum]; [lia|]. intros h.
  specialize (IH (fun k v q => h k v (or_intror q))). specialize (h k v (or_introl eq_refl)). lia.
Qed.

Lemma asum_le f g m : (forall k v, In (k, v) m -> f v <= g v) -> asum f m <= asum g m.
Proof.
  induction m as [|[k v] tl IH]; cbn [asum]; [lia|]. intros h.
  specialize (IH (fun k v q => h k v (or_intror q))). specialize (h k v (or_introl eq_refl)). lia.
Qed.

Lemma asum_get_le f k v m :
  (forall k v, In (k, v) m -> 0 <= f v) -> aget k m = Some v -> f v <= asum f m.
Proof.
  induction m as [|[k0 v0] tl IH]; cbn [asum aget]; [discriminate|]. intros h hg.
  assert (0 <= asum f tl) by (apply asum_nonneg; intros; apply (h k1); right; auto).
  pose proof (h k0 v0 (or_introl eq_refl)).
  destruct (k =? k0); [inv hg; lia|].
  specialize (IH (fun k v q => h k v (or_intror q)) hg). lia.
Qed.
End Assoc.
