(** What holds of every task in every interleaving. *)
Require Import Verif.Base Verif.Assoc Verif.KillModel Verif.KillSpec.

(** The shard of a task has been visited. *)
Definition visited (n id : Z) (s : kst) : Prop :=
  match k_kill s with KIdle => False | KRun k => id mod n < k | KDone => True end.

Definition tinv (n id : Z) (s : kst) (t : ktask) (m : option kentry) : Prop :=
  (t_abort t = true -> k_act s = true) /\
  match t_call t with
  | SpChecked => t_status t = TNone /\ m = None /\ t_abort t = false
  | SpAdding => t_status t <> TNone /\ t_abort t = false /\ m <> Some Handle /\
      (m = Some Tombstone -> t_status t = TDone) /\ (k_act s = false -> t_status t = TDone -> m = Some Tombstone)
  | SpFailed => t_status t <> TNone /\ t_abort t = false /\ k_act s = true /\ m <> Some Handle
  | SpNone => m <> Some Handle /\ k_act s = true /\ (t_status t <> TNone -> t_abort t = true)
  | SpSome => t_status t <> TNone /\
      (m = Some Handle -> t_status t <> TDone \/ t_abort t = true) /\
      (m <> Some Handle -> t_status t = TDone \/ t_abort t = true) /\
      (visited n id s -> m <> Some Handle) /\
      (k_act s = false -> m = Some Tombstone -> False)
  end.

Record kinv (n : Z) (s : kst) : Prop := {
  ki_task : forall id t, aget id (k_tasks s) = Some t -> tinv n id s t (aget id (k_map s));
  ki_none : forall id, aget id (k_tasks s) = None -> aget id (k_map s) = None;
  ki_new : forall id, k_next s <= id -> aget id (k_tasks s) = None;
  ki_act : k_act s = true <-> k_kill s <> KIdle }.

Lemma kinv_new n : kinv n k_new.
Proof. constructor; cbn; try discriminate; auto; try tauto. intuition congruence. Qed.

Lemma aget_map_same {A} (f : Z -> A -> A) m id :
  aget id (map (fun e => (fst e, f (fst e) (snd e))) m) = option_map (f id) (aget id m).
Proof.
  induction m as [|[k v] m IH]; cbn; auto. destruct (id =? k) eqn:E; auto. replace k with id by lia. reflexivity.
Qed.
Lemma aget_filter {A} (p : Z -> bool) (m : list (Z * A)) id :
  aget id (filter (fun e => p (fst e)) m) = if p id then aget id m else None.
Proof.
  induction m as [|[k v] m IH]; cbn; [destruct (p id); auto|]. destruct (p k) eqn:Ep; cbn; destruct (id =? k) eqn:E.
  - replace id with k in * by lia. rewrite Ep. auto.
  - auto.
  - replace id with k in * by lia. rewrite Ep in *. auto.
  - auto.
Qed.

Definition killed_task (n k : Z) (m : list (Z * kentry)) (id : Z) (t : ktask) : ktask :=
  match aget id m with
  | Some Handle => if in_shard n k id then mkT (t_status t) true (t_call t) else t
  | _ => t
  end.
Lemma kill_tasks n k s id : aget id (k_tasks (k_kill_shard n k s)) = option_map (killed_task n k (k_map s) id) (aget id (k_tasks s)).
Proof.
  rewrite <- aget_map_same. unfold k_kill_shard. cbn [k_tasks]. f_equal. apply map_ext. intros [x t]. unfold killed_task. cbn.
  destruct (aget x (k_map s)) as [[|]|]; auto. destruct (in_shard n k x); auto.
Qed.
Lemma kill_map n k s id : aget id (k_map (k_kill_shard n k s)) = if in_shard n k id then None else aget id (k_map s).
Proof. unfold k_kill_shard. cbn [k_map]. rewrite (aget_filter (fun x => negb (in_shard n k x))). destruct (in_shard n k id); auto. Qed.

(** A step that touches one task. *)
Lemma kinv_put n s id t t' m' : kinv n s -> aget id (k_tasks s) = Some t ->
  (forall x, x <> id -> aget x m' = aget x (k_map s)) ->
  tinv n id s t' (aget id m') -> kinv n (k_put id t' (k_set_map m' s)).
Proof.
  intros [h1 h2 h3 h4] he ho ht. constructor; cbn [k_put k_set_map k_tasks k_map k_next k_act k_kill]; auto.
  - intros x u hx. destruct (Z.eq_dec id x) as [<-|d].
    + rewrite aget_aset_same in hx. injection hx as <-. exact ht.
    + rewrite aget_aset_other in hx by auto. rewrite ho by auto. apply h1 in hx. exact hx.
  - intros x hx. destruct (Z.eq_dec id x) as [<-|d]; [rewrite aget_aset_same in hx; discriminate|].
    rewrite aget_aset_other in hx by auto. rewrite ho by auto. auto.
  - intros x hx. destruct (Z.eq_dec id x) as [<-|d]; [specialize (h3 _ hx); congruence|]. rewrite aget_aset_other by auto. auto.
Qed.

Lemma put_as id t s : k_put id t s = k_put id t (k_set_map (k_map s) s).
Proof. destruct s; reflexivity. Qed.

Ltac ands_ := repeat match goal with |- _ /\ _ => split end.
Ltac fin := cbn in *; try solve [intuition congruence].

Lemma step_ok n ev s : 0 < n -> kinv n s -> (ev = EvActivate -> k_act s = false) -> k_step n ev s <> Panic.
Proof.
  intros hn h ha. destruct ev as [| id| id| id| id| id| id| |]; cbn [k_step].
  1: discriminate.
  7: rewrite ha by auto; discriminate.
  7: destruct (k_kill s); try discriminate; destruct (_ <? _); discriminate.
  all: destruct (aget id (k_tasks s)) as [[st a c]|] eqn:E; try discriminate.
  2: { destruct c; try (destruct st; discriminate). pose proof (ki_task _ _ h _ _ E) as (_ & t). cbn in t.
       assert (q : k_add id (mkT st a SpAdding) s <> Panic); [|destruct st; exact q].
       unfold k_add. destruct (aget id (k_map s)) as [[|]|] eqn:Em; [exfalso; intuition congruence|discriminate|destruct (k_act s); discriminate]. }
  all: destruct st; try discriminate; destruct c; try discriminate; destruct a; discriminate.
Qed.

Lemma kinv_step n ev s s' : 0 < n -> kinv n s -> k_step n ev s = Ok s' -> kinv n s'.
Proof.
  intros hn h e. pose proof h as [h1 h2 h3 h4].
  destruct ev as [| id| id| id| id| id| id| |]; cbn [k_step] in e;
    try (destruct (aget id (k_tasks s)) as [[st a c]|] eqn:E; try discriminate; pose proof (h1 _ _ E) as (t1 & t2); cbn [t_abort t_call t_status] in t1, t2).
  - injection e as <-. unfold k_check. constructor; cbn [k_tasks k_map k_next k_act k_kill]; auto.
    + intros x t hx. destruct (Z.eq_dec (k_next s) x) as [<-|d].
      * rewrite aget_aset_same in hx. injection hx as <-. rewrite (h2 (k_next s)) by (apply h3; lia). unfold tinv. cbn. destruct (k_act s); fin.
      * rewrite aget_aset_other in hx by auto. apply h1 in hx. exact hx.
    + intros x hx. destruct (Z.eq_dec (k_next s) x) as [<-|d]; [rewrite aget_aset_same in hx; discriminate|]. rewrite aget_aset_other in hx by auto. auto.
    + intros x hx. rewrite aget_aset_other by lia. apply h3. lia.
  - destruct st; try discriminate. destruct c; try discriminate. injection e as <-. rewrite put_as. eapply kinv_put; eauto.
    unfold tinv. destruct t2 as (_ & -> & ->). fin.
  - destruct c; try (destruct st; discriminate). destruct t2 as (k1 & k2 & k3 & k4 & k5).
    assert (e' : k_add id (mkT st a SpAdding) s = Ok s') by (destruct st; exact e). clear e. unfold k_add in e'. cbn [t_status t_abort] in e'.
    destruct (aget id (k_map s)) as [[|]|] eqn:Em; try discriminate.
    + injection e' as <-. eapply kinv_put; eauto; [intros; apply aget_adel_other; auto|]. rewrite aget_adel_same. unfold tinv, visited. fin.
    + destruct (k_act s) eqn:Ea; injection e' as <-.
      * rewrite put_as. eapply kinv_put; eauto. rewrite Em. unfold tinv. fin.
      * eapply kinv_put; eauto; [intros; apply aget_aset_other; auto|]. rewrite aget_aset_same. unfold tinv, visited.
        assert (k_kill s = KIdle) as -> by (destruct (k_kill s); auto; exfalso; assert (false = true) by (apply h4; discriminate); discriminate).
        cbn. rewrite Ea. ands_; fin.
  - destruct c; try (destruct st; discriminate).
    assert (e' : Ok (k_put id (mkT st true SpNone) s) = Ok s' :> res unit kst) by (destruct st; exact e). injection e' as <-.
    rewrite put_as. eapply kinv_put; eauto. unfold tinv. fin.
  - destruct st; try discriminate. destruct a; try discriminate.
    injection e as <-. rewrite put_as. eapply kinv_put; eauto. unfold tinv in *. destruct c; fin.
  - destruct st; try discriminate.
    + destruct a; try discriminate. injection e as <-. rewrite put_as. eapply kinv_put; eauto. unfold tinv in *. destruct c; fin.
    + injection e as <-. rewrite put_as. eapply kinv_put; eauto. unfold tinv in *. destruct c; fin.
  - destruct st; try discriminate. injection e as <-. unfold k_remove.
    eapply kinv_put; eauto.
    + intros x hx. destruct (aget id (k_map s)) as [[|]|]; auto; [apply aget_adel_other; auto|apply aget_aset_other; auto].
    + destruct (aget id (k_map s)) as [[|]|] eqn:Em; [rewrite aget_adel_same|rewrite Em|rewrite aget_aset_same]; unfold tinv in *; destruct c; fin.
      all: cbn in *; ands_; fin; intros; destruct a; fin.
  - destruct (k_act s) eqn:Ea; [discriminate|]. injection e as <-. constructor; cbn [k_tasks k_map k_next k_act k_kill]; auto; [|intuition discriminate].
    intros x t hx. pose proof (h1 _ _ hx) as (t1 & t2). unfold tinv, visited. cbn [k_act k_kill]. split; [auto|].
    destruct (t_call t); fin. ands_; fin. intros q. pose proof (Z.mod_pos_bound x n hn). lia.
  - destruct (k_kill s) as [|k|] eqn:Ek; try discriminate. assert (ha : k_act s = true) by (apply h4; try rewrite Ek; discriminate).
    destruct (k <? n) eqn:El; injection e as <-.
    + constructor; cbn [k_next k_act k_kill k_kill_shard]; auto.
      * intros x t hx. rewrite kill_tasks in hx. rewrite kill_map. destruct (aget x (k_tasks s)) as [u|] eqn:Eu; [|discriminate]. cbn in hx. injection hx as <-.
        pose proof (h1 _ _ Eu) as (t1 & t2). unfold killed_task. unfold tinv, visited in *. cbn [k_act k_kill k_kill_shard]. rewrite Ek in *. rewrite ha in *.
        assert (hv : in_shard n k x = false -> x mod n < k + 1 -> x mod n < k) by (unfold in_shard; lia).
        destruct (aget x (k_map s)) as [[|]|] eqn:Em; destruct (in_shard n k x) eqn:Ei; destruct u as [st a c]; cbn [t_abort t_call t_status] in *; destruct c; fin.
        all: ands_; fin; try (intros; apply t2; fin).
      * intros x hx. rewrite kill_tasks in hx. rewrite kill_map. destruct (in_shard n k x); auto. apply h2. destruct (aget x (k_tasks s)); [discriminate|auto].
      * intros x hx. rewrite kill_tasks, h3 by auto. reflexivity.
      * intuition discriminate.
    + constructor; cbn [k_tasks k_map k_next k_act k_kill]; auto; [|intuition discriminate].
      intros x t hx. pose proof (h1 _ _ hx) as (t1 & t2). unfold tinv, visited in *. rewrite Ek in *. cbn [k_act k_kill]. split; [auto|].
      destruct (t_call t); fin. ands_; fin. intros _. apply t2. pose proof (Z.mod_pos_bound x n hn). lia.
Qed.

Lemma k_run_app n a : forall b s, k_run n (a ++ b) s = let* s1 := k_run n a s in k_run n b s1.
Proof. induction a as [|e a IH]; intros b s; cbn; auto. destruct (k_step n e s); cbn; auto. Qed.
Lemma kinv_run n evs : 0 < n -> forall s s', kinv n s -> k_run n evs s = Ok s' -> kinv n s'.
Proof.
  intros hn. induction evs as [|e evs IH]; cbn; intros s s' h r; [injection r as <-; auto|].
  destruct (k_step n e s) as [s1| |] eqn:E; try discriminate. cbn in r. eapply IH; [|exact r]. eapply kinv_step; eauto.
Qed.
Lemma reached_inv n evs s : reached n evs s -> kinv n s.
Proof. intros (hn & h). eapply kinv_run; eauto. apply kinv_new. Qed.

Lemma act_step n ev s s' : k_step n ev s = Ok s' -> k_act s' = (if match ev with EvActivate => true | _ => false end then true else k_act s).
Proof.
  intros e. destruct ev as [| id| id| id| id| id| id| |]; cbn [k_step] in e; try (destruct (aget id (k_tasks s)) as [[st a c]|]; try discriminate).
  - injection e as <-. reflexivity.
  - destruct st, c; try discriminate. injection e as <-. reflexivity.
  - destruct c; try (destruct st; discriminate). assert (e' : k_add id (mkT st a SpAdding) s = Ok s') by (destruct st; exact e).
    unfold k_add in e'. destruct (aget id (k_map s)) as [[|]|]; try discriminate; [injection e' as <-; reflexivity|].
    destruct (k_act s) eqn:Ea; injection e' as <-; cbn; auto.
  - destruct c; try (destruct st; discriminate). assert (e' : Ok (k_put id (mkT st true SpNone) s) = Ok s' :> res unit kst) by (destruct st; exact e). injection e' as <-. reflexivity.
  - destruct st, a; try discriminate; injection e as <-; reflexivity.
  - destruct st, a; try discriminate; injection e as <-; reflexivity.
  - destruct st, a; try discriminate; injection e as <-; reflexivity.
  - destruct (k_act s); [discriminate|]. injection e as <-. reflexivity.
  - destruct (k_kill s); try discriminate. destruct (_ <? _); injection e as <-; reflexivity.
Qed.
Lemma act_run n evs : forall s s', k_run n evs s = Ok s' -> (k_act s' = true <-> k_act s = true \/ In EvActivate evs).
Proof.
  induction evs as [|e evs IH]; cbn; intros s s' r; [injection r as <-; intuition|].
  destruct (k_step n e s) as [s1| |] eqn:E; try discriminate. cbn in r. rewrite (IH _ _ r). rewrite (act_step _ _ _ _ E).
  destruct e; intuition congruence.
Qed.
Lemma reached_act n evs s : reached n evs s -> (k_act s = true <-> activated evs).
Proof. intros (hn & h). rewrite (act_run _ _ _ _ h). cbn. unfold activated. intuition discriminate. Qed.

(** A call that returned at its first test stays without a task. *)
Lemma refused_step n ev s s' id : 0 < n -> kinv n s -> k_step n ev s = Ok s' ->
  aget id (k_tasks s) = Some (mkT TNone false SpNone) -> aget id (k_tasks s') = Some (mkT TNone false SpNone).
Proof.
  intros hn h e hid.
  assert (hp : forall x t m, x <> id -> aget id (k_tasks (k_put x t (k_set_map m s))) = Some (mkT TNone false SpNone)).
  { intros x t m d. cbn. rewrite aget_aset_other by auto. exact hid. }
  assert (hp' : forall x t, x <> id -> aget id (k_tasks (k_put x t s)) = Some (mkT TNone false SpNone)).
  { intros x t d. rewrite put_as. auto. }
  destruct ev as [| x| x| x| x| x| x| |]; cbn [k_step] in e; try (destruct (aget x (k_tasks s)) as [[st a c]|] eqn:E; try discriminate).
  - injection e as <-. cbn. rewrite aget_aset_other; [exact hid|]. intros <-. rewrite (ki_new _ _ h) in hid by lia. discriminate.
  - destruct st, c; try discriminate. injection e as <-. apply hp'. intros ->. congruence.
  - destruct c; try (destruct st; discriminate). assert (e' : k_add x (mkT st a SpAdding) s = Ok s') by (destruct st; exact e).
    assert (d : x <> id) by (intros ->; congruence).
    unfold k_add in e'. destruct (aget x (k_map s)) as [[|]|]; try discriminate; [injection e' as <-; auto|].
    destruct (k_act s) eqn:Ea; injection e' as <-; auto.
  - destruct c; try (destruct st; discriminate). assert (e' : Ok (k_put x (mkT st true SpNone) s) = Ok s' :> res unit kst) by (destruct st; exact e). injection e' as <-.
    apply hp'. intros ->. congruence.
  - destruct st, a; try discriminate; injection e as <-; apply hp'; intros ->; congruence.
  - destruct st, a; try discriminate; injection e as <-; apply hp'; intros ->; congruence.
  - destruct st, a; try discriminate; injection e as <-; apply hp; intros ->; congruence.
  - destruct (k_act s); [discriminate|]. injection e as <-. exact hid.
  - destruct (k_kill s); try discriminate. destruct (_ <? _); injection e as <-; [|exact hid].
    rewrite kill_tasks, hid. cbn. unfold killed_task. pose proof (ki_task _ _ h _ _ hid) as (_ & t). cbn in t.
    destruct (aget id (k_map s)) as [[|]|]; intuition congruence.
Qed.
Lemma refused_run n evs : 0 < n -> forall s s' id, kinv n s -> k_run n evs s = Ok s' ->
  aget id (k_tasks s) = Some (mkT TNone false SpNone) -> aget id (k_tasks s') = Some (mkT TNone false SpNone).
Proof.
  intros hn. induction evs as [|e evs IH]; cbn; intros s s' id h r hid; [injection r as <-; auto|].
  destruct (k_step n e s) as [s1| |] eqn:E; try discriminate. cbn in r. eapply IH; [|exact r|].
  - eapply kinv_step; eauto.
  - eapply refused_step; eauto.
Qed.

(** Once everything was killed, a tombstone stays. *)
Lemma tomb_step n ev s s' id : k_step n ev s = Ok s' -> k_act s = true -> k_kill s = KDone -> aget id (k_map s) = Some Tombstone ->
  (exists a, aget id (k_tasks s) = Some (mkT TDone a SpSome)) -> k_next s > id ->
  k_act s' = true /\ k_kill s' = KDone /\ aget id (k_map s') = Some Tombstone /\ (exists a, aget id (k_tasks s') = Some (mkT TDone a SpSome)) /\ k_next s' > id.
Proof.
  intros e ha hk hm (a0 & ht) hn.
  destruct ev as [| x| x| x| x| x| x| |]; cbn [k_step] in e; try (destruct (aget x (k_tasks s)) as [[st a c]|] eqn:E; try discriminate).
  - injection e as <-. cbn. ands_; auto; [|lia]. exists a0. rewrite aget_aset_other; auto. lia.
  - destruct st, c; try discriminate. injection e as <-. cbn. ands_; auto. exists a0. rewrite aget_aset_other; auto. intros ->. congruence.
  - destruct c; try (destruct st; discriminate). assert (e' : k_add x (mkT st a SpAdding) s = Ok s') by (destruct st; exact e).
    assert (d : x <> id) by (intros ->; congruence).
    unfold k_add in e'. destruct (aget x (k_map s)) as [[|]|]; try discriminate.
    + injection e' as <-. cbn. ands_; auto; [rewrite aget_adel_other; auto|exists a0; rewrite aget_aset_other; auto].
    + rewrite ha in e'. injection e' as <-. cbn. ands_; auto. exists a0; rewrite aget_aset_other; auto.
  - destruct c; try (destruct st; discriminate). assert (e' : Ok (k_put x (mkT st true SpNone) s) = Ok s' :> res unit kst) by (destruct st; exact e). injection e' as <-.
    cbn. ands_; auto. exists a0. rewrite aget_aset_other; auto. intros ->. congruence.
  - destruct st, a; try discriminate; injection e as <-; cbn; ands_; auto; exists a0; rewrite aget_aset_other; auto; intros ->; congruence.
  - destruct st, a; try discriminate; injection e as <-; cbn; ands_; auto; exists a0; rewrite aget_aset_other; auto; intros ->; congruence.
  - assert (d : x <> id) by (intros ->; rewrite ht in E; injection E as <- <- <-; discriminate).
    assert (e' : st = TDropping /\ s' = k_put x (mkT TDone a c) (k_set_map (k_remove x (k_map s)) s)) by (destruct st; try discriminate; injection e as <-; auto).
    destruct e' as (-> & ->). cbn. ands_; auto.
    + unfold k_remove. destruct (aget x (k_map s)) as [[|]|]; auto; [rewrite aget_adel_other; auto|rewrite aget_aset_other; auto].
    + exists a0. rewrite aget_aset_other; auto.
  - rewrite ha in e. discriminate.
  - rewrite hk in e. discriminate.
Qed.
Lemma tomb_run n evs : forall s s' id, k_run n evs s = Ok s' -> k_act s = true -> k_kill s = KDone -> aget id (k_map s) = Some Tombstone ->
  (exists a, aget id (k_tasks s) = Some (mkT TDone a SpSome)) -> k_next s > id -> aget id (k_map s') = Some Tombstone.
Proof.
  induction evs as [|e evs IH]; cbn; intros s s' id r h1 h2 h3 h4 h5; [injection r as <-; auto|].
  destruct (k_step n e s) as [s1| |] eqn:E; try discriminate. cbn in r.
  destruct (tomb_step _ _ _ _ _ E h1 h2 h3 h4 h5) as (q1 & q2 & q3 & q4 & q5). eapply IH; eauto.
Qed.
