(** C82: the killswitch for tasks, over every interleaving of the calls that
    spawn tasks, the tasks themselves and the thread that kills them. *)
Require Import Verif.Base Verif.Assoc Verif.KillModel Verif.KillSpec Verif.KillProofs.

(** C82: once everything was killed, every task whose spawn has returned has
    ended or was told to abort: none is missed, whatever the interleaving. *)
Theorem C82_none_survives n evs s id : reached n evs s -> all_killed s -> spawned id s -> returned id s ->
  ended id s \/ told id s.
Proof.
  intros h hk (t & ht & hs) (t' & ht' & hc). rewrite ht in ht'. injection ht' as <-.
  pose proof (ki_task _ _ (reached_inv _ _ _ h) _ _ ht) as (t1 & t2). unfold visited in t2. rewrite hk in t2.
  destruct hc as [hc|hc]; rewrite hc in t2.
  - right. exists t. tauto.
  - destruct t2 as (_ & _ & q1 & q2 & _). destruct (q1 (q2 I)); [left|right]; exists t; auto.
Qed.
Print Assumptions C82_none_survives.

(** C82: a spawn that says it spawned nothing left nothing running: no future
    was started, or it was told to abort.  This only happens with the
    killswitch activated. *)
Theorem C82_refused n evs s id : reached n evs s -> returned_none id s ->
  activated evs /\ (spawned id s -> told id s).
Proof.
  intros h (t & ht & hc). pose proof (ki_task _ _ (reached_inv _ _ _ h) _ _ ht) as (t1 & t2). rewrite hc in t2. split.
  - apply (reached_act _ _ _ h). tauto.
  - intros (t' & ht' & hs). rewrite ht in ht'. injection ht' as <-. exists t. tauto.
Qed.
Print Assumptions C82_refused.

(** C82: after the activation no new call starts a task. *)
Theorem C82_none_after n pre post s0 s : reached n pre s0 -> activated pre -> k_run n (EvCheck :: post) s0 = Ok s ->
  returned_none (k_next s0) s /\ ~ spawned (k_next s0) s.
Proof.
  intros h ha hr. cbn [k_run k_step bind] in hr. pose proof (reached_inv _ _ _ h) as hi. apply (reached_act _ _ _ h) in ha.
  assert (q : aget (k_next s0) (k_tasks s) = Some (mkT TNone false SpNone)).
  { eapply refused_run; [apply h| |exact hr|].
    - eapply (kinv_step n EvCheck); [apply h|exact hi|reflexivity].
    - unfold k_check. cbn. rewrite aget_aset_same, ha. reflexivity. }
  split; [eexists; split; [exact q|reflexivity]|]. intros (t & e & hs). rewrite q in e. injection e as <-. cbn in hs. congruence.
Qed.
Print Assumptions C82_none_after.

(** C82: nothing is told to abort, and no spawn is refused, without an
    activation. *)
Theorem C82_left_alone n evs s id : reached n evs s -> ~ activated evs -> ~ told id s /\ ~ returned_none id s.
Proof.
  intros h ha. rewrite <- (reached_act _ _ _ h) in ha. split.
  - intros (t & ht & hb). pose proof (ki_task _ _ (reached_inv _ _ _ h) _ _ ht) as (t1 & t2). auto.
  - intros (t & ht & hc). pose proof (ki_task _ _ (reached_inv _ _ _ h) _ _ ht) as (t1 & t2). rewrite hc in t2. tauto.
Qed.
Print Assumptions C82_left_alone.

(** C82: before an activation the record of a task is there exactly while the
    task is: none is lost, and none is kept after the task is gone. *)
Theorem C82_no_leak n evs s id : reached n evs s -> ~ activated evs -> spawned id s -> returned id s ->
  (aget id (k_map s) = None <-> gone id s) /\ aget id (k_map s) <> Some Tombstone.
Proof.
  intros h ha (t & ht & hs) (t' & ht' & hc). rewrite ht in ht'. injection ht' as <-. rewrite <- (reached_act _ _ _ h) in ha.
  pose proof (ki_task _ _ (reached_inv _ _ _ h) _ _ ht) as (t1 & t2).
  destruct hc as [hc|hc]; rewrite hc in t2; [tauto|]. destruct t2 as (_ & q1 & q2 & _ & q3).
  assert (hb : t_abort t <> true) by tauto. assert (ha' : k_act s = false) by (destruct (k_act s); congruence).
  split; [|intros e; exact (q3 ha' e)]. split.
  - intros e. exists t. split; auto. destruct (q2 ltac:(congruence)); [auto|contradiction].
  - intros (t' & e & hd). rewrite ht in e. injection e as <-. destruct (aget id (k_map s)) as [[|]|] eqn:Em; auto; exfalso; [destruct (q1 eq_refl); auto|auto].
Qed.
Print Assumptions C82_no_leak.

(** C82: the only panic is a second activation. *)
Theorem C82_no_panic n evs s ev : reached n evs s -> (ev = EvActivate -> ~ activated evs) -> k_step n ev s <> Panic.
Proof.
  intros h ha. apply step_ok; [apply h|eapply reached_inv; eauto|]. intros e. specialize (ha e). rewrite <- (reached_act _ _ _ h) in ha.
  destruct (k_act s); congruence.
Qed.
Print Assumptions C82_no_panic.

(** Three tasks on two shards, the killing racing with the third spawn. *)
Definition kill_race : list kev :=
  [EvCheck; EvSpawn 0; EvPoll 0; EvAdd 0; EvCheck; EvSpawn 1; EvPoll 1; EvEnd 1; EvDrop 1; EvCheck; EvSpawn 2; EvPoll 2;
   EvActivate; EvKill; EvAdd 1; EvKill; EvAdd 2; EvKill; EvEnd 0; EvAbort 2; EvCheck].
Definition kill_end : kst := Eval vm_compute in match k_run 2 kill_race k_new with Ok s => s | _ => k_new end.

Example C82_witness : reached 2 kill_race kill_end /\ all_killed kill_end /\
  spawned 0 kill_end /\ returned 0 kill_end /\ ended 0 kill_end /\
  spawned 1 kill_end /\ returned 1 kill_end /\ gone 1 kill_end /\
  spawned 2 kill_end /\ returned_none 2 kill_end /\ ~ ended 2 kill_end /\ told 2 kill_end /\
  returned_none 3 kill_end /\ ~ spawned 3 kill_end.
Proof.
  unfold reached, all_killed, spawned, returned, returned_none, ended, gone, told.
  repeat match goal with |- _ /\ _ => split end; try reflexivity;
    try (eexists; split; [reflexivity|cbn; auto; discriminate]);
    intros (t & e & h); cbn in e; injection e as <-; cbn in h; intuition discriminate.
Qed.

Example C82_quiet_witness :
  let evs := [EvCheck; EvSpawn 0; EvPoll 0; EvEnd 0; EvDrop 0; EvAdd 0; EvCheck; EvSpawn 1; EvAdd 1; EvPoll 1] in
  exists s, reached 4 evs s /\ ~ activated evs /\ gone 0 s /\ ~ gone 1 s /\ spawned 1 s /\ returned 1 s /\ k_map s = [(1, Handle)].
Proof.
  cbv zeta. eexists. split; [split; [lia|vm_compute; reflexivity]|]. unfold activated, gone, spawned, returned.
  repeat match goal with |- _ /\ _ => split end; try reflexivity;
    try (eexists; split; [reflexivity|cbn; auto; discriminate]).
  - cbn. intuition discriminate.
  - intros (t & e & h). cbn in e. injection e as <-. discriminate.
Qed.

(** Finding: [killed_signal()], documented to be triggered after all kill
    signals have been sent, can resolve while a task is running that was not
    told to stop: its spawn had started before the activation and is told of it
    only when it registers the task. *)
Theorem C82_signal_before_last_abort_refuted :
  exists n evs s, reached n evs s /\ all_killed s /\ spawned 0 s /\ ~ ended 0 s /\ ~ told 0 s.
Proof.
  exists 1, [EvCheck; EvSpawn 0; EvPoll 0; EvActivate; EvKill; EvKill]. eexists.
  split; [split; [lia|vm_compute; reflexivity]|]. unfold all_killed, spawned, ended, told.
  repeat match goal with |- _ /\ _ => split end; try reflexivity;
    try (eexists; split; [reflexivity|cbn; auto; discriminate]);
    intros (t & e & h); cbn in e; injection e as <-; cbn in h; intuition discriminate.
Qed.
Print Assumptions C82_signal_before_last_abort_refuted.

(** Finding: the record of a task that is killed while running is never
    removed: its guard finds no entry and leaves a tombstone for ever. *)
Theorem C82_tombstone_left_refuted :
  exists n evs s, reached n evs s /\ all_killed s /\ gone 0 s /\ returned 0 s /\
    forall post s', k_run n post s = Ok s' -> aget 0 (k_map s') = Some Tombstone.
Proof.
  exists 1, [EvCheck; EvSpawn 0; EvPoll 0; EvAdd 0; EvActivate; EvKill; EvKill; EvEnd 0; EvDrop 0]. eexists.
  split; [split; [lia|vm_compute; reflexivity]|]. unfold all_killed, gone, returned.
  split; [reflexivity|]. split; [eexists; split; reflexivity|]. split; [eexists; split; [reflexivity|cbn; auto]|].
  intros post s' h. eapply tomb_run; [exact h|reflexivity|reflexivity|reflexivity|eexists; reflexivity|cbn; lia].
Qed.
Print Assumptions C82_tombstone_left_refuted.
