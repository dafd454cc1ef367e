(** C81: frames about connection ids are not forgotten when packets are lost. *)
Require Import Verif.Base Verif.Errors Verif.CidModel Verif.CidSpec Verif.CidSpec2 Verif.CidProofs9.

(** C81: for every id the application gave, a NEW_CONNECTION_ID frame not declared
    lost was sent, or one waits to be sent (C31_announce_all: what waits is sent). *)
Theorem C81_new_cid dl sc st dc dt ops h x n : cid_trace dl sc st dc dt ops h x -> In n (given h) -> 1 <= n ->
  new_lost n h < new_sent n h \/ In n (c_adv (x_ids x)).
Proof. exact (new_not_lost dl sc st dc dt ops h x n). Qed.
Print Assumptions C81_new_cid.

(** C81: for every id of the peer that is no longer in use, a RETIRE_CONNECTION_ID
    frame not declared lost was sent, or the next packet on a path with another id
    has one, if no frame was refused and no lost frame found the queue full. *)
Theorem C81_retire dl sc st dc dt ops h x n : cid_trace dl sc st dc dt ops h x -> d_clean h -> losses_of_sent h ->
  n = 0 \/ accepted h n ->
  active_d x n \/ ret_lost n h < ret_sent n h \/
  forall pid a, path_seq x pid = Some a -> a <> n -> fst (cid_step (SendRetire pid n) x) = OSeq n.
Proof. exact (retire_not_lost dl sc st dc dt ops h x n). Qed.
Print Assumptions C81_retire.

(** ** Witnesses *)
Definition yOps : list cid_op :=
  [NewScid [2] 20 false; SendNewCid; GotNewCid [8] 1 80 0; RetireDcid 0 false; SendRetire 0 0; LostNewCid 1; LostRetire 0].
Definition yOuts : list cid_out := Eval vm_compute in fst (cid_run yOps (x_init (cids_new 2 [1] None [9] None))).
Definition yX : cst := Eval vm_compute in snd (cid_run yOps (x_init (cids_new 2 [1] None [9] None))).
Example y_trace : cid_trace 2 [1] None [9] None yOps (combine yOps yOuts) yX /\ d_clean (combine yOps yOuts) /\
  In 1 (given (combine yOps yOuts)) /\ yOuts = [OSeq 1; OFrame 1 0 [2] 20; OUnit; OUnit; OSeq 0; OUnit; OUnit].
Proof.
  split; [exists yOuts; split; vm_compute; reflexivity|]. split; [repeat constructor; discriminate|]. split; [left; reflexivity|reflexivity].
Qed.
Example y_losses : losses_of_sent (combine yOps yOuts).
Proof.
  intros a b n e. unfold ret_lost, ret_sent. cbn in e.
  do 7 (destruct a as [|p a]; [cbn -[Z.eqb Z.add]; destruct (0 =? n); cbn [andb]; lia|cbn in e; injection e as <- e]).
  destruct a; [|discriminate]. cbn -[Z.eqb Z.add]. destruct (0 =? n); cbn [andb]; lia.
Qed.
Example y_again : new_sent 1 (combine yOps yOuts) = 1 /\ new_lost 1 (combine yOps yOuts) = 1 /\
  ret_sent 0 (combine yOps yOuts) = 1 /\ ret_lost 0 (combine yOps yOuts) = 1 /\
  fst (cid_step SendNewCid yX) = OFrame 1 0 [2] 20 /\ fst (cid_step (SendRetire 0 0) yX) = OSeq 0.
Proof. repeat split. Qed.

(** C81, as refuted for a full queue: the only RETIRE_CONNECTION_ID frame for id 0
    is declared lost while as many retirements wait as the queue holds.  The call
    that was to send a packet fails, and the frame is never sent again: the id is
    neither in use nor waiting. *)
Theorem C81_retire_forgotten_refuted : exists ops h x,
  cid_trace 2 [1] None [9] None ops h x /\
  Forall (fun p => match snd p with OFail _ => fst p = LostRetire 0 | _ => True end) h /\
  In (LostRetire 0, OFail IdLimit) h /\ ret_sent 0 h = 1 /\ ret_lost 0 h = 1 /\
  ~ active_d x 0 /\ ~ retire_queued x 0 /\
  forall pid, fst (cid_step (SendRetire pid 0) x) <> OSeq 0.
Proof.
  exists ([GotNewCid [8] 1 80 1; SendRetire 0 0] ++
          [GotNewCid [10] 2 81 2; GotNewCid [11] 3 82 3; GotNewCid [12] 4 83 4; GotNewCid [13] 5 84 5; GotNewCid [14] 6 85 6; GotNewCid [15] 7 86 7] ++
          [LostRetire 0]).
  eexists _, _. split; [eexists; split; [vm_compute; reflexivity|reflexivity]|]. cbn [app combine].
  split; [repeat (constructor; [cbn; auto|]); constructor|].
  split; [vm_compute; tauto|]. split; [reflexivity|]. split; [reflexivity|].
  split; [vm_compute; intros [h|[]]; discriminate|]. split; [vm_compute; intros h; repeat (destruct h as [h|h]; [discriminate|]); exact h|].
  intros pid. cbn [cid_step]. destruct (path_seq _ pid); [|discriminate]. cbn. discriminate.
Qed.
Print Assumptions C81_retire_forgotten_refuted.
