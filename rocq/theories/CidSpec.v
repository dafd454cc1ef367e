(** What a user relies on about connection ids, over traces: the list of
    operations with their outcomes. *)
Require Import Verif.Base Verif.Errors Verif.CidModel.

Definition trace := list (cid_op * cid_out).

(** A run of [ops] from a new connection, with its trace and last state. *)
Definition cid_trace (dlimit : Z) (scid : list Z) (stok : option Z) (dcid : list Z) (dtok : option Z)
    (ops : list cid_op) (h : trace) (x : cst) : Prop :=
  exists outs, cid_run ops (x_init (cids_new dlimit scid stok dcid dtok)) = (outs, x) /\ h = combine ops outs.

(** The numbers given by successful new_scid calls, in order. *)
Fixpoint given (h : trace) : list Z :=
  match h with
  | [] => []
  | (NewScid _ _ _, OSeq n) :: h => n :: given h
  | _ :: h => given h
  end.

(** Counting up from [n]: each number is the next one, or an earlier one again. *)
Fixpoint counts_up (n : Z) (l : list Z) : option Z :=
  match l with
  | [] => Some n
  | x :: l => if x =? n then counts_up (n + 1) l
              else if (0 <=? x) && (x <? n) then counts_up n l else None
  end.

(** The ids of the connection: number, id and token. *)
Fixpoint issued (h : trace) : list (Z * list Z * option Z) :=
  match h with
  | [] => []
  | (NewScid c t _, OSeq n) :: h => (n, c, Some t) :: issued h
  | _ :: h => issued h
  end.

(** The largest limit the peer ever announced; 2 before it announces one. *)
Fixpoint peer_limit (h : trace) : Z :=
  match h with
  | [] => 2
  | (SetLimit v, _) :: h => Z.max v (peer_limit h)
  | _ :: h => peer_limit h
  end.

Definition retired_by_peer (h : trace) (n : Z) : Prop := exists d o, In (GotRetire n d, o) h.
Definition announced (h : trace) (n : Z) : Prop := exists r c t, In (SendNewCid, OFrame n r c t) h.

(** new_scid was never called with retire_if_needed. *)
Definition never_forced (h : trace) : Prop := forall c t o, ~ In (NewScid c t true, o) h.

(** The retired ids told to the application, in order. *)
Fixpoint told (h : trace) : list (list Z) :=
  match h with
  | [] => []
  | (PopRetired, ORetired (Some c)) :: h => c :: told h
  | _ :: h => told h
  end.

(** Active source and destination ids. *)
Definition s_ids (x : cst) : list ent := c_s (x_ids x).
Definition d_ids (x : cst) : list ent := c_d (x_ids x).
Definition active_s (x : cst) (n : Z) : Prop := In n (map e_seq (s_ids x)).
Definition active_d (x : cst) (n : Z) : Prop := In n (map e_seq (d_ids x)).

(** The numbers of accepted NEW_CONNECTION_ID frames. *)
Definition accepted (h : trace) (n : Z) : Prop := exists c t r, In (GotNewCid c n t r, OUnit) h.
(** RETIRE_CONNECTION_ID was sent for [n]; is waiting to be sent. *)
Definition retire_sent (h : trace) (n : Z) : Prop := exists pid, In (SendRetire pid n, OSeq n) h.
Definition retire_queued (x : cst) (n : Z) : Prop := In n (c_ret (x_ids x)).

(** No frame about destination ids was refused, no lost frame could not be
    queued again, and no retirement by the application hit the bound of the
    queue. *)
Definition d_clean (h : trace) : Prop :=
  Forall (fun p => match p with
                   | (GotNewCid _ _ _ _, o) => o = OUnit
                   | (LostRetire _, o) => o = OUnit
                   | (RetireDcid _ _, o) => o <> OFail IdLimit
                   | _ => True
                   end) h.

(** Only frames that were sent are lost. *)
Fixpoint lost_sent (before h : trace) : Prop :=
  match h with
  | [] => True
  | (LostRetire n, o) :: h => retire_sent before n /\ lost_sent (before ++ [(LostRetire n, o)]) h
  | p :: h => lost_sent (before ++ [p]) h
  end.

(** Every number arrives in one NEW_CONNECTION_ID frame only. *)
Fixpoint offered (h : trace) : list Z :=
  match h with
  | [] => []
  | (GotNewCid _ n _ _, _) :: h => n :: offered h
  | _ :: h => offered h
  end.

(** A path never took over another path's destination id. *)
Definition no_reuse (h : trace) : Prop := forall pid o, ~ In (PeerMigrated pid false, o) h.
Definition no_id_limit (h : trace) : Prop := forall n u, ~ In (RetireDcid n u, OFail IdLimit) h.
