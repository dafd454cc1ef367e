(** Vocabulary for connection-level receive flow control: histories are lists of
    calls paired with what they returned. *)
Require Import Verif.Base Verif.Errors Verif.RecvBufModel Verif.RecvSpec Verif.ConnRecvModel.

Definition cr_op_ok (op : cr_op) : Prop :=
  match op with
  | CrFrame _ off _ _ => 0 <= off
  | CrReset _ _ final => 0 <= final
  | CrRead _ cap => 0 <= cap
  | CrShutdown _ | CrCollect _ | CrLost => True
  | CrStreamLimit _ now rtt _ | CrLimit now rtt _ => 0 <= now /\ 0 <= rtt
  end.

(** Offset up to which one processed frame uses stream [s]. *)
Definition reach (s : Z) (ev : cr_op * cr_out) : Z :=
  match ev with
  | (CrFrame sid off data fin, CoStream _) =>
      if (sid =? s) && (fin || negb (zlen data =? 0)) then off + zlen data else 0
  | (CrReset sid _ final, CoStream _) => if sid =? s then final else 0
  | _ => 0
  end.

(** Highest offset received on stream [s]. *)
Fixpoint top (s : Z) (h : list (cr_op * cr_out)) : Z :=
  match h with [] => 0 | ev :: tl => Z.max (reach s ev) (top s tl) end.

Fixpoint sum_over (l : list Z) (f : Z -> Z) : Z :=
  match l with [] => 0 | s :: tl => f s + sum_over tl f end.

(** Connection limit last announced. *)
Fixpoint conn_limit (initial : Z) (outs : list cr_out) : Z :=
  match outs with
  | [] => initial
  | CoLimit (Some l) :: tl => conn_limit l tl
  | _ :: tl => conn_limit initial tl
  end.

Fixpoint conn_limits (outs : list cr_out) : list Z :=
  match outs with
  | [] => []
  | CoLimit (Some l) :: tl => l :: conn_limits tl
  | _ :: tl => conn_limits tl
  end.

(** Bytes the application read, discarded by shutdown, or lost to resets. *)
Definition conn_credit (o : cr_out) : Z :=
  match o with CoStream o => out_credit o | _ => 0 end.

(** STREAM frames that carry data or end the stream. *)
Definition cr_not_empty (op : cr_op) : Prop :=
  match op with CrFrame _ _ data fin => data <> [] \/ fin = true | _ => True end.
