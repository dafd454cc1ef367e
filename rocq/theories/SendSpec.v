(** Specification vocabulary for send streams: everything is read off the
    history of calls and their results. *)
Require Import Verif.Base Verif.Errors Verif.SendBufModel.

(** Legal arguments; limits are varints, hence below 2^62. *)
Definition sn_op_ok (op : sn_op) : Prop :=
  match op with
  | SnWrite _ cap _ | SnWriteZc _ cap _ => 0 <= cap
  | SnEmit n => 0 <= n
  | SnMaxData m => 0 <= m <= max_varint
  | _ => True
  end.

(** Bytes accepted by one call: the first [n] bytes given, when it returned [n]. *)
Definition accepted (op : sn_op) (o : sn_out) : list Z :=
  match op, o with
  | SnWrite data _ _, SoWrite (Ok n) => take n data
  | SnWriteZc data _ _, SoWrite (Ok n) => take n data
  | _, _ => []
  end.

(** All bytes the application wrote. *)
Fixpoint written (ops : list sn_op) (outs : list sn_out) : list Z :=
  match ops, outs with
  | op :: ops, o :: outs => accepted op o ++ written ops outs
  | _, _ => []
  end.

(** The STREAM frames sent, in order. *)
Fixpoint frames (outs : list sn_out) : list sframe :=
  match outs with
  | [] => []
  | SoFrame (Some f) :: outs => f :: frames outs
  | _ :: outs => frames outs
  end.

Definition in_frame (f : sframe) (x : Z) : Prop :=
  sf_off f <= x < sf_off f + zlen (sf_bytes f).
Definition frame_end (f : sframe) : Z := sf_off f + zlen (sf_bytes f).

(** The largest limit the peer gave: the initial one or a MAX_STREAM_DATA. *)
Fixpoint limit (md : Z) (ops : list sn_op) : Z :=
  match ops with
  | [] => md
  | SnMaxData m :: ops => limit (Z.max md m) ops
  | _ :: ops => limit md ops
  end.

(** A RESET_STREAM was queued, by the application's shutdown or by STOP_SENDING. *)
Definition was_reset (outs : list sn_out) : Prop :=
  exists r, In (SoReset (Some r)) outs.

(** A write with the FIN flag was accepted in full. *)
Definition fin_write (op : sn_op) (o : sn_out) : Prop :=
  match op, o with
  | SnWrite data _ true, SoWrite (Ok n) => n = zlen data
  | SnWriteZc data _ true, SoWrite (Ok n) => n = zlen data
  | _, _ => False
  end.
Definition fin_written (ops : list sn_op) (outs : list sn_out) : Prop :=
  exists op o, In (op, o) (combine ops outs) /\ fin_write op o.

(** ... by a call that also accepted at least one byte. *)
Definition fin_written_with_data (ops : list sn_op) (outs : list sn_out) : Prop :=
  exists op o, In (op, o) (combine ops outs) /\ fin_write op o /\ accepted op o <> [].

(** The event [ev] about the [i]-th frame happened after that frame was sent. *)
Definition happened (ev : nat -> sn_op) (ops : list sn_op) (outs : list sn_out) (i : nat) : Prop :=
  exists pre post, ops = pre ++ ev i :: post /\
    (i < length (frames (firstn (length pre) outs)))%nat.
Definition frame_acked := happened SnAck.
Definition frame_lost := happened SnLost.

(** Offset [x] is in an acknowledged frame; in a frame still in flight. *)
Definition byte_acked (ops : list sn_op) (outs : list sn_out) (x : Z) : Prop :=
  exists i f, nth_error (frames outs) i = Some f /\ in_frame f x /\ frame_acked ops outs i.
Definition byte_in_flight (ops : list sn_op) (outs : list sn_out) (x : Z) : Prop :=
  exists i f, nth_error (frames outs) i = Some f /\ in_frame f x /\ ~ frame_lost ops outs i.

(** A STREAM frame with the FIN flag was sent. *)
Definition fin_sent (outs : list sn_out) : Prop := exists f, In f (frames outs) /\ sf_fin f = true.

(** Events other than a loss, a turn without room for the frame header, and the
    collection of the stream. *)
Definition no_loss (op : sn_op) : Prop :=
  match op with SnLost _ | SnNoRoom | SnCollect => False | _ => True end.
