(** Vocabulary for packet number properties. *)
Require Import Verif.Base Verif.RangesModel Verif.RangesSpec Verif.PktNumModel.

(** The largest element of a list of packet numbers, 0 for the empty list. *)
Definition max_list (l : list Z) : Z := fold_right Z.max 0 l.

(** Every number is less than 2^32 above the largest before it. *)
Definition small_jumps (l : list Z) : Prop :=
  forall a x b, l = a ++ x :: b -> x < max_list a + 2 ^ 32.

(** Packet numbers accepted, in order. *)
Definition accepted_pns (outs : list sp_out) : list Z :=
  flat_map (fun o => match o with SpAccepted pn => [pn] | _ => [] end) outs.

(** ACK frames built, in order. *)
Definition acks_sent (outs : list sp_out) : list (list (Z * Z)) :=
  flat_map (fun o => match o with SpAck r => [r] | _ => [] end) outs.

(** Legal input: packet numbers of 1 to 4 bytes. *)
Definition sp_legal (op : sp_op) : Prop :=
  match op with
  | SpRecv trunc len _ _ => 1 <= len <= 4 /\ 0 <= trunc < 2 ^ (8 * len)
  | _ => True
  end.

(** An ack-eliciting packet was accepted after the last ACK frame was built. *)
Fixpoint ack_due (ops : list sp_op) (outs : list sp_out) (due : bool) : bool :=
  match ops, outs with
  | SpRecv _ _ eliciting _ :: ops, SpAccepted _ :: outs => ack_due ops outs (due || eliciting)
  | _ :: ops, SpAck _ :: outs => ack_due ops outs false
  | _ :: ops, _ :: outs => ack_due ops outs due
  | _, _ => due
  end.
