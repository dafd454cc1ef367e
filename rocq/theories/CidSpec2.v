(** Counting the frames about connection ids that were sent and declared lost. *)
Require Import Verif.Base Verif.Errors Verif.CidModel Verif.CidSpec.

Fixpoint tally (f : cid_op * cid_out -> bool) (h : trace) : Z :=
  match h with
  | [] => 0
  | p :: h => (if f p then 1 else 0) + tally f h
  end.

(** NEW_CONNECTION_ID frames for the number [n]. *)
Definition new_sent (n : Z) : trace -> Z := tally (fun p => match p with (SendNewCid, OFrame m _ _ _) => m =? n | _ => false end).
Definition new_lost (n : Z) : trace -> Z := tally (fun p => match p with (LostNewCid m, _) => m =? n | _ => false end).
(** RETIRE_CONNECTION_ID frames for the number [n]. *)
Definition ret_sent (n : Z) : trace -> Z := tally (fun p => match p with (SendRetire _ m, OSeq k) => (m =? n) && (k =? n) | _ => false end).
Definition ret_lost (n : Z) : trace -> Z := tally (fun p => match p with (LostRetire m, _) => m =? n | _ => false end).

(** A frame is declared lost once, and after it was sent. *)
Definition losses_of_sent (h : trace) : Prop := forall a b n, h = a ++ b -> ret_lost n a <= ret_sent n a.
