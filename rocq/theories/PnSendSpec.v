(** Vocabulary for the packet numbers sent. *)
Require Import Verif.Base Verif.Errors Verif.PnSendModel.

(** The numbers of the packets sent, in order, and those of one epoch. *)
Definition sent_pns (outs : list pn_out) : list Z :=
  flat_map (fun o => match o with PnSent _ pn => [pn] | _ => [] end) outs.
Definition sent_pns_in (e : epoch) (outs : list pn_out) : list Z :=
  flat_map (fun o => match o with PnSent e' pn => if epoch_eqb e e' then [pn] else [] | _ => [] end) outs.

(** [n] is in one of the half open ranges. *)
Definition covers (ranges : list (Z * Z)) (n : Z) : Prop := exists a b, In (a, b) ranges /\ a <= n < b.

(** Legal input: the datagram size is positive, the window is not negative, and ACK
    frames hold ascending, non-empty ranges, as the decoder makes them. *)
Definition pn_legal (op : pn_op) : Prop :=
  match op with
  | PnSend _ _ _ cwnd mds _ => 0 < mds /\ 0 <= cwnd
  | PnAck _ ranges _ => ranges <> [] /\ Forall (fun r => 0 <= fst r < snd r) ranges
  | PnPath => True
  end.
