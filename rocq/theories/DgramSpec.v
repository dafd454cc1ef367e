(** What a user expects of a datagram queue. *)
Require Import Verif.Base Verif.Errors Verif.DgramModel.

(** [c] interleaves [a] and [b], keeping the order of both. *)
Inductive shuffle {A} : list A -> list A -> list A -> Prop :=
| sh_nil : shuffle [] [] []
| sh_l x a b c : shuffle a b c -> shuffle (x :: a) b (x :: c)
| sh_r x a b c : shuffle a b c -> shuffle a (x :: b) (x :: c).

(** The datagram a call put into the queue, if it did. *)
Definition accepted1 (op : dg_op) (o : dg_out) : list (list Z) :=
  match op, o with
  | (DgPush d | DgSend _ d | DgFrame d), OUnit (Ok _) => [d]
  | _, _ => []
  end.

(** The datagrams a call handed out: to the application, or into a packet. *)
Definition delivered1 (op : dg_op) (o : dg_out) : list (list Z) :=
  match op, o with
  | DgPop, OPop (Some d) => [d]
  | DgRecv _, OCopy (Ok n) buf => [take n buf]
  | DgEmit _ _, OSent l => l
  | _, _ => []
  end.

Fixpoint over (f : dg_op -> dg_out -> list (list Z)) (ops : list dg_op) (outs : list dg_out) : list (list Z) :=
  match ops, outs with
  | op :: ops, o :: outs => f op o ++ over f ops outs
  | _, _ => []
  end.
Definition accepted := over accepted1.
Definition delivered := over delivered1.

(** The calls that may throw a datagram away. *)
Definition may_discard (ops : list dg_op) (d : list Z) : Prop :=
  (exists f, In (DgPurge f) ops /\ f d = true) \/
  (exists buf, In (DgRecv buf) ops /\ zlen buf < zlen d) \/
  (exists d', In (DgFrame d') ops) \/
  (exists room max, In (DgEmit room (Some max)) ops /\ max < zlen d).

Definition total_bytes (l : list (list Z)) : Z := fold_right (fun d n => zlen d + n) 0 l.

(** [a] is [b] with some elements left out. *)
Inductive subseq {A} : list A -> list A -> Prop :=
| ss_nil : subseq [] []
| ss_skip x a b : subseq a b -> subseq a (x :: b)
| ss_take x a b : subseq a b -> subseq (x :: a) (x :: b).

Definition dgeq_dec : forall a b : list Z, {a = b} + {a <> b} := list_eq_dec Z.eq_dec.
