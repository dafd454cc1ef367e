(** What the filter is told, and which of it counts. *)
Require Import Verif.Base Verif.FilterModel.

(** The samples that count after a history, newest first: those since the filter
    was last cleared or reset, as pairs of value and time. *)
Fixpoint samples_from (acc : list (Z * Z)) (ops : list f_op) : list (Z * Z) :=
  match ops with
  | [] => acc
  | FUpdate v t :: ops => samples_from ((v, t) :: acc) ops
  | FReset v t :: ops => samples_from [(v, t)] ops
  | FClear :: ops => samples_from [] ops
  end.
Definition samples := samples_from [].

(** Time does not run backwards in a history that starts at [t0]. *)
Fixpoint in_order (t0 : Z) (ops : list f_op) : Prop :=
  match ops with
  | [] => True
  | FUpdate _ t :: ops | FReset _ t :: ops => t0 <= t /\ in_order t ops
  | FClear :: ops => in_order t0 ops
  end.
