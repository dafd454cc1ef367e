(** Specification vocabulary for range sets (no reference to how sets work). *)
Require Import Verif.Base Verif.RangesModel.
From Coq Require Import Sorting.Sorted.

(** Legal arguments: [Range<u64>] with [start <= end]. *)
Definition rs_op_ok (op : rs_op) : Prop :=
  match op with
  | RsInsert s e => 0 <= s <= e
  | RsPush x => 0 <= x
  | RsRemoveUntil n => 0 <= n
  end.

(** Legal and not inserting an empty range. *)
Definition rs_op_nonempty (op : rs_op) : Prop :=
  match op with
  | RsInsert s e => 0 <= s < e
  | RsPush x => 0 <= x
  | RsRemoveUntil n => 0 <= n
  end.

Definition op_adds (op : rs_op) (x : Z) : Prop :=
  match op with
  | RsInsert s e => s <= x < e
  | RsPush y => x = y
  | RsRemoveUntil _ => False
  end.

Definition op_removes (op : rs_op) (x : Z) : Prop :=
  match op with RsRemoveUntil n => x <= n | _ => False end.

(** [x] was added by some call and not removed by a later one. *)
Definition in_history (ops : list rs_op) (x : Z) : Prop :=
  exists before op after, ops = before ++ op :: after /\ op_adds op x /\
    forall op', In op' after -> ~ op_removes op' x.

(** [x] lies in one of the listed ranges. *)
Definition in_ranges (l : list (Z * Z)) (x : Z) : Prop :=
  exists s e, In (s, e) l /\ s <= x < e.

(** Ranges in increasing order with a gap between consecutive ones. *)
Definition separated (l : list (Z * Z)) : Prop :=
  StronglySorted (fun a b => snd a < fst b) l /\
  Forall (fun a => fst a <= snd a) l.
