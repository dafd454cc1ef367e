(** What it means to send no faster than a rate. *)
Require Import Verif.Base Verif.PacerModel.

(** A packet the pacer accounts for *)
Definition charged (k : pkt) : bool := k_inflight k && k_data k.
(** The packets of a trace it accounts for, with their release times *)
Definition charges (l : list (pkt * Z)) : list (pkt * Z) := filter (fun x => charged (fst x)) l.
Definition bytes_of (l : list (pkt * Z)) : Z := fold_right (fun x s => k_bytes (fst x) + s) 0 l.

(** No faster than [rate] bits per second: between the release of any packet and
    that of any later one, what is released (the later one included) would take
    that rate at least that long, to within a nanosecond for each packet. *)
Definition no_faster (rate : Z) (l : list (pkt * Z)) : Prop :=
  forall l1 x l2 y l3, l = l1 ++ x :: l2 ++ y :: l3 ->
    8 * bytes_of (l2 ++ [y]) * 1000000000 <= rate * (snd y - snd x + zlen (l2 ++ [y])).

(** A packet that leaves quiescence: nothing in flight, and not in recovery *)
Definition leaves_idle (e : pevent) : bool :=
  match e with PSend k => charged k && (k_before k =? 0) && negb (k_recovery k) | _ => false end.

(** Every packet is of a possible size, its controller's answers are numbers of
    the right sort, and its controller's rate, capped by [cap], is at most
    [rate] and not zero. *)
Definition capped (cap : option Z) (r : Z) : Z := match cap with Some m => Z.min m r | None => r end.
Definition rated (cap : option Z) (rate : Z) (e : pevent) : Prop :=
  match e with
  | PSend k => 0 <= k_bytes k /\ 8 * k_bytes k * 1000000000 <= u64_max /\ 0 < capped cap (k_rate k) <= rate
  | _ => True
  end.
