(** Properties C03 and C04: range sets. *)
Require Import Verif.Base Verif.RangesModel Verif.RangesSpec Verif.RangesProofs Verif.RangesProofs2.

(** C03: as long as there were no more calls than capacity, the set is exactly
    the added and not removed numbers; ranges are increasing and separated.
    The default set has capacity 2^64-1. *)
Theorem C03_rangeset_exact : forall cap ops,
  4 <= cap -> zlen ops <= cap -> Forall rs_op_ok ops ->
  exists r, rs_run ops (rs_new cap) = Ok r /\
    (forall x, in_ranges (rs_ranges r) x <-> in_history ops x) /\
    separated (rs_ranges r).
Proof. exact ranges_exact. Qed.
Print Assumptions C03_rangeset_exact.

(** C03: a bounded set behaves exactly like an unbounded one for as long as the
    unbounded one never holds more than [cap] ranges. *)
Theorem C03_rangeset_capacity_irrelevant : forall cap ops,
  4 <= cap -> zlen ops <= usize_max -> Forall rs_op_ok ops ->
  (forall pre suf rp, ops = pre ++ suf -> rs_run pre rs_default = Ok rp -> rs_len rp <= cap) ->
  exists r u, rs_run ops (rs_new cap) = Ok r /\ rs_run ops rs_default = Ok u /\
    rs_ranges r = rs_ranges u.
Proof. exact ranges_capacity_irrelevant. Qed.
Print Assumptions C03_rangeset_capacity_irrelevant.

(** C03: [first] and [last] are the least and greatest members. *)
Theorem C03_rangeset_first_last : forall cap ops,
  4 <= cap -> Forall rs_op_nonempty ops ->
  exists r, rs_run ops (rs_new cap) = Ok r /\
    match rs_first r with
    | None => forall x, ~ in_ranges (rs_ranges r) x
    | Some f => in_ranges (rs_ranges r) f /\ forall x, in_ranges (rs_ranges r) x -> f <= x
    end /\
    match rs_last r with
    | Ok None => forall x, ~ in_ranges (rs_ranges r) x
    | Ok (Some f) => in_ranges (rs_ranges r) f /\ forall x, in_ranges (rs_ranges r) x -> x <= f
    | _ => False
    end.
Proof. exact ranges_first_last. Qed.
Print Assumptions C03_rangeset_first_last.

(** C04: for capacities of at least 4, no history panics or exceeds the
    capacity, and the set never contains anything that was not added. *)
Theorem C04_rangeset_bounded : forall cap ops,
  4 <= cap -> Forall rs_op_ok ops ->
  exists r, rs_run ops (rs_new cap) = Ok r /\ rs_len r <= cap /\
    (forall x, in_ranges (rs_ranges r) x -> in_history ops x) /\
    separated (rs_ranges r).
Proof. exact ranges_bounded. Qed.
Print Assumptions C04_rangeset_bounded.

(** C04 fails for capacities 1 to 3: inserting below a full set panics. *)
Theorem C04_small_capacity_panics_refuted : forall cap,
  1 <= cap <= 3 ->
  exists ops, Forall rs_op_ok ops /\ rs_run ops (rs_new cap) = Panic.
Proof.
  intros cap h. assert (cap = 1 \/ cap = 2 \/ cap = 3) as [-> | [-> | ->]] by lia.
  - exists [RsInsert 30 31; RsInsert 1 2]. split; [repeat constructor; cbn; lia | reflexivity].
  - exists [RsInsert 30 31; RsInsert 40 41; RsInsert 1 2].
    split; [repeat constructor; cbn; lia | reflexivity].
  - exists [RsInsert 30 31; RsInsert 40 41; RsInsert 50 51; RsInsert 1 2].
    split; [repeat constructor; cbn; lia | reflexivity].
Qed.
Print Assumptions C04_small_capacity_panics_refuted.

(** The documentation of [insert] says the smallest range is dropped following
    the insertion.  It is not: a new smallest range survives and the previous
    smallest one is dropped. *)
Theorem C04_eviction_keeps_new_smallest_refuted :
  exists r, rs_run [RsPush 10; RsPush 20; RsPush 30; RsPush 40; RsPush 5] (rs_new 4) = Ok r
    /\ in_ranges (rs_ranges r) 5 /\ ~ in_ranges (rs_ranges r) 10.
Proof.
  eexists; split; [reflexivity|]. split.
  - exists 5, 6; cbn; split; auto; lia.
  - intros (s & e & h & h'). cbn in h.
    repeat (destruct h as [h | h]; [inversion h; subst; lia |]). exact h.
Qed.
Print Assumptions C04_eviction_keeps_new_smallest_refuted.

(** The hypotheses are met by a history that goes through both
    representations, merges and removes. *)
Example C03_witness :
  let ops := [RsInsert 4 7; RsInsert 9 12; RsInsert 20 22; RsInsert 30 31; RsInsert 40 45;
              RsPush 7; RsInsert 8 9; RsInsert 21 31; RsRemoveUntil 5] in
  Forall rs_op_ok ops /\ Forall rs_op_nonempty ops /\ zlen ops <= 68 /\
  rs_run ops (rs_new 68) = Ok (BTree [(6, 12); (20, 31); (40, 45)] 68).
Proof. cbn. repeat split; repeat constructor; cbn; try lia. Qed.
