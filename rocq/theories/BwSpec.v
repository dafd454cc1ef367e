(** Rates and amounts, with no machine arithmetic: at [r] bits per second,
    [bytes] bytes are sent by [nanos] nanoseconds after the start exactly when
    8 * bytes * 10^9 <= r * nanos. *)
Require Import Verif.Base.

Definition sent_by (r bytes nanos : Z) : Prop := 8 * bytes * 1000000000 <= r * nanos.
(** [n] is the largest number with [P]. *)
Definition largest (P : Z -> Prop) (n : Z) : Prop := P n /\ forall m, P m -> m <= n.
