(** Model of quiche/src/flowcontrol.rs.  Times are [Z] nanoseconds.  u64
    overflow of additions and of [window * 2] is not modelled: [Z] is
    unbounded; [FlowControlProofs] bounds the values instead. *)
Require Import Verif.Base Verif.Errors.

(** flowcontrol.rs:30-36 *)
Definition WINDOW_INCREASE_FACTOR : Z := 2.
Definition WINDOW_TRIGGER_FACTOR : Z := 2.

(** struct FlowControl (flowcontrol.rs:39-55) *)
Record flowctl : Type := mkFlow {
  fc_consumed : Z;
  fc_max_data : Z;
  fc_window : Z;
  fc_max_window : Z;
  fc_last_update : option Z }.

(** new (flowcontrol.rs:58-68) *)
Definition fc_new (max_data window max_window : Z) : flowctl :=
  mkFlow 0 max_data (Z.min window max_window) max_window None.

(** add_consumed (flowcontrol.rs:87-89) *)
Definition fc_add_consumed (n : Z) (f : flowctl) : flowctl :=
  mkFlow (fc_consumed f + n) (fc_max_data f) (fc_window f) (fc_max_window f)
         (fc_last_update f).

(** should_update_max_data (flowcontrol.rs:95-99): [max_data - consumed]
    underflows when more was consumed than allowed. *)
Definition fc_should_update (f : flowctl) : res error bool :=
  if fc_max_data f <? fc_consumed f then Panic
  else Ok (fc_max_data f - fc_consumed f <? fc_window f / 2).

(** max_data_next (flowcontrol.rs:102-104) *)
Definition fc_max_data_next (f : flowctl) : Z := fc_consumed f + fc_window f.

(** update_max_data (flowcontrol.rs:107-110) *)
Definition fc_update_max_data (now : Z) (f : flowctl) : flowctl :=
  mkFlow (fc_consumed f) (fc_max_data_next f) (fc_window f) (fc_max_window f)
         (Some now).

(** set_window (flowcontrol.rs:123-125) *)
Definition fc_set_window (w : Z) (f : flowctl) : flowctl :=
  mkFlow (fc_consumed f) (fc_max_data f) (Z.min w (fc_max_window f))
         (fc_max_window f) (fc_last_update f).

(** autotune_window (flowcontrol.rs:115-121).  [Instant - Instant] saturates
    at zero. *)
Definition fc_autotune (now rtt : Z) (f : flowctl) : flowctl :=
  match fc_last_update f with
  | Some lu =>
      if Z.max 0 (now - lu) <? rtt * WINDOW_TRIGGER_FACTOR
      then fc_set_window (fc_window f * WINDOW_INCREASE_FACTOR) f
      else f
  | None => f
  end.

(** ensure_window_lower_bound (flowcontrol.rs:129-134) *)
Definition fc_ensure_lower (min_window : Z) (f : flowctl) : flowctl :=
  if fc_window f <? min_window then fc_set_window min_window f else f.
