(** quiche/src/minmax.rs and quiche/src/recovery/rtt.rs.  Instants and durations
    are whole nanoseconds; the ranges of [Instant] and [Duration] (2^64 seconds)
    are not modelled. *)
Require Import Verif.Base.

(** struct MinmaxSample, struct Minmax (minmax.rs:60-67) *)
Record sample : Type := mkSample { sm_time : Z; sm_value : Z }.
Record minmax : Type := mkMm { mm_a : sample; mm_b : sample; mm_c : sample }.

(** Instant::duration_since saturates at zero *)
Definition since (now t : Z) : Z := Z.max 0 (now - t).

(** Minmax::new, reset (minmax.rs:79-97) *)
Definition mm_new (t v : Z) : minmax := mkMm (mkSample t v) (mkSample t v) (mkSample t v).
Definition mm_reset (t v : Z) (m : minmax) : minmax := mm_new t v.

(** subwin_update (minmax.rs:142-179).  [quarter] and [half] are what
    [win.div_f32(4.0)] and [win.div_f32(2.0)] return. *)
Definition mm_subwin (win quarter half : Z) (val : sample) (m : minmax) : minmax :=
  let now := sm_time val in
  let d := since now (sm_time (mm_a m)) in
  if win <? d then
    let m := mkMm (mm_b m) (mm_c m) val in
    if win <? since now (sm_time (mm_a m)) then mkMm (mm_b m) (mm_c m) val else m
  else if (sm_time (mm_b m) =? sm_time (mm_a m)) && (quarter <? d) then mkMm (mm_a m) val val
  else if (sm_time (mm_c m) =? sm_time (mm_b m)) && (half <? d) then mkMm (mm_a m) (mm_b m) val
  else m.

(** running_min (minmax.rs:100-119) *)
Definition mm_min (win quarter half : Z) (val : sample) (m : minmax) : minmax :=
  let v := sm_value val in
  if (v <=? sm_value (mm_a m)) || (win <? since (sm_time val) (sm_time (mm_c m)))
  then mm_reset (sm_time val) v m
  else
    let m := if v <=? sm_value (mm_b m) then mkMm (mm_a m) val val
             else if v <=? sm_value (mm_c m) then mkMm (mm_a m) (mm_b m) val
             else m in
    mm_subwin win quarter half val m.

(** deref (minmax.rs:69-75) *)
Definition mm_get (m : minmax) : Z := sm_value (mm_a m).

Fixpoint mm_run (win quarter half : Z) (l : list sample) (m : minmax) : minmax :=
  match l with
  | [] => m
  | x :: tl => mm_run win quarter half tl (mm_min win quarter half x m)
  end.

(** RTT_WINDOW (rtt.rs:33): 300 s, whose quarter and half are exact in f32;
    GRANULARITY (recovery/mod.rs:87) *)
Definition RTT_WINDOW : Z := 300 * 10 ^ 9.
Definition GRANULARITY : Z := 10 ^ 6.

(** struct RttStats (rtt.rs:35-50) *)
Record rtt : Type := mkRtt {
  r_latest : Z; r_max : Z; r_srtt : Z; r_var : Z; r_min : minmax;
  r_max_ack_delay : Z; r_has : bool }.

(** RttStats::new (rtt.rs:63-73), at time [t] *)
Definition rtt_new (t initial max_ack_delay : Z) : rtt :=
  mkRtt 0 initial initial (initial / 2) (mm_new t initial) max_ack_delay false.

(** One call of update_rtt: the sample, the peer's reported delay, the time and
    whether the handshake is confirmed. *)
Record rtt_in : Type := mkIn { in_rtt : Z; in_delay : Z; in_now : Z; in_confirmed : bool }.

(** The sample less the peer's delay, if plausible (rtt.rs:95-104) *)
Definition rtt_adjust (x : rtt_in) (max_ack_delay : Z) (mn : Z) : Z :=
  let delay := if in_confirmed x then Z.min (in_delay x) max_ack_delay else in_delay x in
  if mn + delay <=? in_rtt x then in_rtt x - delay else in_rtt x.

(** update_rtt (rtt.rs:75-115); [as u64] truncates. *)
Definition rtt_update (x : rtt_in) (r : rtt) : rtt :=
  let l := in_rtt x in
  if negb (r_has r) then
    mkRtt l l l (l / 2) (mm_reset (in_now x) l (r_min r)) (r_max_ack_delay r) true
  else
    let mn := mm_min RTT_WINDOW (RTT_WINDOW / 4) (RTT_WINDOW / 2) (mkSample (in_now x) l) (r_min r) in
    let adj := rtt_adjust x (r_max_ack_delay r) (mm_get mn) in
    mkRtt l (Z.max (r_max r) l)
      (r_srtt r * 7 / 8 + adj / 8)
      (r_var r * 3 / 4 + (Z.abs (r_srtt r - adj) mod 2 ^ 64) / 4)
      mn (r_max_ack_delay r) true.

Fixpoint rtt_run (l : list rtt_in) (r : rtt) : rtt :=
  match l with
  | [] => r
  | x :: tl => rtt_run tl (rtt_update x r)
  end.

(** min_rtt, max_rtt (rtt.rs:130-144) *)
Definition rtt_min (r : rtt) : option Z := if r_has r then Some (mm_get (r_min r)) else None.
Definition rtt_max (r : rtt) : option Z := if r_has r then Some (r_max r) else None.

(** loss_delay (rtt.rs:146-151); [scale d] is what [d.mul_f64(time_thresh)]
    returns.  pto (recovery/congestion/recovery.rs:912-914). *)
Definition rtt_loss_delay (scale : Z -> Z) (r : rtt) : Z :=
  Z.max (scale (Z.max (r_latest r) (r_srtt r))) GRANULARITY.
Definition rtt_pto (r : rtt) : Z := r_srtt r + Z.max (r_var r * 4) GRANULARITY.
