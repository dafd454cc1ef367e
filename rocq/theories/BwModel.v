(** Bandwidth (quiche/src/recovery/bandwidth.rs): rates in bits per second, as
    [u64]; a length of time is its number of nanoseconds.  Not modelled: the
    products with floating point numbers, and printing. *)
Require Import Verif.Base.

Definition nanos_per_second : Z := 1000000000.
Definition u128_max : Z := 340282366920938463463374607431768211455.
(** The longest [Duration] in nanoseconds: [u64::MAX] seconds and 999999999
    nanoseconds *)
Definition duration_max : Z := u64_max * nanos_per_second + 999999999.

Definition mul64 (a b : Z) : res unit Z := if u64_max <? a * b then Panic else Ok (a * b).

(** from_bytes_and_time_delta (bandwidth.rs:94-113); [as u64] keeps the low 64
    bits *)
Definition bw_from_bytes (bytes nanos : Z) : res unit Z :=
  if bytes =? 0 then Ok 0
  else
    let nanos := nanos mod (u64_max + 1) in
    let nanos := if nanos =? 0 then 1 else nanos in
    let* b := mul64 8 bytes in
    let* bits := mul64 b nanos_per_second in
    if bits <? nanos then Ok 1 else Ok (bits / nanos).
(** from_bytes_per_second, to_bytes_per_second, from_kbits_per_second
    (bandwidth.rs:116-136) *)
Definition bw_from_bytes_per_second (b : Z) : res unit Z := mul64 b 8.
Definition bw_to_bytes_per_second (r : Z) : Z := r / 8.
Definition bw_from_kbits (k : Z) : res unit Z := mul64 k 1000.
(** infinite (bandwidth.rs:144-148) *)
Definition bw_infinite : Z := u64_max.
(** sub, add (bandwidth.rs:57-77) *)
Definition bw_sub (a b : Z) : option Z := if a <? b then None else Some (a - b).
Definition bw_add (a b : Z) : res unit Z := if u64_max <? a + b then Panic else Ok (a + b).

(** transfer_time (bandwidth.rs:159-185) *)
Definition bw_transfer_time (r bytes : Z) : Z :=
  if r =? u64_max then 0
  else if r =? 0 then 0
  else if bytes * (8 * nanos_per_second) <=? u64_max then bytes * (8 * nanos_per_second) / r
  else Z.min (bytes * (8 * nanos_per_second) / r) u64_max.

(** to_bytes_per_period (bandwidth.rs:193-221) *)
Definition bw_to_bytes (r nanos : Z) : Z :=
  if r =? u64_max then (if nanos =? 0 then 0 else u64_max)
  else if (nanos <=? u64_max) && (r * nanos <=? u64_max) then r * nanos / (8 * nanos_per_second)
  else Z.min (Z.min (r * nanos) u128_max / (8 * nanos_per_second)) u64_max.
