(** quiche/src/recovery/gcongestion/bbr2.rs: the congestion window and the pacing
    rate of BBR2.  What the modes and the network model decide in a congestion event
    is an argument of the event; sums that do not fit in 64 bits panic. *)
Require Import Verif.Base Verif.BwModel.

Record bwin : Type := mkBw { bw_cwnd : Z; bw_lo : Z; bw_hi : Z; bw_init : Z; bw_mss : Z; bw_pace : Z; bw_acked : Z }.
(** Limits::apply_limits (bbr2.rs:415-417) *)
Definition clamp (lo hi v : Z) : Z := Z.min (Z.max v lo) hi.
Definition add64 (a b : Z) : res unit Z := if u64_max <? a + b then Panic else Ok (a + b).

(** new (bbr2.rs:514-542); [pace] is the initial rate (429-437) *)
Definition bw_new (initial most mss pace : Z) : res unit bwin :=
  let* c := mul64 initial mss in
  let* h := mul64 most mss in
  Ok (mkBw c c h c mss pace 0).

(** What is decided before the window and rate are updated: the bandwidth estimate,
    the same with the pacing gain, the shortest round trip, whether the bandwidth is
    known to be full, the product of bandwidth, round trip and window gain, the ack
    height, the cap of the mode (each mode's limits are 0 and a cap: startup.rs:130-135,
    drain.rs:85-90, probe_bw.rs:159-178, probe_rtt.rs:116-124), and whether a lower
    rate is let through in startup (bbr2.rs:599-611) *)
Record wev : Type := mkWe { we_acked : Z; we_est : Z; we_target : Z; we_rtt : Z; we_full : bool; we_bdp : Z; we_height : Z; we_cap : Z; we_lower : bool }.

(** update_pacing_rate (bbr2.rs:565-615); [first] is the configured initial rate.
    [bw_acked] is the total of bytes acknowledged, with the event's *)
Definition bw_pacing (first : option Z) (e : wev) (w : bwin) : res unit Z :=
  if we_est e =? 0 then Ok (bw_pace w)
  else if bw_acked w =? we_acked e then
    let* r := bw_from_bytes (bw_cwnd w) (we_rtt e) in
    Ok (match first with Some f => Z.min r f | None => r end)
  else if we_full e then Ok (we_target e)
  else if we_lower e then Ok (we_target e)
  else Ok (Z.max (bw_pace w) (we_target e)).
(** update_congestion_window (bbr2.rs:617-635) with get_target_congestion_window
    (558-563) *)
Definition bw_window (e : wev) (w : bwin) : res unit Z :=
  let target := Z.max (we_bdp e) (bw_lo w) in
  let* c :=
    if we_full e then
      let* target := add64 target (we_height e) in
      let* grown := add64 (bw_cwnd w) (we_acked e) in
      Ok (Z.min target grown)
    else
      let* twice := mul64 2 (bw_init w) in
      if (bw_cwnd w <? target) || (bw_cwnd w <? twice) then add64 (bw_cwnd w) (we_acked e) else Ok (bw_cwnd w) in
  Ok (clamp (bw_lo w) (bw_hi w) (clamp 0 (we_cap e) c)).
(** on_congestion_event (bbr2.rs:698-754), the part about window and rate *)
Definition bw_event (first : option Z) (e : wev) (w : bwin) : res unit bwin :=
  let w := mkBw (bw_cwnd w) (bw_lo w) (bw_hi w) (bw_init w) (bw_mss w) (bw_pace w) (bw_acked w + we_acked e) in
  let* p := bw_pacing first e w in
  let* c := bw_window e w in
  Ok (mkBw c (bw_lo w) (bw_hi w) (bw_init w) (bw_mss w) p (bw_acked w)).
(** update_mss (bbr2.rs:789-803); [scaled] is the pacing rate if it is scaled *)
Definition scale64 (v new old : Z) : res unit Z := let* x := mul64 v new in if old =? 0 then Panic else Ok (x / old).
Definition bw_update_mss (new : Z) (scaled : option Z) (w : bwin) : res unit bwin :=
  let* hi := scale64 (bw_hi w) new (bw_mss w) in
  let* lo := scale64 (bw_lo w) new (bw_mss w) in
  let* c := scale64 (bw_cwnd w) new (bw_mss w) in
  let* i := scale64 (bw_init w) new (bw_mss w) in
  Ok (mkBw c lo hi i new (match scaled with Some r => r | None => bw_pace w end) (bw_acked w)).
(** limit_cwnd (bbr2.rs:814-816), called by the pacer (pacer.rs:225-232) *)
Definition bw_limit (hi : Z) (w : bwin) : bwin := mkBw (bw_cwnd w) (bw_lo w) hi (bw_init w) (bw_mss w) (bw_pace w) (bw_acked w).
(** can_send, is_cwnd_limited (bbr2.rs:676-678, 770-772) *)
Definition bw_can_send (flight : Z) (w : bwin) : bool := flight <? bw_cwnd w.
Definition bw_limited (flight : Z) (w : bwin) : bool := bw_cwnd w <=? flight.

Inductive wop : Type := WEvent (e : wev) | WMss (new : Z) (scaled : option Z) | WLimit (hi : Z).
Definition bw_step (first : option Z) (o : wop) (w : bwin) : res unit bwin :=
  match o with WEvent e => bw_event first e w | WMss new s => bw_update_mss new s w | WLimit hi => Ok (bw_limit hi w) end.
(** Operations newest first *)
Fixpoint bw_all (first : option Z) (initial most mss pace : Z) (ops : list wop) : res unit bwin :=
  match ops with [] => bw_new initial most mss pace | o :: ops => let* w := bw_all first initial most mss pace ops in bw_step first o w end.
