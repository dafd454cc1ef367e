(** The pacer of the BBR2 recovery (quiche/src/recovery/gcongestion/pacer.rs) and
    the release times it gives (quiche/src/recovery/mod.rs:709-772).  Times and
    delays are nanoseconds.  What the congestion controller answers at each call
    (in recovery or not, its window, rate and estimate, whether it would allow
    more) is an input of that call; the controller itself is not modelled.  Sums
    of byte counts and of times are not bounded. *)
Require Import Verif.Base Verif.BwModel.

(** LUMPY_PACING_SIZE, LUMPY_PACING_MIN_BANDWIDTH_KBPS, INITIAL_UNPACED_BURST
    (pacer.rs:46-59); the quarter of the window in packets is computed in [f64],
    which is exact below 2^53 *)
Definition lumpy_size : Z := 2.
Definition lumpy_min_bandwidth : Z := 1200000.
Definition initial_unpaced_burst : Z := 10.

(** ReleaseTime (mod.rs:709-714) *)
Inductive rtime := Immediate | At (t : Z).
(** inc, set_max (mod.rs:723-739) *)
Definition rt_inc (r : rtime) (d : Z) : rtime := match r with Immediate => Immediate | At t => At (t + d) end.
Definition rt_set_max (r : rtime) (o : Z) : rtime := match r with Immediate => At o | At t => At (Z.max o t) end.
(** ReleaseDecision::time (mod.rs:744-752) *)
Definition rd_time (r : rtime) (now : Z) : option Z := match r with Immediate => None | At t => if now <? t then Some t else None end.
(** ReleaseDecision::time_eq (mod.rs:760-771) *)
Definition equal_threshold : Z := 50000.
Definition rd_time_eq (a b : rtime) (now : Z) : bool :=
  let delta := match rd_time a now, rd_time b now with
    | None, None => 0
    | Some t, None | None, Some t => t - now
    | Some t1, Some t2 => if t1 <? t2 then t2 - t1 else t1 - t2
    end in
  delta <=? equal_threshold.

(** Pacer (pacer.rs:61-80), without the controller *)
Record pacer := MkPacer {
  pc_enabled : bool;
  pc_max : option Z;
  pc_burst : Z;
  pc_next : rtime;
  pc_lumpy : Z;
  pc_limited : bool;
}.
(** Pacer::new (pacer.rs:86-99) *)
Definition pacer_new (enabled : bool) (max : option Z) : pacer := MkPacer enabled max initial_unpaced_burst Immediate 0 false.

(** get_next_release_time (pacer.rs:101-114) *)
Definition pc_release (p : pacer) : rtime * bool :=
  if negb (pc_enabled p) then (Immediate, true)
  else (pc_next p, (0 <? pc_burst p) || (0 <? pc_lumpy p)).

(** A packet handed to the recovery, and what the controller answers then *)
Record pkt := MkPkt {
  k_now : Z;             (* the time of the call *)
  k_inflight : bool;     (* the packet counts as in flight *)
  k_data : bool;         (* it has data that would be sent again *)
  k_bytes : Z;
  k_before : Z;          (* bytes in flight before it *)
  k_recovery : bool;     (* is_in_recovery *)
  k_cwnd_pkts : Z;       (* get_congestion_window_in_packets *)
  k_cwnd : Z;            (* get_congestion_window *)
  k_rate : Z;            (* the controller's pacing_rate *)
  k_estimate : Z;        (* bandwidth_estimate *)
  k_can_send : bool;     (* can_send with this packet in flight *)
}.

(** pacing_rate (pacer.rs:243-251) *)
Definition pc_rate (p : pacer) (k : pkt) : Z :=
  match pc_max p with Some m => if pc_enabled p then Z.min m (k_rate k) else k_rate k | None => k_rate k end.

(** on_packet_sent (pacer.rs:125-194) *)
Definition pc_sent (p : pacer) (sent_time : Z) (k : pkt) : res unit pacer :=
  if negb (pc_enabled p) || negb (k_data k) then Ok p
  else
    let burst := if (k_before k =? 0) && negb (k_recovery k) then Z.min initial_unpaced_burst (k_cwnd_pkts k) else pc_burst p in
    if 0 <? burst then Ok (MkPacer (pc_enabled p) (pc_max p) (burst - 1) Immediate (pc_lumpy p) false)
    else
      let delay := bw_transfer_time (pc_rate p k) (k_bytes k) in
      let lumpy :=
        if negb (pc_limited p) || (pc_lumpy p =? 0) then
          let l := Z.max 1 (Z.min lumpy_size (k_cwnd_pkts k / 4)) in
          let l := if k_estimate k <? lumpy_min_bandwidth then 1 else l in
          if k_cwnd k <=? k_before k + k_bytes k then 1 else l
        else pc_lumpy p in
      if lumpy <? 1 then Panic
      else Ok (MkPacer (pc_enabled p) (pc_max p) burst (rt_inc (rt_set_max (pc_next p) sent_time) delay) (lumpy - 1) (k_can_send k)).

(** on_congestion_event (pacer.rs:198-233): what it does to the pacer; the window
    it caps is the controller's *)
Definition pc_congestion (p : pacer) (lost : bool) : pacer :=
  if negb (pc_enabled p) then p
  else if lost then MkPacer (pc_enabled p) (pc_max p) 0 (pc_next p) (pc_lumpy p) (pc_limited p) else p.
(** on_app_limited (pacer.rs:275-278) *)
Definition pc_app_limited (p : pacer) : pacer := MkPacer (pc_enabled p) (pc_max p) (pc_burst p) (pc_next p) (pc_lumpy p) false.

(** get_packet_send_time (gcongestion/recovery.rs:806-808) *)
Definition pc_send_time (p : pacer) (now : Z) : Z :=
  match rd_time (fst (pc_release p)) now with Some t => t | None => now end.

(** on_packet_sent of the recovery (gcongestion/recovery.rs:738-804), as far as
    the pacer goes; [to_now] is time_sent_set_to_now *)
Definition pc_packet (to_now : bool) (p : pacer) (k : pkt) : res unit pacer :=
  let time_sent := if to_now then k_now k else pc_send_time p (k_now k) in
  if k_inflight k then pc_sent p time_sent k else Ok p.

Inductive pevent := PSend (k : pkt) | PCongestion (lost : bool) | PAppLimited.

(** One event.  Sending a packet tells the application when to release it: the
    [at] of SendInfo (lib.rs:4091-4096), computed after the packet is accounted
    for.  A datagram is taken to hold one packet. *)
Definition pc_step (to_now : bool) (p : pacer) (e : pevent) : res unit (pacer * option Z) :=
  match e with
  | PSend k => let* p' := pc_packet to_now p k in Ok (p', Some (pc_send_time p' (k_now k)))
  | PCongestion l => Ok (pc_congestion p l, None)
  | PAppLimited => Ok (pc_app_limited p, None)
  end.

(** What the application sees: each packet with its release time *)
Fixpoint pc_run (to_now : bool) (p : pacer) (es : list pevent) : res unit (pacer * list (pkt * Z)) :=
  match es with
  | [] => Ok (p, [])
  | e :: es => let* r := pc_step to_now p e in let (p1, o) := r in
               let* r := pc_run to_now p1 es in let (p2, l) := r in
               Ok (p2, match e, o with PSend k, Some t => (k, t) :: l | _, _ => l end)
  end.
