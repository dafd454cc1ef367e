(** The delivery rate estimator (quiche/src/recovery/congestion/delivery_rate.rs)
    with the packets in flight that carry its marks.

    Simplified: instants and durations are integers (nanoseconds); the bandwidth
    of a sample is the floor of an exact quotient (the code divides floating
    point numbers); a packet has an identity of its own, in the order of
    sending, beside its packet number, because packet numbers repeat between
    packet number spaces.  Whether bytes are in flight when a packet is sent is
    an input.  An overflow or underflow is a [Panic]. *)
Require Import Verif.Base Verif.Assoc Verif.BwModel.

(** The fields of Sent and Acked the estimator uses (recovery/mod.rs, Sent;
    congestion/mod.rs, Acked) *)
Record dpkt : Type := mkD {
  dp_num : Z; dp_size : Z; dp_time : Z; dp_first : Z; dp_dtime : Z; dp_delivered : Z; dp_app : bool }.

(** Rate and RateSample (delivery_rate.rs:40-59, 205-225) *)
Record rate : Type := mkRate {
  r_delivered : Z; r_dtime : Z; r_first : Z; r_eoal : Z; r_last : Z; r_largest : Z;
  s_bw : Z; s_app : bool; s_prior : Z; s_ptime : option Z; s_send : Z; s_ack : Z; s_interval : Z; s_delivered : Z;
  (* the packets in flight, and the identity of the next *)
  r_flight : list (Z * dpkt); r_next : Z }.

(** default (delivery_rate.rs:61-81, 227-243), at time [t0] *)
Definition r_new (t0 : Z) : rate := mkRate 0 t0 t0 0 0 0 0 false 0 None 0 0 0 0 [] 0.

(** app_limited, update_app_limited (delivery_rate.rs:181-188) *)
Definition r_app_limited (r : rate) : bool := negb (r_eoal r =? 0).
Definition r_set_eoal (e : Z) (r : rate) : rate :=
  mkRate (r_delivered r) (r_dtime r) (r_first r) e (r_last r) (r_largest r) (s_bw r) (s_app r) (s_prior r) (s_ptime r)
    (s_send r) (s_ack r) (s_interval r) (s_delivered r) (r_flight r) (r_next r).
Definition r_update_app_limited (v : bool) (r : rate) : rate := r_set_eoal (if v then Z.max (r_last r) 1 else 0) r.

(** on_packet_sent (delivery_rate.rs:84-102) *)
Definition r_sent (num size t : Z) (idle : bool) (r : rate) : rate :=
  let first := if idle then t else r_first r in
  let dtime := if idle then t else r_dtime r in
  let p := mkD num size t first dtime (r_delivered r) (r_app_limited r) in
  mkRate (r_delivered r) dtime first (r_eoal r) num (r_largest r) (s_bw r) (s_app r) (s_prior r) (s_ptime r)
    (s_send r) (s_ack r) (s_interval r) (s_delivered r) (aset (r_next r) p (r_flight r)) (r_next r + 1).

(** update_rate_sample (delivery_rate.rs:104-127) *)
Definition r_update (p : dpkt) (now : Z) (r : rate) : rate :=
  let delivered := r_delivered r + dp_size p in
  let largest := Z.max (r_largest r) (dp_num p) in
  if match s_ptime r with None => true | Some _ => s_prior r <=? dp_delivered p end then
    mkRate delivered now (dp_time p) (r_eoal r) (r_last r) largest (s_bw r) (dp_app p) (dp_delivered p) (Some (dp_dtime p))
      (sat_sub (dp_time p) (dp_first p)) (sat_sub now (dp_dtime p)) (s_interval r) (s_delivered r) (r_flight r) (r_next r)
  else
    mkRate delivered now (r_first r) (r_eoal r) (r_last r) largest (s_bw r) (s_app r) (s_prior r) (s_ptime r)
      (s_send r) (s_ack r) (s_interval r) (s_delivered r) (r_flight r) (r_next r).

(** The bandwidth of a sample (delivery_rate.rs:151-158) *)
Definition r_bandwidth (delivered interval : Z) : res unit Z :=
  bw_from_bytes_per_second (Z.min (delivered * nanos_per_second / interval) u64_max).

(** generate_rate_sample (delivery_rate.rs:129-179) *)
Definition r_generate (min_rtt : Z) (r : rate) : res unit rate :=
  let r := if r_app_limited r && (r_eoal r <? r_largest r) then r_update_app_limited false r else r in
  match s_ptime r with
  | None => Ok r
  | Some _ =>
      let interval := Z.max (s_send r) (s_ack r) in
      if r_delivered r <? s_prior r then Panic
      else
        let delivered := r_delivered r - s_prior r in
        let with_ i bw := mkRate (r_delivered r) (r_dtime r) (r_first r) (r_eoal r) (r_last r) (r_largest r) bw (s_app r) (s_prior r) (s_ptime r)
          (s_send r) (s_ack r) i delivered (r_flight r) (r_next r) in
        if interval <? min_rtt then Ok (with_ 0 (s_bw r))
        else if interval =? 0 then Ok (with_ interval (s_bw r))
        else
          let* bw := r_bandwidth delivered interval in
          if negb (s_app r) || (s_bw r <? bw) then Ok (with_ interval bw) else Ok (with_ interval (s_bw r))
  end.

Inductive rate_event : Type :=
| RvSend (num size t : Z) (idle : bool)   (* a packet is sent *)
| RvAck (ids : list Z) (now min_rtt : Z)  (* an ACK frame newly acknowledges these *)
| RvLost (id : Z)                         (* a packet is declared lost *)
| RvApp (v : bool).                       (* update_app_limited *)

Definition r_drop (id : Z) (r : rate) : rate :=
  mkRate (r_delivered r) (r_dtime r) (r_first r) (r_eoal r) (r_last r) (r_largest r) (s_bw r) (s_app r) (s_prior r) (s_ptime r)
    (s_send r) (s_ack r) (s_interval r) (s_delivered r) (adel id (r_flight r)) (r_next r).
(** The loop of on_packets_acked (congestion/mod.rs:228-231); a packet not in
    flight cannot be acknowledged: [Err] *)
Fixpoint r_acks (ids : list Z) (now : Z) (r : rate) : res unit rate :=
  match ids with
  | [] => Ok r
  | id :: ids => match aget id (r_flight r) with Some p => r_acks ids now (r_drop id (r_update p now r)) | None => Err tt end
  end.
Definition r_step (ev : rate_event) (r : rate) : res unit rate :=
  match ev with
  | RvSend num size t idle => Ok (r_sent num size t idle r)
  | RvAck ids now min_rtt => let* r := r_acks ids now r in r_generate min_rtt r
  | RvLost id => match aget id (r_flight r) with Some _ => Ok (r_drop id r) | None => Err tt end
  | RvApp v => Ok (r_update_app_limited v r)
  end.
Fixpoint r_run (evs : list rate_event) (r : rate) : res unit rate :=
  match evs with [] => Ok r | ev :: evs => let* r := r_step ev r in r_run evs r end.
