(** quiche/src/recovery/gcongestion/bbr/bandwidth_sampler.rs: the bandwidth
    samples that BBR2 is driven by.

    Times and lengths of time are whole nanoseconds, sizes and counters are in
    [Z].  A subtraction that would underflow panics; a rate that does not fit in
    64 bits, which panics too, is kept apart as [Err].  Not modelled: the windowed
    filter of ack heights in MaxAckHeightTracker (FilterModel has the filter),
    which nothing here reads; the product of the aggregation threshold with a
    number of bytes, in floating point, is the argument [sc_scale].
    [limit_max_ack_height_tracker_by_send_rate] is always false, and
    [start_new_aggregation_epoch_after_full_round] always true. *)
Require Import Verif.Base Verif.BwModel.

Record scfg : Type := mkSc { sc_avoid : bool; sc_fix : bool; sc_scale : Z -> Z }.

(** ConnectionStateOnSentPacket with its SendTimeState
    (bandwidth_sampler.rs:138-159, 211-230) *)
Record bpkt : Type := mkBp {
  bp_time : Z; bp_size : Z; bp_sent_at : Z; bp_last_sent : Z; bp_last_ack : Z;
  bp_app : bool; bp_sent : Z; bp_acked : Z; bp_lost : Z; bp_flight : Z }.
(** AckPoint (bandwidth_sampler.rs:194-197) *)
Record apoint : Type := mkAp { ap_time : Z; ap_bytes : Z }.
(** BandwidthSampler (bandwidth_sampler.rs:105-135), with the two recent ack
    points and the epoch of MaxAckHeightTracker (234-253) *)
Record sampler : Type := mkSp {
  sp_sent : Z; sp_acked : Z; sp_lost : Z; sp_neut : Z; sp_last_sent : Z; sp_last_acked : Z; sp_app : bool;
  sp_ack_time : Z; sp_sent_at : Z; sp_sent_time : Z; sp_p0 : option apoint; sp_p1 : option apoint; sp_cands : list apoint;
  sp_map : list (Z * option bpkt); sp_eoal : option Z; sp_after : Z;
  tk_start : option Z; tk_bytes : Z; tk_before : Z }.
(** new (bandwidth_sampler.rs:489-519), at time [t0] *)
Definition sp_new (t0 : Z) : sampler := mkSp 0 0 0 0 0 0 true t0 0 t0 None None [] [] None 0 None 0 0.

(** ConnectionStateMap (bandwidth_sampler.rs:42-102); the binary search of a sorted
    queue finds the one entry with that number *)
Definition smap_insert (n : Z) (v : bpkt) (l : list (Z * option bpkt)) : res unit (list (Z * option bpkt)) :=
  match l with [] => Ok [(n, Some v)] | _ => if n <=? fst (last l (0, None)) then Panic else Ok (l ++ [(n, Some v)]) end.
Fixpoint smap_find (n : Z) (l : list (Z * option bpkt)) : option bpkt * list (Z * option bpkt) :=
  match l with
  | [] => (None, [])
  | (k, v) :: tl => if k =? n then (v, (k, None) :: tl) else let '(r, tl) := smap_find n tl in (r, (k, v) :: tl)
  end.
Fixpoint smap_trim (l : list (Z * option bpkt)) : list (Z * option bpkt) := match l with (_, None) :: tl => smap_trim tl | _ => l end.
Definition smap_take (n : Z) (l : list (Z * option bpkt)) : option bpkt * list (Z * option bpkt) :=
  match l with
  | [] => (None, [])
  | (k, v) :: tl => if k =? n then (v, tl) else let '(r, l) := smap_find n l in (r, smap_trim l)
  end.
Fixpoint smap_obsolete (least : Z) (l : list (Z * option bpkt)) : list (Z * option bpkt) :=
  match l with (k, v) :: tl => if k <? least then smap_obsolete least tl else l | [] => [] end.

(** RecentAckPoints::update (bandwidth_sampler.rs:456-467) *)
Definition points_update (x : apoint) (p1 : option apoint) : res unit (option apoint * option apoint) :=
  if ap_bytes x <? match p1 with Some p => ap_bytes p | None => 0 end then Panic else Ok (p1, Some x).
(** less_recent_point (bandwidth_sampler.rs:477-485) *)
Definition less_recent (fix_ : bool) (p0 p1 : option apoint) : option apoint :=
  match p0 with
  | Some p => if fix_ then (if 0 <? ap_bytes p then p0 else p1) else p0
  | None => p1
  end.

Definition srate (bytes nanos : Z) : res unit Z := match bw_from_bytes bytes nanos with Panic => Err tt | r => r end.

(** on_packet_sent (bandwidth_sampler.rs:525-566); [retr] is
    has_retransmittable_data *)
Definition sp_on_sent (c : scfg) (t n bytes flight : Z) (retr : bool) (s : sampler) : res unit sampler :=
  if negb retr then
    Ok (mkSp (sp_sent s) (sp_acked s) (sp_lost s) (sp_neut s) n (sp_last_acked s) (sp_app s) (sp_ack_time s) (sp_sent_at s) (sp_sent_time s)
          (sp_p0 s) (sp_p1 s) (sp_cands s) (sp_map s) (sp_eoal s) (sp_after s) (tk_start s) (tk_bytes s) (tk_before s))
  else
    let sent := sp_sent s + bytes in
    let quiet := flight =? 0 in
    let ack_time := if quiet then t else sp_ack_time s in
    let sent_at := if quiet then sent else sp_sent_at s in
    let sent_time := if quiet then t else sp_sent_time s in
    let* '(p0, p1) := if quiet && sc_avoid c then points_update (mkAp t (sp_acked s)) None else Ok (sp_p0 s, sp_p1 s) in
    let cands := if quiet && sc_avoid c then [mkAp t (sp_acked s)] else sp_cands s in
    let* m := smap_insert n (mkBp t bytes sent_at sent_time ack_time (sp_app s) sent (sp_acked s) (sp_lost s) (flight + bytes)) (sp_map s) in
    Ok (mkSp sent (sp_acked s) (sp_lost s) (sp_neut s) n (sp_last_acked s) (sp_app s) ack_time sent_at sent_time
          p0 p1 cands m (sp_eoal s) (sp_after s) (tk_start s) (tk_bytes s) (tk_before s)).

(** on_packet_neutered (bandwidth_sampler.rs:568-572) *)
Definition sp_on_neutered (n : Z) (s : sampler) : sampler :=
  let '(p, m) := smap_take n (sp_map s) in
  mkSp (sp_sent s) (sp_acked s) (sp_lost s) (sp_neut s + match p with Some p => bp_size p | None => 0 end) (sp_last_sent s) (sp_last_acked s)
    (sp_app s) (sp_ack_time s) (sp_sent_at s) (sp_sent_time s)
    (sp_p0 s) (sp_p1 s) (sp_cands s) m (sp_eoal s) (sp_after s) (tk_start s) (tk_bytes s) (tk_before s).
(** on_packet_lost (bandwidth_sampler.rs:679-691); the state is valid if it is
    [Some] *)
Definition sp_on_lost (n bytes : Z) (s : sampler) : sampler * option bpkt :=
  let '(p, m) := smap_take n (sp_map s) in
  (mkSp (sp_sent s) (sp_acked s) (sp_lost s + bytes) (sp_neut s) (sp_last_sent s) (sp_last_acked s)
    (sp_app s) (sp_ack_time s) (sp_sent_at s) (sp_sent_time s)
    (sp_p0 s) (sp_p1 s) (sp_cands s) m (sp_eoal s) (sp_after s) (tk_start s) (tk_bytes s) (tk_before s), p).
(** on_app_limited (bandwidth_sampler.rs:865-868) *)
Definition sp_on_app_limited (s : sampler) : sampler :=
  mkSp (sp_sent s) (sp_acked s) (sp_lost s) (sp_neut s) (sp_last_sent s) (sp_last_acked s)
    true (sp_ack_time s) (sp_sent_at s) (sp_sent_time s)
    (sp_p0 s) (sp_p1 s) (sp_cands s) (sp_map s) (Some (sp_last_sent s)) (sp_after s) (tk_start s) (tk_bytes s) (tk_before s).
(** remove_obsolete_packets (bandwidth_sampler.rs:870-879) *)
Definition sp_on_obsolete (least : Z) (s : sampler) : sampler :=
  mkSp (sp_sent s) (sp_acked s) (sp_lost s) (sp_neut s) (sp_last_sent s) (sp_last_acked s)
    (sp_app s) (sp_ack_time s) (sp_sent_at s) (sp_sent_time s)
    (sp_p0 s) (sp_p1 s) (sp_cands s) (smap_obsolete least (sp_map s)) (sp_eoal s) (sp_after s) (tk_start s) (tk_bytes s) (tk_before s).

(** choose_a0_point (bandwidth_sampler.rs:821-841) *)
Fixpoint choose_a0 (fix_ : bool) (bytes : Z) (l : list apoint) : option apoint * list apoint :=
  match l with
  | [] => (None, [])
  | x :: tl =>
      match tl with
      | [] => (Some x, l)
      | y :: _ => if bytes <? ap_bytes y then (Some (if fix_ then x else y), l) else choose_a0 fix_ bytes tl
      end
  end.

(** BandwidthSample (bandwidth_sampler.rs:174-191) *)
Record bsample : Type := mkBs { bs_bw : Z; bs_rtt : Z; bs_send : option Z; bs_ack : Z; bs_state : bpkt }.

(** on_packet_acknowledged (bandwidth_sampler.rs:728-819) *)
Definition sp_on_acked (c : scfg) (now n : Z) (s : sampler) : res unit (sampler * option bsample) :=
  let '(p, m) := smap_take n (sp_map s) in
  match p with
  | None =>
      Ok (mkSp (sp_sent s) (sp_acked s) (sp_lost s) (sp_neut s) (sp_last_sent s) n (sp_app s) (sp_ack_time s) (sp_sent_at s) (sp_sent_time s)
            (sp_p0 s) (sp_p1 s) (sp_cands s) m (sp_eoal s) (sp_after s) (tk_start s) (tk_bytes s) (tk_before s), None)
  | Some p =>
      let acked := sp_acked s + bp_size p in
      let* '(p0, p1) := if sc_avoid c then points_update (mkAp now acked) (sp_p1 s) else Ok (sp_p0 s, sp_p1 s) in
      let app := sp_app s && negb (match sp_eoal s with None => true | Some e => e <? n end) in
      let* send := if bp_last_sent p <? bp_time p
                   then if bp_sent p <? bp_sent_at p then Panic
                        else let* r := srate (bp_sent p - bp_sent_at p) (bp_time p - bp_last_sent p) in Ok (Some r)
                   else Ok None in
      let '(a0, cands) := if sc_avoid c then choose_a0 (sc_fix c) (bp_acked p) (sp_cands s) else (None, sp_cands s) in
      let a0 := match a0 with Some a => a | None => mkAp (bp_last_ack p) (bp_acked p) end in
      let s := mkSp (sp_sent s) acked (sp_lost s) (sp_neut s) (sp_last_sent s) n app now (bp_sent p) (bp_time p)
                 p0 p1 cands m (sp_eoal s) (sp_after s) (tk_start s) (tk_bytes s) (tk_before s) in
      if now <=? ap_time a0 then Ok (s, None)
      else if acked <? ap_bytes a0 then Panic
      else
        let* ack := srate (acked - ap_bytes a0) (now - ap_time a0) in
        Ok (s, Some (mkBs (match send with Some r => Z.min r ack | None => ack end) (sat_sub now (bp_time p)) send ack p))
  end.

(** MaxAckHeightTracker::update (bandwidth_sampler.rs:316-423), without the filter *)
Definition tk_update (c : scfg) (bw bytes : Z) (s : sampler) : res unit (sampler * Z) :=
  let with_ st b before := mkSp (sp_sent s) (sp_acked s) (sp_lost s) (sp_neut s) (sp_last_sent s) (sp_last_acked s)
    (sp_app s) (sp_ack_time s) (sp_sent_at s) (sp_sent_time s)
    (sp_p0 s) (sp_p1 s) (sp_cands s) (sp_map s) (sp_eoal s) (sp_after s) st b before in
  let restart := (with_ (Some (sp_ack_time s)) bytes (sp_last_sent s), 0) in
  match tk_start s with
  | Some t =>
      if tk_before s <? sp_last_acked s then Ok restart
      else
        let expected := bw_to_bytes bw (sat_sub (sp_ack_time s) t) in
        if tk_bytes s <=? sc_scale c expected then Ok restart
        else if tk_bytes s + bytes <? expected then Panic
        else Ok (with_ (Some t) (tk_bytes s + bytes) (tk_before s), tk_bytes s + bytes - expected)
  | None => Ok restart
  end.

(** on_ack_event_end (bandwidth_sampler.rs:693-726) *)
Definition sp_on_end (c : scfg) (bw : Z) (s : sampler) : res unit (sampler * Z) :=
  if sp_acked s <? sp_after s then Panic
  else if sp_acked s - sp_after s =? 0 then Ok (s, 0)
  else
    let fresh := sp_acked s - sp_after s in
    let* '(s, extra) := tk_update c bw fresh
      (mkSp (sp_sent s) (sp_acked s) (sp_lost s) (sp_neut s) (sp_last_sent s) (sp_last_acked s)
        (sp_app s) (sp_ack_time s) (sp_sent_at s) (sp_sent_time s)
        (sp_p0 s) (sp_p1 s) (sp_cands s) (sp_map s) (sp_eoal s) (sp_acked s) (tk_start s) (tk_bytes s) (tk_before s)) in
    if sc_avoid c && (extra =? 0) then
      match less_recent (sc_fix c) (sp_p0 s) (sp_p1 s) with
      | None => Panic
      | Some a =>
          Ok (mkSp (sp_sent s) (sp_acked s) (sp_lost s) (sp_neut s) (sp_last_sent s) (sp_last_acked s)
                (sp_app s) (sp_ack_time s) (sp_sent_at s) (sp_sent_time s)
                (sp_p0 s) (sp_p1 s) (sp_cands s ++ [a]) (sp_map s) (sp_eoal s) (sp_after s) (tk_start s) (tk_bytes s) (tk_before s), extra)
      end
    else Ok (s, extra).

(** CongestionEventSample (bandwidth_sampler.rs:256-281); the state of the last
    packet is valid if it is [Some] *)
Record esample : Type := mkEs {
  es_bw : option Z; es_app : bool; es_rtt : option Z; es_inflight : Z; es_last : option bpkt; es_extra : Z;
  es_send : option Z; es_ack : option Z }.
Definition es_none : esample := mkEs None false None 0 None 0 None None.

(** [Option<Bandwidth>] compared with the derived order: [None] is least *)
Definition olt (a b : option Z) : bool :=
  match a, b with None, Some _ => true | Some x, Some y => x <? y | _, None => false end.
Definition omax (a b : option Z) : option Z := if olt a b then b else a.

(** on_congestion_event: the packets lost (bandwidth_sampler.rs:584-591) *)
Fixpoint sp_losses (lost : list (Z * Z)) (l : option (Z * bpkt)) (s : sampler) : sampler * option (Z * bpkt) :=
  match lost with
  | [] => (s, l)
  | (n, bytes) :: lost =>
      let '(s, p) := sp_on_lost n bytes s in sp_losses lost (match p with Some p => Some (n, p) | None => l end) s
  end.
(** and those acknowledged (bandwidth_sampler.rs:603-636) *)
Fixpoint sp_acks (c : scfg) (now : Z) (acked : list Z) (l : option (Z * bpkt)) (e : esample) (s : sampler)
  : res unit (sampler * option (Z * bpkt) * esample) :=
  match acked with
  | [] => Ok (s, l, e)
  | n :: acked =>
      let* '(s, r) := sp_on_acked c now n s in
      match r with
      | None => sp_acks c now acked l e s
      | Some r =>
          if sp_acked s <? bp_acked (bs_state r) then Panic
          else
            let better := olt (es_bw e) (Some (bs_bw r)) in
            sp_acks c now acked (Some (n, bs_state r))
              (mkEs (if better then Some (bs_bw r) else es_bw e) (if better then bp_app (bs_state r) else es_app e)
                (Some (match es_rtt e with Some x => Z.min (bs_rtt r) x | None => bs_rtt r end))
                (Z.max (es_inflight e) (sp_acked s - bp_acked (bs_state r))) None 0
                (omax (es_send e) (bs_send r)) (omax (es_ack e) (Some (bs_ack r)))) s
      end
  end.
(** on_congestion_event (bandwidth_sampler.rs:574-677) *)
Definition sp_event (c : scfg) (now : Z) (acked : list Z) (lost : list (Z * Z)) (max_bw : option Z) (bound : Z) (s : sampler)
  : res unit (sampler * esample) :=
  let '(s, l) := sp_losses lost None s in
  match acked with
  | [] => Ok (s, mkEs None false None 0 (match l with Some (_, p) => Some p | None => None end) 0 None None)
  | _ =>
      let* '(s, a, e) := sp_acks c now acked None es_none s in
      let last_ := match l, a with
                   | None, None => None
                   | None, Some (_, p) => Some p
                   | Some (_, p), None => Some p
                   | Some (i, p), Some (j, q) => if i <? j then Some q else Some p
                   end in
      let bw := match omax (es_bw e) max_bw with Some b => Z.min b bound | None => bound end in
      let* '(s, extra) := sp_on_end c bw s in
      Ok (s, mkEs (es_bw e) (es_app e) (es_rtt e) (es_inflight e) last_ extra (es_send e) (es_ack e))
  end.
