(** quiche/src/recovery/gcongestion/bbr2/network_model.rs: what BBR2 knows of the
    network: the bandwidth, the shortest round trip, rounds, and losses in a round.

    Products with floating-point parameters are arguments.  Only the default way of
    lowering the bounds is modelled ([bw_lo_mode] Default; the others are marked not
    recommended).  Not modelled: [cwnd_limited_before_aggregation_epoch] and the
    latest rates, which are only logged, the gains, and the detector of jumps of the
    round trip (disabled by default). *)
Require Import Verif.Base Verif.BwModel Verif.SampModel.

Record npar : Type := mkNp {
  np_sc : scfg; np_beta_bw : Z -> Z; np_beta_in : Z -> Z; np_period : Z; np_grow : Z -> Z; np_loss : Z -> Z;
  np_rounds : Z; np_ignore : bool; np_queue : Z }.

(** RoundTripCounter (network_model.rs:47-76) *)
Record rounds : Type := mkRt { rt_count : Z; rt_last : Z; rt_end : option Z }.
Definition rt_sent (n : Z) (r : rounds) : rounds := mkRt (rt_count r) n (rt_end r).
Definition rt_acked (n : Z) (r : rounds) : bool * rounds :=
  match rt_end r with
  | Some e => if n <=? e then (false, r) else (true, mkRt (rt_count r + 1) (rt_last r) (Some (rt_last r)))
  | None => (true, mkRt (rt_count r + 1) (rt_last r) (Some (rt_last r)))
  end.
Definition rt_restart (r : rounds) : rounds := mkRt (rt_count r) (rt_last r) (Some (rt_last r)).

(** What is known of the current round *)
Record rstats : Type := mkRs { rs_lost : Z; rs_events : Z; rs_deliv : Z; rs_min : Z; rs_lim : bool }.
(** on_new_round (network_model.rs:635-641) *)
Definition rs_new : rstats := mkRs 0 0 0 u64_max false.

(** BBRv2NetworkModel (network_model.rs:134-198), with MinRttFilter (78-104) and
    MaxBandwidthFilter (106-129) *)
Record net : Type := mkNt {
  nt_sp : sampler; nt_rt : rounds; nt_bw0 : Z; nt_bw1 : Z; nt_rtt : Z; nt_rtt_at : Z; nt_rs : rstats;
  nt_latest : Z; nt_lo : option Z; nt_in_latest : Z; nt_in_lo : Z; nt_in_hi : Z;
  nt_full : bool; nt_base : Z; nt_stale : Z; nt_queued : Z }.
(** new (network_model.rs:201-248), at time [t0] *)
Definition nt_new (t0 rtt : Z) : net :=
  mkNt (sp_new t0) (mkRt 0 0 None) 0 0 rtt t0 rs_new 0 None 0 u64_max u64_max false 0 0 0.
(** max_bandwidth (network_model.rs:291-293, 112-114) *)
Definition nt_max (n : net) : Z := Z.max (nt_bw0 n) (nt_bw1 n).
(** bandwidth_estimate (network_model.rs:264-269) *)
Definition nt_estimate (n : net) : Z := match nt_lo n with None => nt_max n | Some a => Z.min a (nt_max n) end.

(** on_packet_sent (network_model.rs:295-316) *)
Definition nt_sent (p : npar) (t flight num bytes : Z) (retr : bool) (n : net) : res unit net :=
  let r := nt_rs n in
  let* sp := sp_on_sent (np_sc p) t num bytes flight retr (nt_sp n) in
  Ok (mkNt sp (rt_sent num (nt_rt n)) (nt_bw0 n) (nt_bw1 n) (nt_rtt n) (nt_rtt_at n)
        (mkRs (rs_lost r) (rs_events r) (rs_deliv r) (Z.min (rs_min r) flight) (rs_lim r || (nt_in_hi n <=? flight + bytes)))
        (nt_latest n) (nt_lo n) (nt_in_latest n) (nt_in_lo n) (nt_in_hi n) (nt_full n) (nt_base n) (nt_stale n) (nt_queued n)).

(** BBRv2CongestionEvent (bbr2.rs:457-490), as on_congestion_event_start leaves it;
    [ce_app], [ce_raw] and [ce_inf] are the application-limited mark of its largest
    sample, that sample, and its largest inflight, kept for the specification *)
Record cev : Type := mkCe {
  ce_time : Z; ce_cwnd : Z; ce_prior : Z; ce_probing : bool; ce_flight : Z; ce_acked : Z; ce_lost : Z; ce_end : bool;
  ce_bw : option Z; ce_app : bool; ce_rtt : option Z; ce_last : option bpkt; ce_raw : option Z; ce_inf : Z }.

Definition last_num_of (l : list Z) : option Z := match l with [] => None | x :: l => Some (last l x) end.

(** adapt_lower_bounds (network_model.rs:444-475), default mode *)
Definition nt_adapt (p : npar) (ended probing : bool) (cwnd : Z) (n : net) : net :=
  if negb ended || probing then n
  else if rs_lost (nt_rs n) <=? 0 then n
  else
    let lo := match nt_lo n with None => nt_max n | Some b => b end in
    let in_lo := if nt_in_lo n =? u64_max then cwnd else nt_in_lo n in
    mkNt (nt_sp n) (nt_rt n) (nt_bw0 n) (nt_bw1 n) (nt_rtt n) (nt_rtt_at n) (nt_rs n)
      (nt_latest n) (Some (Z.max (nt_latest n) (np_beta_bw p lo))) (nt_in_latest n) (Z.max (nt_in_latest n) (np_beta_in p in_lo)) (nt_in_hi n)
      (nt_full n) (nt_base n) (nt_stale n) (nt_queued n).

(** on_congestion_event_start (network_model.rs:318-438) *)
Definition nt_start (p : npar) (time cwnd prior : Z) (probing : bool) (acked : list Z) (lost : list (Z * Z)) (n : net) : res unit (net * cev) :=
  let '(ended, rt) := match last_num_of acked with Some k => rt_acked k (nt_rt n) | None => (false, nt_rt n) end in
  let mx := nt_max n in
  let* '(sp, e) := sp_event (np_sc p) time acked lost (Some mx) (match nt_lo n with Some b => b | None => u64_max end) (nt_sp n) in
  let moved := negb (sp_acked sp =? sp_acked (nt_sp n)) in
  let bw := if moved then es_bw e else None in
  let bw1 := match bw with
             | Some b => if negb (es_app e) || (mx <? b) then Z.max (nt_bw1 n) b else nt_bw1 n
             | None => nt_bw1 n
             end in
  let '(rtt, rtt_at) := match es_rtt e with
                        | Some r => if r <? nt_rtt n then (r, time) else (nt_rtt n, nt_rtt_at n)
                        | None => (nt_rtt n, nt_rtt_at n)
                        end in
  if (sp_acked sp <? sp_acked (nt_sp n)) || (sp_lost sp <? sp_lost (nt_sp n)) then Panic
  else
    let a := sp_acked sp - sp_acked (nt_sp n) in
    let l := sp_lost sp - sp_lost (nt_sp n) in
    let flight := sat_sub (sat_sub prior a) l in
    let r := nt_rs n in
    let deliv := match es_last e with
                 | Some s => if (0 <? a) && (bp_acked s <? sp_acked sp) then Z.max (rs_deliv r) (sp_acked sp - bp_acked s) else rs_deliv r
                 | None => rs_deliv r
                 end in
    let r := mkRs (if 0 <? l then rs_lost r + l else rs_lost r) (if 0 <? l then rs_events r + 1 else rs_events r) deliv (Z.min (rs_min r) flight) (rs_lim r) in
    let latest := match es_bw e with Some b => Z.max (nt_latest n) b | None => nt_latest n end in
    let in_latest := Z.max (nt_in_latest n) (es_inflight e) in
    let n := nt_adapt p ended probing cwnd
      (mkNt sp rt (nt_bw0 n) bw1 rtt rtt_at r latest (nt_lo n) in_latest (nt_in_lo n) (nt_in_hi n) (nt_full n) (nt_base n) (nt_stale n) (nt_queued n)) in
    let latest := match es_bw e with Some b => if ended then b else nt_latest n | None => nt_latest n end in
    let in_latest := if ended && (0 <? es_inflight e) then es_inflight e else nt_in_latest n in
    Ok (mkNt (nt_sp n) (nt_rt n) (nt_bw0 n) (nt_bw1 n) (nt_rtt n) (nt_rtt_at n) (nt_rs n) latest (nt_lo n) in_latest (nt_in_lo n) (nt_in_hi n)
          (nt_full n) (nt_base n) (nt_stale n) (nt_queued n),
        mkCe time cwnd prior probing flight a l ended bw (es_app e) (es_rtt e) (es_last e) (es_bw e) (es_inflight e)).

Definition nt_with_sp (sp : sampler) (n : net) : net :=
  mkNt sp (nt_rt n) (nt_bw0 n) (nt_bw1 n) (nt_rtt n) (nt_rtt_at n) (nt_rs n) (nt_latest n) (nt_lo n) (nt_in_latest n) (nt_in_lo n) (nt_in_hi n)
    (nt_full n) (nt_base n) (nt_stale n) (nt_queued n).
Definition nt_with_rtt (rtt at_ : Z) (n : net) : net :=
  mkNt (nt_sp n) (nt_rt n) (nt_bw0 n) (nt_bw1 n) rtt at_ (nt_rs n) (nt_latest n) (nt_lo n) (nt_in_latest n) (nt_in_lo n) (nt_in_hi n)
    (nt_full n) (nt_base n) (nt_stale n) (nt_queued n).
Definition nt_with_round (rt : rounds) (rs : rstats) (q : Z) (n : net) : net :=
  mkNt (nt_sp n) rt (nt_bw0 n) (nt_bw1 n) (nt_rtt n) (nt_rtt_at n) rs (nt_latest n) (nt_lo n) (nt_in_latest n) (nt_in_lo n) (nt_in_hi n)
    (nt_full n) (nt_base n) (nt_stale n) q.
Definition nt_with_bounds (lo : option Z) (in_lo in_hi : Z) (n : net) : net :=
  mkNt (nt_sp n) (nt_rt n) (nt_bw0 n) (nt_bw1 n) (nt_rtt n) (nt_rtt_at n) (nt_rs n) (nt_latest n) lo (nt_in_latest n) in_lo in_hi
    (nt_full n) (nt_base n) (nt_stale n) (nt_queued n).
Definition nt_with_full (full : bool) (base stale q : Z) (n : net) : net :=
  mkNt (nt_sp n) (nt_rt n) (nt_bw0 n) (nt_bw1 n) (nt_rtt n) (nt_rtt_at n) (nt_rs n) (nt_latest n) (nt_lo n) (nt_in_latest n) (nt_in_lo n) (nt_in_hi n)
    full base stale q.

(** on_congestion_event_finish (network_model.rs:565-575) *)
Definition nt_finish (least : Z) (c : cev) (n : net) : net :=
  let n := if ce_end c then nt_with_round (nt_rt n) rs_new (nt_queued n) n else n in
  nt_with_sp (sp_on_obsolete least (nt_sp n)) n.
(** maybe_expire_min_rtt (network_model.rs:577-596) *)
Definition nt_expire (p : npar) (c : cev) (n : net) : net * bool :=
  match ce_rtt c with
  | None => (n, false)
  | Some r => if ce_time c <? nt_rtt_at n + np_period p then (n, false) else (nt_with_rtt r (ce_time c) n, true)
  end.
(** is_inflight_too_high (network_model.rs:598-627) *)
Definition nt_too_high (p : npar) (c : cev) (max_events : Z) (n : net) : bool :=
  match ce_last c with
  | None => false
  | Some s =>
      if rs_events (nt_rs n) <? max_events then false
      else (0 <? bp_flight s) && (0 <? rs_lost (nt_rs n)) && (np_loss p (bp_flight s) <? rs_lost (nt_rs n))
  end.
(** restart_round_early (network_model.rs:629-633) *)
Definition nt_restart (n : net) : net := nt_with_round (rt_restart (nt_rt n)) rs_new 0 n.
(** has_bandwidth_growth (network_model.rs:643-675) *)
Definition nt_growth (p : npar) (c : cev) (n : net) : net * bool :=
  if np_grow p (nt_base n) <=? nt_max n then (nt_with_full (nt_full n) (nt_max n) 0 (nt_queued n) n, true)
  else match ce_last c with
       | None => (n, false)
       | Some s =>
           let stale := if np_ignore p && bp_app s then nt_stale n else nt_stale n + 1 in
           (nt_with_full (nt_full n || ((np_rounds p <=? stale) && negb (bp_app s))) (nt_base n) stale (nt_queued n) n, false)
       end.
(** check_persistent_queue (network_model.rs:682-699); [target] is computed in
    floating point *)
Definition nt_queue (p : npar) (target : Z) (n : net) : net :=
  if rs_min (nt_rs n) <? target then nt_with_full (nt_full n) (nt_base n) (nt_stale n) 0 n
  else let q := nt_queued n + 1 in nt_with_full (nt_full n || (np_queue p <=? q)) (nt_base n) (nt_stale n) q n.
(** MaxBandwidthFilter::advance (network_model.rs:120-128) *)
Definition nt_advance (n : net) : net :=
  if nt_bw1 n =? 0 then n
  else mkNt (nt_sp n) (nt_rt n) (nt_bw1 n) 0 (nt_rtt n) (nt_rtt_at n) (nt_rs n) (nt_latest n) (nt_lo n) (nt_in_latest n) (nt_in_lo n) (nt_in_hi n)
    (nt_full n) (nt_base n) (nt_stale n) (nt_queued n).
