(** quiche/src/recovery: loss detection and congestion control of one path with
    Reno or CUBIC ([LegacyRecovery]; for the loss detection used when BBR2 is
    configured see GRecModel).

    Times and durations are whole nanoseconds in [Z], sizes and counters are in
    [Z].  Frames are opaque to recovery and are represented by numbers.  The
    delivery rate estimator, qlog and pacing are not modelled.  Floating point:
    the multiplications of a window by 0.5 and 0.7 are exact for windows below
    2^53; the values of the cubic curve, of the AIMD estimate and the
    multiplication of a duration by the time threshold are taken from [floats],
    a function of the number of evaluations so far, hence arbitrary. *)
Require Import Verif.Base Verif.Errors Verif.RttModel.

(** Everything taken from f64 arithmetic: the cubic curve at the end of the next
    round trip and the AIMD window (both truncated to usize), the comparison of
    the two, and [Duration::mul_f64] by the time threshold (9/8, or 5/4 once
    reordering was seen). *)
Record floats : Type := mkFl {
  fl_cubic : Z -> Z; fl_west : Z -> Z; fl_friendly : Z -> bool; fl_scale : bool -> Z -> Z }.

(** Rounding of an integer to 53 significant bits, ties to even *)
Definition round53 (p : Z) : Z :=
  let e := Z.max 0 (Z.log2 p - 52) in
  let q := p / 2 ^ e in
  let r := p mod 2 ^ e in
  let up := (2 ^ e <? 2 * r) || ((2 ^ e =? 2 * r) && Z.odd q) in
  (if up then q + 1 else q) * 2 ^ e.

(** [(x as f64 * 0.7) as usize] for x below 2^53: the double nearest to 0.7 is
    6305039478318694 / 2^53 (cubic.rs:64) *)
Definition mul_beta (x : Z) : Z := round53 (x * 6305039478318694) / 2 ^ 53.

(** [(x as f64 * LOSS_REDUCTION_FACTOR) as usize] (mod.rs:93) *)
Definition mul_half (x : Z) : Z := x / 2.

Definition usize_max : Z := 2 ^ 64 - 1.

(** MINIMUM_WINDOW_PACKETS, MAX_PTO_PROBES_COUNT, INITIAL_PACKET_THRESHOLD,
    MAX_PACKET_THRESHOLD, MAX_OUTSTANDING_NON_ACK_ELICITING (recovery/mod.rs:50-98) *)
Definition MIN_WINDOW : Z := 2.
Definition MAX_PROBES : Z := 2.
Definition INITIAL_PKT_THRESH : Z := 3.
Definition MAX_PKT_THRESH : Z := 20.
Definition MAX_NON_EL : Z := 24.

(** Duration::saturating_sub of instants is [since] (RttModel). *)

(** * Bytes in flight (bytes_in_flight.rs) *)

(** struct BytesInFlight (bytes_in_flight.rs:37-52) *)
Record bif : Type := mkBif { bf_n : Z; bf_start : option Z; bf_open : Z; bf_closed : Z }.
Definition bif_new : bif := mkBif 0 None 0 0.

(** update_in_flight_duration (bytes_in_flight.rs:93-103) *)
Definition bif_update (now : Z) (b : bif) : bif :=
  match bf_start b with
  | None => b
  | Some s =>
      if bf_n b =? 0 then mkBif (bf_n b) None 0 (bf_closed b + since now s)
      else mkBif (bf_n b) (Some s) (since now s) (bf_closed b)
  end.

(** add (bytes_in_flight.rs:57-69) *)
Definition bif_add (d now : Z) (b : bif) : bif :=
  if d =? 0 then b else
  let b := mkBif (bf_n b + d) (bf_start b) (bf_open b) (bf_closed b) in
  match bf_start b with
  | Some _ => bif_update now b
  | None => mkBif (bf_n b) (Some now) (bf_open b) (bf_closed b)
  end.

(** saturating_subtract (bytes_in_flight.rs:73-76) *)
Definition bif_sub (d now : Z) (b : bif) : bif :=
  bif_update now (mkBif (sat_sub (bf_n b) d) (bf_start b) (bf_open b) (bf_closed b)).

(** get_duration (bytes_in_flight.rs:89-91) *)
Definition bif_duration (b : bif) : Z := bf_closed b + bf_open b.

(** * Proportional rate reduction (congestion/prr.rs) *)

(** struct PRR (prr.rs:34-46) *)
Record prr : Type := mkPrr { pr_delivered : Z; pr_recoverfs : Z; pr_out : Z; pr_snd : Z }.
Definition prr_new : prr := mkPrr 0 0 0 0.

(** on_packet_sent (prr.rs:49-53) *)
Definition prr_sent (n : Z) (p : prr) : prr :=
  mkPrr (pr_delivered p) (pr_recoverfs p) (pr_out p + n) (sat_sub (pr_snd p) n).

(** congestion_event (prr.rs:55-63) *)
Definition prr_event (bytes_in_flight : Z) (p : prr) : prr := mkPrr 0 bytes_in_flight 0 0.

(** on_packet_acked (prr.rs:65-94); the products are not bounded by 2^64 here *)
Definition prr_acked (d pipe ssthresh mds : Z) (p : prr) : prr :=
  let del := pr_delivered p + d in
  let snd :=
    if ssthresh <? pipe then
      if 0 <? pr_recoverfs p
      then sat_sub ((del * ssthresh + pr_recoverfs p - 1) / pr_recoverfs p) (pr_out p)
      else 0
    else Z.min (ssthresh - pipe) (Z.max (sat_sub del (pr_out p)) d + mds) in
  mkPrr del (pr_recoverfs p) (pr_out p) snd.

(** * HyStart++ (congestion/hystart.rs) *)

(** struct Hystart (hystart.rs:51-67); [Duration::MAX] is [None] *)
Record hystart : Type := mkHy {
  hy_on : bool; hy_end : option Z; hy_last : option Z; hy_cur : option Z; hy_base : option Z;
  hy_samples : Z; hy_css : option Z; hy_rounds : Z }.
Definition hy_new (on : bool) : hystart := mkHy on None None None None 0 None 0.

(** in_css (hystart.rs:106-108) *)
Definition hy_in_css (h : hystart) : bool := hy_on h && match hy_css h with Some _ => true | None => false end.

(** start_round (hystart.rs:110-120) *)
Definition hy_start_round (pn : Z) (h : hystart) : hystart :=
  match hy_end h with
  | Some _ => h
  | None => mkHy (hy_on h) (Some pn) (hy_cur h) None (hy_base h) 0 (hy_css h) (hy_rounds h)
  end.

(** on_packet_acked (hystart.rs:123-188): the new state and whether to leave slow
    start.  N_RTT_SAMPLE = 8, CSS_ROUNDS = 5, thresholds 4 and 16 ms *)
Definition hy_acked (pn rtt now : Z) (h : hystart) : hystart * bool :=
  if negb (hy_on h) then (h, false) else
  let cur := match hy_cur h with None => rtt | Some c => Z.min c rtt end in
  let n := hy_samples h + 1 in
  let h := mkHy (hy_on h) (hy_end h) (hy_last h) (Some cur) (hy_base h) n (hy_css h) (hy_rounds h) in
  let h :=
    match hy_css h with
    | None =>
        match hy_last h with
        | Some last =>
            if (8 <=? n) && (last + Z.min (Z.max (last / 8) 4000000) 16000000 <=? cur)
            then mkHy (hy_on h) (hy_end h) (hy_last h) (hy_cur h) (Some cur) n (Some now) (hy_rounds h)
            else h
        | None => h
        end
    | Some _ =>
        if 8 <=? n then
          let h := mkHy (hy_on h) (hy_end h) (hy_last h) (hy_cur h) (hy_base h) 0 (hy_css h) (hy_rounds h) in
          if (match hy_base h with None => true | Some b => cur <? b end)
          then mkHy (hy_on h) (hy_end h) (hy_last h) (hy_cur h) None 0 None 0
          else h
        else h
    end in
  match hy_end h with
  | Some e =>
      if e <=? pn then
        let h := mkHy (hy_on h) None (hy_last h) (hy_cur h) (hy_base h) (hy_samples h) (hy_css h) (hy_rounds h) in
        match hy_css h with
        | Some _ =>
            let r := hy_rounds h + 1 in
            if 5 <=? r
            then (mkHy (hy_on h) (hy_end h) (hy_last h) (hy_cur h) (hy_base h) (hy_samples h) (hy_css h) 0, true)
            else (mkHy (hy_on h) (hy_end h) (hy_last h) (hy_cur h) (hy_base h) (hy_samples h) (hy_css h) r, false)
        | None => (h, false)
        end
      else (h, false)
  | None => (h, false)
  end.

(** congestion_event (hystart.rs:196-199) *)
Definition hy_event (h : hystart) : hystart :=
  mkHy (hy_on h) None (hy_last h) (hy_cur h) (hy_base h) (hy_samples h) None (hy_rounds h).

(** * Sent packets (recovery/mod.rs:398-431) *)

(** struct Sent, without the fields of the delivery rate estimator *)
Record pkt : Type := mkPkt {
  p_num : Z; p_frames : list Z; p_sent : Z; p_acked : option Z; p_lost : option Z;
  p_size : Z; p_el : bool; p_inf : bool; p_data : bool; p_probe : bool }.

Definition set_p_acked (t : Z) (fs : list Z) (p : pkt) : pkt :=
  mkPkt (p_num p) fs (p_sent p) (Some t) (p_lost p) (p_size p) (p_el p) (p_inf p) (p_data p) (p_probe p).
Definition set_p_lost (t : Z) (p : pkt) : pkt :=
  mkPkt (p_num p) [] (p_sent p) (p_acked p) (Some t) (p_size p) (p_el p) (p_inf p) (p_data p) (p_probe p).

Definition is_some {A} (o : option A) : bool := match o with Some _ => true | None => false end.

(** * Congestion (congestion/mod.rs) *)

Inductive alg : Type := Reno | Cubic.

(** struct PriorState and the non-float part of cubic::State (cubic.rs:83-120).
    [cu_tick] counts the evaluations of the float formulas. *)
Record prior : Type := mkPrior { pi_cwnd : Z; pi_ssthresh : Z; pi_start : option Z; pi_lost : Z }.
Record cubic : Type := mkCubic {
  cu_tick : Z; cu_last_sent : option Z; cu_last_ack : option Z; cu_inc : Z; cu_prior : prior }.

(** struct Congestion (congestion/mod.rs:82-124) *)
Record cc : Type := mkCc {
  c_alg : alg; c_cwnd : Z; c_ssthresh : Z; c_exit : option (Z * bool); c_sl : Z; c_ca : Z;
  c_start : option Z; c_app : bool; c_icwp : Z; c_mds : Z; c_lost : Z; c_fix : bool;
  c_hy : hystart; c_prr : prr; c_cu : cubic }.

Definition set_c_cwnd v c := mkCc (c_alg c) v (c_ssthresh c) (c_exit c) (c_sl c) (c_ca c) (c_start c)
  (c_app c) (c_icwp c) (c_mds c) (c_lost c) (c_fix c) (c_hy c) (c_prr c) (c_cu c).
Definition set_c_sl v c := mkCc (c_alg c) (c_cwnd c) (c_ssthresh c) (c_exit c) v (c_ca c) (c_start c)
  (c_app c) (c_icwp c) (c_mds c) (c_lost c) (c_fix c) (c_hy c) (c_prr c) (c_cu c).
Definition set_c_ca v c := mkCc (c_alg c) (c_cwnd c) (c_ssthresh c) (c_exit c) (c_sl c) v (c_start c)
  (c_app c) (c_icwp c) (c_mds c) (c_lost c) (c_fix c) (c_hy c) (c_prr c) (c_cu c).
Definition set_c_start v c := mkCc (c_alg c) (c_cwnd c) (c_ssthresh c) (c_exit c) (c_sl c) (c_ca c) v
  (c_app c) (c_icwp c) (c_mds c) (c_lost c) (c_fix c) (c_hy c) (c_prr c) (c_cu c).
Definition set_c_app v c := mkCc (c_alg c) (c_cwnd c) (c_ssthresh c) (c_exit c) (c_sl c) (c_ca c) (c_start c)
  v (c_icwp c) (c_mds c) (c_lost c) (c_fix c) (c_hy c) (c_prr c) (c_cu c).
Definition set_c_lost v c := mkCc (c_alg c) (c_cwnd c) (c_ssthresh c) (c_exit c) (c_sl c) (c_ca c) (c_start c)
  (c_app c) (c_icwp c) (c_mds c) v (c_fix c) (c_hy c) (c_prr c) (c_cu c).
Definition set_c_hy v c := mkCc (c_alg c) (c_cwnd c) (c_ssthresh c) (c_exit c) (c_sl c) (c_ca c) (c_start c)
  (c_app c) (c_icwp c) (c_mds c) (c_lost c) (c_fix c) v (c_prr c) (c_cu c).
Definition set_c_prr v c := mkCc (c_alg c) (c_cwnd c) (c_ssthresh c) (c_exit c) (c_sl c) (c_ca c) (c_start c)
  (c_app c) (c_icwp c) (c_mds c) (c_lost c) (c_fix c) (c_hy c) v (c_cu c).
Definition set_c_cu v c := mkCc (c_alg c) (c_cwnd c) (c_ssthresh c) (c_exit c) (c_sl c) (c_ca c) (c_start c)
  (c_app c) (c_icwp c) (c_mds c) (c_lost c) (c_fix c) (c_hy c) (c_prr c) v.

(** SsThresh::update (congestion/mod.rs:66-79) *)
Definition cc_ssthresh (v : Z) (in_css : bool) (c : cc) : cc :=
  mkCc (c_alg c) (c_cwnd c) v (match c_exit c with None => Some (v, in_css) | e => e end) (c_sl c) (c_ca c)
    (c_start c) (c_app c) (c_icwp c) (c_mds c) (c_lost c) (c_fix c) (c_hy c) (c_prr c) (c_cu c).

(** Congestion::from_config (congestion/mod.rs:127-171) *)
Definition cc_new (a : alg) (mds icwp : Z) (hy fix_on : bool) : cc :=
  mkCc a (mds * icwp) usize_max None 0 0 None false icwp mds 0 fix_on (hy_new hy) prr_new
    (mkCubic 0 None None 0 (mkPrior 0 0 None 0)).

(** in_congestion_recovery (congestion/mod.rs:173-180) *)
Definition cc_in_recovery (t : Z) (c : cc) : bool :=
  match c_start c with Some s => t <=? s | None => false end.

(** max of two Option<Instant> *)
Definition omax (a b : option Z) : option Z :=
  match a, b with Some x, Some y => Some (Z.max x y) | None, o => o | o, None => o end.

(** on_packet_sent of Reno (reno.rs:57-61) and CUBIC (cubic.rs:152-195) *)
Definition alg_sent (sent pipe now : Z) (c : cc) : cc :=
  match c_alg c with
  | Reno => c
  | Cubic =>
      if (sent =? 0) && c_fix c then c else
      let u := c_cu c in
      let c :=
        if pipe =? 0 then
          match c_start c with
          | Some s =>
              let idle := if c_fix c then omax (cu_last_ack u) (cu_last_sent u) else cu_last_sent u in
              match idle with
              | Some i => if i <? now then set_c_start (Some (s + (now - i))) c else c
              | None => c
              end
          | None => c
          end
        else c in
      set_c_cu (mkCubic (cu_tick u) (Some now) (cu_last_ack u) (cu_inc u) (cu_prior u)) c
  end.

(** Congestion::on_packet_sent (congestion/mod.rs:196-222) *)
Definition cc_sent (pipe sent now pn : Z) (in_flight : bool) (c : cc) : cc :=
  if in_flight then
    let c := set_c_app (pipe + sent <? c_cwnd c) c in
    let c := alg_sent sent pipe now c in
    let c := set_c_prr (prr_sent sent (c_prr c)) c in
    if hy_on (c_hy c) && (c_cwnd c <? c_ssthresh c)
    then set_c_hy (hy_start_round pn (c_hy c)) c else c
  else c.

(** The window increment in slow start (reno.rs:88-92, cubic.rs:255-261) *)
Definition ss_inc (c : cc) : Z := if hy_in_css (c_hy c) then c_mds c / 4 else c_mds c.

(** HyStart++ at the end of an acknowledgement in slow start
    (reno.rs:94-97, cubic.rs:265-268) *)
Definition hy_step (p : pkt) (latest now : Z) (c : cc) : cc :=
  let '(h, leave) := hy_acked (p_num p) latest now (c_hy c) in
  let c := set_c_hy h c in
  if leave then cc_ssthresh (c_cwnd c) true c else c.

(** reno::on_packet_acked (reno.rs:72-107) *)
Definition reno_acked (p : pkt) (latest now : Z) (c : cc) : cc :=
  if cc_in_recovery (p_sent p) c then c
  else if c_app c then c
  else if c_cwnd c <? c_ssthresh c then
    let c := set_c_sl (c_sl c + p_size p) c in
    let c := set_c_cwnd (c_cwnd c + ss_inc c) c in
    hy_step p latest now c
  else
    let c := set_c_ca (c_ca c + p_size p) c in
    if c_cwnd c <=? c_ca c then
      let c := set_c_ca (c_ca c - c_cwnd c) c in
      set_c_cwnd (c_cwnd c + c_mds c) c
    else c.

(** rollback (reno.rs:143-145, cubic.rs:410-430); Reno's changes nothing *)
Definition cubic_rollback (c : cc) : cc * bool :=
  let q := cu_prior (c_cu c) in
  if pi_cwnd q <? pi_ssthresh q then (c, false)
  else if pi_cwnd q <=? c_cwnd c then (c, false)
  else (set_c_start (pi_start q) (cc_ssthresh (pi_ssthresh q) false (set_c_cwnd (pi_cwnd q) c)), true).
Definition alg_rollback (c : cc) : cc :=
  match c_alg c with Reno => c | Cubic => fst (cubic_rollback c) end.

(** Congestion avoidance of CUBIC (cubic.rs:269-350) *)
Definition cubic_avoid (fl : floats) (p : pkt) (now : Z) (c : cc) : cc :=
  let c := if hy_in_css (c_hy c) then c
           else match c_start c with Some _ => c | None => set_c_start (Some now) c end in
  let u := c_cu c in
  let w := c_cwnd c in
  let target := Z.min (Z.max (fl_cubic fl (cu_tick u)) w) (w * 3 / 2) in
  let cw := if fl_friendly fl (cu_tick u) then Z.max w (fl_west fl (cu_tick u))
            else w + c_mds c * (target - w) / w in
  let inc := cu_inc u + (cw - w) in
  let '(inc, w) := if c_mds c <=? inc then (inc - c_mds c, w + c_mds c) else (inc, w) in
  set_c_cwnd w (set_c_cu (mkCubic (cu_tick u + 1) (cu_last_sent u) (cu_last_ack u) inc (cu_prior u)) c).

(** cubic::on_packet_acked (cubic.rs:208-352) *)
Definition cubic_acked (fl : floats) (pipe : Z) (p : pkt) (latest now : Z) (c : cc) : cc :=
  if cc_in_recovery (p_sent p) c
  then set_c_prr (prr_acked (p_size p) pipe (c_ssthresh c) (c_mds c) (c_prr c)) c
  else if c_app c then c
  else
    let '(c, rolled) :=
      if is_some (c_start c) then
        let new_lost := c_lost c - pi_lost (cu_prior (c_cu c)) in
        let thresh := Z.max (c_cwnd c / c_mds c * 20 / 100) 2 in
        if new_lost <? thresh then cubic_rollback c else (c, false)
      else (c, false) in
    if rolled then c
    else if c_cwnd c <? c_ssthresh c then
      let c := set_c_sl (c_sl c + p_size p) c in
      let c := if c_mds c <=? c_sl c
               then set_c_sl (c_sl c - c_mds c) (set_c_cwnd (c_cwnd c + ss_inc c) c) else c in
      hy_step p latest now c
    else cubic_avoid fl p now c.

(** on_packets_acked (congestion/mod.rs:224-246, reno.rs:63-70, cubic.rs:197-206) *)
Definition cc_acked (fl : floats) (pipe : Z) (l : list pkt) (latest now : Z) (c : cc) : cc :=
  match c_alg c with
  | Reno => fold_left (fun c p => reno_acked p latest now c) l c
  | Cubic =>
      let u := c_cu c in
      let c := set_c_cu (mkCubic (cu_tick u) (cu_last_sent u) (Some now) (cu_inc u) (cu_prior u)) c in
      fold_left (fun c p => cubic_acked fl pipe p latest now c) l c
  end.

(** reno::congestion_event (reno.rs:109-139) *)
Definition reno_event (sent now : Z) (c : cc) : cc :=
  if cc_in_recovery sent c then c else
  let c := set_c_start (Some now) c in
  let c := set_c_cwnd (Z.max (mul_half (c_cwnd c)) (c_mds c * MIN_WINDOW)) c in
  let c := set_c_ca (mul_half (c_cwnd c)) c in
  let c := cc_ssthresh (c_cwnd c) (hy_in_css (c_hy c)) c in
  if hy_in_css (c_hy c) then set_c_hy (hy_event (c_hy c)) c else c.

(** cubic::congestion_event (cubic.rs:354-401) *)
Definition cubic_event (pipe sent now : Z) (c : cc) : cc :=
  if cc_in_recovery sent c then c else
  let c := set_c_start (Some now) c in
  let s := Z.max (mul_beta (c_cwnd c)) (c_mds c * MIN_WINDOW) in
  let c := cc_ssthresh s (hy_in_css (c_hy c)) c in
  let c := set_c_cwnd s c in
  let u := c_cu c in
  let c := set_c_cu (mkCubic (cu_tick u) (cu_last_sent u) (cu_last_ack u) (mul_beta (cu_inc u)) (cu_prior u)) c in
  let c := if hy_in_css (c_hy c) then set_c_hy (hy_event (c_hy c)) c else c in
  set_c_prr (prr_event pipe (c_prr c)) c.

(** checkpoint (reno.rs:141, cubic.rs:403-410) *)
Definition cubic_checkpoint (c : cc) : cc :=
  let u := c_cu c in
  set_c_cu (mkCubic (cu_tick u) (cu_last_sent u) (cu_last_ack u) (cu_inc u)
    (mkPrior (c_cwnd c) (c_ssthresh c) (c_start c) (c_lost c))) c.

(** What detect_lost_packets does to the congestion controller when the last
    packet found lost is [p] (recovery.rs:545-558) *)
Definition cc_event (pipe : Z) (p : pkt) (now : Z) (c : cc) : cc :=
  match c_alg c with
  | Reno => reno_event (p_sent p) now c
  | Cubic =>
      let c := if cc_in_recovery (p_sent p) c then c else cubic_checkpoint c in
      cubic_event pipe (p_sent p) now c
  end.

(** * One packet number space (congestion/recovery.rs:70-103) *)

Record space : Type := mkSpace {
  s_last_el : option Z; s_largest : option Z; s_loss_time : option Z; s_sent : list pkt;
  s_probes : Z; s_inf : Z; s_facked : list Z; s_flost : list Z; s_fpto : list Z }.
Definition space_new : space := mkSpace None None None [] 0 0 [] [] [].

Definition set_s_last_el v s := mkSpace v (s_largest s) (s_loss_time s) (s_sent s) (s_probes s) (s_inf s)
  (s_facked s) (s_flost s) (s_fpto s).
Definition set_s_largest v s := mkSpace (s_last_el s) v (s_loss_time s) (s_sent s) (s_probes s) (s_inf s)
  (s_facked s) (s_flost s) (s_fpto s).
Definition set_s_sent v s := mkSpace (s_last_el s) (s_largest s) (s_loss_time s) v (s_probes s) (s_inf s)
  (s_facked s) (s_flost s) (s_fpto s).
Definition set_s_probes v s := mkSpace (s_last_el s) (s_largest s) (s_loss_time s) (s_sent s) v (s_inf s)
  (s_facked s) (s_flost s) (s_fpto s).
Definition set_s_inf v s := mkSpace (s_last_el s) (s_largest s) (s_loss_time s) (s_sent s) (s_probes s) v
  (s_facked s) (s_flost s) (s_fpto s).
Definition set_s_facked v s := mkSpace (s_last_el s) (s_largest s) (s_loss_time s) (s_sent s) (s_probes s) (s_inf s)
  v (s_flost s) (s_fpto s).
Definition set_s_flost v s := mkSpace (s_last_el s) (s_largest s) (s_loss_time s) (s_sent s) (s_probes s) (s_inf s)
  (s_facked s) v (s_fpto s).
Definition set_s_fpto v s := mkSpace (s_last_el s) (s_largest s) (s_loss_time s) (s_sent s) (s_probes s) (s_inf s)
  (s_facked s) (s_flost s) v.

(** drain_acked_and_lost_packets (recovery.rs:306-329) *)
Fixpoint drain (thresh : Z) (l : list pkt) : list pkt :=
  match l with
  | [] => []
  | p :: tl =>
      if (match p_lost p with Some t => thresh <? t | None => false end) then l
      else if negb (is_some (p_acked p)) && negb (is_some (p_lost p)) then l
      else drain thresh tl
  end.

(** What the loop over acknowledged packets collects (recovery.rs:125-194): the
    in-flight counter, acked bytes, spurious losses, the threshold implied by the
    first of them, the two flags, the packets newly acked and their frames. *)
Record aacc : Type := mkA {
  a_inf : Z; a_bytes : Z; a_spur : Z; a_thresh : option Z; a_el : bool; a_infspur : bool;
  a_new : list pkt; a_frames : list Z }.

(** One packet inside an acknowledged range (recovery.rs:160-203).  A counter that
    would drop below zero panics (overflow checks). *)
Definition ack_one (now largest : Z) (p : pkt) (a : aacc) : res error (pkt * aacc) :=
  if is_some (p_acked p) then Ok (p, a)
  else if is_some (p_lost p) then
    if largest <? p_num p then Panic else
    Ok (set_p_acked now (p_frames p) p,
        mkA (a_inf a) (a_bytes a) (a_spur a + 1)
          (match a_thresh a with None => Some (largest - p_num p + 1) | t => t end)
          (a_el a) (a_infspur a || p_inf p) (a_new a) (a_frames a))
  else
    if p_inf p && (a_inf a <? 1) then Panic else
    Ok (set_p_acked now [] p,
        mkA (if p_inf p then a_inf a - 1 else a_inf a) (if p_inf p then a_bytes a + p_size p else a_bytes a)
          (a_spur a) (a_thresh a) (a_el a || p_el p) (a_infspur a) (a_new a ++ [p]) (a_frames a ++ p_frames p)).

(** One range [lo, hi): packets are found by binary search, which in a sorted
    queue skips exactly those below lo (recovery.rs:143-160). *)
Fixpoint ack_range (now largest lo hi : Z) (l : list pkt) (a : aacc) : res error (list pkt * aacc) :=
  match l with
  | [] => Ok ([], a)
  | p :: tl =>
      if p_num p <? lo then
        let* '(tl, a) := ack_range now largest lo hi tl a in Ok (p :: tl, a)
      else if hi <=? p_num p then Ok (l, a)
      else
        let* '(p, a) := ack_one now largest p a in
        let* '(tl, a) := ack_range now largest lo hi tl a in Ok (p :: tl, a)
  end.

(** All ranges, in increasing order (recovery.rs:133-204).  An acknowledgement of
    the skipped number is an error, after which the connection is closed. *)
Fixpoint ack_ranges (now largest : Z) (skip : option Z) (rs : list (Z * Z)) (l : list pkt) (a : aacc)
  : res error (list pkt * aacc) :=
  match rs with
  | [] => Ok (l, a)
  | (lo, hi) :: rs =>
      if (match skip with Some s => (lo <=? s) && (s <? hi) | None => false end)
      then Err OptimisticAckDetected
      else
        let* '(l, a) := ack_range now largest lo hi l a in
        ack_ranges now largest skip rs l a
  end.

(** RangeSet::last: the largest element *)
Definition ranges_last (rs : list (Z * Z)) : option Z :=
  match rs with [] => None | _ => Some (snd (last rs (0, 0)) - 1) end.

(** detect_and_remove_acked_packets (recovery.rs:106-218) *)
Definition space_ack (now rtt : Z) (rs : list (Z * Z)) (skip : option Z) (s : space)
  : res error (space * aacc) :=
  match ranges_last rs with
  | None => Panic
  | Some m =>
      let largest := Z.max (match s_largest s with Some x => x | None => 0 end) m in
      let* '(l, a) := ack_ranges now largest skip rs (s_sent s) (mkA (s_inf s) 0 0 None false false [] []) in
      let s := set_s_sent (drain (now - rtt) l) s in
      let s := set_s_inf (a_inf a) s in
      Ok (set_s_facked (s_facked s ++ a_frames a) s, a)
  end.

(** What the loop over lost packets collects (recovery.rs:230-291) *)
Record lacc : Type := mkL {
  l_inf : Z; l_pkts : Z; l_bytes : Z; l_pm_bytes : Z; l_last : option pkt; l_frames : list Z;
  l_time : option Z }.

Fixpoint lose (now delay thresh largest : Z) (l : list pkt) (a : lacc) : res error (list pkt * lacc) :=
  match l with
  | [] => Ok ([], a)
  | p :: tl =>
      if largest <? p_num p then Ok (l, a)
      else if is_some (p_acked p) || is_some (p_lost p) then
        let* '(tl, a) := lose now delay thresh largest tl a in Ok (p :: tl, a)
      else if (p_sent p <=? now - delay) || (p_num p + thresh <=? largest) then
        let q := set_p_lost now p in
        let fs := l_frames a ++ p_frames p in
        if p_probe p then
          if l_inf a <? 1 then Panic else
          let* '(tl, a) := lose now delay thresh largest tl
            (mkL (l_inf a - 1) (l_pkts a) (l_bytes a) (l_pm_bytes a + p_size p) (l_last a) fs (l_time a)) in
          Ok (q :: tl, a)
        else if p_inf p then
          if l_inf a <? 1 then Panic else
          let* '(tl, a) := lose now delay thresh largest tl
            (mkL (l_inf a - 1) (l_pkts a + 1) (l_bytes a + p_size p) (l_pm_bytes a) (Some q) fs (l_time a)) in
          Ok (q :: tl, a)
        else
          let* '(tl, a) := lose now delay thresh largest tl
            (mkL (l_inf a) (l_pkts a + 1) (l_bytes a) (l_pm_bytes a) (l_last a) fs (l_time a)) in
          Ok (q :: tl, a)
      else
        Ok (l, mkL (l_inf a) (l_pkts a) (l_bytes a) (l_pm_bytes a) (l_last a) (l_frames a) (Some (p_sent p + delay)))
  end.

(** RecoveryEpoch::detect_lost_packets (recovery.rs:220-304) *)
Definition space_lose (delay thresh now : Z) (s : space) : res error (space * lacc) :=
  let delay := Z.max delay GRANULARITY in
  let largest := match s_largest s with Some x => x | None => 0 end in
  let* '(l, a) := lose now delay thresh largest (s_sent s) (mkL (s_inf s) 0 0 0 None [] None) in
  Ok (mkSpace (s_last_el s) (s_largest s) (l_time a) l (s_probes s) (l_inf a) (s_facked s)
        (s_flost s ++ l_frames a) (s_fpto s), a).

(** * LegacyRecovery (congestion/recovery.rs:352-397) *)

Inductive epoch : Type := EInitial | EHandshake | EApp.

Record rec : Type := mkRec {
  v_ini : space; v_hs : space; v_app : space; v_timer : option Z; v_pto_count : Z; v_rtt : rtt;
  v_spurious : Z; v_thresh : Z; v_reordered : bool; v_bif : bif; v_bytes_sent : Z; v_bytes_lost : Z;
  v_mds : Z; v_non_el : Z; v_cc : cc }.

Definition get_s (e : epoch) (v : rec) : space :=
  match e with EInitial => v_ini v | EHandshake => v_hs v | EApp => v_app v end.
Definition set_s (e : epoch) (s : space) (v : rec) : rec :=
  mkRec (match e with EInitial => s | _ => v_ini v end) (match e with EHandshake => s | _ => v_hs v end)
    (match e with EApp => s | _ => v_app v end)
    (v_timer v) (v_pto_count v) (v_rtt v) (v_spurious v) (v_thresh v) (v_reordered v) (v_bif v)
    (v_bytes_sent v) (v_bytes_lost v) (v_mds v) (v_non_el v) (v_cc v).
Definition set_timer x v := mkRec (v_ini v) (v_hs v) (v_app v) x (v_pto_count v) (v_rtt v) (v_spurious v)
  (v_thresh v) (v_reordered v) (v_bif v) (v_bytes_sent v) (v_bytes_lost v) (v_mds v) (v_non_el v) (v_cc v).
Definition set_pto_count x v := mkRec (v_ini v) (v_hs v) (v_app v) (v_timer v) x (v_rtt v) (v_spurious v)
  (v_thresh v) (v_reordered v) (v_bif v) (v_bytes_sent v) (v_bytes_lost v) (v_mds v) (v_non_el v) (v_cc v).
Definition set_rtt x v := mkRec (v_ini v) (v_hs v) (v_app v) (v_timer v) (v_pto_count v) x (v_spurious v)
  (v_thresh v) (v_reordered v) (v_bif v) (v_bytes_sent v) (v_bytes_lost v) (v_mds v) (v_non_el v) (v_cc v).
Definition set_bif x v := mkRec (v_ini v) (v_hs v) (v_app v) (v_timer v) (v_pto_count v) (v_rtt v) (v_spurious v)
  (v_thresh v) (v_reordered v) x (v_bytes_sent v) (v_bytes_lost v) (v_mds v) (v_non_el v) (v_cc v).
Definition set_mds x v := mkRec (v_ini v) (v_hs v) (v_app v) (v_timer v) (v_pto_count v) (v_rtt v) (v_spurious v)
  (v_thresh v) (v_reordered v) (v_bif v) (v_bytes_sent v) (v_bytes_lost v) x (v_non_el v) (v_cc v).
Definition set_cc x v := mkRec (v_ini v) (v_hs v) (v_app v) (v_timer v) (v_pto_count v) (v_rtt v) (v_spurious v)
  (v_thresh v) (v_reordered v) (v_bif v) (v_bytes_sent v) (v_bytes_lost v) (v_mds v) (v_non_el v) x.
Definition set_sent_counts non_el bytes v := mkRec (v_ini v) (v_hs v) (v_app v) (v_timer v) (v_pto_count v)
  (v_rtt v) (v_spurious v) (v_thresh v) (v_reordered v) (v_bif v) bytes (v_bytes_lost v) (v_mds v) non_el (v_cc v).
Definition set_reorder spur th re v := mkRec (v_ini v) (v_hs v) (v_app v) (v_timer v) (v_pto_count v)
  (v_rtt v) spur th re (v_bif v) (v_bytes_sent v) (v_bytes_lost v) (v_mds v) (v_non_el v) (v_cc v).

(** new_with_config (recovery.rs:399-440), created at time [t] *)
Definition rec_new (t initial_rtt mds icwp : Z) (a : alg) (hy fix_on : bool) : rec :=
  mkRec space_new space_new space_new None 0 (rtt_new t initial_rtt 0) 0 INITIAL_PKT_THRESH false
    bif_new 0 0 mds 0 (cc_new a mds icwp hy fix_on).

(** [Option<Instant>] compares None as less than every Some *)
Definition olt (a b : option Z) : bool :=
  match a, b with
  | Some x, Some y => x <? y
  | None, Some _ => true
  | _, None => false
  end.

(** [if time.is_none() || new_time < time { ... }] (recovery.rs:446-456, 493-499) *)
Definition pick (new : option Z * epoch) (cur : option Z * epoch) : option Z * epoch :=
  if negb (is_some (fst cur)) || olt (fst new) (fst cur) then new else cur.

(** loss_time_and_space (recovery.rs:442-459) *)
Definition loss_time_and_space (v : rec) : option Z * epoch :=
  pick (s_loss_time (v_app v), EApp)
    (pick (s_loss_time (v_hs v), EHandshake) (s_loss_time (v_ini v), EInitial)).

(** struct HandshakeStatus (recovery/mod.rs:458-465) *)
Record hstatus : Type := mkHs { hs_keys : bool; hs_verified : bool; hs_done : bool }.

(** 2_u32.saturating_pow(count) *)
Definition backoff (count : Z) : Z := Z.min (2 ^ count) (2 ^ 32 - 1).

Definition oadd (o : option Z) (d : Z) : option Z := option_map (fun t => t + d) o.

(** pto_time_and_space (recovery.rs:461-505) *)
Definition pto_time_and_space (hs : hstatus) (now : Z) (v : rec) : option Z * epoch :=
  let d := rtt_pto (v_rtt v) * backoff (v_pto_count v) in
  if bf_n (v_bif v) =? 0 then (Some (now + d), if hs_keys hs then EHandshake else EInitial)
  else
    let step e d cur := if s_inf (get_s e v) =? 0 then cur
                        else pick (oadd (s_last_el (get_s e v)) d, e) cur in
    let cur := step EHandshake d (step EInitial d (None, EInitial)) in
    if s_inf (v_app v) =? 0 then cur
    else if negb (hs_done hs) then cur
    else step EApp (d + r_max_ack_delay (v_rtt v) * backoff (v_pto_count v)) cur.

(** set_loss_detection_timer (recovery.rs:507-531) *)
Definition set_loss_timer (hs : hstatus) (now : Z) (v : rec) : rec :=
  match fst (loss_time_and_space v) with
  | Some t => set_timer (Some t) v
  | None =>
      if (bf_n (v_bif v) =? 0) && hs_verified hs then set_timer None v
      else set_timer (fst (pto_time_and_space hs now v)) v
  end.

(** LegacyRecovery::detect_lost_packets (recovery.rs:533-574): the new state and
    the numbers of packets and bytes lost *)
Definition rec_lose (fl : floats) (e : epoch) (now : Z) (v : rec) : res error (rec * (Z * Z)) :=
  let delay := fl_scale fl (v_reordered v) (Z.max (r_latest (v_rtt v)) (r_srtt (v_rtt v))) in
  let* '(s, a) := space_lose delay (v_thresh v) now (get_s e v) in
  let v := set_s e s v in
  let v := match l_last a with
           | Some p =>
               let v := set_cc (cc_event (bf_n (v_bif v)) p now (v_cc v)) v in
               set_bif (bif_sub (l_bytes a) now (v_bif v)) v
           | None => v
           end in
  let v := set_bif (bif_sub (l_pm_bytes a) now (v_bif v)) v in
  let v := set_s e (set_s_sent (drain (now - r_srtt (v_rtt v)) (s_sent (get_s e v))) (get_s e v)) v in
  let v := set_cc (set_c_lost (c_lost (v_cc v) + l_pkts a) (v_cc v)) v in
  Ok (v, (l_pkts a, l_bytes a)).

(** on_packet_sent (recovery.rs:621-670).  The time sent is set to [now]. *)
Definition rec_sent (e : epoch) (p : pkt) (hs : hstatus) (now : Z) (v : rec) : rec :=
  let v := set_sent_counts (if p_el p then 0 else v_non_el v + 1) (v_bytes_sent v) v in
  let v := if p_inf p && p_el p then set_s e (set_s_last_el (Some now) (get_s e v)) v else v in
  let v := set_cc (cc_sent (bf_n (v_bif v)) (p_size p) now (p_num p) (p_inf p) (v_cc v)) v in
  let p := mkPkt (p_num p) (p_frames p) now (p_acked p) (p_lost p) (p_size p) (p_el p) (p_inf p) (p_data p) (p_probe p) in
  let v := if p_inf p then
             let v := set_s e (set_s_inf (s_inf (get_s e v) + 1) (get_s e v)) v in
             let v := set_bif (bif_add (p_size p) now (v_bif v)) v in
             set_loss_timer hs now v
           else v in
  let v := set_sent_counts (v_non_el v) (v_bytes_sent v + p_size p) v in
  set_s e (set_s_sent (s_sent (get_s e v) ++ [p]) (get_s e v)) v.

(** What on_ack_received returns: packets and bytes lost, bytes acked, spurious
    losses (recovery/mod.rs:173-178) *)
Definition outcome : Type := (Z * Z * Z * Z)%type.

(** on_ack_received (recovery.rs:677-769); the delay is in microseconds *)
Definition rec_ack (fl : floats) (e : epoch) (rs : list (Z * Z)) (delay : Z) (hs : hstatus) (now : Z)
  (skip : option Z) (v : rec) : res error (rec * outcome) :=
  let* '(s, a) := space_ack now (r_srtt (v_rtt v)) rs skip (get_s e v) in
  let v := set_s e s v in
  let v := match a_thresh a with
           | Some t => set_reorder (v_spurious v + a_spur a) (Z.max (v_thresh v) (Z.min t MAX_PKT_THRESH)) true v
           | None => set_reorder (v_spurious v + a_spur a) (v_thresh v) (v_reordered v) v
           end in
  let v := if a_infspur a then set_cc (alg_rollback (v_cc v)) v else v in
  match a_new a with
  | [] => Ok (v, (0, 0, 0, 0))
  | p :: new =>
      let top := last new p in
      let largest := Z.max (match s_largest (get_s e v) with Some x => x | None => 0 end) (p_num top) in
      let v := set_s e (set_s_largest (Some largest) (get_s e v)) v in
      let v := if (p_num top =? largest) && a_el a
               then set_rtt (rtt_update (mkIn (since now (p_sent top)) (delay * 1000) now (hs_done hs)) (v_rtt v)) v
               else v in
      let* '(v, lost) := rec_lose fl e now v in
      let v := set_cc (cc_acked fl (bf_n (v_bif v)) (a_new a) (r_latest (v_rtt v)) now (v_cc v)) v in
      let v := set_bif (bif_sub (a_bytes a) now (v_bif v)) v in
      let v := set_pto_count 0 v in
      let v := set_loss_timer hs now v in
      let v := set_s e (set_s_sent (drain (now - r_srtt (v_rtt v)) (s_sent (get_s e v))) (get_s e v)) v in
      Ok (v, (fst lost, snd lost, a_bytes a, a_spur a))
  end.

(** The frames of the oldest [n] outstanding packets with data (recovery.rs:821-841) *)
Fixpoint pto_frames (n : nat) (l : list pkt) : list Z :=
  match n, l with
  | S k, p :: tl =>
      if p_data p && negb (is_some (p_acked p)) && negb (is_some (p_lost p))
      then p_frames p ++ pto_frames k tl else pto_frames n tl
  | _, _ => []
  end.

(** on_loss_detection_timeout (recovery.rs:771-850) *)
Definition rec_timeout (fl : floats) (hs : hstatus) (now : Z) (v : rec) : res error (rec * (Z * Z)) :=
  match loss_time_and_space v with
  | (Some _, e) =>
      let* '(v, lost) := rec_lose fl e now v in
      Ok (set_loss_timer hs now v, lost)
  | (None, _) =>
      let e := if 0 <? bf_n (v_bif v) then snd (pto_time_and_space hs now v)
               else if hs_keys hs then EHandshake else EInitial in
      let v := set_pto_count (v_pto_count v + 1) v in
      let s := set_s_probes (Z.min (v_pto_count v) MAX_PROBES) (get_s e v) in
      let s := match s_fpto s with
               | [] => set_s_fpto (pto_frames (Z.to_nat (s_probes s)) (s_sent s)) s
               | _ => s
               end in
      Ok (set_loss_timer hs now (set_s e s v), (0, 0))
  end.

(** on_pkt_num_space_discarded (recovery.rs:852-880) *)
Definition outstanding (p : pkt) : bool := p_inf p && negb (is_some (p_acked p)) && negb (is_some (p_lost p)).
Definition rec_discard (e : epoch) (hs : hstatus) (now : Z) (v : rec) : rec :=
  let n := fold_left (fun acc p => acc + p_size p) (filter outstanding (s_sent (get_s e v))) 0 in
  let v := set_bif (bif_sub n now (v_bif v)) v in
  let s := get_s e v in
  let v := set_s e (mkSpace None (s_largest s) None [] 0 0 [] [] []) v in
  set_loss_timer hs now v.

(** ping_sent (recovery.rs:616-619) *)
Definition rec_ping (e : epoch) (v : rec) : rec :=
  set_s e (set_s_probes (sat_sub (s_probes (get_s e v)) 1) (get_s e v)) v.

(** Vec::pop *)
Definition vpop (l : list Z) : option (Z * list Z) :=
  match l with [] => None | x :: tl => Some (last tl x, removelast l) end.

(** next_acked_frame, next_lost_frame (recovery.rs:331-337, 585-591) *)
Definition rec_next_acked (e : epoch) (v : rec) : option Z * rec :=
  let s := get_s e v in
  match vpop (s_facked s) with
  | Some (x, l) => (Some x, set_s e (set_s_facked l s) v)
  | None => (None, v)
  end.
Definition rec_next_lost (e : epoch) (v : rec) : option Z * rec :=
  let s := get_s e v in
  match vpop (s_flost s) with
  | Some (x, l) => (Some x, set_s e (set_s_flost l s) v)
  | None => match vpop (s_fpto s) with
            | Some (x, l) => (Some x, set_s e (set_s_fpto l s) v)
            | None => (None, v)
            end
  end.

(** cwnd_available (recovery.rs:883-893) *)
Definition cwnd_available (v : rec) : Z :=
  if (0 <? s_probes (v_ini v)) || (0 <? s_probes (v_hs v)) || (0 <? s_probes (v_app v)) then usize_max
  else sat_sub (c_cwnd (v_cc v)) (bf_n (v_bif v)) + pr_snd (c_prr (v_cc v)).

(** should_elicit_ack (recovery.rs:579-583) *)
Definition should_elicit_ack (e : epoch) (v : rec) : bool :=
  (0 <? s_probes (get_s e v)) || (MAX_NON_EL <=? v_non_el v).

(** pmtud_update_max_datagram_size, update_max_datagram_size (recovery.rs:965-986).
    Note that Congestion keeps its own datagram size, which never changes. *)
Definition rec_pmtud_mds (n : Z) (v : rec) : rec :=
  let v := if c_cwnd (v_cc v) =? v_mds v * c_icwp (v_cc v)
           then set_cc (set_c_cwnd (n * c_icwp (v_cc v)) (v_cc v)) v else v in
  set_mds n v.
Definition rec_update_mds (n : Z) (v : rec) : rec := rec_pmtud_mds (Z.min (v_mds v) n) v.

(** update_max_ack_delay, update_app_limited (recovery.rs:1031-1045) *)
Definition rec_max_ack_delay (d : Z) (v : rec) : rec :=
  let r := v_rtt v in
  set_rtt (mkRtt (r_latest r) (r_max r) (r_srtt r) (r_var r) (r_min r) d (r_has r)) v.
Definition rec_app_limited (b : bool) (v : rec) : rec := set_cc (set_c_app b (v_cc v)) v.

(** The calls the connection makes (lib.rs:3526, 4017, 4133, 5311, 5475, 7120,
    7980-7998, 8333, 8858, 9139), each at a time. *)
Inductive rop : Type :=
| RSent (e : epoch) (p : pkt) (hs : hstatus) (now : Z)
| RAck (e : epoch) (rs : list (Z * Z)) (delay : Z) (hs : hstatus) (now : Z) (skip : option Z)
| RTimeout (hs : hstatus) (now : Z)
| RDiscard (e : epoch) (hs : hstatus) (now : Z)
| RPathChange (e : epoch) (now : Z)
| RNextAcked (e : epoch)
| RNextLost (e : epoch)
| RPing (e : epoch)
| RPmtudMds (n : Z)
| RUpdateMds (n : Z)
| RMaxAckDelay (d : Z)
| RAppLimited (b : bool).

(** What a call reports: bytes and packets lost, bytes acked and spurious losses,
    or a frame. *)
Inductive rout : Type :=
| ONone
| OLost (n bytes : Z)
| OAck (o : outcome)
| OFrame (f : option Z).

Definition rec_step (fl : floats) (o : rop) (v : rec) : res error (rec * rout) :=
  match o with
  | RSent e p hs now => Ok (rec_sent e p hs now v, ONone)
  | RAck e rs d hs now skip => let* '(v, o) := rec_ack fl e rs d hs now skip v in Ok (v, OAck o)
  | RTimeout hs now => let* '(v, o) := rec_timeout fl hs now v in Ok (v, OLost (fst o) (snd o))
  | RDiscard e hs now => Ok (rec_discard e hs now v, ONone)
  | RPathChange e now => let* '(v, o) := rec_lose fl e now v in Ok (v, OLost (fst o) (snd o))
  | RNextAcked e => let '(f, v) := rec_next_acked e v in Ok (v, OFrame f)
  | RNextLost e => let '(f, v) := rec_next_lost e v in Ok (v, OFrame f)
  | RPing e => Ok (rec_ping e v, ONone)
  | RPmtudMds n => Ok (rec_pmtud_mds n v, ONone)
  | RUpdateMds n => Ok (rec_update_mds n v, ONone)
  | RMaxAckDelay d => Ok (rec_max_ack_delay d v, ONone)
  | RAppLimited b => Ok (rec_app_limited b v, ONone)
  end.

Fixpoint rec_run (fl : floats) (ops : list rop) (v : rec) : res error (rec * list rout) :=
  match ops with
  | [] => Ok (v, [])
  | o :: ops =>
      let* '(v, x) := rec_step fl o v in
      let* '(v, xs) := rec_run fl ops v in
      Ok (v, x :: xs)
  end.
