(** quiche/src/recovery/gcongestion/bbr2/{startup,drain,probe_bw,probe_rtt,mode}.rs and
    the loop of bbr2.rs that runs them: the modes of BBR2, the phases of its probing
    cycle and what moves it from one to the next.  What the modes ask the network model
    (C91) and compute in floating point is an argument of each event.  The gains, the
    lower bounds and the startup exit statistics are left out.  Counters that the code
    keeps in a machine word are unbounded here, apart from the shift in the slope. *)
Require Import Verif.Base.

(** CyclePhase (mode.rs:48-56) *)
Inductive phase : Type := PNone | PUp | PDown | PCruise | PRefill.
Definition phase_eqb (a b : phase) : bool := match a, b with PNone, PNone | PUp, PUp | PDown, PDown | PCruise, PCruise | PRefill, PRefill => true | _, _ => false end.
(** Cycle (mode.rs:75-94), without a flag that is only written *)
Record cycle : Type := mkCy { cy_start : Z; cy_phase : phase; cy_rounds : Z; cy_pstart : Z; cy_since : Z; cy_wait : option Z; cy_uprounds : Z; cy_upbytes : option Z; cy_upacked : Z; cy_adv : bool; cy_probing : bool; cy_high : bool; cy_risky : bool }.
(** Cycle::default (mode.rs:96-118); its times are set when the cycle is entered *)
Definition cy_default (now : Z) : cycle := mkCy now PNone 0 now 0 None 0 None 0 false false false false.
(** What the modes change in the network model: whether the bandwidth is full, the
    upper bound on bytes in flight, and how often the bandwidth filter moved on.
    [nw_cycles], how many probing cycles began, is not in the code *)
Record netw : Type := mkNw { nw_full : bool; nw_hi : Z; nw_adv : Z; nw_cycles : Z }.
Definition nw_advance (n : netw) : netw := mkNw (nw_full n) (nw_hi n) (nw_adv n + 1) (nw_cycles n).
Definition nw_set_hi (v : Z) (n : netw) : netw := mkNw (nw_full n) v (nw_adv n) (nw_cycles n).
Definition nw_set_full (n : netw) : netw := mkNw true (nw_hi n) (nw_adv n) (nw_cycles n).
Definition hi_default : Z := 18446744073709551615.
Definition default_mss : Z := 1300.
(** Params: the wait between probes (with the half millisecond of probe_bw.rs:224-226),
    the length of PROBE_RTT, whether leaving PROBE_DOWN early is disabled, whether the
    upper bound is ignored in PROBE_UP, whether queues are checked in startup and in
    PROBE_UP, whether quiet times are used *)
Record mpar : Type := mkMp { mp_wait : Z; mp_rtt : Z; mp_noexit : bool; mp_ignore : bool; mp_squeue : bool; mp_upqueue : bool; mp_quiet : bool }.
(** A congestion event and the answers of the network model in it *)
Record mev : Type := mkMe {
  me_time : Z; me_end : bool; me_app : bool; me_valid : bool; me_acked : Z; me_flight : Z; me_prior : Z; me_cwnd : Z; me_at_send : Z;
  me_growth : bool; me_plateau : bool; me_queue : bool; me_loss : bool; me_loss_hi : Z;
  me_bdp : Z; me_room : Z -> Z; me_min_rtt : Z; me_reno : Z -> bool; me_high : bool; me_high_hi : Z; me_upqueue : bool; me_expired : bool; me_target : Z }.

(** enter_probe_down (probe_bw.rs:201-233) *)
Definition enter_down (p : mpar) (high risky : bool) (now : Z) (c : cycle) (n : netw) : cycle * netw :=
  (mkCy now PDown 0 now 0 (Some (mp_wait p)) (cy_uprounds c) None (cy_upacked c) false (cy_probing c) high risky, mkNw (nw_full n) (nw_hi n) (nw_adv n) (nw_cycles n + 1)).
(** exit_probe_down (probe_bw.rs:281-286) *)
Definition exit_down (c : cycle) (n : netw) : cycle * netw :=
  if cy_adv c then (c, n)
  else (mkCy (cy_start c) (cy_phase c) (cy_rounds c) (cy_pstart c) (cy_since c) (cy_wait c) (cy_uprounds c) (cy_upbytes c) (cy_upacked c) true (cy_probing c) (cy_high c) (cy_risky c), nw_advance n).
(** enter_probe_cruise (probe_bw.rs:235-247) *)
Definition enter_cruise (now : Z) (c : cycle) (n : netw) : cycle * netw :=
  let '(c, n) := if phase_eqb (cy_phase c) PDown then exit_down c n else (c, n) in
  (mkCy (cy_start c) PCruise 0 now (cy_since c) (cy_wait c) (cy_uprounds c) (cy_upbytes c) (cy_upacked c) (cy_adv c) false (cy_high c) (cy_risky c), n).
(** enter_probe_refill (probe_bw.rs:249-268) *)
Definition enter_refill (uprounds now : Z) (c : cycle) (n : netw) : cycle * netw :=
  let '(c, n) := if phase_eqb (cy_phase c) PDown then exit_down c n else (c, n) in
  (mkCy (cy_start c) PRefill 0 now (cy_since c) (cy_wait c) uprounds (cy_upbytes c) 0 (cy_adv c) false (cy_high c) false, n).
(** raise_inflight_high_slope (probe_bw.rs:582-590): shifting by the word size panics *)
Definition raise_slope (cwnd : Z) (c : cycle) : res unit cycle :=
  if 64 <=? cy_uprounds c then Panic
  else Ok (mkCy (cy_start c) (cy_phase c) (cy_rounds c) (cy_pstart c) (cy_since c) (cy_wait c) (Z.min (cy_uprounds c + 1) 30)
             (Some (Z.max (cwnd / 2 ^ cy_uprounds c) default_mss)) (cy_upacked c) (cy_adv c) (cy_probing c) (cy_high c) (cy_risky c)).
(** enter_probe_up (probe_bw.rs:270-279) *)
Definition enter_up (now cwnd : Z) (c : cycle) : res unit cycle :=
  raise_slope cwnd (mkCy (cy_start c) PUp 0 now (cy_since c) (cy_wait c) (cy_uprounds c) (cy_upbytes c) (cy_upacked c) (cy_adv c) true (cy_high c) (cy_risky c)).
(** maybe_adapt_upper_bounds (probe_bw.rs:471-529); true is AdaptedProbedTooHigh *)
Definition adapt (p : mpar) (e : mev) (c : cycle) (n : netw) : bool * cycle * netw :=
  if negb (me_valid e) then (false, c, n)
  else if cy_probing c then
    if me_high e then
      (true, mkCy (cy_start c) (cy_phase c) (cy_rounds c) (cy_pstart c) (cy_since c) (cy_wait c) (cy_uprounds c) (cy_upbytes c) (cy_upacked c) (cy_adv c) false (cy_high c) (cy_risky c),
       if negb (me_app e) || mp_upqueue p then nw_set_hi (me_high_hi e) n else n)
    else (false, c, n)
  else if nw_hi n =? hi_default then (false, c, n)
  else (false, c, if nw_hi n <? me_at_send e then nw_set_hi (me_at_send e) n else n).
(** is_time_to_probe_bandwidth (probe_bw.rs:448-469) with has_cycle_lasted (531-535):
    times are subtracted saturating at 0; unwrap of no wait panics *)
Definition time_to_probe (e : mev) (c : cycle) : res unit bool :=
  match cy_wait c with None => Panic | Some w => Ok ((w <? Z.max 0 (me_time e - cy_start c)) || me_reno e (cy_since c)) end.
(** update_probe_down (probe_bw.rs:288-345), has_stayed_long_enough_in_probe_down (570-580) *)
Definition update_down (p : mpar) (e : mev) (c : cycle) (n : netw) : res unit (cycle * netw) :=
  let first := (cy_rounds c =? 1) && me_end e in
  let '(c, n) := if first then
      if me_app e then (mkCy (cy_start c) (cy_phase c) (cy_rounds c) (cy_pstart c) (cy_since c) (cy_wait c) (cy_uprounds c) (cy_upbytes c) (cy_upacked c) (cy_adv c) false (cy_high c) (cy_risky c), n)
      else (mkCy (cy_start c) (cy_phase c) (cy_rounds c) (cy_pstart c) (cy_since c) (cy_wait c) (cy_uprounds c) (cy_upbytes c) (cy_upacked c) true false (cy_high c) (cy_risky c), nw_advance n)
    else (c, n) in
  if first && cy_risky c && negb (cy_high c) then Ok (enter_refill 0 (me_time e) c n)
  else
    let '(_, c, n) := adapt p e c n in
    let* t := time_to_probe e c in
    if t then Ok (enter_refill 0 (me_time e) c n)
    else if negb (mp_noexit p) && (me_min_rtt e <? Z.max 0 (me_time e - cy_pstart c)) then Ok (enter_cruise (me_time e) c n)
    else if me_room e (nw_hi n) <? me_flight e then Ok (c, n)
    else if me_flight e <? me_bdp e then Ok (enter_cruise (me_time e) c n)
    else Ok (c, n).
(** update_probe_cruise (probe_bw.rs:347-364) *)
Definition update_cruise (p : mpar) (e : mev) (c : cycle) (n : netw) : res unit (cycle * netw) :=
  let '(_, c, n) := adapt p e c n in
  let* t := time_to_probe e c in
  if t then Ok (enter_refill 0 (me_time e) c n) else Ok (c, n).
(** update_probe_refill (probe_bw.rs:366-382) *)
Definition update_refill (p : mpar) (e : mev) (c : cycle) (n : netw) : res unit (cycle * netw) :=
  let '(_, c, n) := adapt p e c n in
  if (0 <? cy_rounds c) && me_end e then let* c := enter_up (me_time e) (me_cwnd e) c in Ok (c, n) else Ok (c, n).
(** probe_inflight_high_upward (probe_bw.rs:592-634); division by 0 panics *)
Definition upward (p : mpar) (e : mev) (c : cycle) (n : netw) : res unit (cycle * netw) :=
  if mp_ignore p then Ok (c, n)
  else if me_prior e <? me_cwnd e then Ok (c, n)
  else if me_cwnd e <? nw_hi n then Ok (c, n)
  else
    let acked := cy_upacked c + me_acked e in
    let* r := match cy_upbytes c with
      | None => Ok (acked, n)
      | Some b =>
          if b <=? acked then
            if b =? 0 then Panic
            else Ok (acked - acked / b * b, if nw_hi n <? nw_hi n + acked / b * default_mss then nw_set_hi (nw_hi n + acked / b * default_mss) n else n)
          else Ok (acked, n)
      end in
    let c := mkCy (cy_start c) (cy_phase c) (cy_rounds c) (cy_pstart c) (cy_since c) (cy_wait c) (cy_uprounds c) (cy_upbytes c) (fst r) (cy_adv c) (cy_probing c) (cy_high c) (cy_risky c) in
    if me_end e then let* c := raise_slope (me_cwnd e) c in Ok (c, snd r) else Ok (c, snd r).
(** update_probe_up (probe_bw.rs:384-446); [me_upqueue] answers the queue checks *)
Definition update_up (p : mpar) (e : mev) (c : cycle) (n : netw) : res unit (cycle * netw) :=
  let '(high, c, n) := adapt p e c n in
  if high then Ok (enter_down p true false (me_time e) c n)
  else
    let* r := upward p e c n in
    let '(c, n) := r in
    let risky := cy_high c && (nw_hi n <=? me_prior e) in
    let queue := negb risky && (0 <? cy_rounds c) && me_upqueue e in
    if risky || queue then Ok (enter_down p false risky (me_time e) c n) else Ok (c, n).
(** ProbeBW::on_congestion_event (probe_bw.rs:94-157); true switches to PROBE_RTT *)
Definition pb_event (p : mpar) (e : mev) (c : cycle) (n : netw) : res unit (cycle * netw * bool) :=
  let c := if me_end e then
      mkCy (cy_start c) (cy_phase c) (if cy_pstart c =? me_time e then cy_rounds c else cy_rounds c + 1) (cy_pstart c) (if cy_start c =? me_time e then cy_since c else cy_since c + 1)
        (cy_wait c) (cy_uprounds c) (cy_upbytes c) (cy_upacked c) (cy_adv c) (cy_probing c) (cy_high c) (cy_risky c)
    else c in
  match cy_phase c with
  | PNone => Panic
  | PUp => let* r := update_up p e c n in Ok (r, false)
  | PDown => let* r := update_down p e c n in Ok (r, negb (phase_eqb (cy_phase (fst r)) PDown) && me_expired e)
  | PCruise => let* r := update_cruise p e c n in Ok (r, false)
  | PRefill => let* r := update_refill p e c n in Ok (r, false)
  end.
(** ProbeBW::enter (probe_bw.rs:76-92) *)
Definition pb_enter (p : mpar) (now : Z) (c : cycle) (n : netw) : cycle * netw :=
  let c := mkCy now (cy_phase c) (cy_rounds c) (cy_pstart c) (cy_since c) (cy_wait c) (cy_uprounds c) (cy_upbytes c) (cy_upacked c) (cy_adv c) (cy_probing c) (cy_high c) (cy_risky c) in
  match cy_phase c with
  | PNone => enter_down p false false now c n
  | PCruise => enter_cruise now c n
  | PRefill => enter_refill (cy_uprounds c) now c n
  | PUp | PDown => (c, n)
  end.

(** Mode (mode.rs:153-160), without the placeholder that stands in while a mode runs;
    PROBE_RTT has the time after which it ends *)
Inductive mode : Type := MStartup | MDrain (c : cycle) | MProbe (c : cycle) | MRtt (c : cycle) (exit : option Z).
Definition probe_mode (r : cycle * netw) : mode * netw := (MProbe (fst r), snd r).
(** Startup::on_congestion_event (startup.rs:61-128), check_excessive_losses (170-190) *)
Definition startup_event (p : mpar) (e : mev) (n : netw) : mode * netw :=
  if nw_full n then (MDrain (cy_default (me_time e)), n)
  else if negb (me_end e) then (MStartup, n)
  else
    let n := if negb (me_growth e) && me_plateau e then nw_set_full n else n in
    let n := if mp_squeue p && negb (me_growth e) && me_queue e then nw_set_full n else n in
    let n := if negb (me_app e) && negb (me_growth e) && negb (nw_full n) && me_loss e then nw_set_full (nw_set_hi (me_loss_hi e) n) else n in
    if nw_full n then (MDrain (cy_default (me_time e)), n) else (MStartup, n).
(** Drain::on_congestion_event (drain.rs:61-83) *)
Definition drain_event (p : mpar) (e : mev) (c : cycle) (n : netw) : mode * netw :=
  if me_flight e <=? me_bdp e then probe_mode (pb_enter p (me_time e) c n) else (MDrain c, n).
(** ProbeRTT::on_congestion_event (probe_rtt.rs:89-114) *)
Definition rtt_event (p : mpar) (e : mev) (c : cycle) (exit : option Z) (n : netw) : mode * netw :=
  match exit with
  | None => (MRtt c (if me_flight e <=? me_target e then Some (me_time e + mp_rtt p) else None), n)
  | Some x => if x <? me_time e then probe_mode (pb_enter p (me_time e) c n) else (MRtt c exit, n)
  end.
(** do_on_congestion_event (mode.rs:189-213): with whether the mode changed *)
Definition mode_event (p : mpar) (e : mev) (m : mode) (n : netw) : res unit (mode * netw * bool) :=
  match m with
  | MStartup => let r := startup_event p e n in Ok (r, match fst r with MStartup => false | _ => true end)
  | MDrain c => let r := drain_event p e c n in Ok (r, match fst r with MDrain _ => false | _ => true end)
  | MProbe c => let* r := pb_event p e c n in let '(c, n, sw) := r in Ok (if sw then (MRtt c None, n, true) else (MProbe c, n, false))
  | MRtt c x => let r := rtt_event p e c x n in Ok (r, match fst r with MRtt _ _ => false | _ => true end)
  end.
(** The loop of on_congestion_event (bbr2.rs:719-737) *)
Fixpoint mode_loop (p : mpar) (e : mev) (fuel : nat) (m : mode) (n : netw) : res unit (mode * netw) :=
  match fuel with
  | O => Ok (m, n)
  | S fuel => let* r := mode_event p e m n in let '(m, n, changed) := r in if changed then mode_loop p e fuel m n else Ok (m, n)
  end.
(** The controller: mode, network model and the time since which nothing is in flight *)
Record mctl : Type := mkMc { mc_mode : mode; mc_net : netw; mc_quiet : option Z }.
Definition mc_new : mctl := mkMc MStartup (mkNw false hi_default 0 0) None.
(** on_congestion_event (bbr2.rs:698-754); the bound on mode changes is 4 (59) *)
Definition mc_event (p : mpar) (e : mev) (s : mctl) : res unit mctl :=
  let* r := mode_loop p e 4 (mc_mode s) (mc_net s) in
  Ok (mkMc (fst r) (snd r) (if (me_flight e =? 0) && mp_quiet p then Some (me_time e) else mc_quiet s)).
(** on_packet_sent with nothing in flight (bbr2.rs:680-686), on_exit_quiescence (549-557)
    of each mode (probe_rtt.rs:126-135; the others stay as they are) *)
Definition mc_send (p : mpar) (now : Z) (s : mctl) : mctl :=
  if mp_quiet p then
    match mc_quiet s with
    | None => s
    | Some _ =>
        let '(m, n) := match mc_mode s with
          | MRtt c None => probe_mode (pb_enter p now c (mc_net s))
          | MRtt c (Some x) => if x <? now then probe_mode (pb_enter p now c (mc_net s)) else (mc_mode s, mc_net s)
          | m => (m, mc_net s)
          end in
        mkMc m n None
    end
  else s.
Inductive mop : Type := MEvent (e : mev) | MSend (now : Z).
Definition mc_step (p : mpar) (o : mop) (s : mctl) : res unit mctl := match o with MEvent e => mc_event p e s | MSend now => Ok (mc_send p now s) end.
(** Operations newest first *)
Fixpoint mc_all (p : mpar) (ops : list mop) : res unit mctl := match ops with [] => Ok mc_new | o :: ops => let* s := mc_all p ops in mc_step p o s end.
