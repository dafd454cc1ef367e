(** quiche/src/recovery/gcongestion/recovery.rs: the loss detection used with
    BBR2 ([GRecovery]) of one path.

    The calls and reports are those of RecoveryModel.  Times and durations are
    whole nanoseconds, sizes and counters are in [Z], frames are numbers.  The
    controller and the pacer are not part of this model (the pacer is
    PacerModel): the time a packet is stamped with, which is the time of the call
    or the pacer's release time (recovery.rs:742-746), is the [p_sent] of the
    packet handed in.  The time threshold is kept in eighths, which is exact;
    [Duration::mul_f64] by it is the argument [scale].  [now.checked_sub(..)] is
    taken to succeed (recovery.rs:277), and [2_u32.saturating_pow] times a
    duration not to overflow. *)
Require Import Verif.Base Verif.Errors Verif.RttModel Verif.RecoveryModel.

(** What is not computed here: multiplication by the time threshold (in eighths),
    and which frames are datagrams *)
Record gpar : Type := mkGp { gp_scale : Z -> Z -> Z; gp_dgram : Z -> bool }.

(** SentStatus (recovery.rs:59-71) *)
Inductive gstat : Type := GSent (p : pkt) | GAcked | GLost.

(** RecoveryEpoch (recovery.rs:88-118) *)
Record gspace : Type := mkGs {
  gs_last_el : option Z; gs_largest : option Z; gs_loss_time : option Z; gs_q : list (Z * gstat);
  gs_probes : Z; gs_inf : Z; gs_facked : list Z; gs_flost : list Z; gs_fpto : list Z }.
Definition gspace_new : gspace := mkGs None None None [] 0 0 [] [] [].

(** GRecovery (recovery.rs:458-501); LossThreshold (recovery.rs:392-405) as its
    packet threshold, its time threshold and its overhead, in eighths *)
Record grec : Type := mkGr {
  gv_ini : gspace; gv_hs : gspace; gv_app : gspace; gv_timer : option Z; gv_pto : Z; gv_rtt : rtt;
  gv_lost : Z; gv_spur : Z; gv_thresh : option Z; gv_time8 : Z; gv_over8 : option Z; gv_bif : bif;
  gv_bytes_sent : Z; gv_bytes_lost : Z; gv_mds : Z; gv_non_el : Z }.

Definition gget (e : epoch) (v : grec) : gspace :=
  match e with EInitial => gv_ini v | EHandshake => gv_hs v | EApp => gv_app v end.
Definition gset (e : epoch) (s : gspace) (v : grec) : grec :=
  mkGr (match e with EInitial => s | _ => gv_ini v end) (match e with EHandshake => s | _ => gv_hs v end)
    (match e with EApp => s | _ => gv_app v end)
    (gv_timer v) (gv_pto v) (gv_rtt v) (gv_lost v) (gv_spur v) (gv_thresh v) (gv_time8 v) (gv_over8 v) (gv_bif v)
    (gv_bytes_sent v) (gv_bytes_lost v) (gv_mds v) (gv_non_el v).
Definition gset_timer x v := mkGr (gv_ini v) (gv_hs v) (gv_app v) x (gv_pto v) (gv_rtt v) (gv_lost v) (gv_spur v)
  (gv_thresh v) (gv_time8 v) (gv_over8 v) (gv_bif v) (gv_bytes_sent v) (gv_bytes_lost v) (gv_mds v) (gv_non_el v).
Definition gset_pto x v := mkGr (gv_ini v) (gv_hs v) (gv_app v) (gv_timer v) x (gv_rtt v) (gv_lost v) (gv_spur v)
  (gv_thresh v) (gv_time8 v) (gv_over8 v) (gv_bif v) (gv_bytes_sent v) (gv_bytes_lost v) (gv_mds v) (gv_non_el v).
Definition gset_rtt x v := mkGr (gv_ini v) (gv_hs v) (gv_app v) (gv_timer v) (gv_pto v) x (gv_lost v) (gv_spur v)
  (gv_thresh v) (gv_time8 v) (gv_over8 v) (gv_bif v) (gv_bytes_sent v) (gv_bytes_lost v) (gv_mds v) (gv_non_el v).
Definition gset_lost x v := mkGr (gv_ini v) (gv_hs v) (gv_app v) (gv_timer v) (gv_pto v) (gv_rtt v) x (gv_spur v)
  (gv_thresh v) (gv_time8 v) (gv_over8 v) (gv_bif v) (gv_bytes_sent v) (gv_bytes_lost v) (gv_mds v) (gv_non_el v).
Definition gset_thresh spur th t8 o8 v := mkGr (gv_ini v) (gv_hs v) (gv_app v) (gv_timer v) (gv_pto v) (gv_rtt v) (gv_lost v) spur
  th t8 o8 (gv_bif v) (gv_bytes_sent v) (gv_bytes_lost v) (gv_mds v) (gv_non_el v).
Definition gset_bif x v := mkGr (gv_ini v) (gv_hs v) (gv_app v) (gv_timer v) (gv_pto v) (gv_rtt v) (gv_lost v) (gv_spur v)
  (gv_thresh v) (gv_time8 v) (gv_over8 v) x (gv_bytes_sent v) (gv_bytes_lost v) (gv_mds v) (gv_non_el v).
Definition gset_mds x v := mkGr (gv_ini v) (gv_hs v) (gv_app v) (gv_timer v) (gv_pto v) (gv_rtt v) (gv_lost v) (gv_spur v)
  (gv_thresh v) (gv_time8 v) (gv_over8 v) (gv_bif v) (gv_bytes_sent v) (gv_bytes_lost v) x (gv_non_el v).
Definition gset_counts non_el bytes v := mkGr (gv_ini v) (gv_hs v) (gv_app v) (gv_timer v) (gv_pto v) (gv_rtt v) (gv_lost v) (gv_spur v)
  (gv_thresh v) (gv_time8 v) (gv_over8 v) (gv_bif v) bytes (gv_bytes_lost v) (gv_mds v) non_el.

Definition gset_q q s := mkGs (gs_last_el s) (gs_largest s) (gs_loss_time s) q (gs_probes s) (gs_inf s) (gs_facked s) (gs_flost s) (gs_fpto s).
Definition gset_largest x s := mkGs (gs_last_el s) x (gs_loss_time s) (gs_q s) (gs_probes s) (gs_inf s) (gs_facked s) (gs_flost s) (gs_fpto s).
Definition gset_probes x s := mkGs (gs_last_el s) (gs_largest s) (gs_loss_time s) (gs_q s) x (gs_inf s) (gs_facked s) (gs_flost s) (gs_fpto s).
Definition gset_frames fa fl fp s := mkGs (gs_last_el s) (gs_largest s) (gs_loss_time s) (gs_q s) (gs_probes s) (gs_inf s) fa fl fp.

(** LossThreshold::new, GRecovery::new (recovery.rs:407-420, 514-566), created at
    time [t]; INITIAL_TIME_THRESHOLD is 9/8 and INITIAL_TIME_THRESHOLD_OVERHEAD
    1/8 (recovery/mod.rs:60, 81) *)
Definition grec_new (t initial_rtt max_ack_delay mds : Z) (relaxed : bool) : grec :=
  mkGr gspace_new gspace_new gspace_new None 0 (rtt_new t initial_rtt max_ack_delay) 0 0
    (Some INITIAL_PKT_THRESH) 9 (if relaxed then Some 1 else None) bif_new 0 0 mds 0.

(** on_spurious_loss (recovery.rs:430-455); PACKET_REORDER_TIME_THRESHOLD is 5/4 *)
Definition gspurious (new spur : Z) (v : grec) : res error grec :=
  match gv_over8 v with
  | Some o =>
      if is_some (gv_thresh v) then Ok (gset_thresh spur None (gv_time8 v) (Some o) v)
      else let o := Z.min (o * 2) 8 in Ok (gset_thresh spur None (8 + o) (Some o) v)
  | None =>
      match gv_thresh v with
      | None => Panic
      | Some t => Ok (gset_thresh spur (Some (Z.max t (Z.min new MAX_PKT_THRESH))) 10 None v)
      end
  end.

(** What the loop over acknowledged packets collects (recovery.rs:180-257) *)
Record gaacc : Type := mkGa {
  ga_inf : Z; ga_bytes : Z; ga_spur : Z; ga_thresh : option Z; ga_el : bool; ga_new : list pkt; ga_frames : list Z }.

(** One packet in an acknowledged range (recovery.rs:219-252) *)
Definition gack_one (largest : Z) (x : Z * gstat) (a : gaacc) : res error ((Z * gstat) * gaacc) :=
  match snd x with
  | GSent p =>
      if p_inf p && (ga_inf a <? 1) then Panic
      else Ok ((fst x, GAcked),
        mkGa (if p_inf p then ga_inf a - 1 else ga_inf a) (if p_inf p then ga_bytes a + p_size p else ga_bytes a)
          (ga_spur a) (ga_thresh a) (ga_el a || p_el p) (ga_new a ++ [p]) (ga_frames a ++ p_frames p))
  | GAcked => Ok (x, a)
  | GLost =>
      if largest <? fst x then Panic
      else Ok ((fst x, GAcked),
        mkGa (ga_inf a) (ga_bytes a) (ga_spur a + 1)
          (match ga_thresh a with None => Some (largest - fst x + 1) | t => t end) (ga_el a) (ga_new a) (ga_frames a))
  end.

(** One range [lo, hi) (recovery.rs:200-256): the first packet is the front of the
    queue or is found by binary search, which in a sorted queue skips exactly
    those below [lo] *)
Fixpoint gack_range (largest lo hi : Z) (l : list (Z * gstat)) (a : gaacc) : res error (list (Z * gstat) * gaacc) :=
  match l with
  | [] => Ok ([], a)
  | x :: tl =>
      if fst x <? lo then let* '(tl, a) := gack_range largest lo hi tl a in Ok (x :: tl, a)
      else if fst x <? hi then
        let* '(x, a) := gack_one largest x a in
        let* '(tl, a) := gack_range largest lo hi tl a in Ok (x :: tl, a)
      else Ok (x :: tl, a)
  end.

(** All ranges in increasing order (recovery.rs:191-257) *)
Fixpoint gack_ranges (largest : Z) (skip : option Z) (rs : list (Z * Z)) (l : list (Z * gstat)) (a : gaacc)
  : res error (list (Z * gstat) * gaacc) :=
  match rs with
  | [] => Ok (l, a)
  | (lo, hi) :: rs =>
      if (match skip with Some s => (lo <=? s) && (s <? hi) | None => false end) then Err OptimisticAckDetected
      else let* '(l, a) := gack_range largest lo hi l a in gack_ranges largest skip rs l a
  end.

(** drain_acked_and_lost_packets (recovery.rs:342-350) *)
Fixpoint gdrain (l : list (Z * gstat)) : list (Z * gstat) :=
  match l with
  | (_, (GAcked | GLost)) :: tl => gdrain tl
  | _ => l
  end.

Definition or0 (o : option Z) : Z := match o with Some x => x | None => 0 end.

(** detect_and_remove_acked_packets (recovery.rs:174-267) *)
Definition gspace_ack (rs : list (Z * Z)) (skip : option Z) (s : gspace) : res error (gspace * gaacc) :=
  match ranges_last rs with
  | None => Panic
  | Some m =>
      let* '(l, a) := gack_ranges (Z.max (or0 (gs_largest s)) m) skip rs (gs_q s) (mkGa (gs_inf s) 0 0 None false [] []) in
      Ok (mkGs (gs_last_el s) (gs_largest s) (gs_loss_time s) (gdrain l) (gs_probes s) (ga_inf a)
            (gs_facked s ++ ga_frames a) (gs_flost s) (gs_fpto s), a)
  end.

(** What the loop over lost packets collects (recovery.rs:273-328): the number of
    packets of newly_lost is [gl_n] *)
Record glacc : Type := mkGl { gl_inf : Z; gl_bytes : Z; gl_pm : Z; gl_n : Z; gl_frames : list Z; gl_time : option Z }.

Fixpoint glose (now delay : Z) (thresh : option Z) (largest : Z) (l : list (Z * gstat)) (a : glacc)
  : res error (list (Z * gstat) * glacc) :=
  match l with
  | [] => Ok ([], a)
  | (n, st) :: tl =>
      if largest <? n then Ok (l, a)
      else
        match st with
        | GSent p =>
            if (p_sent p <=? now - delay) || (match thresh with Some t => n + t <=? largest | None => false end) then
              let fs := gl_frames a ++ p_frames p in
              if p_inf p then
                if gl_inf a <? 1 then Panic
                else
                  let a := if p_probe p then mkGl (gl_inf a - 1) (gl_bytes a) (gl_pm a + p_size p) (gl_n a) fs (gl_time a)
                           else mkGl (gl_inf a - 1) (gl_bytes a + p_size p) (gl_pm a) (gl_n a + 1) fs (gl_time a) in
                  let* '(tl, a) := glose now delay thresh largest tl a in Ok ((n, GLost) :: tl, a)
              else
                let* '(tl, a) := glose now delay thresh largest tl
                  (mkGl (gl_inf a) (gl_bytes a) (gl_pm a) (gl_n a + 1) fs (gl_time a)) in
                Ok ((n, GLost) :: tl, a)
            else Ok (l, mkGl (gl_inf a) (gl_bytes a) (gl_pm a) (gl_n a) (gl_frames a) (Some (p_sent p + delay)))
        | _ => let* '(tl, a) := glose now delay thresh largest tl a in Ok ((n, st) :: tl, a)
        end
  end.

(** RecoveryEpoch::detect_and_remove_lost_packets (recovery.rs:269-337) *)
Definition gspace_lose (delay : Z) (thresh : option Z) (now : Z) (s : gspace) : res error (gspace * glacc) :=
  let* '(l, a) := glose now delay thresh (or0 (gs_largest s)) (gs_q s) (mkGl (gs_inf s) 0 0 0 [] None) in
  Ok (mkGs (gs_last_el s) (gs_largest s) (gl_time a) l (gs_probes s) (gl_inf a) (gs_facked s) (gs_flost s ++ gl_frames a) (gs_fpto s), a).

(** GRecovery::detect_and_remove_lost_packets (recovery.rs:568-595) *)
Definition gdelay (fl : gpar) (v : grec) : Z := rtt_loss_delay (gp_scale fl (gv_time8 v)) (gv_rtt v).
Definition grec_lose (fl : gpar) (e : epoch) (now : Z) (v : grec) : res error (grec * (Z * Z)) :=
  let* '(s, a) := gspace_lose (gdelay fl v) (gv_thresh v) now (gget e v) in
  Ok (gset_bif (bif_sub (gl_bytes a + gl_pm a) now (gv_bif v)) (gset e s v), (gl_n a, gl_bytes a)).

(** loss_time_and_space, pto_time_and_space, set_loss_detection_timer
    (recovery.rs:597-685) *)
Definition gloss_time_and_space (v : grec) : option Z * epoch :=
  pick (gs_loss_time (gv_app v), EApp) (pick (gs_loss_time (gv_hs v), EHandshake) (gs_loss_time (gv_ini v), EInitial)).
Definition gpto_time_and_space (hs : hstatus) (now : Z) (v : grec) : option Z * epoch :=
  let d := rtt_pto (gv_rtt v) * backoff (gv_pto v) in
  if bf_n (gv_bif v) =? 0 then (Some (now + d), if hs_keys hs then EHandshake else EInitial)
  else
    let step e d cur := if gs_inf (gget e v) =? 0 then cur else pick (oadd (gs_last_el (gget e v)) d, e) cur in
    let cur := step EHandshake d (step EInitial d (None, EInitial)) in
    if gs_inf (gv_app v) =? 0 then cur
    else if negb (hs_done hs) then cur
    else step EApp (d + r_max_ack_delay (gv_rtt v) * backoff (gv_pto v)) cur.
Definition gset_loss_timer (hs : hstatus) (now : Z) (v : grec) : grec :=
  match fst (gloss_time_and_space v) with
  | Some t => gset_timer (Some t) v
  | None =>
      if (bf_n (gv_bif v) =? 0) && hs_verified hs then gset_timer None v
      else gset_timer (fst (gpto_time_and_space hs now v)) v
  end.

(** on_packet_sent (recovery.rs:738-804) *)
Definition grec_sent (e : epoch) (p : pkt) (hs : hstatus) (now : Z) (v : grec) : res error grec :=
  let s := gget e v in
  if (match gs_q s with [] => false | _ => p_num p <=? fst (last (gs_q s) (0, GAcked)) end) then Panic
  else
    let s := mkGs (if p_el p then Some (p_sent p) else gs_last_el s) (gs_largest s) (gs_loss_time s) (gs_q s ++ [(p_num p, GSent p)])
               (gs_probes s) (if p_inf p then gs_inf s + 1 else gs_inf s) (gs_facked s) (gs_flost s) (gs_fpto s) in
    let v := gset_counts (if p_el p then 0 else gv_non_el v + 1) (gv_bytes_sent v + p_size p) (gset e s v) in
    Ok (if p_inf p then gset_loss_timer hs (p_sent p) (gset_bif (bif_add (p_size p) now (gv_bif v)) v) else v).

(** on_ack_received (recovery.rs:811-896) *)
Definition grec_ack (fl : gpar) (e : epoch) (rs : list (Z * Z)) (delay : Z) (hs : hstatus) (now : Z)
  (skip : option Z) (v : grec) : res error (grec * outcome) :=
  let* '(s, a) := gspace_ack rs skip (gget e v) in
  let v := gset e s v in
  let* v := match ga_thresh a with
            | Some t => gspurious t (gv_spur v + ga_spur a) v
            | None => Ok (gset_thresh (gv_spur v + ga_spur a) (gv_thresh v) (gv_time8 v) (gv_over8 v) v)
            end in
  match ga_new a with
  | [] => Ok (v, (0, 0, ga_bytes a, ga_spur a))
  | p :: new =>
      let v := gset_bif (bif_sub (ga_bytes a) now (gv_bif v)) v in
      let top := last new p in
      let largest := Z.max (or0 (gs_largest (gget e v))) (p_num top) in
      let v := gset e (gset_largest (Some largest) (gget e v)) v in
      let v := if (p_num top =? largest) && ga_el a
               then gset_rtt (rtt_update (mkIn (since now (p_sent top)) (delay * 1000) now (hs_done hs)) (gv_rtt v)) v
               else v in
      let* '(v, lost) := grec_lose fl e now v in
      let v := gset_lost (gv_lost v + fst lost) (gset_pto 0 v) in
      Ok (gset_loss_timer hs now v, (fst lost, snd lost, ga_bytes a, ga_spur a))
  end.

(** The frames, but for datagrams, of the oldest [n] outstanding packets with data
    (recovery.rs:964-985) *)
Fixpoint gpto_frames (fl : gpar) (n : nat) (l : list (Z * gstat)) : list Z :=
  match n, l with
  | S k, (_, GSent p) :: tl =>
      if p_data p then filter (fun f => negb (gp_dgram fl f)) (p_frames p) ++ gpto_frames fl k tl else gpto_frames fl n tl
  | S k, _ :: tl => gpto_frames fl n tl
  | _, _ => []
  end.

(** on_loss_detection_timeout (recovery.rs:898-1006) *)
Definition grec_timeout (fl : gpar) (hs : hstatus) (now : Z) (v : grec) : res error (grec * (Z * Z)) :=
  match gloss_time_and_space v with
  | (Some _, e) =>
      let* '(v, lost) := grec_lose fl e now v in
      Ok (gset_loss_timer hs now (gset_lost (gv_lost v + fst lost) v), lost)
  | (None, _) =>
      let e := if 0 <? bf_n (gv_bif v) then snd (gpto_time_and_space hs now v)
               else if hs_keys hs then EHandshake else EInitial in
      let v := gset_pto (gv_pto v + 1) v in
      let s := gset_probes (Z.min MAX_PROBES (gv_pto v)) (gget e v) in
      let s := match gs_fpto s with
               | [] => gset_frames (gs_facked s) (gs_flost s) (gpto_frames fl (Z.to_nat (gs_probes s)) (gs_q s)) s
               | _ => s
               end in
      Ok (gset_loss_timer hs now (gset e s v), (0, 0))
  end.

(** discard, on_pkt_num_space_discarded (recovery.rs:138-171, 1008-1016) *)
Definition gunacked (x : Z * gstat) : Z := match snd x with GSent p => if p_inf p then p_size p else 0 | _ => 0 end.
Definition grec_discard (e : epoch) (hs : hstatus) (now : Z) (v : grec) : grec :=
  let s := gget e v in
  let n := fold_right (fun x acc => gunacked x + acc) 0 (gs_q s) in
  gset_loss_timer hs now (gset_bif (bif_sub n now (gv_bif v)) (gset e (mkGs None (gs_largest s) None [] 0 0 [] [] []) v)).

(** VecDeque::pop_front *)
Definition qpop (l : list Z) : option (Z * list Z) := match l with [] => None | x :: tl => Some (x, tl) end.
(** next_acked_frame, next_lost_frame (recovery.rs:368-372, 703-709) *)
Definition grec_next_acked (e : epoch) (v : grec) : option Z * grec :=
  let s := gget e v in
  match qpop (gs_facked s) with
  | Some (x, l) => (Some x, gset e (gset_frames l (gs_flost s) (gs_fpto s) s) v)
  | None => (None, v)
  end.
Definition grec_next_lost (e : epoch) (v : grec) : option Z * grec :=
  let s := gget e v in
  match qpop (gs_flost s) with
  | Some (x, l) => (Some x, gset e (gset_frames (gs_facked s) l (gs_fpto s) s) v)
  | None => match qpop (gs_fpto s) with
            | Some (x, l) => (Some x, gset e (gset_frames (gs_facked s) (gs_flost s) l s) v)
            | None => (None, v)
            end
  end.

(** ping_sent, pmtud_update_max_datagram_size, update_max_datagram_size,
    update_max_ack_delay, update_app_limited (recovery.rs:733-736, 1087-1096,
    1168-1179) *)
Definition grec_step (fl : gpar) (o : rop) (v : grec) : res error (grec * rout) :=
  match o with
  | RSent e p hs now => let* v := grec_sent e p hs now v in Ok (v, ONone)
  | RAck e rs d hs now skip => let* '(v, o) := grec_ack fl e rs d hs now skip v in Ok (v, OAck o)
  | RTimeout hs now => let* '(v, o) := grec_timeout fl hs now v in Ok (v, OLost (fst o) (snd o))
  | RDiscard e hs now => Ok (grec_discard e hs now v, ONone)
  | RPathChange e now => let* '(v, o) := grec_lose fl e now v in Ok (v, OLost (fst o) (snd o))
  | RNextAcked e => let '(f, v) := grec_next_acked e v in Ok (v, OFrame f)
  | RNextLost e => let '(f, v) := grec_next_lost e v in Ok (v, OFrame f)
  | RPing e => Ok (gset e (gset_probes (sat_sub (gs_probes (gget e v)) 1) (gget e v)) v, ONone)
  | RPmtudMds n => Ok (gset_mds n v, ONone)
  | RUpdateMds n => Ok (gset_mds (Z.min (gv_mds v) n) v, ONone)
  | RMaxAckDelay d => let r := gv_rtt v in Ok (gset_rtt (mkRtt (r_latest r) (r_max r) (r_srtt r) (r_var r) (r_min r) d (r_has r)) v, ONone)
  | RAppLimited _ => Ok (v, ONone)
  end.
Fixpoint grec_run (fl : gpar) (ops : list rop) (v : grec) : res error (grec * list rout) :=
  match ops with
  | [] => Ok (v, [])
  | o :: ops => let* '(v, x) := grec_step fl o v in let* '(v, xs) := grec_run fl ops v in Ok (v, x :: xs)
  end.
