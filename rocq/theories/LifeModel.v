(** quiche/src/path.rs, and the code of quiche/src/lib.rs that opens, keeps alive
    and closes a connection: recv, recv_single, send_on_path, send_single,
    on_timeout, close, probe_path, migrate and retire_dcid.

    What the packets mean to streams, acknowledgements and congestion control is
    modelled elsewhere.  Here a received packet is what is left of it once it has
    been decrypted, and what the rest of the connection decides (TLS, loss
    recovery, which other frames there are to send) comes in as an argument of
    each operation, with any value. *)
Require Import Verif.Base Verif.Errors.

(** (local, peer) *)
Definition addr : Type := Z * Z.
Definition aeqb (a b : addr) : bool := (fst a =? fst b) && (snd a =? snd b).

(** lib.rs:443, 451, 480, 493 *)
Definition MIN_INITIAL : Z := 1200.
Definition MIN_PROBING : Z := 25.
Definition MAX_HELD : Z := 10.
Definition MAX_TIMEOUTS : Z := 3.

(** PathState (path.rs:51-67) and its order *)
Inductive pst : Type := Failed | Unknown | Validating | ValidatingMtu | Validated.
Definition rank (s : pst) : Z :=
  match s with Failed => 0 | Unknown => 1 | Validating => 2 | ValidatingMtu => 3 | Validated => 4 end.

(** Path (path.rs:120-231).  The recovery state is reduced to what is asked of it
    here: its timer, its PTO and its round trip time.  The source id, the
    statistics, PMTUD, peer_verified_local_address and needs_ack_eliciting are left
    out. *)
Record path := mkP {
  p_addr : addr;
  p_dcid : option Z;
  p_st : pst;
  p_on : bool;                       (* active *)
  p_flight : list (Z * Z * Z);       (* in_flight_challenges: data, size, time *)
  p_maxch : Z;                       (* max_challenge_size *)
  p_lost : Z;                        (* probing_lost *)
  p_lost_at : option Z;              (* last_probe_lost_time *)
  p_queue : list Z;                  (* received_challenges *)
  p_budget : Z;                      (* max_send_bytes *)
  p_ok : bool;                       (* verified_peer_address *)
  p_want : bool;                     (* challenge_requested *)
  p_told : bool;                     (* failure_notified *)
  p_mig : bool;                      (* migrating *)
  p_timer : option Z; p_pto : Z; p_rtt : Z;
  p_ptos : Z }.                      (* total_pto_count *)

Definition set_st v p := mkP (p_addr p) (p_dcid p) v (p_on p) (p_flight p) (p_maxch p) (p_lost p) (p_lost_at p) (p_queue p) (p_budget p) (p_ok p) (p_want p) (p_told p) (p_mig p) (p_timer p) (p_pto p) (p_rtt p) (p_ptos p).
Definition set_on v p := mkP (p_addr p) (p_dcid p) (p_st p) v (p_flight p) (p_maxch p) (p_lost p) (p_lost_at p) (p_queue p) (p_budget p) (p_ok p) (p_want p) (p_told p) (p_mig p) (p_timer p) (p_pto p) (p_rtt p) (p_ptos p).
Definition set_dcid v p := mkP (p_addr p) v (p_st p) (p_on p) (p_flight p) (p_maxch p) (p_lost p) (p_lost_at p) (p_queue p) (p_budget p) (p_ok p) (p_want p) (p_told p) (p_mig p) (p_timer p) (p_pto p) (p_rtt p) (p_ptos p).
Definition set_flight v p := mkP (p_addr p) (p_dcid p) (p_st p) (p_on p) v (p_maxch p) (p_lost p) (p_lost_at p) (p_queue p) (p_budget p) (p_ok p) (p_want p) (p_told p) (p_mig p) (p_timer p) (p_pto p) (p_rtt p) (p_ptos p).
Definition set_maxch v p := mkP (p_addr p) (p_dcid p) (p_st p) (p_on p) (p_flight p) v (p_lost p) (p_lost_at p) (p_queue p) (p_budget p) (p_ok p) (p_want p) (p_told p) (p_mig p) (p_timer p) (p_pto p) (p_rtt p) (p_ptos p).
Definition set_lost v at' p := mkP (p_addr p) (p_dcid p) (p_st p) (p_on p) (p_flight p) (p_maxch p) v at' (p_queue p) (p_budget p) (p_ok p) (p_want p) (p_told p) (p_mig p) (p_timer p) (p_pto p) (p_rtt p) (p_ptos p).
Definition set_queue v p := mkP (p_addr p) (p_dcid p) (p_st p) (p_on p) (p_flight p) (p_maxch p) (p_lost p) (p_lost_at p) v (p_budget p) (p_ok p) (p_want p) (p_told p) (p_mig p) (p_timer p) (p_pto p) (p_rtt p) (p_ptos p).
Definition set_budget v p := mkP (p_addr p) (p_dcid p) (p_st p) (p_on p) (p_flight p) (p_maxch p) (p_lost p) (p_lost_at p) (p_queue p) v (p_ok p) (p_want p) (p_told p) (p_mig p) (p_timer p) (p_pto p) (p_rtt p) (p_ptos p).
Definition set_ok v p := mkP (p_addr p) (p_dcid p) (p_st p) (p_on p) (p_flight p) (p_maxch p) (p_lost p) (p_lost_at p) (p_queue p) (p_budget p) v (p_want p) (p_told p) (p_mig p) (p_timer p) (p_pto p) (p_rtt p) (p_ptos p).
Definition set_want v p := mkP (p_addr p) (p_dcid p) (p_st p) (p_on p) (p_flight p) (p_maxch p) (p_lost p) (p_lost_at p) (p_queue p) (p_budget p) (p_ok p) v (p_told p) (p_mig p) (p_timer p) (p_pto p) (p_rtt p) (p_ptos p).
Definition set_told v p := mkP (p_addr p) (p_dcid p) (p_st p) (p_on p) (p_flight p) (p_maxch p) (p_lost p) (p_lost_at p) (p_queue p) (p_budget p) (p_ok p) (p_want p) v (p_mig p) (p_timer p) (p_pto p) (p_rtt p) (p_ptos p).
Definition set_mig v p := mkP (p_addr p) (p_dcid p) (p_st p) (p_on p) (p_flight p) (p_maxch p) (p_lost p) (p_lost_at p) (p_queue p) (p_budget p) (p_ok p) (p_want p) (p_told p) v (p_timer p) (p_pto p) (p_rtt p) (p_ptos p).
Definition set_rec t o r n p := mkP (p_addr p) (p_dcid p) (p_st p) (p_on p) (p_flight p) (p_maxch p) (p_lost p) (p_lost_at p) (p_queue p) (p_budget p) (p_ok p) (p_want p) (p_told p) (p_mig p) t o r n.

Definition is_some {A} (o : option A) : bool := match o with Some _ => true | None => false end.

(** Path::new (path.rs:236-295); the initial path's verified_peer_address is set at
    lib.rs:2026, its active at path.rs:643. *)
Definition path_new (a : addr) (initial verified : bool) : path :=
  mkP a (if initial then Some 0 else None) (if initial then Validated else Unknown) initial [] 0 0 None [] 0 verified false false false None 0 0 0.

(** path.rs:309-371 *)
Definition working (p : path) : bool := rank Failed <? rank (p_st p).
Definition active (p : path) : bool := p_on p && working p && is_some (p_dcid p).
Definition validated (p : path) : bool := rank (p_st p) =? rank Validated.
Definition usable (p : path) : bool := active p || (validated p && is_some (p_dcid p)).
Definition unused (p : path) : bool := negb (active p) && negb (is_some (p_dcid p)).
Definition probing_required (p : path) : bool := negb (match p_queue p with [] => true | _ => false end) || p_want p.
Definition promote_to (s : pst) (p : path) : path := if rank (p_st p) <? rank s then set_st s p else p.
Definition under_validation (p : path) : bool := (rank (p_st p) =? 2) || (rank (p_st p) =? 3).

(** on_challenge_sent, add_challenge_sent (path.rs:393-407) *)
Definition add_challenge (d size now : Z) (p : path) : path :=
  let p := set_want false (promote_to Validating p) in set_flight (p_flight p ++ [(d, size, now)]) p.

(** on_challenge_received (path.rs:409-418) *)
Definition challenge_received (max d : Z) (p : path) : path :=
  if zlen (p_queue p) =? max then p else set_queue (p_queue p ++ [d]) p.

(** has_pending_challenge (path.rs:420-422) *)
Definition has_pending (d : Z) (p : path) : bool := existsb (fun x => fst (fst x) =? d) (p_flight p).

(** on_response_received (path.rs:425-457): whether the path is now validated *)
Definition response_received (d : Z) (p : path) : bool * path :=
  let size := fold_left (fun acc x => if fst (fst x) =? d then snd (fst x) else acc) (p_flight p) 0 in
  let p := set_lost 0 (p_lost_at p) (set_ok true p) in
  let p := set_flight (filter (fun x => negb (fst (fst x) =? d)) (p_flight p)) p in
  let p := promote_to ValidatingMtu p in
  let p := set_maxch (Z.max (p_maxch p) size) p in
  if rank (p_st p) =? rank ValidatingMtu then
    if MIN_INITIAL <=? p_maxch p then (true, promote_to Validated p)
    else (false, set_want true p)
  else (false, p).

(** on_loss_detection_timeout (path.rs:469-525).  [timer] is the timer the recovery
    sets next. *)
Definition loss_timeout (server : bool) (now : Z) (timer : option Z) (p : path) : path :=
  let p := set_rec timer (p_pto p) (p_rtt p) (p_ptos p + 1) p in
  let lost := filter (fun x => snd x <=? now) (p_flight p) in
  let p := set_flight (filter (fun x => negb (snd x <=? now)) (p_flight p)) p in
  match lost with
  | [] => p
  | (_, _, t) :: _ =>
      let p :=
        match p_lost_at p with
        | Some last =>
            if p_rtt p <=? sat_sub t last then set_lost (p_lost p + 1) (Some t) p else p
        | None => set_lost (p_lost p + 1) (Some t) p
        end in
      if (MAX_TIMEOUTS <=? p_lost p) || (server && (p_budget p <? MIN_PROBING))
      then set_on false (set_st Failed p)
      else set_want true p
  end.

(** PathEvent (path.rs:84-117), without the reuse of source ids *)
Inductive event : Type :=
| EvNew (a : addr) | EvValidated (a : addr) | EvFailed (a : addr) | EvClosed (a : addr) | EvMigrated (a : addr).

(** Packet types and TLS levels that matter here *)
Inductive pty : Type := TInitial | THandshake | TZero | TShort.
Inductive level : Type := LInitial | LHandshake | LOne.

(** ConnectionError (lib.rs): application or not, code, reason *)
Definition cerr : Type := bool * Z * list Z.

(** What the connection knows of its handshake: handshake_completed,
    handshake_confirmed, is_in_early_data, the write level, whether the 0-RTT
    opening key exists, derived_initial_secrets, and the peer's max_idle_timeout
    (in ms). *)
Record hs := mkH { h_est : bool; h_conf : bool; h_early : bool; h_level : level; h_zkey : bool; h_ready : bool; h_pidle : Z }.
Definition set_conf v h := mkH (h_est h) v (h_early h) (h_level h) (h_zkey h) (h_ready h) (h_pidle h).
Definition set_ready v h := mkH (h_est h) (h_conf h) (h_early h) (h_level h) (h_zkey h) v (h_pidle h).

(** What TLS made of the data it was given.  When it sends an alert it also fails. *)
Inductive hout : Type :=
| HOk (h : hs)
| HErr (ssl : bool) (e : error) (h : hs)    (* [ssl]: SSL_ERROR_SSL (tls/mod.rs:655-673) *)
| HAlert (alert : Z) (e : error) (h : hs).

(** Received frames that matter here.  [FOther] is any other frame that was
    processed; [FBad] one that was not. *)
Inductive frame : Type :=
| FChallenge (d : Z) | FResponse (d : Z)
| FClose (e : cerr)
| FCrypto (h : hout)
| FDone
| FNewCid (seq : Z)
| FOther (probing : bool)
| FBad (e : error).

(** A received packet: its type, its length, whether the rest of the datagram from
    here on ends with the peer's stateless reset token (lib.rs:2922-2944), whether
    its header is good enough for the Initial keys to be derived from it
    (lib.rs:3186-3202), and what comes out of unprotecting it (lib.rs:2960-3334):
    dropped, refused, or processed.  [known] says whether its destination id is one
    of ours, [ku] whether it updated the keys. *)
Inductive pin : Type :=
| IDrop
| IFail (e : error)
| IOk (known : bool) (pn : Z) (ku : bool) (fs : list frame).
Record packet := mkK { k_ty : pty; k_len : Z; k_reset : bool; k_keys : bool; k_in : pin }.

(** Configuration: is_server, max_amplification_factor, max_concurrent_paths,
    path_challenge_recv_max_queue_len, our max_idle_timeout in ms, and
    disable_dcid_reuse *)
Record cfg := mkG { g_server : bool; g_factor : Z; g_maxp : Z; g_qlen : Z; g_idle : Z; g_noreuse : bool }.

(** The rest: the closing state, the counters, the paths, the queues.  [x_pool] is
    the destination ids not used by any path, lowest first. *)
Record life := mkL { l_closed : bool; l_err : option cerr; l_perr : option cerr; l_idle : option Z; l_drain : option Z; l_ku : option Z; l_timed : bool }.
Record conn := mkC {
  x_cfg : cfg; x_hs : hs; x_life : life;
  x_recv : Z;                        (* recv_count *)
  x_aes : bool;                      (* ack_eliciting_sent *)
  x_np : Z;                          (* largest_rx_non_probing_pkt_num of the Application space *)
  x_paths : list path;
  x_events : list event;
  x_held : list (packet * addr);     (* undecryptable_pkts *)
  x_pool : list Z }.

Definition w_hs v c := mkC (x_cfg c) v (x_life c) (x_recv c) (x_aes c) (x_np c) (x_paths c) (x_events c) (x_held c) (x_pool c).
Definition w_life v c := mkC (x_cfg c) (x_hs c) v (x_recv c) (x_aes c) (x_np c) (x_paths c) (x_events c) (x_held c) (x_pool c).
Definition w_recv v c := mkC (x_cfg c) (x_hs c) (x_life c) v (x_aes c) (x_np c) (x_paths c) (x_events c) (x_held c) (x_pool c).
Definition w_aes v c := mkC (x_cfg c) (x_hs c) (x_life c) (x_recv c) v (x_np c) (x_paths c) (x_events c) (x_held c) (x_pool c).
Definition w_np v c := mkC (x_cfg c) (x_hs c) (x_life c) (x_recv c) (x_aes c) v (x_paths c) (x_events c) (x_held c) (x_pool c).
Definition w_paths v c := mkC (x_cfg c) (x_hs c) (x_life c) (x_recv c) (x_aes c) (x_np c) v (x_events c) (x_held c) (x_pool c).
Definition w_events v c := mkC (x_cfg c) (x_hs c) (x_life c) (x_recv c) (x_aes c) (x_np c) (x_paths c) v (x_held c) (x_pool c).
Definition w_held v c := mkC (x_cfg c) (x_hs c) (x_life c) (x_recv c) (x_aes c) (x_np c) (x_paths c) (x_events c) v (x_pool c).
Definition w_pool v c := mkC (x_cfg c) (x_hs c) (x_life c) (x_recv c) (x_aes c) (x_np c) (x_paths c) (x_events c) (x_held c) v.

Definition set_closed v l := mkL v (l_err l) (l_perr l) (l_idle l) (l_drain l) (l_ku l) (l_timed l).
Definition set_err v l := mkL (l_closed l) v (l_perr l) (l_idle l) (l_drain l) (l_ku l) (l_timed l).
Definition set_perr v l := mkL (l_closed l) (l_err l) v (l_idle l) (l_drain l) (l_ku l) (l_timed l).
Definition set_idle v l := mkL (l_closed l) (l_err l) (l_perr l) v (l_drain l) (l_ku l) (l_timed l).
Definition set_drain v l := mkL (l_closed l) (l_err l) (l_perr l) (l_idle l) v (l_ku l) (l_timed l).
Definition set_ku v l := mkL (l_closed l) (l_err l) (l_perr l) (l_idle l) (l_drain l) v (l_timed l).
Definition set_timed v l := mkL (l_closed l) (l_err l) (l_perr l) (l_idle l) (l_drain l) (l_ku l) v.

Definition on_life (f : life -> life) (c : conn) : conn := w_life (f (x_life c)) c.
Definition server (c : conn) : bool := g_server (x_cfg c).

(** Connection::with_tls (lib.rs:1940-2300): one path, active, and nothing else *)
Definition conn_new (g : cfg) (h : hs) (a : addr) (retry : bool) : conn :=
  mkC g h (mkL false None None None None None false) 0 false 0 [path_new a true retry] [] [] [].

(** is_closed, is_draining, mark_closed (lib.rs:7782-7792, 9217-9310) *)
Definition is_closed (c : conn) : bool := l_closed (x_life c).
Definition is_draining (c : conn) : bool := is_some (l_drain (x_life c)).
Definition mark_closed (c : conn) : conn := on_life (set_closed true) c.

(** PathMap (path.rs:609-920).  The Slab is a list, the path's identifier its
    index: a path is only removed to be replaced at once by a new one, which then
    gets the same identifier.  addrs_to_paths always holds the addresses of the
    paths in the slab, so looking an address up is looking for the path. *)
Fixpoint index {A} (f : A -> bool) (l : list A) : option nat :=
  match l with [] => None | x :: l => if f x then Some O else option_map S (index f l) end.
Fixpoint upd {A} (i : nat) (f : A -> A) (l : list A) : list A :=
  match l, i with [], _ => [] | x :: l, O => f x :: l | x :: l, S i => x :: upd i f l end.
Definition by_addr (a : addr) (ps : list path) : option nat := index (fun p => aeqb (p_addr p) a) ps.
Definition active_pid (ps : list path) : option nat := index active ps.
Definition notify (e : event) (c : conn) : conn := w_events (x_events c ++ [e]) c.
Definition up (i : nat) (f : path -> path) (c : conn) : conn := w_paths (upd i f (x_paths c)) c.
Definition addr_of (i : nat) (c : conn) : addr := match nth_error (x_paths c) i with Some p => p_addr p | None => (0, 0) end.

(** make_room_for_new_path, insert_path (path.rs:757-811) *)
Definition insert_path (p : path) (tell : bool) (c : conn) : res error nat * conn :=
  let told (i : nat) c := (Ok i, if tell then notify (EvNew (p_addr p)) c else c) in
  if zlen (x_paths c) <? g_maxp (x_cfg c) then told (length (x_paths c)) (w_paths (x_paths c ++ [p]) c)
  else
    match index unused (x_paths c) with
    | None => (Err Done, c)
    | Some i => told i (up i (fun _ => p) (notify (EvClosed (addr_of i c)) c))
    end.

(** PathMap::on_response_received (path.rs:849-881) *)
Definition got_response (d : Z) (c : conn) : res error unit * conn :=
  match active_pid (x_paths c) with
  | None => (Err InvalidState, c)
  | Some act =>
      match index (has_pending d) (x_paths c) with
      | None => (Ok tt, c)
      | Some i =>
          match nth_error (x_paths c) i with
          | None => (Panic, c)
          | Some p =>
              let '(now_valid, p') := response_received d p in
              if now_valid then
                let c := up i (fun _ => set_mig false p') c in
                let c := notify (EvValidated (p_addr p)) c in
                (Ok tt, if Nat.eqb i act && p_mig p then notify (EvMigrated (p_addr p)) c else c)
              else (Ok tt, up i (fun _ => p') c)
          end
      end
  end.

(** set_active_path (lib.rs:9129-9147, path.rs:894-920).  What it does to the old
    path's recovery is not modelled. *)
Definition set_active (i : nat) (c : conn) : res error unit * conn :=
  let c := match active_pid (x_paths c) with Some old => up old (set_on false) c | None => c end in
  match nth_error (x_paths c) i with
  | None => (Err InvalidState, c)
  | Some p =>
      let c := up i (set_on true) c in
      if server c then
        if validated p then (Ok tt, notify (EvMigrated (p_addr p)) c)
        else (Ok tt, up i (fun p => let p := set_mig true p in if under_validation p then p else set_want true p) c)
      else (Ok tt, c)
  end.

(** on_peer_migrated (lib.rs:9150-9170) *)
Definition peer_migrated (i : nat) (c : conn) : res error unit * conn :=
  match active_pid (x_paths c) with
  | None => (Err InvalidState, c)
  | Some old =>
      if Nat.eqb old i then (Ok tt, c)
      else
        match set_active i c with
        | (Ok _, c) =>
            match nth_error (x_paths c) i, nth_error (x_paths c) old with
            | Some p, Some q =>
                (Ok tt, if negb (is_some (p_dcid p)) && negb (g_noreuse (x_cfg c)) then up i (set_dcid (p_dcid q)) c else c)
            | _, _ => (Err InvalidState, c)
            end
        | r => r
        end
  end.

(** idle_timeout (lib.rs:8868-8910), in nanoseconds *)
Definition active_pto (c : conn) : Z := match find active (x_paths c) with Some p => p_pto p | None => 0 end.
Definition idle_timeout (c : conn) : option Z :=
  let l := g_idle (x_cfg c) in
  let r := h_pidle (x_hs c) in
  if (l =? 0) && (r =? 0) then None
  else
    let ms := if l =? 0 then r else if r =? 0 then l else Z.min l r in
    Some (Z.max (ms * 1000000) (3 * active_pto c)).
Definition restart_idle (now : Z) (c : conn) : conn :=
  match idle_timeout c with Some v => on_life (set_idle (Some (now + v))) c | None => c end.

(** close (lib.rs:7553-7586) *)
Definition close (app : bool) (code : Z) (reason : list Z) (c : conn) : res error unit * conn :=
  if is_closed c || is_draining c then (Err Done, c)
  else if is_some (l_err (x_life c)) then (Err Done, c)
  else
    let e := if app && negb (h_est (x_hs c) || h_early (x_hs c)) then (false, 12, []) else (app, code, reason) in
    let c := on_life (set_err (Some e)) c in
    (Ok tt, if x_recv c =? 0 then mark_closed c else c).

(** Error::to_wire (error.rs:185-202) *)
Definition to_wire (e : error) : Z :=
  match e with
  | Done => 0
  | InvalidFrame => 7
  | InvalidStreamState _ => 5
  | InvalidTransportParam => 8
  | FlowControlE => 3
  | StreamLimit => 4
  | IdLimit => 9
  | FinalSize => 6
  | CryptoBufferExceeded => 13
  | KeyUpdate => 14
  | _ => 10
  end.

(** do_handshake (lib.rs:8012-8151, tls/mod.rs:535-565, 655-673, 890-916).  It can
    fail on the peer's transport parameters after the handshake was completed. *)
Definition do_handshake (o : hout) (c : conn) : res error unit * conn :=
  let old := x_hs c in
  let keep h := mkH (h_est old || h_est h) (h_conf old) (h_early h) (h_level h) (h_zkey h) (h_ready old) (h_pidle h) in
  match o with
  | HAlert a e h => (Err e, on_life (set_err (Some (false, 256 + a, []))) (w_hs (keep h) c))
  | HErr ssl e h =>
      let c := w_hs (keep h) c in
      (Err e, if ssl && negb (is_some (l_err (x_life c))) then on_life (set_err (Some (false, 1, []))) c else c)
  | HOk h =>
      if h_est old then (Ok tt, c)
      else
        let c := w_hs (mkH (h_est h) (h_conf old || (h_est h && server c)) (h_early h) (h_level h) (h_zkey h) (h_ready old) (h_pidle h)) c in
        (Ok tt, if h_est h then w_held [] c else c)
  end.

(** get_or_create_recv_path_id (lib.rs:8978-9100), and its call (lib.rs:3334-3341).
    Which source id the peer used is only looked at for being known. *)
Definition recv_path (short known : bool) (len : Z) (a : addr) (pid : option nat) (c : conn) : res error nat * conn :=
  if negb short then
    (match active_pid (x_paths c) with Some i => Ok i | None => Err InvalidState end, c)
  else if negb known then (Err InvalidState, c)
  else
    match pid with
    | Some i => (Ok i, c)
    | None =>
        let p := set_want true (set_budget (len * g_factor (x_cfg c)) (path_new a false false)) in
        insert_path p (server c) c
    end.

(** Which frames a packet may carry (frame.rs:337-367) *)
Definition allowed (t : pty) (f : frame) : bool :=
  match t, f with
  | TShort, _ => true
  | TZero, FCrypto _ | TZero, FDone | TZero, FResponse _ => false
  | TZero, FClose (app, _, _) => app
  | TZero, _ => true
  | _, FCrypto _ => true
  | _, FClose (app, _, _) => negb app
  | _, FOther _ => true
  | _, FBad _ => true
  | _, _ => false
  end.
Definition is_probing (f : frame) : bool :=
  match f with FChallenge _ | FResponse _ | FNewCid _ => true | FOther b => b | _ => false end.

(** process_frame (lib.rs:8343-8842), for these frames.  NEW_CONNECTION_ID retiring
    other ids, and the retirement of ids by the peer, are operations of their own. *)
Definition process_frame (now : Z) (i : nat) (f : frame) (c : conn) : res error unit * conn :=
  match f with
  | FChallenge d => (Ok tt, up i (challenge_received (g_qlen (x_cfg c)) d) c)
  | FResponse d => got_response d c
  | FClose e =>
      let c := on_life (set_perr (Some e)) c in
      match find active (x_paths c) with
      | None => (Err InvalidState, c)
      | Some p => (Ok tt, on_life (set_drain (Some (now + p_pto p * 3))) c)
      end
  | FCrypto o => do_handshake o c
  | FDone => if server c then (Err InvalidPacket, c) else (Ok tt, w_hs (set_conf true (x_hs c)) c)
  | FNewCid q => (Ok tt, w_pool (x_pool c ++ [q]) c)
  | FOther _ => (Ok tt, c)
  | FBad e => (Err e, c)
  end.
Fixpoint process_frames (now : Z) (t : pty) (i : nat) (fs : list frame) (c : conn) : res error unit * conn :=
  match fs with
  | [] => (Ok tt, c)
  | f :: fs =>
      if allowed t f then
        match process_frame now i f c with
        | (Ok _, c) => process_frames now t i fs c
        | r => r
        end
      else (Err InvalidPacket, c)
  end.

(** Paths without a destination id get one (lib.rs:3722-3745). *)
Fixpoint fill (ps : list path) (pool : list Z) : list path * list Z :=
  match ps with
  | [] => ([], pool)
  | p :: ps =>
      if is_some (p_dcid p) then let '(ps, pool) := fill ps pool in (p :: ps, pool)
      else match pool with
           | [] => (p :: ps, [])
           | q :: pool => let '(ps, pool) := fill ps pool in (set_dcid (Some q) p :: ps, pool)
           end
  end.

(** The end of recv_single (lib.rs:3722-3804).  Only in the Application space can
    the packet be on another path than the active one. *)
Definition finish_recv (now : Z) (t : pty) (i : nat) (pn : Z) (probing : bool) (c : conn) : res error unit * conn :=
  let '(ps, pool) := fill (x_paths c) (x_pool c) in
  let c := w_pool pool (w_paths ps c) in
  let app := match t with TShort | TZero => true | _ => false end in
  let r :=
    if probing then (Ok tt, c)
    else
      let c := if app then w_np (Z.max (x_np c) pn) c else c in
      match active_pid (x_paths c) with
      | None => (Err InvalidState, c)
      | Some act => if server c && negb (Nat.eqb i act) && (x_np c =? pn) then peer_migrated i c else (Ok tt, c)
      end in
  match r with
  | (Ok _, c) =>
      let c := restart_idle now c in
      let c := w_recv (x_recv c + 1) c in
      let c := if server c && match t with THandshake => true | _ => false end then up i (set_ok true) c else c in
      (Ok tt, w_aes false c)
  | (Err e, c) => (Err e, c)
  | (Panic, c) => (Panic, c)
  end.

(** recv_single (lib.rs:2960-3804) *)
Definition recv_single (now : Z) (a : addr) (pid : option nat) (k : packet) (c : conn) : res error Z * conn :=
  if is_closed c || is_draining c then (Err Done, c)
  else if is_some (l_err (x_life c)) then (Err Done, c)
  else
  let c := if k_keys k then w_hs (set_ready true (x_hs c)) c else c in
  if match k_ty k with TZero => negb (h_zkey (x_hs c)) | _ => false end then
    if (zlen (x_held c) <? MAX_HELD) && negb (h_est (x_hs c)) then (Ok (k_len k), w_held (x_held c ++ [(k, a)]) c)
    else if server c && (x_recv c =? 0) then (Err CryptoFail, c)
    else (Err Done, c)
  else
    match k_in k with
    | IDrop => (Err Done, c)
    | IFail e => (Err e, c)
    | IOk known pn ku fs =>
        match recv_path (match k_ty k with TShort => true | _ => false end) known (k_len k) a pid c with
        | (Err e, c) => (Err e, c)
        | (Panic, c) => (Panic, c)
        | (Ok i, c) =>
            let c :=
              if ku then match nth_error (x_paths c) i with Some p => on_life (set_ku (Some (now + p_pto p * 3))) c | None => c end
              else c in
            match process_frames now (k_ty k) i fs c with
            | (Err e, c) => (Err e, c)
            | (Panic, c) => (Panic, c)
            | (Ok _, c) =>
                match finish_recv now (k_ty k) i pn (forallb is_probing fs) c with
                | (Ok _, c) => (Ok (k_len k), c)
                | (Err e, c) => (Err e, c)
                | (Panic, c) => (Panic, c)
                end
            end
        end
    end.

(** recv (lib.rs:2820-2894): first the credit, then the packets of the datagram.  A
    packet with a short header takes all that is left of it (lib.rs:3160-3163). *)
Definition total (ks : list packet) : Z := fold_right (fun k n => k_len k + n) 0 ks.
Definition credit (a : addr) (len : Z) (c : conn) : conn :=
  match by_addr a (x_paths c) with
  | Some i => up i (fun p => if server c && negb (p_ok p) then set_budget (p_budget p + len * g_factor (x_cfg c)) p else p) c
  | None => c
  end.
Fixpoint recv_loop (now : Z) (a : addr) (pid : option nat) (ks : list packet) (c : conn) : res error unit * conn :=
  match ks with
  | [] => (Ok tt, c)
  | k :: ks =>
      match recv_single now a pid k c with
      | (Ok _, c) => match k_ty k with TShort => (Ok tt, c) | _ => recv_loop now a pid ks c end
      | (Err Done, c) => (Ok tt, if k_reset k then mark_closed c else c)
      | (Err e, c) => (Err e, snd (close false (to_wire e) [] c))
      | (Panic, c) => (Panic, c)
      end
  end.
Definition recv_packets (now : Z) (a : addr) (ks : list packet) (c : conn) : res error unit * conn :=
    let pid := by_addr a (x_paths c) in
    if negb (is_some pid) && negb (server c) then (Ok tt, c)
    else recv_loop now a pid ks (credit a (total ks) c).

(** process_undecrypted_0rtt_packets (lib.rs:2896-2914).  The nested calls of recv
    take turns at the same queue, which here is one loop; its length bounds the
    turns, since no packet is put back while the key is there.  A packet that is
    held is never empty. *)
Fixpoint replay (fuel : nat) (now : Z) (c : conn) : res error unit * conn :=
  if negb (h_zkey (x_hs c)) then (Ok tt, c)
  else
    match x_held c with
    | [] => (Ok tt, c)
    | (k, a) :: q =>
        match fuel with
        | O => (Panic, c)
        | S fuel =>
            match recv_packets now a [k] (w_held q c) with
            | (Ok _, c) => replay fuel now c
            | (Err e, c) => (Err e, w_held [] c)
            | (Panic, c) => (Panic, c)
            end
        end
    end.
Definition recv (now : Z) (a : addr) (ks : list packet) (c : conn) : res error unit * conn :=
  if total ks =? 0 then (Err BufferTooShort, c)
  else if negb (is_some (by_addr a (x_paths c))) && negb (server c) then (Ok tt, c)
  else
    match recv_packets now a ks c with
    | (Ok _, c) => replay (length (x_held c)) now c
    | r => r
    end.

(** What decides the content of a packet to send, from the parts not modelled
    here: [o_low], that the Initial keys are still there; [o_pend], the first space with something to send (lib.rs:8183-8211);
    [o_more], other reasons for an Application packet (lib.rs:8216-8249); [o_fail],
    a failure before any frame is written, as when the header does not fit
    (lib.rs:4392-4484); [o_room], what is left for frames after the ACK and within
    the congestion window; [o_data], the random challenge; [o_mid], what other
    frames take before the close frame, whose length is [o_clen]; [o_other], whether
    there are any other frames, [o_ael] any that ask for an acknowledgement;
    [o_size], the size of the packet, which is positive and fits; [o_stop], that probes are left to send. *)
Record pout := mkO {
  o_low : bool; o_pend : option pty; o_more : bool; o_fail : option error; o_room : Z; o_data : Z; o_mid : Z; o_clen : Z;
  o_other : bool; o_ael : bool; o_size : Z; o_stop : bool }.

(** A packet sent: its type and size, the PATH_RESPONSE frames, the PATH_CHALLENGE
    and the close frame in it *)
Record sent := mkS { s_ty : pty; s_size : Z; s_resp : list Z; s_chal : option Z; s_close : option cerr }.

(** write_pkt_type (lib.rs:8155-8259) *)
Definition pkt_type (o : pout) (p : path) (c : conn) : res error pty :=
  let h := x_hs c in
  match l_err (x_life c) with
  | Some (false, _, _) =>
      Ok (match h_level h with
          | LInitial => TInitial
          | LHandshake => if negb (h_conf h) && o_low o then TInitial else THandshake
          | LOne => if negb (h_conf h) then THandshake else TShort
          end)
  | e =>
      match o_pend o with
      | Some t => Ok t
      | None =>
          if (h_est h || h_early h) && (o_more o || is_some e || probing_required p)
          then Ok (if negb (server c) && h_early h then TZero else TShort)
          else Err Done
      end
  end.

(** PATH_RESPONSE frames (lib.rs:4652-4665): each takes 9 bytes.  A challenge that
    does not fit has already left the queue. *)
Fixpoint responses (room : Z) (q : list Z) : list Z * list Z * Z :=
  match q with
  | [] => ([], [], room)
  | d :: q =>
      if 9 <=? room then let '(ds, q, room) := responses (room - 9) q in (d :: ds, q, room)
      else ([], q, room)
  end.

(** send_single (lib.rs:4099-5523) *)
Definition send_single (now : Z) (i : nat) (avail : Z) (o : pout) (c : conn) : res error sent * conn :=
  if avail <=? 0 then (Err BufferTooShort, c)
  else if is_draining c then (Err Done, c)
  else
    match nth_error (x_paths c) i with
    | None => (Err InvalidState, c)
    | Some p =>
        match pkt_type o p c with
        | Err e => (Err e, c)
        | Panic => (Panic, c)
        | Ok t =>
            if negb (is_some (p_dcid p)) then (Err OutOfIdentifiers, c)
            else if (o_size o <=? 0) || (avail <? o_size o) then (Err Done, c)
            else
              match o_fail o with
              | Some e => (Err e, c)
              | None =>
                  let short := match t with TShort => true | _ => false end in
                  let '(rs, q, room) := if short then responses (o_room o) (p_queue p) else ([], p_queue p, o_room o) in
                  let c := up i (set_queue q) c in
                  let ch := if short && p_want p && (9 <=? room) then Some (o_data o) else None in
                  let room := room - (if is_some ch then 9 else 0) - o_mid o in
                  let cl :=
                    if active p || (zlen (x_paths c) =? 1) then
                      match l_err (x_life c) with
                      | Some e => if (negb (fst (fst e)) || short) && (o_clen o <=? room) then Some e else None
                      | None => None
                      end
                    else None in
                  let c := if is_some cl then on_life (set_drain (Some (now + p_pto p * 3))) c else c in
                  let ael := o_ael o || negb (match rs with [] => true | _ => false end) || is_some ch || is_some cl in
                  if negb (ael || o_other o) then (Err Done, c)
                  else
                    let c := match ch with Some d => up i (add_challenge d (o_size o) now) c | None => c end in
                    let c := up i (fun p => set_budget (sat_sub (p_budget p) (o_size o)) p) c in
                    let c := if ael && negb (x_aes c) then restart_idle now c else c in
                    let c := if ael then w_aes true c else c in
                    (Ok (mkS t (o_size o) rs ch cl), c)
              end
        end
    end.

(** get_send_path_id (lib.rs:9103-9127) *)
Definition goes (from to : option Z) (p : path) : bool :=
  match from with Some f => fst (p_addr p) =? f | None => true end &&
  match to with Some t => snd (p_addr p) =? t | None => true end.
Definition send_pid (from to : option Z) (c : conn) : res error nat :=
  match (if h_est (x_hs c) then index (fun p => goes from to p && is_some (p_dcid p) && probing_required p) (x_paths c) else None) with
  | Some i => Ok i
  | None =>
      match active_pid (x_paths c) with
      | None => Err InvalidState
      | Some i =>
          match nth_error (x_paths c) i with
          | Some p => if goes from to p then Ok i else Err Done
          | None => Err InvalidState
          end
      end
  end.

(** The packets of one datagram (lib.rs:4030-4071) *)
Fixpoint send_loop (now : Z) (from to : option Z) (i : nat) (left : Z) (os : list pout) (c : conn) : res error (list sent) * conn :=
  match os with
  | [] => (Ok [], c)
  | o :: os =>
      if left <=? 0 then (Ok [], c)
      else
        match send_single now i left o c with
        | (Err BufferTooShort, c) | (Err Done, c) => (Ok [], c)
        | (Err e, c) => (Err e, c)
        | (Panic, c) => (Panic, c)
        | (Ok s, c) =>
            let stop :=
              match s_ty s with TShort => Ok true | _ =>
                if o_stop o then Ok true
                else if is_some from && is_some to then Ok false
                else match send_pid from to c with Ok j => Ok (negb (Nat.eqb j i)) | Err e => Err e | Panic => Panic end
              end in
            match stop with
            | Err e => (Err e, c)
            | Panic => (Panic, c)
            | Ok true => (Ok [s], c)
            | Ok false =>
                match send_loop now from to i (left - s_size s) os c with
                | (Ok ss, c) => (Ok (s :: ss), c)
                | r => r
                end
            end
        end
  end.
Definition sum_sent (ss : list sent) : Z := fold_right (fun s n => s_size s + n) 0 ss.

(** send_on_path (lib.rs:3956-4097).  [max] is the largest datagram the path and the
    peer take, and the length of the buffer.  On success: the length of the
    datagram, where it goes, and the packets in it. *)
Definition send (now : Z) (from to : option Z) (max : Z) (hso : hout) (os : list pout) (c : conn) : res error (Z * addr * list sent) * conn :=
  if max <=? 0 then (Err BufferTooShort, c)
  else if is_closed c || is_draining c then (Err Done, c)
  else
    match (if is_some (l_err (x_life c)) then (Ok tt, c) else do_handshake hso c) with
    | (Err e, c) => (Err e, c)
    | (Panic, c) => (Panic, c)
    | (Ok _, c) =>
        match replay (length (x_held c)) now c with
        | (Panic, c) => (Panic, c)
        | (_, c) =>
            if negb (h_ready (x_hs c)) then (Err Done, c)
            else
              match (match from, to with
                     | Some f, Some t => match by_addr (f, t) (x_paths c) with Some i => Ok i | None => Err InvalidState end
                     | _, _ => send_pid from to c
                     end) with
              | Err e => (Err e, c)
              | Panic => (Panic, c)
              | Ok i =>
                  match nth_error (x_paths c) i with
                  | None => (Err InvalidState, c)
                  | Some p =>
                      let left := if negb (p_ok p) && server c then Z.min max (p_budget p) else max in
                      match send_loop now from to i left os c with
                      | (Err e, c) => (Err e, c)
                      | (Panic, c) => (Panic, c)
                      | (Ok [], c) => (Err Done, c)
                      | (Ok ss, c) =>
                          let done := sum_sent ss in
                          let init := existsb (fun s => match s_ty s with TInitial => true | _ => false end) ss in
                          let pad := if init && (0 <? left - done) && (done <? MIN_INITIAL) then Z.min (left - done) (MIN_INITIAL - done) else 0 in
                          (Ok (done + pad, p_addr p, ss), c)
                      end
                  end
              end
        end
    end.

(** timeout_instant (lib.rs:7018-7049) *)
Definition omin (a b : option Z) : option Z :=
  match a, b with Some x, Some y => Some (Z.min x y) | Some x, None => Some x | None, b => b end.
Definition timeout_instant (c : conn) : option Z :=
  let l := x_life c in
  if l_closed l then None
  else if is_some (l_drain l) then l_drain l
  else omin (l_idle l) (omin (fold_right (fun p acc => omin (p_timer p) acc) None (x_paths c)) (l_ku l)).

(** on_timeout (lib.rs:7070-7156).  [timers] are the timers that the recovery of the
    paths sets next. *)
Definition due (t : option Z) (now : Z) : bool := match t with Some t => t <=? now | None => false end.
Fixpoint fire (srv : bool) (now : Z) (timers : list (option Z)) (ps : list path) : list path :=
  match ps with
  | [] => []
  | p :: ps =>
      (if due (p_timer p) now then loss_timeout srv now (hd None timers) p else p) :: fire srv now (tl timers) ps
  end.
(** notify_failed_validations (path.rs:824-839) *)
Definition failure_due (p : path) : bool := (rank (p_st p) =? 0) && negb (p_told p).
Definition tell_failures (c : conn) : conn :=
  w_paths (map (fun p => if failure_due p then set_told true p else p) (x_paths c))
    (w_events (x_events c ++ map (fun p => EvFailed (p_addr p)) (filter failure_due (x_paths c))) c).
Definition on_timeout (now : Z) (timers : list (option Z)) (c : conn) : conn :=
  let l := x_life c in
  match l_drain l with
  | Some t => if t <=? now then mark_closed c else c
  | None =>
      if due (l_idle l) now then on_life (set_timed true) (mark_closed c)
      else
        let c := if due (l_ku l) now then on_life (set_ku None) c else c in
        let c := w_paths (fire (server c) now timers (x_paths c)) c in
        let c := tell_failures c in
        match active_pid (x_paths c) with
        | Some _ => c
        | None =>
            match index usable (x_paths c) with
            | None => mark_closed c
            | Some i => match set_active i c with (Ok _, c) => c | (_, c) => mark_closed c end
            end
        end
  end.

(** create_path_on_client (lib.rs:9173-9214).  [scid] says whether a source id is
    left for the path.  Zero-length ids are not modelled. *)
Definition create_path (a : addr) (scid : bool) (c : conn) : res error nat * conn :=
  if server c then (Err InvalidState, c)
  else if negb scid then (Err OutOfIdentifiers, c)
  else
    match x_pool c with
    | [] => (Err OutOfIdentifiers, c)
    | q :: pool =>
        match insert_path (set_dcid (Some q) (path_new a false false)) false c with
        | (Ok i, c) => (Ok i, w_pool pool c)
        | (_, c) => (Err OutOfIdentifiers, c)
        end
    end.

(** probe_path (lib.rs:7188-7201) *)
Definition probe_path (a : addr) (scid : bool) (c : conn) : res error Z * conn :=
  match (match by_addr a (x_paths c) with Some i => (Ok i, c) | None => create_path a scid c end) with
  | (Ok i, c) =>
      let c := up i (set_want true) c in
      match nth_error (x_paths c) i with
      | Some p => (match p_dcid p with Some q => Ok q | None => Err InvalidState end, c)
      | None => (Err InvalidState, c)
      end
  | (Err e, c) => (Err e, c)
  | (Panic, c) => (Panic, c)
  end.

(** migrate (lib.rs:7229-7290) *)
Definition migrate (a : addr) (scid : bool) (c : conn) : res error Z * conn :=
  if server c then (Err InvalidState, c)
  else
    let go i q c := match set_active i c with (Ok _, c) => (Ok q, c) | (Err e, c) => (Err e, c) | (Panic, c) => (Panic, c) end in
    match by_addr a (x_paths c) with
    | Some i =>
        match nth_error (x_paths c) i with
        | None => (Err InvalidState, c)
        | Some p =>
            if active p then (match p_dcid p with Some q => Ok q | None => Err OutOfIdentifiers end, c)
            else if negb scid then (Err OutOfIdentifiers, c)
            else
              match p_dcid p, x_pool c with
              | Some q, _ => go i q c
              | None, [] => (Err OutOfIdentifiers, c)
              | None, q :: pool => go i q (w_pool pool (up i (set_dcid (Some q)) c))
              end
        end
    | None =>
        match create_path a scid c with
        | (Ok i, c) =>
            match nth_error (x_paths c) i with
            | Some p => match p_dcid p with Some q => go i q c | None => (Err InvalidState, c) end
            | None => (Err InvalidState, c)
            end
        | (Err e, c) => (Err e, c)
        | (Panic, c) => (Panic, c)
        end
    end.

(** retire_dcid (lib.rs:7386-7423); the ids' own bookkeeping is in CidModel *)
Definition retire_dcid (q : Z) (c : conn) : res error unit * conn :=
  match active_pid (x_paths c) with
  | None => (Err InvalidState, c)
  | Some act =>
      match nth_error (x_paths c) act with
      | Some p =>
          let others := existsb (fun x => negb (Nat.eqb (fst x) act) && usable (snd x)) (combine (seq 0 (length (x_paths c))) (x_paths c)) in
          if match p_dcid p with Some d => d =? q | None => false end && match x_pool c with [] => true | _ => false end && negb others
          then (Err OutOfIdentifiers, c)
          else
            match index (fun p => match p_dcid p with Some d => d =? q | None => false end) (x_paths c) with
            | None => (Ok tt, w_pool (filter (fun x => negb (x =? q)) (x_pool c)) c)
            | Some i =>
                match x_pool c with
                | [] => (Ok tt, up i (set_dcid None) c)
                | d :: pool => (Ok tt, w_pool pool (up i (set_dcid (Some d)) c))
                end
            end
      | None => (Err InvalidState, c)
      end
  end.

(** The operations on a connection.  The last two are changes made by the parts not
    modelled here: the recovery of a path, and the ids of a path. *)
Inductive op : Type :=
| ORecv (now : Z) (a : addr) (ks : list packet)
| OSend (now : Z) (from to : option Z) (max : Z) (h : hout) (os : list pout)
| OTimeout (now : Z) (timers : list (option Z))
| OClose (app : bool) (code : Z) (reason : list Z)
| OProbe (a : addr) (scid : bool)
| OMigrate (a : addr) (scid : bool)
| ORetireDcid (q : Z)
| OEvent
| ORecovery (i : nat) (timer : option Z) (pto rtt : Z)
| ODcid (i : nat) (d : option Z).

Inductive out : Type :=
| OutUnit (r : res error unit)
| OutSeq (r : res error Z)
| OutSent (r : res error (Z * addr * list sent))
| OutEvent (e : option event).

Definition step (o : op) (c : conn) : out * conn :=
  match o with
  | ORecv now a ks => let '(r, c) := recv now a ks c in (OutUnit r, c)
  | OSend now from to max h os => let '(r, c) := send now from to max h os c in (OutSent r, c)
  | OTimeout now timers => (OutUnit (Ok tt), on_timeout now timers c)
  | OClose app code reason => let '(r, c) := close app code reason c in (OutUnit r, c)
  | OProbe a scid => let '(r, c) := probe_path a scid c in (OutSeq r, c)
  | OMigrate a scid => let '(r, c) := migrate a scid c in (OutSeq r, c)
  | ORetireDcid q => let '(r, c) := retire_dcid q c in (OutUnit r, c)
  | OEvent => match x_events c with [] => (OutEvent None, c) | e :: l => (OutEvent (Some e), w_events l c) end
  | ORecovery i t pto rtt => (OutUnit (Ok tt), up i (fun p => set_rec t pto rtt (p_ptos p) p) c)
  | ODcid i d => (OutUnit (Ok tt), up i (set_dcid d) c)
  end.
