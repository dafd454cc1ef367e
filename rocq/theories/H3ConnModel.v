(** quiche/src/h3/stream.rs and the receiving side of quiche/src/h3/mod.rs: HTTP/3 streams
    and connections. *)
Require Import Verif.Base Verif.Errors Verif.OctetsModel Verif.StreamsModel Verif.HuffmanModel Verif.QpackModel Verif.H3FrameModel.

(** ** The transport

    What the HTTP/3 layer uses of the transport: for each stream the bytes that can be
    read, whether the final size is known and all of the stream has arrived, whether an
    empty buffer is queued (an empty STREAM frame with the fin flag, or a reset), the code
    of a reset, whether our sending side is still open (not all acknowledged), whether
    reading was shut down, and whether the application has sent the fin.
    RecvBufModel and StreamsModel model this layer itself. *)
Record tstr : Type := mkT { t_data : list Z; t_fin : bool; t_mark : bool; t_rst : option Z; t_open : bool; t_drain : bool; t_sfin : bool }.
(** [q_str] are the streams that exist, [q_gone] those that were collected, [q_err] the
    code the connection was closed with locally, [q_down] whether it is closed or draining *)
Record tr : Type := mkQ { q_str : Z -> option tstr; q_gone : Z -> bool; q_err : option Z; q_down : bool; q_server : bool; q_dgram : bool; q_bidi : Z }.
Definition upd {A} (f : Z -> option A) (k : Z) (x : option A) : Z -> option A := fun k' => if k' =? k then x else f k'.
Definition is_some {A} (o : option A) : bool := match o with Some _ => true | None => false end.
Definition is_nil {A} (l : list A) : bool := match l with [] => true | _ => false end.

Definition t_ready (t : tstr) : bool := negb (is_nil (t_data t)) || t_mark t.
Definition t_finished (t : tstr) : bool := t_fin t && is_nil (t_data t).
(** stream_readable and stream_finished (lib.rs:6378-6386, 6540-6548) *)
Definition stream_readable (q : tr) (id : Z) : bool := match q_str q id with Some t => t_ready t | None => false end.
Definition stream_finished (q : tr) (id : Z) : bool := match q_str q id with Some t => t_finished t | None => true end.
(** stream_closed (lib.rs:6560-6578) *)
Definition stream_closed (q : tr) (id : Z) : bool :=
  match q_str q id with
  | Some t => t_finished t && (negb (is_bidi id) || t_sfin t)
  | None => q_gone q id
  end.
(** Streams with nothing more to read or send are collected (Stream::is_complete,
    stream/mod.rs:859-873; StreamMap::collect) *)
Definition q_put (q : tr) (id : Z) (t : tstr) : tr :=
  if t_finished t && (negb (is_bidi id) || negb (t_open t))
  then mkQ (upd (q_str q) id None) (fun k => (k =? id) || q_gone q k) (q_err q) (q_down q) (q_server q) (q_dgram q) (q_bidi q)
  else mkQ (upd (q_str q) id (Some t)) (q_gone q) (q_err q) (q_down q) (q_server q) (q_dgram q) (q_bidi q).
(** do_stream_recv (lib.rs:5767-5861) with emit_or_discard (stream/recv_buf.rs:230-292):
    reading up to [n] bytes; the empty buffer is removed only when there is room left. *)
Definition stream_recv (q : tr) (id n : Z) : res error (list Z * bool) * tr :=
  if negb (is_bidi id) && is_local id (q_server q) then (Err (InvalidStreamState id), q)
  else
    match q_str q id with
    | None => (Err (InvalidStreamState id), q)
    | Some t =>
        if negb (t_ready t) then (Err Done, q)
        else
          match t_rst t with
          | Some code => (Err (StreamReset code), q_put q id (mkT [] (t_fin t) false (t_rst t) (t_open t) (t_drain t) (t_sfin t)))
          | None =>
              let bs := take n (t_data t) in
              let rest := drop n (t_data t) in
              let mark := if zlen (t_data t) <? n then false else t_mark t in
              let t := mkT rest (t_fin t) mark None (t_open t) (t_drain t) (t_sfin t) in
              (Ok (bs, t_finished t), q_put q id t)
          end
    end.
(** stream_shutdown(Read) (lib.rs:6219-6257); a stream that is gone or was shut down gives
    Done, which the caller passes on as its own Done *)
Definition stream_stop (q : tr) (id : Z) : tr :=
  match q_str q id with
  | None => q
  | Some t =>
      if t_drain t then q
      else mkQ (upd (q_str q) id (Some (mkT [] (t_fin t) false (t_rst t) (t_open t) true (t_sfin t)))) (q_gone q) (q_err q) (q_down q) (q_server q) (q_dgram q) (q_bidi q)
  end.
(** Connection::close (lib.rs:7216-7260) as HTTP/3 uses it: [conn.close(..)?; return Err(e)].
    It fails with Done when the connection is closed already. *)
Definition close_with (wire : Z) (e : herr) (q : tr) : herr * tr :=
  if q_down q || is_some (q_err q) then (HDone, q)
  else (e, mkQ (q_str q) (q_gone q) (Some wire) (q_down q) (q_server q) (q_dgram q) (q_bidi q)).
Definition h_close (e : herr) (q : tr) : herr * tr := close_with (to_wire e) e q.

(** ** Streams (h3/stream.rs) *)
(** Type and State (h3/stream.rs:42-97) *)
Inductive styp : Type := TControl | TRequest | TPush | TEncoder | TDecoder | TUnknown.
Inductive hstate : Type := StType | StFrame | StLen | StPayload | StData | StPush | StInstr | StSkip | StDrain | StDone.
Definition MAX_STATE_BUF : Z := 16777215.
Definition MAX_ALLOC : Z := 4096.
Definition DEFAULT_FIELD_SECTION : Z := 32768.
(** Type::deserialize (h3/stream.rs:99-111) *)
Definition type_of (v : Z) : styp :=
  if v =? 0 then TControl else if v =? 1 then TPush else if v =? 2 then TEncoder else if v =? 3 then TDecoder else TUnknown.

(** Stream (h3/stream.rs:113-190); local_initialized and trailers_sent belong to sending *)
Record hs : Type := mkHs {
  h_ty : option styp; h_st : hstate; h_buf : list Z; h_cap : Z; h_len : Z; h_off : Z; h_fty : option Z;
  h_local : bool; h_rinit : bool; h_trig : bool; h_prio : option (list Z); h_count : Z; h_data : bool; h_trail : bool; h_lfin : bool;
  h_maxh : Z; h_maxp : Z }.
Definition set_pos (s : hs) (st : hstate) (buf : list Z) (cap len off : Z) : hs :=
  mkHs (h_ty s) st buf cap len off (h_fty s) (h_local s) (h_rinit s) (h_trig s) (h_prio s) (h_count s) (h_data s) (h_trail s) (h_lfin s) (h_maxh s) (h_maxp s).
Definition set_trig (s : hs) (b : bool) : hs :=
  mkHs (h_ty s) (h_st s) (h_buf s) (h_cap s) (h_len s) (h_off s) (h_fty s) (h_local s) (h_rinit s) b (h_prio s) (h_count s) (h_data s) (h_trail s) (h_lfin s) (h_maxh s) (h_maxp s).
Definition set_phase (s : hs) (rinit data trail : bool) : hs :=
  mkHs (h_ty s) (h_st s) (h_buf s) (h_cap s) (h_len s) (h_off s) (h_fty s) (h_local s) rinit (h_trig s) (h_prio s) (h_count s) data trail (h_lfin s) (h_maxh s) (h_maxp s).
Definition set_type (s : hs) (ty : option styp) (rinit : bool) : hs :=
  mkHs ty (h_st s) (h_buf s) (h_cap s) (h_len s) (h_off s) (h_fty s) (h_local s) rinit (h_trig s) (h_prio s) (h_count s) (h_data s) (h_trail s) (h_lfin s) (h_maxh s) (h_maxp s).
Definition set_fty (s : hs) (ty : Z) : hs :=
  mkHs (h_ty s) (h_st s) (h_buf s) (h_cap s) (h_len s) (h_off s) (Some ty) (h_local s) (h_rinit s) (h_trig s) (h_prio s) (h_count s) (h_data s) (h_trail s) (h_lfin s) (h_maxh s) (h_maxp s).
Definition set_count (s : hs) (n : Z) : hs :=
  mkHs (h_ty s) (h_st s) (h_buf s) (h_cap s) (h_len s) (h_off s) (h_fty s) (h_local s) (h_rinit s) (h_trig s) (h_prio s) n (h_data s) (h_trail s) (h_lfin s) (h_maxh s) (h_maxp s).
Definition set_prio (s : hs) (p : option (list Z)) : hs :=
  mkHs (h_ty s) (h_st s) (h_buf s) (h_cap s) (h_len s) (h_off s) (h_fty s) (h_local s) (h_rinit s) (h_trig s) p (h_count s) (h_data s) (h_trail s) (h_lfin s) (h_maxh s) (h_maxp s).
Definition set_lfin (s : hs) : hs :=
  mkHs (h_ty s) (h_st s) (h_buf s) (h_cap s) (h_len s) (h_off s) (h_fty s) (h_local s) (h_rinit s) (h_trig s) (h_prio s) (h_count s) (h_data s) (h_trail s) true (h_maxh s) (h_maxp s).

(** Stream::new (h3/stream.rs:196-252) *)
Definition hs_new (id : Z) (local : bool) (max_field max_prio : Z) : hs :=
  let '(ty, st) := if is_bidi id then (Some TRequest, StFrame) else (None, StType) in
  mkHs ty st [] 16 1 0 None local false false None 0 false false false (Z.min u64_max (max_field + max_field / 2)) max_prio.

(** Vec::reserve: nothing when there is room, otherwise at least twice the capacity (the
    growth of alloc::raw_vec, which the code does not rely on) *)
Definition reserve (cap len additional : Z) : Z :=
  if additional <=? cap - len then cap else Z.max 8 (Z.max (2 * cap) (len + additional)).
Definition complete (s : hs) : bool := h_off s =? h_len s.
(** state_transition (h3/stream.rs:957-985) *)
Definition goto (s : hs) (st : hstate) (len : Z) (resize : bool) : res herr unit * hs :=
  if resize && (MAX_STATE_BUF <? len) then (Err HExcessiveLoad, set_pos s (h_st s) [] (h_cap s) (h_len s) (h_off s))
  else (Ok tt, set_pos s st [] (if resize then reserve (h_cap s) 0 (Z.min len MAX_ALLOC) else h_cap s) len 0).
(** critical_stream_closed (h3/stream.rs:941-949) *)
Definition critical (s : hs) (fin : bool) : bool :=
  fin && match h_ty s with Some TControl | Some TEncoder | Some TDecoder => true | _ => false end.

(** set_ty (h3/stream.rs:263-287) *)
Definition set_ty (s : hs) (ty : styp) : res herr unit * hs :=
  match ty with
  | TControl | TRequest => goto (set_type s (Some ty) (h_rinit s)) StFrame 1 true
  | TPush => goto (set_type s (Some ty) (h_rinit s)) StPush 1 true
  | TEncoder | TDecoder => goto (set_type s (Some ty) true) StInstr 1 true
  | TUnknown => goto (set_type s (Some ty) (h_rinit s)) StDrain 1 true
  end.
(** validate_request_frame_type (h3/stream.rs:385-436) *)
Definition never_on_request (ty : Z) : bool :=
  (ty =? T_CANCEL_PUSH) || (ty =? T_SETTINGS) || (ty =? T_GOAWAY) || (ty =? T_MAX_PUSH) || (ty =? T_PRIO_REQUEST) || (ty =? T_PRIO_PUSH).
Definition request_frame (s : hs) (ty : Z) : res herr unit * hs :=
  if never_on_request ty then (Err HFrameUnexpected, s)
  else if h_local s then (Ok tt, s)
  else if ty =? T_HEADERS then
    if negb (h_rinit s) then (Ok tt, set_phase s true (h_data s) (h_trail s))
    else if h_trail s then (Err HFrameUnexpected, s)
    else (Ok tt, if h_data s then set_phase s true true true else s)
  else if ty =? T_DATA then
    if negb (h_rinit s) then (Err HFrameUnexpected, s)
    else if h_trail s then (Err HFrameUnexpected, s)
    else (Ok tt, set_phase s true true (h_trail s))
  else (Ok tt, s).
(** set_frame_type (h3/stream.rs:301-372) *)
Definition allow_frame (s : hs) (ty : Z) : res herr unit * hs :=
  match h_ty s with
  | Some TControl =>
      if negb (h_rinit s) then
        if ty =? T_SETTINGS then (Ok tt, set_phase s true (h_data s) (h_trail s)) else (Err HMissingSettings, s)
      else if (ty =? T_SETTINGS) || (ty =? T_DATA) || (ty =? T_HEADERS) || (ty =? T_PUSH_PROMISE) then (Err HFrameUnexpected, s)
      else (Ok tt, s)
  | Some TRequest => request_frame s ty
  | Some TPush =>
      if (ty =? T_CANCEL_PUSH) || (ty =? T_SETTINGS) || (ty =? T_PUSH_PROMISE) || (ty =? T_GOAWAY) || (ty =? T_MAX_PUSH)
      then (Err HFrameUnexpected, s) else (Ok tt, s)
  | _ => (Err HFrameUnexpected, s)
  end.
Definition set_frame_type (s : hs) (ty : Z) : res herr unit * hs :=
  match allow_frame s ty with
  | (Ok tt, s) => goto (set_fty s ty) StLen 1 true
  | (r, s) => (r, s)
  end.
(** set_frame_payload_len (h3/stream.rs:444-526); the limits are u64, the additions saturate *)
Definition payload_plan (s : hs) (ty len : Z) : res herr (hstate * bool) :=
  if ty =? T_DATA then Ok (StData, false)
  else if ty =? T_HEADERS then if h_maxh s <? len then Err HExcessiveLoad else Ok (StPayload, true)
  else if (ty =? T_CANCEL_PUSH) || (ty =? T_GOAWAY) || (ty =? T_MAX_PUSH) then
    if (1 <=? len) && (len <=? 8) then Ok (StPayload, true) else Err HFrameError
  else if ty =? T_SETTINGS then if MAX_SETTINGS_SIZE <? len then Err HFrameError else Ok (StPayload, true)
  else if ty =? T_PUSH_PROMISE then
    if len =? 0 then Err HFrameError else if Z.min u64_max (h_maxh s + 8) <? len then Err HExcessiveLoad else Ok (StPayload, true)
  else if (ty =? T_PRIO_REQUEST) || (ty =? T_PRIO_PUSH) then
    if len =? 0 then Err HFrameError else if h_maxp s <? len then Err HExcessiveLoad else Ok (StPayload, true)
  else if MAX_STATE_BUF <? len then Err HExcessiveLoad else Ok (StSkip, false).
Definition framed (s : hs) : bool := match h_ty s with Some TControl | Some TRequest | Some TPush => true | _ => false end.
Definition set_payload_len (s : hs) (len : Z) : res herr unit * hs :=
  if negb (framed s) then (Err HInternalError, s)
  else
    match h_fty s with
    | None => if MAX_STATE_BUF <? len then (Err HExcessiveLoad, s) else goto s StSkip len false
    | Some ty =>
        match payload_plan s ty len with
        | Ok (st, resize) => goto s st len resize
        | Err e => (Err e, s)
        | Panic => (Panic, s)
        end
    end.

(** From<super::Error> (h3/mod.rs:560-568) *)
Definition from_transport (e : error) : herr := match e with Done => HDone | e => HTransport e end.

(** try_fill_buffer (h3/stream.rs:576-642) with spare_state_buf and
    commit_state_buf_read (h3/stream.rs:533-570); every turn but the last reads a byte *)
Fixpoint fill_loop (fuel : nat) (id : Z) (s : hs) (q : tr) : res herr unit * hs * tr :=
  match fuel with
  | O => (Panic, s, q)
  | S fuel =>
      let need := h_len s - h_off s in
      let cap := if h_cap s - zlen (h_buf s) <=? 0 then reserve (h_cap s) (zlen (h_buf s)) (Z.min MAX_ALLOC need) else h_cap s in
      let usable := Z.min need (cap - zlen (h_buf s)) in
      let s := set_pos s (h_st s) (h_buf s) cap (h_len s) (h_off s) in
      match stream_recv q id usable with
      | (Ok (bs, fin), q) =>
          let s := set_pos s (h_st s) (h_buf s ++ bs) (h_cap s) (h_len s) (h_off s + zlen bs) in
          if critical s fin then let '(e, q) := h_close HClosedCriticalStream q in (Err e, s, q)
          else if zlen bs <? usable then
            if complete s then (Ok tt, s, q) else (Err HDone, set_trig s false, q)
          else if complete s then (Ok tt, s, q)
          else fill_loop fuel id s q
      | (Err (StreamReset code), q) =>
          if critical s true then let '(e, q) := h_close HClosedCriticalStream q in (Err e, s, q)
          else (Err (HTransport (StreamReset code)), s, q)
      | (Err Done, q) => (Err HDone, set_trig s false, q)
      | (Err e, q) => (Err (HTransport e), s, q)
      | (Panic, q) => (Panic, s, q)
      end
  end.
Definition try_fill (id : Z) (s : hs) (q : tr) : res herr unit * hs * tr :=
  if complete s then (Ok tt, s, q) else fill_loop (S (S (Z.to_nat (h_len s - h_off s)))) id s q.

(** try_consume_varint (h3/stream.rs:792-809) *)
Definition consume_varint (s : hs) : res herr Z * hs :=
  let first :=
    if h_off s =? 1 then
      match h_buf s with
      | [] => None
      | x :: _ =>
          match varint_parse_len x with
          | Some n => Some (set_pos s (h_st s) (h_buf s) (reserve (h_cap s) (zlen (h_buf s)) n) n (h_off s))
          | None => None
          end
      end
    else Some s in
  match first with
  | None => (Panic, s)
  | Some s =>
      if negb (complete s) then (Err HDone, s)
      else match rd_varint (h_buf s) with Some (v, _) => (Ok v, s) | None => (Err HBufferTooShort, s) end
  end.
(** try_consume_frame (h3/stream.rs:812-829) *)
Definition consume_frame (s : hs) : res herr hframe * hs :=
  let s := set_trig s false in
  match h_fty s with
  | None => (Panic, s)
  | Some ty =>
      match h3_from_bytes ty (h_len s) (h_buf s) with
      | Ok f => match goto s StFrame 1 true with (Ok _, s) => (Ok f, s) | (Err e, s) => (Err e, s) | (Panic, s) => (Panic, s) end
      | Err e => (Err e, s)
      | Panic => (Panic, s)
      end
  end.
(** try_skip_frame with try_skip_data (h3/stream.rs:650-701, 832-844) *)
Definition skip_frame (id : Z) (s : hs) (q : tr) : res herr unit * hs * tr :=
  let '(r, s, q) :=
    if complete s then (Ok tt, s, q)
    else
      match stream_recv q id (h_len s - h_off s) with
      | (Ok (bs, fin), q) =>
          if critical s fin then let '(e, q) := h_close HClosedCriticalStream q in (Err e, s, q)
          else
            let s := set_pos s (h_st s) (h_buf s) (h_cap s) (h_len s) (h_off s + zlen bs) in
            if complete s then (Ok tt, s, q) else (Err HDone, set_trig s false, q)
      | (Err (StreamReset code), q) =>
          if critical s true then let '(e, q) := h_close HClosedCriticalStream q in (Err e, s, q)
          else (Err (HTransport (StreamReset code)), s, q)
      | (Err Done, q) => (Err HDone, set_trig s false, q)
      | (Err e, q) => (Err (HTransport e), s, q)
      | (Panic, q) => (Panic, s, q)
      end in
  match r with
  | Ok _ => let '(r, s) := goto (set_trig s false) StFrame 1 true in (r, s, q)
  | r => (r, s, q)
  end.
(** try_consume_data (h3/stream.rs:846-878) with [n] bytes of room in the caller's buffer *)
Definition consume_data (id : Z) (s : hs) (q : tr) (n : Z) : res herr (list Z * bool) * hs * tr :=
  match stream_recv q id (Z.min n (h_len s - h_off s)) with
  | (Ok (bs, fin), q) =>
      let s := set_pos s (h_st s) (h_buf s) (h_cap s) (h_len s) (h_off s + zlen bs) in
      let s := if stream_readable q id then s else set_trig s false in
      if complete s then
        match goto s StFrame 1 true with
        | (Ok _, s) => (Ok (bs, fin), s, q)
        | (Err e, s) => (Err e, s, q)
        | (Panic, s) => (Panic, s, q)
        end
      else (Ok (bs, fin), s, q)
  | (Err Done, q) => (Err HDone, set_trig s false, q)
  | (Err e, q) => (Err (HTransport e), s, q)
  | (Panic, q) => (Panic, s, q)
  end.

(** ** Connections (h3/mod.rs) *)
Inductive hevent : Type := EvHeaders (list : list header) (more : bool) | EvData | EvFinished | EvReset (code : Z) | EvGoAway | EvPriority.

(** Connection (h3/mod.rs:997-1032); [c_mfss] is local_settings.max_field_section_size *)
Record conn : Type := mkConn {
  c_server : bool; c_mfss : option Z; c_maxp : Z;
  c_str : Z -> option hs; c_fin : list Z;
  c_peer : settings; c_ctl : option Z; c_enc : option Z; c_dec : option Z; c_encb : Z; c_decb : Z;
  c_goaway : option Z; c_push : Z;
  c_q : tr }.
Definition with_str (c : conn) (id : Z) (s : option hs) (q : tr) : conn :=
  mkConn (c_server c) (c_mfss c) (c_maxp c) (upd (c_str c) id s) (c_fin c) (c_peer c) (c_ctl c) (c_enc c) (c_dec c) (c_encb c) (c_decb c) (c_goaway c) (c_push c) q.
Definition with_q (c : conn) (q : tr) : conn :=
  mkConn (c_server c) (c_mfss c) (c_maxp c) (c_str c) (c_fin c) (c_peer c) (c_ctl c) (c_enc c) (c_dec c) (c_encb c) (c_decb c) (c_goaway c) (c_push c) q.
Definition with_fin (c : conn) (l : list Z) : conn :=
  mkConn (c_server c) (c_mfss c) (c_maxp c) (c_str c) l (c_peer c) (c_ctl c) (c_enc c) (c_dec c) (c_encb c) (c_decb c) (c_goaway c) (c_push c) (c_q c).
Definition with_peer (c : conn) (p : settings) : conn :=
  mkConn (c_server c) (c_mfss c) (c_maxp c) (c_str c) (c_fin c) p (c_ctl c) (c_enc c) (c_dec c) (c_encb c) (c_decb c) (c_goaway c) (c_push c) (c_q c).
Definition with_ids (c : conn) (ctl enc dec : option Z) : conn :=
  mkConn (c_server c) (c_mfss c) (c_maxp c) (c_str c) (c_fin c) (c_peer c) ctl enc dec (c_encb c) (c_decb c) (c_goaway c) (c_push c) (c_q c).
Definition with_qpack (c : conn) (e d : Z) : conn :=
  mkConn (c_server c) (c_mfss c) (c_maxp c) (c_str c) (c_fin c) (c_peer c) (c_ctl c) (c_enc c) (c_dec c) e d (c_goaway c) (c_push c) (c_q c).
Definition with_goaway (c : conn) (id : Z) : conn :=
  mkConn (c_server c) (c_mfss c) (c_maxp c) (c_str c) (c_fin c) (c_peer c) (c_ctl c) (c_enc c) (c_dec c) (c_encb c) (c_decb c) (Some id) (c_push c) (c_q c).
Definition with_push (c : conn) (id : Z) : conn :=
  mkConn (c_server c) (c_mfss c) (c_maxp c) (c_str c) (c_fin c) (c_peer c) (c_ctl c) (c_enc c) (c_dec c) (c_encb c) (c_decb c) (c_goaway c) id (c_q c).

(** Connection::new (h3/mod.rs:1030-1090) over a transport *)
Definition h3_new (server : bool) (mfss : option Z) (maxp : Z) (q : tr) : conn :=
  mkConn server mfss maxp (fun _ => None) [] no_settings None None None 0 0 None 0 q.
Definition new_stream (c : conn) (id : Z) (local : bool) : hs :=
  hs_new id local (match c_mfss c with Some n => n | None => DEFAULT_FIELD_SECTION end) (c_maxp c).

(** Closing the connection with an error and returning it *)
Definition fail_as (wire : Z) (e : herr) (c : conn) : res herr (Z * hevent) * conn :=
  let '(e, q) := close_with wire e (c_q c) in (Err e, with_q c q).
Definition fail (e : herr) (c : conn) : res herr (Z * hevent) * conn := fail_as (to_wire e) e c.

(** process_frame (h3/mod.rs:3020-3342) *)
Definition process_frame (id : Z) (f : hframe) (c : conn) : res herr (Z * hevent) * conn :=
  match f with
  | HSettings p =>
      let c := with_peer c p in
      match s_dgram p with
      | Some 1 => if q_dgram (c_q c) then (Err HDone, c) else fail HSettingsError c
      | _ => (Err HDone, c)
      end
  | HHeaders block =>
      let too_many := match c_str c id with Some s => c_server c && (h_count s =? 2) | None => false end in
      if too_many then fail HFrameUnexpected c
      else
        let c := match c_str c id with Some s => with_str c id (Some (set_count s (Z.min u64_max (h_count s + 1)))) (c_q c) | None => c end in
        match qpack_decode block (match c_mfss c with Some n => n | None => u64_max end) with
        | Ok l => (Ok (id, EvHeaders l (negb (stream_finished (c_q c) id))), c)
        | Err QTooLarge => fail HExcessiveLoad c
        | Err _ => fail HQpackFailed c
        | Panic => (Panic, c)
        end
  | HData _ => (Err HDone, c)
  | HGoAway gid =>
      if negb (c_server c) && negb (gid mod 4 =? 0) then fail_as (to_wire HFrameUnexpected) HIdError c
      else if match c_goaway c with Some r => r <? gid | None => false end then fail HIdError c
      else (Ok (gid, EvGoAway), with_goaway c gid)
  | HMaxPushId p =>
      if negb (c_server c) then fail HFrameUnexpected c
      else if p <? c_push c then fail HIdError c
      else (Err HDone, with_push c p)
  | HPushPromise _ _ =>
      if c_server c then fail HFrameUnexpected c
      else if negb (id mod 4 =? 0) then fail HFrameUnexpected c
      else (Err HDone, c)
  | HCancelPush _ => (Err HDone, c)
  | HPriorityRequest pid v =>
      if negb (c_server c) then fail HFrameUnexpected c
      else if negb (pid mod 4 =? 0) then fail HFrameUnexpected c
      else if q_bidi (c_q c) * 4 <? pid then fail HIdError c
      else if stream_closed (c_q c) pid then (Err HDone, c)
      else
        let s := match c_str c pid with Some s => s | None => new_stream c pid false end in
        let c' := with_str c pid (Some (set_prio s (Some v))) (c_q c) in
        if is_some (h_prio s) then (Err HDone, c') else (Ok (pid, EvPriority), c')
  | HPriorityPush pid _ =>
      if negb (c_server c) then fail HFrameUnexpected c
      else if negb (pid mod 3 =? 0) then fail HFrameUnexpected c
      else (Err HDone, c)
  | HUnknown _ _ => (Err HDone, c)
  end.

(** Discarding the bytes of a QPACK stream (h3/mod.rs:2893-2920), 4096 at a time *)
Fixpoint instr_loop (fuel : nat) (id : Z) (ty : option styp) (c : conn) : res herr (Z * hevent) * conn :=
  match fuel with
  | O => (Panic, c)
  | S fuel =>
      match stream_recv (c_q c) id 4096 with
      | (Ok (bs, fin), q) =>
          let c := with_q c q in
          match ty with
          | Some TEncoder | Some TDecoder =>
              let c := match ty with Some TEncoder => with_qpack c (c_encb c + zlen bs) (c_decb c) | _ => with_qpack c (c_encb c) (c_decb c + zlen bs) end in
              if fin then fail HClosedCriticalStream c else instr_loop fuel id ty c
          | _ => (Panic, c)
          end
      | (Err e, q) => (Err (from_transport e), with_q c q)
      | (Panic, q) => (Panic, with_q c q)
      end
  end.

(** What a new stream of type [ty] does (h3/mod.rs:2655-2763) *)
Definition open_peer (id : Z) (ty : styp) (c : conn) : res herr unit * conn :=
  let refuse c := let '(e, q) := h_close HStreamCreationError (c_q c) in (Err e, with_q c q) in
  let unless_finished c c' :=
    if stream_finished (c_q c) id then let '(e, q) := h_close HClosedCriticalStream (c_q c) in (Err e, with_q c q) else (Ok tt, c') in
  match ty with
  | TControl => if is_some (c_ctl c) then refuse c else unless_finished c (with_ids c (Some id) (c_enc c) (c_dec c))
  | TPush => refuse c
  | TEncoder => if is_some (c_enc c) then refuse c else unless_finished c (with_ids c (c_ctl c) (Some id) (c_dec c))
  | TDecoder => if is_some (c_dec c) then refuse c else unless_finished c (with_ids c (c_ctl c) (c_enc c) (Some id))
  | TUnknown => (Ok tt, c)
  | TRequest => (Panic, c)
  end.

Inductive turn : Type := Again | Stop (r : res herr (Z * hevent)).
(** Reading a varint in one of the four states that do (try_fill_buffer and
    try_consume_varint): [inl] is the turn's outcome without one *)
Definition read_varint (id : Z) (s : hs) (c : conn) : (turn * conn) + (Z * hs * conn) :=
  let '(r, s, q) := try_fill id s (c_q c) in
  let c := with_str c id (Some s) q in
  match r with
  | Ok _ =>
      match consume_varint s with
      | (Ok v, s) => inr (v, s, with_str c id (Some s) q)
      | (Err _, s) => inl (Again, with_str c id (Some s) q)
      | (Panic, s) => inl (Stop Panic, with_str c id (Some s) q)
      end
  | Err e => inl (Stop (Err e), c)
  | Panic => inl (Stop Panic, c)
  end.
(** The outcome of set_ty, set_push_id, set_frame_type and set_frame_payload_len *)
Definition advance (id : Z) (r : res herr unit * hs) (c : conn) : turn * conn :=
  let '(r, s) := r in
  let c := with_str c id (Some s) (c_q c) in
  match r with
  | Ok _ => (Again, c)
  | Err e => let '(r, c) := fail e c in (Stop r, c)
  | Panic => (Stop Panic, c)
  end.
(** One turn of the loop of process_readable_stream (h3/mod.rs:2617-2953) *)
Definition step (polling : bool) (id : Z) (s : hs) (c : conn) : turn * conn :=
  match h_st s with
  | StType =>
      match read_varint id s c with
      | inl o => o
      | inr (v, s, c) =>
          let ty := type_of v in
          match advance id (set_ty s ty) c with
          | (Again, c) =>
              match open_peer id ty c with
              | (Ok _, c) => (Again, c)
              | (Err e, c) => (Stop (Err e), c)
              | (Panic, c) => (Stop Panic, c)
              end
          | o => o
          end
      end
  | StPush =>
      match read_varint id s c with
      | inl o => o
      | inr (_, s, c) => advance id (goto s StFrame 1 true) c
      end
  | StFrame =>
      match read_varint id s c with
      | inl o => o
      | inr (v, s, c) => advance id (set_frame_type s v) c
      end
  | StLen =>
      match read_varint id s c with
      | inl o => o
      | inr (v, s, c) => advance id (set_payload_len s v) c
      end
  | StPayload =>
      if negb polling then (Stop (Err HDone), c)
      else
        let '(r, s, q) := try_fill id s (c_q c) in
        let c := with_str c id (Some s) q in
        match r with
        | Ok _ =>
            match consume_frame s with
            | (Ok f, s) =>
                let c := with_str c id (Some s) q in
                match process_frame id f c with
                | (Err HDone, c) => (if stream_finished (c_q c) id then Stop (Err HDone) else Again, c)
                | (r, c) => (Stop r, c)
                end
            | (Err HDone, s) => (Stop (Err HDone), with_str c id (Some s) q)
            | (Err e, s) => let '(r, c) := fail e (with_str c id (Some s) q) in (Stop r, c)
            | (Panic, s) => (Stop Panic, with_str c id (Some s) q)
            end
        | Err e => (Stop (Err e), c)
        | Panic => (Stop Panic, c)
        end
  | StData =>
      if negb polling then (Stop (Err HDone), c)
      else if h_trig s then (Stop (Err HDone), c)
      else (Stop (Ok (id, EvData)), with_str c id (Some (set_trig s true)) (c_q c))
  | StInstr =>
      let '(r, c) := instr_loop (S (S (match q_str (c_q c) id with Some t => length (t_data t) | None => 0%nat end))) id (h_ty s) c in (Stop r, c)
  | StSkip =>
      let '(r, s, q) := skip_frame id s (c_q c) in
      let c := with_str c id (Some s) q in
      match r with
      | Ok _ => (if stream_finished q id then Stop (Err HDone) else Again, c)
      | Err e => (Stop (Err e), c)
      | Panic => (Stop Panic, c)
      end
  | StDrain => (Stop (Err HDone), with_q c (stream_stop (c_q c) id))
  | StDone => (Stop (Err HDone), c)
  end.
(** The loop: no turn but the last leaves the stream as it was; two turns in a row read a byte *)
Fixpoint turns (fuel : nat) (polling : bool) (id : Z) (c : conn) : res herr (Z * hevent) * conn :=
  match fuel with
  | O => (Panic, c)
  | S fuel =>
      match c_str c id with
      | None => (Err HDone, c)
      | Some s =>
          match step polling id s c with
          | (Again, c) => turns fuel polling id c
          | (Stop r, c) => (r, c)
          end
      end
  end.
(** process_readable_stream (h3/mod.rs:2594-2957) *)
Definition process_readable (polling : bool) (id : Z) (c : conn) : res herr (Z * hevent) * conn :=
  let c := match c_str c id with Some _ => c | None => with_str c id (Some (new_stream c id false)) (c_q c) end in
  turns (4 + 2 * (match q_str (c_q c) id with Some t => length (t_data t) | None => 0%nat end)) polling id c.

(** process_finished_stream (h3/mod.rs:2940-2966) *)
Definition process_finished (id : Z) (c : conn) : conn :=
  match c_str c id with
  | None => c
  | Some s =>
      match h_st s with
      | StDone => c
      | _ =>
          match h_ty s with
          | Some TRequest | Some TPush => with_fin (with_str c id (Some (snd (goto s StDone 0 false))) (c_q c)) (c_fin c ++ [id])
          | Some TUnknown | None => with_str c id None (c_q c)
          | _ => c
          end
      end
  end.
(** remove_local_finished_stream (h3/mod.rs:2992-2998) *)
Definition remove_finished (id : Z) (c : conn) : conn :=
  match c_str c id with Some s => if h_lfin s then with_str c id None (c_q c) else c | None => c end.
(** pop_finished_stream (h3/mod.rs:3000-3018); reading into an empty buffer *)
Definition pop_finished (c : conn) : option (Z * hevent) * conn :=
  match c_fin c with
  | [] => (None, c)
  | id :: l =>
      let c := remove_finished id (with_fin c l) in
      if stream_readable (c_q c) id then
        match stream_recv (c_q c) id 0 with
        | (Err (StreamReset code), q) => (Some (id, EvReset code), with_q c q)
        | (_, q) => (Some (id, EvFinished), with_q c q)
        end
      else (Some (id, EvFinished), c)
  end.
(** process_control_stream (h3/mod.rs:2574-2592) *)
Definition if_finished (id : Z) (c : conn) : option (res herr (Z * hevent) * conn) :=
  if stream_finished (c_q c) id then Some (fail HClosedCriticalStream c) else None.
Definition process_control (id : Z) (c : conn) : res herr (Z * hevent) * conn :=
  match if_finished id c with
  | Some o => o
  | None =>
      if negb (stream_readable (c_q c) id) then (Err HDone, c)
      else
        match process_readable true id c with
        | (Err HDone, c) => match if_finished id c with Some o => o | None => (Err HDone, c) end
        | o => o
        end
  end.
(** The body of the loop over the readable streams (h3/mod.rs:2160-2190) *)
Fixpoint poll_streams (ids : list Z) (c : conn) : res herr (Z * hevent) * conn :=
  match ids with
  | [] => (Err HDone, c)
  | id :: ids =>
      match process_readable true id c with
      | (Err (HTransport (StreamReset code)), c) => (Ok (id, EvReset code), remove_finished id c)
      | (Ok ev, c) => (Ok ev, if stream_finished (c_q c) id then process_finished id c else c)
      | (Err HDone, c) => poll_streams ids (if stream_finished (c_q c) id then process_finished id c else c)
      | o => o
      end
  end.
Definition or_else (o : res herr (Z * hevent) * conn) (k : conn -> res herr (Z * hevent) * conn) : res herr (Z * hevent) * conn :=
  match o with (Err HDone, c) => k c | o => o end.
Definition control_of (o : option Z) (c : conn) : res herr (Z * hevent) * conn :=
  match o with Some id => process_control id c | None => (Err HDone, c) end.
Definition popped (c : conn) : res herr (Z * hevent) * conn :=
  match pop_finished c with (Some ev, c) => (Ok ev, c) | (None, c) => (Err HDone, c) end.
(** poll (h3/mod.rs:2112-2202); [order] gives the order of conn.readable() *)
Definition poll (order : list Z) (c : conn) : res herr (Z * hevent) * conn :=
  if is_some (q_err (c_q c)) then (Err HDone, c)
  else
    or_else (control_of (c_ctl c) c) (fun c =>
    or_else (control_of (c_enc c) c) (fun c =>
    or_else (control_of (c_dec c) c) (fun c =>
    or_else (popped c) (fun c =>
    or_else (poll_streams (filter (stream_readable (c_q c)) order) c) popped)))).

(** recv_body_buf (h3/mod.rs:1886-1945) with [room] bytes of buffer; the bytes are those
    written to the caller's buffer *)
Fixpoint body_loop (fuel : nat) (id room : Z) (got : list Z) (c : conn) : res herr (list Z) * conn :=
  if room <=? 0 then (Ok got, c)
  else
    match fuel with
    | O => (Panic, c)
    | S fuel =>
        match c_str c id with
        | None => (Err HDone, c)
        | Some s =>
            match h_st s with
            | StData =>
                let '(r, s, q) := consume_data id s (c_q c) room in
                let c := with_str c id (Some s) q in
                match r with
                | Ok (bs, fin) =>
                    let got := got ++ bs in
                    if is_nil bs || fin then (Ok got, c)
                    else
                      match process_readable false id c with
                      | (Ok _, c) => (Panic, c)
                      | (Err HDone, c) =>
                          if stream_finished (c_q c) id then (Ok got, c) else body_loop fuel id (room - zlen bs) got c
                      | (Err e, c) => (Err e, c)
                      | (Panic, c) => (Panic, c)
                      end
                | Err HDone => (Ok got, c)
                | Err e => (Err e, c)
                | Panic => (Panic, c)
                end
            | _ => (Ok got, c)
            end
        end
    end.
Definition recv_body (id room : Z) (c : conn) : res herr (list Z) * conn :=
  match body_loop (S (match q_str (c_q c) id with Some t => length (t_data t) | None => 0%nat end)) id room [] c with
  | (Ok got, c) =>
      let c := if stream_finished (c_q c) id then process_finished id c else c in
      (if is_nil got then Err HDone else Ok got, c)
  | o => o
  end.

(** finish_local_stream (h3/mod.rs:2968-2990): the application sent the fin *)
Definition finish_local (id : Z) (c : conn) : conn :=
  match c_str c id with
  | None => c
  | Some s => with_str c id (if stream_finished (c_q c) id then None else Some (set_lfin s)) (c_q c)
  end.
(** The stream send_request creates (h3/mod.rs:1169-1183) and the check before it *)
Definition may_request (c : conn) : res herr unit := if is_some (c_goaway c) then Err HFrameUnexpected else Ok tt.
Definition open_request (id : Z) (c : conn) : conn := with_str c id (Some (new_stream c id true)) (c_q c).
(** take_last_priority_update (h3/mod.rs:2065-2073) *)
Definition take_priority (id : Z) (c : conn) : res herr (list Z) * conn :=
  match c_str c id with
  | Some s => (match h_prio s with Some v => Ok v | None => Err HDone end, with_str c id (Some (set_prio s None)) (c_q c))
  | None => (Err HDone, c)
  end.

(** ** What the peer and the transport do *)
Definition t_new (open : bool) : tstr := mkT [] false false None open false false.
(** In-order data [bs] becomes readable; [fin] when this is all of the stream, [mark]
    when the fin arrived in an empty frame of its own *)
Definition deliver (id : Z) (bs : list Z) (fin mark : bool) (q : tr) : tr :=
  if q_gone q id then q
  else
    let t := match q_str q id with Some t => t | None => t_new true end in
    if t_fin t || is_some (t_rst t) then q
    else
      let t := if t_drain t then mkT [] fin false None (t_open t) true (t_sfin t)
               else mkT (t_data t ++ bs) fin (t_mark t || (fin && (mark || is_nil bs))) None (t_open t) false (t_sfin t) in
      mkQ (upd (q_str q) id (Some t)) (q_gone q) (q_err q) (q_down q) (q_server q) (q_dgram q) (q_bidi q).
(** The peer resets the stream (RecvBuf::reset, stream/recv_buf.rs:295-335); what was not
    read is dropped.  Simplification: only streams that carried something before *)
Definition peer_reset (id code : Z) (q : tr) : tr :=
  match q_str q id with
  | Some t => if is_some (t_rst t) then q else mkQ (upd (q_str q) id (Some (mkT [] true (negb (t_drain t)) (Some code) (t_open t) (t_drain t) (t_sfin t)))) (q_gone q) (q_err q) (q_down q) (q_server q) (q_dgram q) (q_bidi q)
  | None => q
  end.
(** Everything we sent on the stream was acknowledged *)
Definition sent_all (id : Z) (q : tr) : tr :=
  match q_str q id with
  | Some t =>
      let t := mkT (t_data t) (t_fin t) (t_mark t) (t_rst t) false (t_drain t) (t_sfin t) in
      if t_ready t then mkQ (upd (q_str q) id (Some t)) (q_gone q) (q_err q) (q_down q) (q_server q) (q_dgram q) (q_bidi q)
      else q_put q id t
  | None => q
  end.
(** The application's fin was accepted *)
Definition sent_fin (id : Z) (q : tr) : tr :=
  match q_str q id with
  | Some t => mkQ (upd (q_str q) id (Some (mkT (t_data t) (t_fin t) (t_mark t) (t_rst t) (t_open t) (t_drain t) true))) (q_gone q) (q_err q) (q_down q) (q_server q) (q_dgram q) (q_bidi q)
  | None => q
  end.
