(** What a request stream says: a reference parser on the whole byte string, with the
    rules of RFC 9114 sections 4.1, 7.1 and 7.2 as this implementation has them, and the
    runs of an HTTP/3 connection it is compared with. *)
Require Import Verif.Base Verif.Errors Verif.OctetsModel Verif.StreamsModel Verif.QpackModel Verif.H3FrameModel Verif.H3ConnModel.

(** ** The reference parser *)
(** What the application gets from a stream: header sections, bytes of the body, and the
    error the connection is closed with *)
Inductive tok : Type := KHeaders (l : list header) | KByte (b : Z) | KFail (e : herr).

(** How far the message is: the first HEADERS was announced, a DATA frame was, the
    trailers were; and the number of header sections read *)
Record phase : Type := mkPhase { p_start : bool; p_body : bool; p_trail : bool; p_count : Z }.
Definition phase_new : phase := mkPhase false false false 0.
(** The configuration: are we the server, did we open the stream, the limit on header
    sections (if any) and the stream *)
Record rcfg : Type := mkRcfg { r_server : bool; r_local : bool; r_mfss : option Z; r_id : Z }.

(** Is a frame of this type allowed here?  HEADERS first; after DATA one more HEADERS, the
    trailers; nothing after them.  Frames for the control stream are never allowed, and
    frames of unknown types always.  On a stream we opened ourselves the order is not
    checked. *)
Definition control_type (ty : Z) : bool := existsb (Z.eqb ty) [3; 4; 7; 13; 984832; 984833].
Definition next_phase (g : rcfg) (p : phase) (ty : Z) : option phase :=
  if control_type ty then None
  else if r_local g then Some p
  else if ty =? 1 then
    if negb (p_start p) then Some (mkPhase true (p_body p) (p_trail p) (p_count p))
    else if p_trail p then None
    else if p_body p then Some (mkPhase true true true (p_count p))
    else Some p
  else if ty =? 0 then
    if negb (p_start p) || p_trail p then None else Some (mkPhase true true (p_trail p) (p_count p))
  else Some p.
(** The limit on the encoded size of a header section *)
Definition max_block (g : rcfg) : Z := let m := match r_mfss g with Some n => n | None => 32768 end in Z.min u64_max (m + m / 2).
(** Is the announced length acceptable? *)
Definition length_error (g : rcfg) (ty len : Z) : option herr :=
  if ty =? 0 then None
  else if ty =? 5 then
    if len =? 0 then Some HFrameError else if Z.min (Z.min u64_max (max_block g + 8)) 16777215 <? len then Some HExcessiveLoad else None
  else if ty =? 1 then if Z.min (max_block g) 16777215 <? len then Some HExcessiveLoad else None
  else if 16777215 <? len then Some HExcessiveLoad else None.
(** A header section: at most two on a server *)
Definition read_section (g : rcfg) (p : phase) (block : list Z) : list header + herr :=
  if r_server g && (p_count p =? 2) then inr HFrameUnexpected
  else
    match qpack_decode block (match r_mfss g with Some n => n | None => u64_max end) with
    | Ok l => inl l
    | Err QTooLarge => inr HExcessiveLoad
    | _ => inr HQpackFailed
    end.
Definition counted (p : phase) : phase := mkPhase (p_start p) (p_body p) (p_trail p) (Z.min u64_max (p_count p + 1)).
(** A push promise: refused by servers, ignored by clients *)
Definition read_promise (g : rcfg) (block : list Z) : option herr :=
  match h3_from_bytes 5 (zlen block) block with
  | Ok _ => if r_server g || negb (r_id g mod 4 =? 0) then Some HFrameUnexpected else None
  | Err e => Some e
  | Panic => None
  end.

Section Parser.
Context (g : rcfg) (next : phase -> list Z -> list tok).
Definition on_skip (p : phase) (len : Z) (b : list Z) : list tok :=
  if zlen b <? len then [] else next p (drop len b).
Definition on_data (p : phase) (len : Z) (b : list Z) : list tok :=
  map KByte (take len b) ++ on_skip p len b.
Definition on_payload (p : phase) (ty len : Z) (b : list Z) : list tok :=
  if zlen b <? len then []
  else if ty =? 1 then
    match read_section g p (take len b) with
    | inl l => KHeaders l :: next (counted p) (drop len b)
    | inr e => [KFail e]
    end
  else
    match read_promise g (take len b) with
    | Some e => [KFail e]
    | None => next p (drop len b)
    end.
Definition on_len (p : phase) (ty : Z) (b : list Z) : list tok :=
  match rd_varint b with
  | None => []
  | Some (len, b) =>
      match length_error g ty len with
      | Some e => [KFail e]
      | None =>
          if ty =? 0 then on_data p len b
          else if (ty =? 1) || (ty =? 5) then on_payload p ty len b
          else on_skip p len b
      end
  end.
Definition on_type (p : phase) (b : list Z) : list tok :=
  match rd_varint b with
  | None => []
  | Some (ty, b) =>
      match next_phase g p ty with
      | None => [KFail HFrameUnexpected]
      | Some p => on_len p ty b
      end
  end.
End Parser.
(** Every frame takes two bytes or more, so the number of bytes is fuel enough *)
Fixpoint parse_frames (fuel : nat) (g : rcfg) (p : phase) (b : list Z) : list tok :=
  match fuel with
  | O => []
  | S fuel => on_type g (parse_frames fuel g) p b
  end.
(** All that the bytes [b] of a request stream say *)
Definition says_all (g : rcfg) (b : list Z) : list tok := parse_frames (S (length b)) g phase_new b.

(** ** Runs *)
(** What can happen: data arrives in order on a stream, in pieces of any size; the peer
    resets a stream; what we sent was acknowledged; the application polls, reads a body
    into a buffer of any size, ends its own side of a stream, opens a request, takes a
    priority update.  [ids] is the order in which the transport lists readable streams. *)
Inductive hop : Type :=
| ODeliver (id : Z) (bs : list Z) (fin mark : bool)
| OReset (id code : Z)
| OAcked (id : Z)
| OPoll (ids : list Z)
| OBody (id room : Z)
| OFin (id : Z)
| ORequest (id : Z)
| OTake (id : Z).
(** The connection; for each stream what the application got from it, what arrived on it
    and whether it was reset; and whether a call returned an error *)
Record run_st : Type := mkRun { u_conn : conn; u_got : Z -> list tok; u_all : Z -> list Z; u_reset : Z -> bool; u_bad : bool }.
Definition add_to {A} (f : Z -> list A) (id : Z) (l : list A) : Z -> list A := fun k => if k =? id then f k ++ l else f k.
(** A stream takes more data until it is finished; streams we open exist before the peer
    sends anything on them *)
Definition accepts (id : Z) (c : conn) : bool :=
  negb (q_gone (c_q c) id) &&
  match q_str (c_q c) id with
  | Some t => negb (t_fin t || is_some (t_rst t) || t_drain t)
  | None => negb (is_local id (c_server c))
  end.
(** The transport knows the stream *)
Definition exists_in (q : tr) (id : Z) : bool := is_some (q_str q id) || q_gone q id.
Definition got_event (f : Z -> list tok) (r : res herr (Z * hevent)) : Z -> list tok :=
  match r with Ok (id, EvHeaders l _) => add_to f id [KHeaders l] | _ => f end.
Definition got_body (f : Z -> list tok) (id : Z) (r : res herr (list Z)) : Z -> list tok :=
  match r with Ok bs => add_to f id (map KByte bs) | _ => f end.
Definition is_bad {A} (r : res herr A) : bool := match r with Ok _ | Err HDone => false | _ => true end.
Definition with_new (q : tr) (id : Z) : tr :=
  mkQ (upd (q_str q) id (Some (t_new true))) (q_gone q) (q_err q) (q_down q) (q_server q) (q_dgram q) (q_bidi q).
Definition h_step (u : run_st) (o : hop) : run_st :=
  let c := u_conn u in
  let moved c := mkRun c (u_got u) (u_all u) (u_reset u) (u_bad u) in
  match o with
  | ODeliver id bs fin mark =>
      if accepts id c then mkRun (with_q c (deliver id bs fin mark (c_q c))) (u_got u) (add_to (u_all u) id bs) (u_reset u) (u_bad u) else u
  | OReset id code => mkRun (with_q c (peer_reset id code (c_q c))) (u_got u) (u_all u) (fun k => (k =? id) || u_reset u k) (u_bad u)
  | OAcked id => moved (with_q c (sent_all id (c_q c)))
  | OPoll ids => let '(r, c) := poll ids c in mkRun c (got_event (u_got u) r) (u_all u) (u_reset u) (u_bad u || is_bad r)
  | OBody id room =>
      if exists_in (c_q c) id
      then let '(r, c) := recv_body id room c in mkRun c (got_body (u_got u) id r) (u_all u) (u_reset u) (u_bad u || is_bad r)
      else u
  | OFin id => if is_some (q_str (c_q c) id) then moved (finish_local id (with_q c (sent_fin id (c_q c)))) else u
  | ORequest id =>
      match may_request c with
      | Ok _ =>
          if is_bidi id && is_local id false && negb (c_server c) && negb (is_some (c_str c id)) && negb (exists_in (c_q c) id)
          then moved (open_request id (with_q c (with_new (c_q c) id)))
          else u
      | _ => u
      end
  | OTake id => moved (snd (take_priority id c))
  end.
Definition q_init (server dgram : bool) (bidi : Z) : tr := mkQ (fun _ => None) (fun _ => false) None false server dgram bidi.
Definition h_init (server : bool) (mfss : option Z) (maxp : Z) (dgram : bool) (bidi : Z) : run_st :=
  mkRun (h3_new server mfss maxp (q_init server dgram bidi)) (fun _ => []) (fun _ => []) (fun _ => false) false.
Definition h_run (u : run_st) (ops : list hop) : run_st := fold_left h_step ops u.
Definition hop_ok (o : hop) : Prop := match o with ODeliver _ bs _ _ => bytes_ok bs | _ => True end.
Definition cfg_of (server : bool) (mfss : option Z) (k : Z) : rcfg := mkRcfg server (is_local k server) mfss k.
