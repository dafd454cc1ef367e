(** The sending side of quiche/src/h3/mod.rs. *)
Require Import Verif.Base Verif.Errors Verif.OctetsModel Verif.StreamsModel Verif.HuffmanModel Verif.QpackModel Verif.H3FrameModel Verif.H3ConnModel.

(** ** The transport

    What the sending side uses of a stream of the transport: how many bytes a write would
    take now, what was written and whether the end was, the error every write returns once
    the peer has stopped the stream, whether the stream was collected, and whether all of
    the receiving direction was read.  StreamsModel models this layer itself. *)
Record wst : Type := mkWst { w_cap : Z; w_out : list Z; w_fin : bool; w_stop : option error; w_gone : bool; w_read : bool }.
(** A stream as the HTTP/3 layer knows it: local_initialized, trailers_sent and
    local_finished (h3/stream.rs:155-180) *)
Record lst : Type := mkLst { l_init : bool; l_trail : bool; l_done : bool }.
(** Connection (h3/mod.rs:997-1032), the fields used for sending, and the streams of the
    transport; [s_open] is what the transport says when a stream is to be opened: the room
    in it, or an error *)
Record sconn : Type := mkSc {
  s_server : bool; s_grease : bool; s_greased : bool; s_str : Z -> option lst; s_next : Z; s_ctl : option Z;
  s_goaway : option Z; s_refuse : bool; s_w : Z -> option wst; s_open : res error Z }.
Definition set_w (c : sconn) (w : Z -> option wst) : sconn :=
  mkSc (s_server c) (s_grease c) (s_greased c) (s_str c) (s_next c) (s_ctl c) (s_goaway c) (s_refuse c) w (s_open c).
Definition set_str (c : sconn) (id : Z) (l : option lst) : sconn :=
  mkSc (s_server c) (s_grease c) (s_greased c) (upd (s_str c) id l) (s_next c) (s_ctl c) (s_goaway c) (s_refuse c) (s_w c) (s_open c).
Definition set_greased (c : sconn) : sconn :=
  mkSc (s_server c) (s_grease c) true (s_str c) (s_next c) (s_ctl c) (s_goaway c) (s_refuse c) (s_w c) (s_open c).
Definition set_next (c : sconn) (n : Z) : sconn :=
  mkSc (s_server c) (s_grease c) (s_greased c) (s_str c) n (s_ctl c) (s_goaway c) (s_refuse c) (s_w c) (s_open c).
Definition set_sent (c : sconn) (id : Z) : sconn :=
  mkSc (s_server c) (s_grease c) (s_greased c) (s_str c) (s_next c) (s_ctl c) (Some id) (s_refuse c) (s_w c) (s_open c).

(** stream_capacity (lib.rs:6330-6355) *)
Definition capacity (c : sconn) (id : Z) : res error Z :=
  match s_w c id with
  | None => Err (InvalidStreamState id)
  | Some w => if w_gone w then Err (InvalidStreamState id) else match w_stop w with Some e => Err e | None => Ok (w_cap w) end
  end.
(** stream_finished (lib.rs:6540-6548) *)
Definition all_in (c : sconn) (id : Z) : bool := match s_w c id with Some w => w_gone w || w_read w | None => true end.
(** stream_send (lib.rs:5954-6139) with SendBuf::write (stream/send_buf.rs:194-210): takes
    what there is room for, and the end only with everything before it; nothing can follow
    the end.  A stream that does not exist is opened; the peer cannot allow streams with
    ids of 2^62 or more (lib.rs:8652, 8678). *)
Definition write_to (id : Z) (w : wst) (bs : list Z) (fin : bool) : res error Z * wst :=
  if w_gone w then (Err Done, w)
  else
    match w_stop w with
    | Some e => (Err e, w)
    | None =>
        if w_fin w && negb (is_nil bs && fin) then (Err FinalSize, w)
        else
          let n := Z.min (w_cap w) (zlen bs) in
          if (n =? 0) && (0 <? zlen bs) then (Err Done, w)
          else (Ok n, mkWst (w_cap w - n) (w_out w ++ take n bs) (w_fin w || (fin && (n =? zlen bs))) None false (w_read w))
    end.
Definition stream_send (c : sconn) (id : Z) (bs : list Z) (fin : bool) : res error Z * sconn :=
  let w := match s_w c id with
           | Some w => Ok w
           | None => if 2 ^ 62 <=? id then Err StreamLimit else match s_open c with Ok cap => Ok (mkWst cap [] false None false false) | Err e => Err e | Panic => Panic end
           end in
  match w with
  | Ok w => let '(r, w) := write_to id w bs fin in (r, set_w c (upd (s_w c) id (Some w)))
  | Err e => (Err e, c)
  | Panic => (Panic, c)
  end.
(** Several writes in a row, each with the question mark operator *)
Fixpoint sends (id : Z) (l : list (list Z * bool)) (c : sconn) : res herr unit * sconn :=
  match l with
  | [] => (Ok tt, c)
  | (bs, fin) :: l =>
      match stream_send c id bs fin with
      | (Ok _, c) => sends id l c
      | (Err e, c) => (Err (from_transport e), c)
      | (Panic, c) => (Panic, c)
      end
  end.
(** What is done when stream_capacity or stream_writable fail: the stream is forgotten if
    everything was read *)
Definition give_up (id : Z) (e : error) (c : sconn) : herr * sconn :=
  (from_transport e, if all_in c id then set_str c id None else c).

(** The type and the length of a frame, in a buffer of ten bytes *)
Definition frame_head (ty len : Z) : res herr (list Z) :=
  let* w := h_varint ty (mkWr 10 []) in let* w := h_varint len w in Ok (wr_out w).

(** send_grease_frames (h3/mod.rs:2355-2433); [g1] and [g2] are the values of grease_value
    (h3/mod.rs:3363-3366) *)
Definition grease_payload : list Z := [71; 82; 69; 65; 83; 69; 32; 105; 115; 32; 116; 104; 101; 32; 119; 111; 114; 100].
Definition send_grease (id g1 g2 : Z) (c : sconn) : res herr unit * sconn :=
  match capacity c id with
  | Err e => let '(e, c) := give_up id e c in (Err e, c)
  | Panic => (Panic, c)
  | Ok cap =>
      match H3FrameModel.h_len g1, H3FrameModel.h_len g2 with
      | Ok n1, Ok n2 =>
          if cap <? n1 + 1 + n2 + 1 + zlen grease_payload then (Ok tt, c)
          else sends id [(wr_varint_bytes g1, false); (wr_varint_bytes 0, false); (wr_varint_bytes g2, false); (wr_varint_bytes 18, false); (grease_payload, false)] c
      | _, _ => (Panic, c)
      end
  end.
(** finish_local_stream (h3/mod.rs:2968-2990) and initialize_local (h3/stream.rs:707-709) *)
Definition finish (id : Z) (init : bool) (c : sconn) : sconn :=
  match s_str c id with
  | None => c
  | Some l => set_str c id (if all_in c id then None else Some (mkLst (init || l_init l) (l_trail l) true))
  end.
Definition initialize (id : Z) (c : sconn) : sconn :=
  match s_str c id with Some l => set_str c id (Some (mkLst true (l_trail l) (l_done l))) | None => c end.
(** send_headers (h3/mod.rs:1481-1560); stream_writable (lib.rs:6489-6529) compares the
    capacity *)
Definition send_block (id : Z) (hs : list header) (fin : bool) (c : sconn) : res herr unit * sconn :=
  match encode_header_block hs with
  | Err _ => (Err HInternalError, c)
  | Panic => (Panic, c)
  | Ok block =>
      match H3FrameModel.h_len T_HEADERS, H3FrameModel.h_len (zlen block) with
      | Ok n1, Ok n2 =>
          match capacity c id with
          | Err e => let '(e, c) := give_up id e c in (Err e, c)
          | Panic => (Panic, c)
          | Ok cap =>
              if cap <? n1 + n2 + zlen block then (Err HStreamBlocked, c)
              else
                match frame_head T_HEADERS (zlen block) with
                | Ok head =>
                    match sends id [(head, false); (block, fin)] c with
                    | (Ok _, c) => (Ok tt, if fin then finish id true c else initialize id c)
                    | o => o
                    end
                | Err e => (Err e, c)
                | Panic => (Panic, c)
                end
          end
      | _, _ => (Panic, c)
      end
  end.
Definition send_headers (id : Z) (hs : list header) (fin : bool) (g1 g2 : Z) (c : sconn) : res herr unit * sconn :=
  if negb (s_greased c) && s_grease c then
    match send_grease id g1 g2 c with
    | (Ok _, c) => send_block id hs fin (set_greased c)
    | o => o
    end
  else send_block id hs fin c.
(** send_request (h3/mod.rs:1160-1215) *)
Definition send_request (hs : list header) (fin : bool) (g1 g2 : Z) (c : sconn) : res herr Z * sconn :=
  if s_refuse c then (Err HFrameUnexpected, c)
  else
    let id := s_next c in
    let c := set_str c id (Some (mkLst false false false)) in
    match stream_send c id [] false with
    | (Err Done, c) => (Err HStreamBlocked, set_str c id None)
    | (Err e, c) => (Err (from_transport e), set_str c id None)
    | (Panic, c) => (Panic, c)
    | (Ok _, c) =>
        match send_headers id hs fin g1 g2 c with
        | (Err HStreamBlocked, c) => (Err HStreamBlocked, set_str c id None)
        | (Err e, c) => (Err e, c)
        | (Panic, c) => (Panic, c)
        | (Ok _, c) => if u64_max <? s_next c + 4 then (Err HIdError, c) else (Ok id, set_next c (s_next c + 4))
        end
    end.
(** send_response (h3/mod.rs:1257-1272) and send_response_with_priority
    (h3/mod.rs:1313-1341); the priority is not modelled *)
Definition send_response (id : Z) (hs : list header) (fin : bool) (g1 g2 : Z) (c : sconn) : res herr unit * sconn :=
  match s_str c id with
  | None => (Err HFrameUnexpected, c)
  | Some l => if l_init l then (Err HFrameUnexpected, c) else send_headers id hs fin g1 g2 c
  end.
(** send_additional_headers (h3/mod.rs:1369-1406) *)
Definition mark_trailers (id : Z) (c : sconn) : sconn :=
  match s_str c id with Some l => set_str c id (Some (mkLst (l_init l) true (l_done l))) | None => c end.
Definition send_additional (id : Z) (hs : list header) (trailer fin : bool) (g1 g2 : Z) (c : sconn) : res herr unit * sconn :=
  if negb (s_server c) && negb trailer then (Err HFrameUnexpected, c)
  else
    match s_str c id with
    | None => (Err HFrameUnexpected, c)
    | Some l =>
        if negb (l_init l) || l_trail l then (Err HFrameUnexpected, c)
        else
          match send_headers id hs fin g1 g2 c with
          | (Ok _, c) => (Ok tt, if trailer then mark_trailers id c else c)
          | o => o
          end
    end.
(** send_body (h3/mod.rs:1578-1600) with do_send_body (h3/mod.rs:1674-1806) *)
Definition send_body (id : Z) (body : list Z) (fin : bool) (c : sconn) : res herr Z * sconn :=
  let len := zlen body in
  if negb (id mod 4 =? 0) then (Err HFrameUnexpected, c)
  else
    match s_str c id with
    | None => (Err HFrameUnexpected, c)
    | Some l =>
        if negb (l_init l) || l_trail l then (Err HFrameUnexpected, c)
        else if (len =? 0) && negb fin then (Err HDone, c)
        else
          match H3FrameModel.h_len T_DATA, H3FrameModel.h_len len with
          | Ok n1, Ok n2 =>
              match capacity c id with
              | Err e => let '(e, c) := give_up id e c in (Err e, c)
              | Panic => (Panic, c)
              | Ok cap =>
                  if cap <? n1 + n2 then (Err HDone, c)
                  else
                    let n := Z.min len (cap - (n1 + n2)) in
                    let fin := if n =? len then fin else false in
                    if (n =? 0) && negb fin then (Err HDone, c)
                    else
                      match frame_head T_DATA n with
                      | Ok head =>
                          match sends id [(head, false)] c with
                          | (Ok _, c) =>
                              match stream_send c id (take n body) fin with
                              | (Ok m, c) =>
                                  if negb (m =? n) then (Err HInternalError, c)
                                  else (Ok m, if fin && (m =? len) then finish id false c else c)
                              | (Err e, c) => (Err (from_transport e), c)
                              | (Panic, c) => (Panic, c)
                              end
                          | (Err e, c) => (Err e, c)
                          | (Panic, c) => (Panic, c)
                          end
                      | Err e => (Err e, c)
                      | Panic => (Panic, c)
                      end
              end
          | _, _ => (Panic, c)
          end
    end.

(** send_goaway (h3/mod.rs:2209-2262) *)
Definition send_goaway (id : Z) (c : sconn) : res herr unit * sconn :=
  let id := if s_server c then id else 0 in
  if s_server c && negb (id mod 4 =? 0) then (Err HIdError, c)
  else if match s_goaway c with Some sent => sent <? id | None => false end then (Err HIdError, c)
  else
    match s_ctl c with
    | None => (Ok tt, c)
    | Some ctl =>
        match h3_to_bytes (HGoAway id) (mkWr 10 []) with
        | Err e => (Err e, c)
        | Panic => (Panic, c)
        | Ok w =>
            match capacity c ctl with
            | Err e => (Err (from_transport e), c)
            | Panic => (Panic, c)
            | Ok cap =>
                if cap <? zlen (wr_out w) then (Err HStreamBlocked, c)
                else
                  match sends ctl [(wr_out w, false)] c with
                  | (Ok _, c) => (Ok tt, set_sent c id)
                  | o => o
                  end
            end
        end
    end.
(** send_priority_update_for_request (h3/mod.rs:1962-2044) *)
Definition priority_value (urgency : Z) (incremental : bool) : list Z :=
  [117; 61; 48 + Z.max 0 (Z.min 7 urgency)] ++ (if incremental then [44; 105] else []).
Definition send_priority (id urgency : Z) (incremental : bool) (c : sconn) : res herr unit * sconn :=
  if s_server c then (Err HFrameUnexpected, c)
  else if negb (id mod 4 =? 0) then (Err HFrameUnexpected, c)
  else
    match s_ctl c with
    | None => (Err HFrameUnexpected, c)
    | Some ctl =>
        let v := priority_value urgency incremental in
        match H3FrameModel.h_len T_PRIO_REQUEST, H3FrameModel.h_len id with
        | Ok n1, Ok n2 =>
            match H3FrameModel.h_len (n2 + zlen v) with
            | Ok n3 =>
                match capacity c ctl with
                | Err e => (Err (from_transport e), c)
                | Panic => (Panic, c)
                | Ok cap =>
                    if cap <? n1 + n2 + n3 + zlen v then (Err HStreamBlocked, c)
                    else
                      match (let* w := h_varint T_PRIO_REQUEST (mkWr 20 []) in let* w := h_varint (n2 + zlen v) w in let* w := h_varint id w in Ok (wr_out w)) with
                      | Ok head => sends ctl [(head, false); (v, false)] c
                      | Err e => (Err e, c)
                      | Panic => (Panic, c)
                      end
                end
            | _ => (Panic, c)
            end
        | _, _ => (Panic, c)
        end
    end.
(** with_transport (h3/mod.rs:1106-1140) with send_settings (h3/mod.rs:2488-2562) and
    open_uni_stream (h3/mod.rs:2273-2306): the control stream is the first unidirectional
    stream; [cap] is the room in it.  The QPACK streams and the stream for GREASE are not
    modelled: they carry no frames. *)
Definition s_start (server grease : bool) (opens : res error Z) : sconn :=
  mkSc server grease false (fun _ => None) 0 None None false (fun _ => None) opens.
Definition send_settings (st : settings) (c : sconn) : res herr unit * sconn :=
  let ctl := if s_server c then 3 else 2 in
  match sends ctl [(wr_varint_bytes 0, false)] c with
  | (Ok _, c) =>
      let c := mkSc (s_server c) (s_grease c) (s_greased c) (s_str c) (s_next c) (Some ctl) (s_goaway c) (s_refuse c) (s_w c) (s_open c) in
      match h3_to_bytes (HSettings st) (mkWr 128 []) with
      | Ok w => sends ctl [(wr_out w, false)] c
      | Err e => (Err e, c)
      | Panic => (Panic, c)
      end
  | (Err HDone, c) => (Err HInternalError, c)
  | o => o
  end.

(** What else happens: the room in a stream changes; the peer stops it; it is collected;
    everything was read from it; the peer opens a request stream and the HTTP/3 layer
    sees it; the HTTP/3 layer forgets a stream whose local side is finished
    (remove_local_finished_stream, h3/mod.rs:2992-2998); the peer sends GOAWAY; the answer
    to opening a stream changes *)
Definition change (c : sconn) (id : Z) (f : wst -> wst) : sconn := match s_w c id with Some w => set_w c (upd (s_w c) id (Some (f w))) | None => c end.
Definition e_room (id n : Z) (c : sconn) : sconn := change c id (fun w => mkWst (Z.max 0 n) (w_out w) (w_fin w) (w_stop w) (w_gone w) (w_read w)).
Definition e_stop (id : Z) (e : error) (c : sconn) : sconn := change c id (fun w => mkWst (w_cap w) (w_out w) (w_fin w) (Some e) (w_gone w) (w_read w)).
Definition e_gone (id : Z) (c : sconn) : sconn := change c id (fun w => mkWst (w_cap w) (w_out w) (w_fin w) (w_stop w) true (w_read w)).
Definition e_read (id : Z) (c : sconn) : sconn := change c id (fun w => mkWst (w_cap w) (w_out w) (w_fin w) (w_stop w) (w_gone w) true).
Definition e_peer (id cap : Z) (c : sconn) : sconn :=
  if is_bidi id && negb (is_local id (s_server c)) then
    let c := match s_w c id with Some _ => c | None => set_w c (upd (s_w c) id (Some (mkWst (Z.max 0 cap) [] false None false false))) end in
    match s_str c id with Some _ => c | None => set_str c id (Some (mkLst false false false)) end
  else c.
Definition e_drop (id : Z) (c : sconn) : sconn :=
  match s_str c id with Some l => if l_done l then set_str c id None else c | None => c end.
Definition e_refuse (c : sconn) : sconn :=
  mkSc (s_server c) (s_grease c) (s_greased c) (s_str c) (s_next c) (s_ctl c) (s_goaway c) true (s_w c) (s_open c).
Definition e_open (r : res error Z) (c : sconn) : sconn :=
  mkSc (s_server c) (s_grease c) (s_greased c) (s_str c) (s_next c) (s_ctl c) (s_goaway c) (s_refuse c) (s_w c) r.
