(** quiche/src/h3/frame.rs: HTTP/3 frames. *)
Require Import Verif.Base Verif.Errors Verif.OctetsModel Verif.HuffmanModel.

(** Error (h3/mod.rs:371-437) *)
Inductive herr : Type :=
| HDone | HBufferTooShort | HInternalError | HExcessiveLoad | HIdError | HStreamCreationError | HClosedCriticalStream
| HMissingSettings | HFrameUnexpected | HFrameError | HQpackFailed | HTransport (e : error) | HStreamBlocked | HSettingsError.

(** Error::to_wire (h3/mod.rs:493-517); only the errors above *)
Definition to_wire (e : herr) : Z :=
  match e with
  | HDone => 256 | HInternalError => 258 | HStreamCreationError => 259 | HClosedCriticalStream => 260
  | HFrameUnexpected => 261 | HFrameError => 262 | HExcessiveLoad => 263 | HIdError => 264 | HMissingSettings => 266
  | HQpackFailed => 512 | HBufferTooShort => 2457 | HTransport _ | HStreamBlocked => 255 | HSettingsError => 265
  end.

(** The types of frames and the settings (h3/frame.rs:32-50) *)
Definition T_DATA : Z := 0.
Definition T_HEADERS : Z := 1.
Definition T_CANCEL_PUSH : Z := 3.
Definition T_SETTINGS : Z := 4.
Definition T_PUSH_PROMISE : Z := 5.
Definition T_GOAWAY : Z := 7.
Definition T_MAX_PUSH : Z := 13.
Definition T_PRIO_REQUEST : Z := 984832.
Definition T_PRIO_PUSH : Z := 984833.
Definition S_QPACK_CAPACITY : Z := 1.
Definition S_MAX_FIELD_SECTION : Z := 6.
Definition S_QPACK_BLOCKED : Z := 7.
Definition S_CONNECT : Z := 8.
Definition S_DATAGRAM_OLD : Z := 630.
Definition S_DATAGRAM : Z := 51.
Definition MAX_SETTINGS_SIZE : Z := 256.

(** Frame::Settings (h3/frame.rs:69-78) *)
Record settings : Type := mkSettings {
  s_max_field : option Z; s_capacity : option Z; s_blocked : option Z; s_connect : option Z; s_dgram : option Z;
  s_grease : option (Z * Z); s_more : option (list (Z * Z)); s_raw : option (list (Z * Z)) }.
Definition no_settings : settings := mkSettings None None None None None None None None.

(** Frame (h3/frame.rs:56-106) *)
Inductive hframe : Type :=
| HData (payload : list Z)
| HHeaders (block : list Z)
| HCancelPush (push_id : Z)
| HSettings (s : settings)
| HPushPromise (push_id : Z) (block : list Z)
| HGoAway (id : Z)
| HMaxPushId (push_id : Z)
| HPriorityRequest (id : Z) (value : list Z)
| HPriorityPush (id : Z) (value : list Z)
| HUnknown (ty : Z) (payload : list Z).

(** ** Decoding; the cursor is the list of bytes after it *)
Definition hv (b : list Z) : res herr (Z * list Z) :=
  match rd_varint b with Some r => Ok r | None => Err HBufferTooShort end.
Definition hn (len : Z) (b : list Z) : res herr (list Z * list Z) :=
  match rd_bytes len b with Some r => Ok r | None => Err HBufferTooShort end.

(** One setting in the loop of parse_settings_frame (h3/frame.rs:585-634) *)
Definition one_setting (id v : Z) (s : settings) : res herr settings :=
  let raw := match s_raw s with Some r => r | None => [] end ++ [(id, v)] in
  let s := mkSettings (s_max_field s) (s_capacity s) (s_blocked s) (s_connect s) (s_dgram s) (s_grease s) (s_more s) (Some raw) in
  if id =? S_QPACK_CAPACITY then Ok (mkSettings (s_max_field s) (Some v) (s_blocked s) (s_connect s) (s_dgram s) (s_grease s) (s_more s) (s_raw s))
  else if id =? S_MAX_FIELD_SECTION then Ok (mkSettings (Some v) (s_capacity s) (s_blocked s) (s_connect s) (s_dgram s) (s_grease s) (s_more s) (s_raw s))
  else if id =? S_QPACK_BLOCKED then Ok (mkSettings (s_max_field s) (s_capacity s) (Some v) (s_connect s) (s_dgram s) (s_grease s) (s_more s) (s_raw s))
  else if id =? S_CONNECT then
    if 1 <? v then Err HSettingsError
    else Ok (mkSettings (s_max_field s) (s_capacity s) (s_blocked s) (Some v) (s_dgram s) (s_grease s) (s_more s) (s_raw s))
  else if (id =? S_DATAGRAM_OLD) || (id =? S_DATAGRAM) then
    if 1 <? v then Err HSettingsError
    else Ok (mkSettings (s_max_field s) (s_capacity s) (s_blocked s) (s_connect s) (Some v) (s_grease s) (s_more s) (s_raw s))
  else if (id =? 0) || (id =? 2) || (id =? 3) || (id =? 4) || (id =? 5) then Err HSettingsError
  else
    let more := match s_more s with Some r => r | None => [] end ++ [(id, v)] in
    Ok (mkSettings (s_max_field s) (s_capacity s) (s_blocked s) (s_connect s) (s_dgram s) (s_grease s) (Some more) (s_raw s)).
(** The loop: [left] is settings_length less the offset; each turn reads two bytes or
    more, so the number of bytes is fuel enough *)
Fixpoint settings_loop (fuel : nat) (left : Z) (b : list Z) (s : settings) : res herr settings :=
  if left <=? 0 then Ok s
  else
    match fuel with
    | O => Panic
    | S fuel =>
        let* '(id, b1) := hv b in
        let* '(v, b2) := hv b1 in
        let* s := one_setting id v s in
        settings_loop fuel (left - (zlen b - zlen b2)) b2 s
    end.
(** parse_settings_frame (h3/frame.rs:567-644) *)
Definition parse_settings (len : Z) (b : list Z) : res herr hframe :=
  if MAX_SETTINGS_SIZE <? len then Err HExcessiveLoad
  else
    let* s := settings_loop (S (length b)) len b (mkSettings None None None None None None None (Some [])) in
    Ok (HSettings s).

(** parse_push_promise and parse_priority_update (h3/frame.rs:646-683): the varint and
    the rest; the subtraction of u64 panics when it underflows *)
Definition parse_varint_rest (len : Z) (b : list Z) : res herr (Z * list Z) :=
  let* '(id, b1) := hv b in
  let used := zlen b - zlen b1 in
  if len <? used then Panic
  else let* '(rest, _) := hn (len - used) b1 in Ok (id, rest).

(** Frame::from_bytes (h3/frame.rs:109-157) *)
Definition h3_from_bytes (ty len : Z) (b : list Z) : res herr hframe :=
  if ty =? T_DATA then let* '(p, _) := hn len b in Ok (HData p)
  else if ty =? T_HEADERS then let* '(p, _) := hn len b in Ok (HHeaders p)
  else if ty =? T_CANCEL_PUSH then let* '(v, _) := hv b in Ok (HCancelPush v)
  else if ty =? T_SETTINGS then parse_settings len b
  else if ty =? T_PUSH_PROMISE then let* '(v, p) := parse_varint_rest len b in Ok (HPushPromise v p)
  else if ty =? T_GOAWAY then let* '(v, _) := hv b in Ok (HGoAway v)
  else if ty =? T_MAX_PUSH then let* '(v, _) := hv b in Ok (HMaxPushId v)
  else if ty =? T_PRIO_REQUEST then let* '(v, p) := parse_varint_rest len b in Ok (HPriorityRequest v p)
  else if ty =? T_PRIO_PUSH then let* '(v, p) := parse_varint_rest len b in Ok (HPriorityPush v p)
  else let* '(p, _) := hn len b in Ok (HUnknown ty p).

(** ** Encoding into a buffer; varint_len and put_varint panic above 2^62 - 1 *)
Definition h_put (bs : list Z) (w : wr) : res herr wr :=
  match put bs w with Ok w => Ok w | Err _ => Err HBufferTooShort | Panic => Panic end.
Definition h_varint (v : Z) (w : wr) : res herr wr :=
  if max_varint <? v then Panic else h_put (wr_varint_bytes v) w.
Definition h_len (v : Z) : res herr Z := match varint_len_opt v with Some n => Ok n | None => Panic end.

(** The settings in the order they are written (h3/frame.rs:229-269) *)
Definition opt1 (id : Z) (o : option Z) : list (Z * Z) := match o with Some v => [(id, v)] | None => [] end.
Definition settings_out (s : settings) : list (Z * Z) :=
  opt1 S_MAX_FIELD_SECTION (s_max_field s) ++ opt1 S_QPACK_CAPACITY (s_capacity s) ++ opt1 S_QPACK_BLOCKED (s_blocked s) ++
  opt1 S_CONNECT (s_connect s) ++ opt1 S_DATAGRAM_OLD (s_dgram s) ++ opt1 S_DATAGRAM (s_dgram s) ++
  (match s_grease s with Some g => [g] | None => [] end) ++ (match s_more s with Some l => l | None => [] end).
(** The computation of len (h3/frame.rs:190-226) and the writes *)
Fixpoint settings_len (l : list (Z * Z)) : res herr Z :=
  match l with
  | [] => Ok 0
  | (id, v) :: l => let* a := h_len id in let* b := h_len v in let* n := settings_len l in Ok (a + b + n)
  end.
Fixpoint put_settings (l : list (Z * Z)) (w : wr) : res herr wr :=
  match l with
  | [] => Ok w
  | (id, v) :: l => let* w := h_varint id w in let* w := h_varint v w in put_settings l w
  end.
(** A frame with one varint, with bytes, and with both *)
Definition put_v (ty v : Z) (w : wr) : res herr wr :=
  let* w := h_varint ty w in let* n := h_len v in let* w := h_varint n w in h_varint v w.
Definition put_b (ty : Z) (p : list Z) (w : wr) : res herr wr :=
  let* w := h_varint ty w in let* w := h_varint (zlen p) w in h_put p w.
Definition put_vb (ty v : Z) (p : list Z) (w : wr) : res herr wr :=
  let* n := h_len v in
  let* w := h_varint ty w in let* w := h_varint (n + zlen p) w in let* w := h_varint v w in h_put p w.
(** Frame::to_bytes (h3/frame.rs:159-340) *)
Definition h3_to_bytes (f : hframe) (w : wr) : res herr wr :=
  match f with
  | HData p => put_b T_DATA p w
  | HHeaders p => put_b T_HEADERS p w
  | HCancelPush v => put_v T_CANCEL_PUSH v w
  | HSettings s =>
      let* n := settings_len (settings_out s) in
      let* w := h_varint T_SETTINGS w in let* w := h_varint n w in put_settings (settings_out s) w
  | HPushPromise v p => put_vb T_PUSH_PROMISE v p w
  | HGoAway v => put_v T_GOAWAY v w
  | HMaxPushId v => put_v T_MAX_PUSH v w
  | HPriorityRequest v p => put_vb T_PRIO_REQUEST v p w
  | HPriorityPush v p => put_vb T_PRIO_PUSH v p w
  | HUnknown ty p => put_b ty p w
  end.
