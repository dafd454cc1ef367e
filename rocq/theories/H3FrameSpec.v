(** What HTTP/3 frames are (RFC 9114 section 7, RFC 9218 section 7, RFC 9297 section 2.1),
    stated on bytes and independently of the parser and the serializer. *)
Require Import Verif.Base Verif.OctetsSpec Verif.H3FrameModel.

(** A frame on the wire: type, length of the payload, payload *)
Definition h3_wire (bs : list Z) (ty : Z) (p : list Z) : Prop :=
  exists t n, qvarint t ty /\ qvarint n (zlen p) /\ bs = t ++ n ++ p.

(** The payload of SETTINGS: identifiers and values *)
Inductive setting_list : list Z -> list (Z * Z) -> Prop :=
| SL_nil : setting_list [] []
| SL_cons a id b v p l : qvarint a id -> qvarint b v -> setting_list p l -> setting_list (a ++ b ++ p) ((id, v) :: l).

(** The last value given for one of [ids] *)
Fixpoint last_value (ids : list Z) (l : list (Z * Z)) : option Z :=
  match l with
  | [] => None
  | (id, v) :: l =>
      match last_value ids l with
      | Some x => Some x
      | None => if existsb (Z.eqb id) ids then Some v else None
      end
  end.
(** Settings that HTTP/3 forbids: those of HTTP/2, and flags other than 0 and 1 *)
Definition forbidden (s : Z * Z) : bool :=
  existsb (Z.eqb (fst s)) [0; 2; 3; 4; 5] || (existsb (Z.eqb (fst s)) [8; 51; 630] && (1 <? snd s)).
Definition is_known (s : Z * Z) : bool := existsb (Z.eqb (fst s)) [1; 6; 7; 8; 51; 630].
Definition none_if_empty {A} (l : list A) : option (list A) := match l with [] => None | _ => Some l end.
(** What a SETTINGS frame with the settings [l] says *)
Definition says (l : list (Z * Z)) : settings :=
  mkSettings (last_value [6] l) (last_value [1] l) (last_value [7] l) (last_value [8] l) (last_value [630; 51] l)
    None (none_if_empty (filter (fun s => negb (is_known s)) l)) (Some l).

(** The payload [p] of a frame of type [ty] carries [f]; [exact] is whether nothing
    may follow a frame that is one integer *)
Definition known_type (ty : Z) : Prop := In ty [0; 1; 3; 4; 5; 7; 13; 984832; 984833].
Definition one_int (p : list Z) (v : Z) : Prop := qvarint p v.
Definition int_rest (p : list Z) (v : Z) (rest : list Z) : Prop := exists a, qvarint a v /\ p = a ++ rest.
Definition carries (ty : Z) (p : list Z) (f : hframe) : Prop :=
  match f with
  | HData d => ty = 0 /\ p = d
  | HHeaders d => ty = 1 /\ p = d
  | HCancelPush v => ty = 3 /\ one_int p v
  | HSettings s => ty = 4 /\ exists l, setting_list p l /\ existsb forbidden l = false /\ s = says l
  | HPushPromise v d => ty = 5 /\ int_rest p v d
  | HGoAway v => ty = 7 /\ one_int p v
  | HMaxPushId v => ty = 13 /\ one_int p v
  | HPriorityRequest v d => ty = 984832 /\ int_rest p v d
  | HPriorityPush v d => ty = 984833 /\ int_rest p v d
  | HUnknown t d => ty = t /\ ~ known_type t /\ p = d
  end.

(** Frames that can be written: integers below 2^62, bytes that are bytes, a payload
    whose length is below 2^62, and a type of its own for a frame of unknown type *)
Definition small (v : Z) : Prop := 0 <= v <= max_varint.
Definition osmall (o : option Z) : Prop := forall v, o = Some v -> small v.
Definition oflag (o : option Z) : Prop := forall v, o = Some v -> v = 0 \/ v = 1.
Definition extra_ok (s : Z * Z) : Prop := small (fst s) /\ small (snd s) /\ forbidden s = false /\ is_known s = false.
Definition extras (s : settings) : list (Z * Z) :=
  (match s_grease s with Some g => [g] | None => [] end) ++ (match s_more s with Some l => l | None => [] end).
Definition writable_frame (f : hframe) : Prop :=
  match f with
  | HData d | HHeaders d => bytes_ok d /\ small (zlen d)
  | HCancelPush v | HGoAway v | HMaxPushId v => small v
  | HSettings s =>
      osmall (s_max_field s) /\ osmall (s_capacity s) /\ osmall (s_blocked s) /\ oflag (s_connect s) /\ oflag (s_dgram s) /\
      Forall extra_ok (extras s) /\ zlen (extras s) < 2 ^ 50
  | HPushPromise v d | HPriorityRequest v d | HPriorityPush v d => small v /\ bytes_ok d /\ zlen d + 8 <= max_varint
  | HUnknown t d => small t /\ ~ known_type t /\ bytes_ok d /\ small (zlen d)
  end.

(** The frame a reader gets: the same one, except that for SETTINGS the reader also keeps
    the list as sent, with the greasing setting among the additional ones *)
Definition sent_settings (s : settings) : list (Z * Z) :=
  let o id x := match x with Some v => [(id, v)] | None => [] end in
  o 6 (s_max_field s) ++ o 1 (s_capacity s) ++ o 7 (s_blocked s) ++ o 8 (s_connect s) ++ o 630 (s_dgram s) ++ o 51 (s_dgram s) ++ extras s.
Definition as_read (f : hframe) : hframe :=
  match f with
  | HSettings s =>
      HSettings (mkSettings (s_max_field s) (s_capacity s) (s_blocked s) (s_connect s) (s_dgram s)
        None (none_if_empty (extras s)) (Some (sent_settings s)))
  | _ => f
  end.
