(** RFC 9000 section 18: the wire format of the transport parameters, and which
    values an endpoint may accept.  Stated without the code. *)
Require Import Verif.Base Verif.OctetsSpec Verif.FrameSpec Verif.TpModel.

(** The extension is a sequence of (id, length, value). *)
Inductive params_wire : list Z -> list (Z * list Z) -> Prop :=
| PwNil : params_wire [] []
| PwCons li id lv val b l :
    qvarint li id -> with_len lv val -> params_wire b l -> params_wire (li ++ lv ++ b) ((id, val) :: l).

(** The value of parameter [i], if it is there. *)
Fixpoint look (i : Z) (l : list (Z * list Z)) : option (list Z) :=
  match l with
  | [] => None
  | (j, v) :: l => if i =? j then Some v else look i l
  end.

(** [val] starts with the varint [x].  (The RFC wants the value to be just that
    varint; the code accepts trailing bytes, see C30_trailing_bytes_refuted.) *)
Definition val_is (val : list Z) (x : Z) : Prop := exists e r, val = e ++ r /\ qvarint e x.

(** What an endpoint may accept (section 18.2): [is_server] is the receiver. *)
Definition only_from_server (id : Z) : Prop := In id [0x00; 0x02; 0x0d; 0x10].

Definition in_range (id x : Z) : Prop :=
  (id = 0x03 -> 1200 <= x) /\
  (id = 0x08 \/ id = 0x09 -> x <= 2 ^ 60) /\
  (id = 0x0a -> x <= 20) /\
  (id = 0x0b -> x < 2 ^ 14) /\
  (id = 0x0e -> 2 <= x).

Definition is_int_param (id : Z) : Prop :=
  In id [0x01; 0x03; 0x04; 0x05; 0x06; 0x07; 0x08; 0x09; 0x0a; 0x0b; 0x0e; 0x20].

Definition param_ok (is_server : bool) (p : Z * list Z) : Prop :=
  let '(id, val) := p in
  (only_from_server id -> is_server = false) /\
  (is_int_param id -> exists x, val_is val x /\ in_range id x) /\
  (id = 0x02 -> 16 <= zlen val).

(** What the parameters say: an absent one has its default value. *)
Definition int_field (l : list (Z * list Z)) (id d x : Z) : Prop :=
  match look id l with None => x = d | Some val => val_is val x end.

(** The unknown parameters that fit: each needs its length and eight bytes, and
    one byte of the budget is never used. *)
Fixpoint keep (cap : Z) (l : list (Z * list Z)) : Z * list (Z * list Z) :=
  match l with
  | [] => (cap, [])
  | (id, v) :: l =>
      if zlen v + 8 <? cap
      then let '(c, k) := keep (cap - (zlen v + 8)) l in (c, (id, v) :: k)
      else keep cap l
  end.

Definition knownb (id : Z) : bool :=
  existsb (Z.eqb id) [0x00; 0x01; 0x02; 0x03; 0x04; 0x05; 0x06; 0x07; 0x08; 0x09; 0x0a; 0x0b; 0x0c; 0x0d; 0x0e; 0x0f; 0x10; 0x20].

Definition says (l : list (Z * list Z)) (track : option Z) (t : tparams) : Prop :=
  tp_odcid t = look 0x00 l /\
  int_field l 0x01 0 (tp_idle t) /\
  match look 0x02 l with None => tp_token t = None | Some val => tp_token t = Some (be_value (take 16 val)) end /\
  int_field l 0x03 65527 (tp_udp t) /\
  int_field l 0x04 0 (tp_data t) /\
  int_field l 0x05 0 (tp_bidi_local t) /\
  int_field l 0x06 0 (tp_bidi_remote t) /\
  int_field l 0x07 0 (tp_uni t) /\
  int_field l 0x08 0 (tp_streams_bidi t) /\
  int_field l 0x09 0 (tp_streams_uni t) /\
  int_field l 0x0a 3 (tp_ade t) /\
  int_field l 0x0b 25 (tp_mad t) /\
  tp_dam t = (match look 0x0c l with None => false | Some _ => true end) /\
  int_field l 0x0e 2 (tp_acil t) /\
  tp_iscid t = look 0x0f l /\
  tp_rscid t = look 0x10 l /\
  match look 0x20 l with None => tp_dgram t = None | Some val => exists x, tp_dgram t = Some x /\ val_is val x end /\
  tp_unknown t = (match track with None => None | Some cap => Some (keep cap (filter (fun p => negb (knownb (fst p))) l)) end).

(** Values the peer accepts, and that the encoder can express. *)
Definition ub (x : Z) : Prop := 0 <= x <= 2 ^ 62 - 1.
Definition tp_sane (t : tparams) : Prop :=
  ub (tp_idle t) /\ ub (tp_data t) /\ ub (tp_bidi_local t) /\ ub (tp_bidi_remote t) /\ ub (tp_uni t) /\
  1200 <= tp_udp t <= 2 ^ 62 - 1 /\
  0 <= tp_streams_bidi t <= 2 ^ 60 /\ 0 <= tp_streams_uni t <= 2 ^ 60 /\
  1 <= tp_ade t <= 20 /\ 1 <= tp_mad t < 2 ^ 14 /\ 2 <= tp_acil t <= 2 ^ 62 - 1 /\
  (forall v, tp_dgram t = Some v -> ub v) /\
  (forall d, tp_odcid t = Some d \/ tp_iscid t = Some d \/ tp_rscid t = Some d -> bytes_ok d /\ zlen d <= 20) /\
  (forall k, tp_token t = Some k -> 0 <= k < 2 ^ 128).

(** What the peer of an encoder with role [is_server] sees. *)
Definition tp_seen (is_server : bool) (track : option Z) (t : tparams) : tparams :=
  let t := set_unknown (match track with None => None | Some n => Some (n, []) end) t in
  if is_server then t else set_odcid None (set_token None (set_rscid None t)).
