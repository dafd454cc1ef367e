(** What an application sends over HTTP/3, and what that looks like on the wire. *)
Require Import Verif.Base Verif.Errors Verif.OctetsModel Verif.OctetsSpec Verif.StreamsModel Verif.HuffmanModel Verif.QpackModel Verif.QpackSpec Verif.H3FrameModel Verif.H3FrameSpec Verif.H3ConnModel Verif.H3ConnSpec Verif.H3ConnSpec2 Verif.H3SendModel.

(** What a call put on a stream: a header section, trailers, bytes of the body *)
Inductive item : Type := IHeaders (l : list header) | ITrailers (l : list header) | IBody (bs : list Z).
Definition item_fields (i : item) : list header := match i with IHeaders l | ITrailers l => l | IBody _ => [] end.
(** A frame that carries an item *)
Definition shows (f : wframe) (i : item) : Prop :=
  match i with
  | IHeaders l | ITrailers l => w_ty f = 1 /\ section int64 (w_pay f) (map sent_as l) /\ zlen (w_pay f) <= list_size l
  | IBody bs => w_ty f = 0 /\ w_pay f = bs
  end.
(** A frame of a type reserved to be ignored (RFC 9114, section 7.2.8) *)
Definition ignorable (f : wframe) : Prop := 33 <= w_ty f /\ (w_ty f - 33) mod 31 = 0 /\ zlen (w_pay f) <= 18.
Inductive carried : list wframe -> list item -> Prop :=
| c_nil : carried [] []
| c_item f i fs is : shows f i -> carried fs is -> carried (f :: fs) (i :: is)
| c_grease f fs is : ignorable f -> carried fs is -> carried (f :: fs) is.
(** The order of items: a header section (a server may send several), the body, and then,
    once, trailers.  [st]: 0 nothing was sent, 1 a header section was, 2 trailers were *)
Fixpoint proper (server : bool) (st : Z) (l : list item) : bool :=
  match l with
  | [] => true
  | IHeaders _ :: l => ((st =? 0) || server && (st =? 1)) && proper server 1 l
  | IBody _ :: l => (st =? 1) && proper server 1 l
  | ITrailers _ :: l => (st =? 1) && proper server 2 l
  end.

(** What is sent on the control stream *)
Inductive citem : Type := CGoAway (id : Z) | CPriority (id : Z) (v : list Z).
Definition cshows (f : wframe) (i : citem) : Prop :=
  match i with
  | CGoAway id => w_ty f = 7 /\ qvarint (w_pay f) id
  | CPriority id v => w_ty f = 984832 /\ exists b, qvarint b id /\ w_pay f = b ++ v
  end.
Fixpoint falling (l : list Z) : Prop := match l with x :: ((y :: _) as l') => y <= x /\ falling l' | _ => True end.
Definition goaways (l : list citem) : list Z := flat_map (fun i => match i with CGoAway id => [id] | _ => [] end) l.

(** Histories.  The values for GREASE are chosen at random by the code. *)
Inductive sop : Type :=
| SRequest (hs : list header) (fin : bool) (g1 g2 : Z)
| SResponse (id : Z) (hs : list header) (fin : bool) (g1 g2 : Z)
| SAdditional (id : Z) (hs : list header) (trailer fin : bool) (g1 g2 : Z)
| SBody (id : Z) (bs : list Z) (fin : bool)
| SGoAway (id : Z)
| SPriority (id urgency : Z) (incremental : bool)
| ERoom (id n : Z) | EStop (id : Z) (e : error) | EGone (id : Z) | ERead (id : Z)
| EPeer (id cap : Z) | EDrop (id : Z) | ERefuse | EOpen (r : res error Z).
(** The connection; what the application put on each stream according to the results of
    its calls, and whether it put the end there; and what it put on the control stream *)
Record sent_st : Type := mkSent { v_conn : sconn; v_log : Z -> list item; v_end : Z -> bool; v_ctl : list citem }.
Definition ends (f : Z -> bool) (id : Z) (fin : bool) : Z -> bool := fun k => if k =? id then f k || fin else f k.
Definition ok_of {E A} (r : res E A) : bool := match r with Ok _ => true | _ => false end.
Definition s_step (u : sent_st) (o : sop) : sent_st :=
  let c := v_conn u in
  let env c := mkSent c (v_log u) (v_end u) (v_ctl u) in
  match o with
  | SRequest hs fin g1 g2 =>
      let '(r, c) := send_request hs fin g1 g2 c in
      mkSent c (match r with Ok id => add_to (v_log u) id [IHeaders hs] | _ => v_log u end) (match r with Ok id => ends (v_end u) id fin | _ => v_end u end) (v_ctl u)
  | SResponse id hs fin g1 g2 =>
      let '(r, c) := send_response id hs fin g1 g2 c in
      mkSent c (if ok_of r then add_to (v_log u) id [IHeaders hs] else v_log u) (if ok_of r then ends (v_end u) id fin else v_end u) (v_ctl u)
  | SAdditional id hs trailer fin g1 g2 =>
      let '(r, c) := send_additional id hs trailer fin g1 g2 c in
      mkSent c (if ok_of r then add_to (v_log u) id [if trailer then ITrailers hs else IHeaders hs] else v_log u) (if ok_of r then ends (v_end u) id fin else v_end u) (v_ctl u)
  | SBody id bs fin =>
      let '(r, c) := send_body id bs fin c in
      mkSent c (match r with Ok n => add_to (v_log u) id [IBody (take n bs)] | _ => v_log u end) (match r with Ok n => ends (v_end u) id (fin && (n =? zlen bs)) | _ => v_end u end) (v_ctl u)
  | SGoAway id =>
      let '(r, c) := send_goaway id c in
      mkSent c (v_log u) (v_end u) (if ok_of r then v_ctl u ++ [CGoAway (if s_server c then id else 0)] else v_ctl u)
  | SPriority id urgency incremental =>
      let '(r, c) := send_priority id urgency incremental c in
      mkSent c (v_log u) (v_end u) (if ok_of r then v_ctl u ++ [CPriority id (priority_value urgency incremental)] else v_ctl u)
  | ERoom id n => env (e_room id n c)
  | EStop id e => env (e_stop id e c)
  | EGone id => env (e_gone id c)
  | ERead id => env (e_read id c)
  | EPeer id cap => env (e_peer id cap c)
  | EDrop id => env (e_drop id c)
  | ERefuse => env (e_refuse c)
  | EOpen r => env (e_open r c)
  end.
Definition s_run (u : sent_st) (ops : list sop) : sent_st := fold_left s_step ops u.
(** A connection that has sent its SETTINGS *)
Definition s_init (server grease : bool) (st : settings) (cap : Z) : sent_st :=
  mkSent (snd (send_settings st (s_start server grease (Ok cap)))) (fun _ => []) (fun _ => false) [].

Definition fields_ok (hs : list header) : Prop := Forall field_ok hs /\ list_size hs < 2 ^ 50.
Definition grease_ok (g : Z) : Prop := exists n, 0 <= n < 148764065110560899 /\ g = 31 * n + 33.
(** Clients send requests and servers send responses; what is sent consists of bytes; ids
    fit in a variable-length integer *)
Definition sop_ok (server : bool) (o : sop) : Prop :=
  match o with
  | SRequest hs _ g1 g2 => server = false /\ fields_ok hs /\ grease_ok g1 /\ grease_ok g2
  | SResponse _ hs _ g1 g2 => server = true /\ fields_ok hs /\ grease_ok g1 /\ grease_ok g2
  | SAdditional _ hs _ _ g1 g2 => fields_ok hs /\ grease_ok g1 /\ grease_ok g2
  | SBody _ bs _ => bytes_ok bs /\ zlen bs < 2 ^ 62
  | SGoAway id => 0 <= id < 2 ^ 62
  | SPriority id urgency _ => 0 <= id < 2 ^ 62
  | EOpen r => match r with Ok cap => 0 <= cap | Err _ => True | Panic => False end
  | _ => True
  end.

(** What the application of the peer gets for an item: names in lower case *)
Definition item_toks (i : item) : list tok :=
  match i with IHeaders l | ITrailers l => [KHeaders (map sent_as l)] | IBody bs => map KByte bs end.
(** A header section that a peer with this limit accepts; without a limit the encoded
    section may take 48 KiB *)
Definition fits_in (mfss : option Z) (l : list header) : Prop := list_size l <= 16777215 /\ list_size l <= match mfss with Some m => m | None => 49152 end.
Definition item_fits (mfss : option Z) (i : item) : Prop := match i with IHeaders l | ITrailers l => fits_in mfss l | IBody _ => True end.
(** The call does not panic *)
Definition no_panic (o : sop) (c : sconn) : Prop :=
  match o with
  | SRequest hs fin g1 g2 => fst (send_request hs fin g1 g2 c) <> Panic
  | SResponse id hs fin g1 g2 => fst (send_response id hs fin g1 g2 c) <> Panic
  | SAdditional id hs tr fin g1 g2 => fst (send_additional id hs tr fin g1 g2 c) <> Panic
  | SBody id bs fin => fst (send_body id bs fin c) <> Panic
  | SGoAway id => fst (send_goaway id c) <> Panic
  | SPriority id u i => fst (send_priority id u i c) <> Panic
  | _ => True
  end.
(** The bytes written to a stream, and whether its end was *)
Definition written (u : sent_st) (k : Z) : list Z := match s_w (v_conn u) k with Some w => w_out w | None => [] end.
Definition end_written (u : sent_st) (k : Z) : bool := match s_w (v_conn u) k with Some w => w_fin w | None => false end.
(** The stream was ended, stopped by the peer or collected *)
Definition closed_to (u : sent_st) (k : Z) : Prop :=
  match s_w (v_conn u) k with Some w => w_fin w = true \/ w_stop w <> None \/ w_gone w = true | None => False end.
(** The settings were sent on a control stream with room for them *)
Definition started (server grease : bool) (st : settings) (cap : Z) : Prop :=
  writable_frame (HSettings st) /\ 129 <= cap /\ fst (send_settings st (s_start server grease (Ok cap))) = Ok tt.
