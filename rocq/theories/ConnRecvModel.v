(** Connection-level receive flow control: the STREAM and RESET_STREAM arms of
    process_frame, reads, read shutdown and MAX_DATA / MAX_STREAM_DATA
    generation in quiche/src/lib.rs, over any number of streams.
    Not modelled here: stream count limits (StreamMapModel), the direction
    checks at lib.rs:8369-8374 and 8543-8547. *)
Require Import Verif.Base Verif.Errors Verif.Assoc Verif.FlowControlModel Verif.RangeBufModel
  Verif.RecvBufModel.

(** The fields of Connection involved (lib.rs:1393-1399): a stream entry is its
    receive buffer and whether it was collected (stream/mod.rs collect). *)
Record connrecv : Type := mkCR {
  cr_streams : list (Z * (recvbuf * bool));
  cr_rx : Z;
  cr_fc : flowctl;
  cr_pending : bool }.

(** lib.rs:2003, 2046, 2102-2108 *)
Definition cr_new (max_data max_window : Z) : connrecv :=
  mkCR [] 0 (fc_new max_data max_data max_window) false.

Inductive cr_op : Type :=
| CrFrame (sid off : Z) (data : list Z) (fin : bool)
| CrReset (sid code final : Z)
| CrRead (sid cap : Z)
| CrShutdown (sid : Z)
| CrStreamLimit (sid now rtt : Z) (fits : bool)
| CrLimit (now rtt : Z) (fits : bool)
| CrLost
| CrCollect (sid : Z).

Inductive cr_out : Type :=
| CoStream (o : rv_out)
| CoIgnored
| CoErr (e : error)
| CoLimit (l : option Z)
| CoNone.

Section Params.
(** (initial limit, initial window, maximum window) of a new stream
    (stream/mod.rs:208-300); depends on the kind of stream. *)
Variable params : Z -> Z * Z * Z.

Definition new_recv (sid : Z) : recvbuf :=
  let '(md, w, mw) := params sid in rv_new md w mw.

(** get_or_create_stream (stream/mod.rs:193-331): [None] is Err(Done), for a
    stream already closed and collected. *)
Definition cr_get_or_create (sid : Z) (st : connrecv) : option recvbuf :=
  match aget sid (cr_streams st) with
  | Some (_, true) => None
  | Some (r, false) => Some r
  | None => Some (new_recv sid)
  end.

(** streams.get_mut: only streams present and not collected. *)
Definition cr_get (sid : Z) (st : connrecv) : option recvbuf :=
  match aget sid (cr_streams st) with
  | Some (r, false) => Some r
  | _ => None
  end.

Definition cr_put (sid : Z) (r : recvbuf) (rx : Z) (f : flowctl) (st : connrecv) : connrecv :=
  mkCR (aset sid (r, false) (cr_streams st)) rx f (cr_pending st).

(** STREAM arm (lib.rs:8541-8597) *)
Definition cr_frame (sid off : Z) (data : list Z) (fin : bool) (st : connrecv)
  : res error (cr_out * connrecv) :=
  if fc_max_data (cr_fc st) <? cr_rx st then Panic
  else
    let left := fc_max_data (cr_fc st) - cr_rx st in
    match cr_get_or_create sid st with
    | None => Ok (CoIgnored, st)
    | Some r =>
        let buf := rb_from data off fin in
        let delta := sat_sub (rbM buf) (rv_len r) in
        if left <? delta then Err FlowControlE
        else
          let was_draining := rv_drain r in
          let* r := rv_write buf r in
          let f := if was_draining then fc_add_consumed delta (cr_fc st) else cr_fc st in
          Ok (CoStream (OFrame delta (if was_draining then delta else 0)),
              cr_put sid r (cr_rx st + delta) f st)
    end.

(** RESET_STREAM arm (lib.rs:8364-8419) *)
Definition cr_reset (sid code final : Z) (st : connrecv) : res error (cr_out * connrecv) :=
  if fc_max_data (cr_fc st) <? cr_rx st then Panic
  else
    let left := fc_max_data (cr_fc st) - cr_rx st in
    match cr_get_or_create sid st with
    | None => Ok (CoIgnored, st)
    | Some r =>
        match rv_reset code final r with
        | (Panic, _) => Panic
        | (Err e, _) => Err e
        | (Ok (d, c), r) =>
            if left <? d then Err FlowControlE
            else Ok (CoStream (OReset (d, c)),
                     cr_put sid r (cr_rx st + d) (fc_add_consumed c (cr_fc st)) st)
        end
    end.

(** do_stream_recv (lib.rs:5767-5861) *)
Definition cr_read (sid cap : Z) (st : connrecv) : res error (cr_out * connrecv) :=
  match cr_get sid st with
  | None => Ok (CoErr (InvalidStreamState sid), st)
  | Some r =>
      if negb (rv_ready r) then Ok (CoErr Done, st)
      else
        match rv_emit cap r with
        | (Panic, _) => Panic
        | (Err e, r) => Ok (CoStream (ORead (Err e)), cr_put sid r (cr_rx st) (cr_fc st) st)
        | (Ok (bytes, fin), r) =>
            Ok (CoStream (ORead (Ok (bytes, fin))),
                cr_put sid r (cr_rx st) (fc_add_consumed (zlen bytes) (cr_fc st)) st)
        end
  end.

(** stream_shutdown(Shutdown::Read) (lib.rs:6243-6258) *)
Definition cr_shutdown (sid : Z) (st : connrecv) : res error (cr_out * connrecv) :=
  match cr_get sid st with
  | None => Ok (CoErr Done, st)
  | Some r =>
      match rv_shutdown r with
      | Panic => Panic
      | Err e => Ok (CoErr e, st)
      | Ok (n, r) => Ok (CoStream (OShutdown (Ok n)),
                         cr_put sid r (cr_rx st) (fc_add_consumed n (cr_fc st)) st)
      end
  end.

(** MAX_STREAM_DATA (lib.rs:4815-4855), including the lower bound forced on
    the connection window: CONNECTION_WINDOW_FACTOR is 1.5 (lib.rs:489), the
    f64 product is modelled exactly. *)
Definition cr_stream_limit (sid now rtt : Z) (fits : bool) (st : connrecv)
  : res error (cr_out * connrecv) :=
  match cr_get sid st with
  | None => Ok (CoNone, st)
  | Some r =>
      let* '(l, r) := rv_limit now rtt fits r in
      let f := match l with
               | Some _ => fc_ensure_lower (fc_window (rv_fc r) * 3 / 2) (cr_fc st)
               | None => cr_fc st end in
      Ok (CoStream (OLimit l), cr_put sid r (cr_rx st) f st)
  end.

(** MAX_DATA (lib.rs:4858-4881) *)
Definition cr_limit (now rtt : Z) (fits : bool) (st : connrecv) : res error (cr_out * connrecv) :=
  let* due := fc_should_update (cr_fc st) in
  let organic := due && (fc_max_data (cr_fc st) <? fc_max_data_next (cr_fc st)) in
  let f := if organic then fc_autotune now rtt (cr_fc st) else cr_fc st in
  let pending := organic || cr_pending st in
  if pending && fits
  then let f := fc_update_max_data now f in
       Ok (CoLimit (Some (fc_max_data f)), mkCR (cr_streams st) (cr_rx st) f false)
  else Ok (CoLimit None, mkCR (cr_streams st) (cr_rx st) f pending).

(** A lost packet carried a MAX_DATA frame (lib.rs:4258-4260): only possible
    after one was sent. *)
Definition cr_lost (st : connrecv) : res error (cr_out * connrecv) :=
  match fc_last_update (cr_fc st) with
  | Some _ => Ok (CoNone, mkCR (cr_streams st) (cr_rx st) (cr_fc st) true)
  | None => Ok (CoNone, st)
  end.

(** collect (stream/mod.rs:587-609) of a stream whose receive side is finished. *)
Definition cr_collect (sid : Z) (st : connrecv) : res error (cr_out * connrecv) :=
  match cr_get sid st with
  | Some r =>
      if rv_is_fin r
      then Ok (CoNone, mkCR (aset sid (r, true) (cr_streams st)) (cr_rx st) (cr_fc st)
                            (cr_pending st))
      else Ok (CoNone, st)
  | None => Ok (CoNone, st)
  end.

Definition cr_step (op : cr_op) (st : connrecv) : res error (cr_out * connrecv) :=
  match op with
  | CrFrame sid off data fin => cr_frame sid off data fin st
  | CrReset sid code final => cr_reset sid code final st
  | CrRead sid cap => cr_read sid cap st
  | CrShutdown sid => cr_shutdown sid st
  | CrStreamLimit sid now rtt fits => cr_stream_limit sid now rtt fits st
  | CrLimit now rtt fits => cr_limit now rtt fits st
  | CrLost => cr_lost st
  | CrCollect sid => cr_collect sid st
  end.

Fixpoint cr_run (ops : list cr_op) (st : connrecv) : res error (list cr_out * connrecv) :=
  match ops with
  | [] => Ok ([], st)
  | op :: ops =>
      let* '(o, st) := cr_step op st in
      let* '(os, st) := cr_run ops st in
      Ok (o :: os, st)
  end.
End Params.
