(** Vocabulary for stating that what a connection has to tell its peer about
    its streams is not forgotten. *)
Require Import Verif.Base Verif.Errors Verif.StreamsModel Verif.StreamsSpec.

(** Frames put in packets, with the limit they announce, if any. *)
Definition put (o : cn_out) : list (sentf * option Z) :=
  match o with
  | CoSent (Some f) => [(f, None)]
  | CoMaxStreams b m => [(SfMaxStreams b, Some m)]
  | CoMaxStreamData sid m => [(SfMaxStreamData sid, Some m)]
  | CoMaxData m => [(SfMaxData, Some m)]
  | _ => []
  end.
Definition all_put (outs : list cn_out) : list (sentf * option Z) := flat_map put outs.

(** The [k]-th frame was declared lost after it was sent. *)
Definition lost_at (k : nat) (ops : list cn_op) (outs : list cn_out) : Prop :=
  exists n, nth_error ops n = Some (CnLost k) /\ (k < length (all_put (firstn n outs)))%nat.
(** A frame was sent and not declared lost: it has arrived or may still arrive. *)
Definition on_the_way (f : sentf) (v : option Z) (ops : list cn_op) (outs : list cn_out) : Prop :=
  exists k, nth_error (all_put outs) k = Some (f, v) /\ ~ lost_at k ops outs.

(** The error code [code] was given for the sending part of a stream, by the
    application or by the peer; for the receiving part, by the application. *)
Definition given (sid code : Z) (ops : list cn_op) (outs : list cn_out) : Prop :=
  (exists cwnd, In (CnShutdown sid ShutWrite code cwnd, CoOk) (events ops outs)) \/
  In (CnStop sid code, CoOk) (events ops outs).
Definition asked_stop (sid code : Z) (ops : list cn_op) (outs : list cn_out) : Prop :=
  exists cwnd, In (CnShutdown sid ShutRead code cwnd, CoOk) (events ops outs).

(** The limits last announced: on all data, and on a stream's. *)
Definition told_data (i : start) (outs : list cn_out) : Z :=
  fold_left (fun m o => match o with CoMaxData m' => m' | _ => m end) outs (i_rx i).
Definition told_on (sid : Z) (outs : list cn_out) : option Z :=
  fold_left (fun m o => match o with CoMaxStreamData x m' => if x =? sid then Some m' else m | _ => m end) outs None.
