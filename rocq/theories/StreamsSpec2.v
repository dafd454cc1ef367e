(** Vocabulary for the order in which streams are served and reported. *)
Require Import Verif.Base Verif.Errors Verif.RangeBufModel Verif.SendBufModel Verif.StreamsModel Verif.StreamsSpec.

(** The priority the application last gave to a stream: urgency, and whether it
    is incremental. *)
Definition prio_step (sid : Z) (p : Z * bool) (e : cn_op * cn_out) : Z * bool :=
  match e with
  | (CnPriority x urg inc, CoOk) => if x =? sid then (urg, inc) else p
  | _ => p
  end.
Definition priority_of (sid : Z) (ops : list cn_op) (outs : list cn_out) : Z * bool :=
  fold_left (prio_step sid) (events ops outs) (127, true).

(** Which of two streams goes first: lower urgency; at the same urgency the
    non-incremental ones, and those in the order of their ids. *)
Definition goes_before (x : Z) (px : Z * bool) (y : Z) (py : Z * bool) : Prop :=
  fst px < fst py \/
  fst px = fst py /\ (snd px = false /\ snd py = true \/ snd px = false /\ snd py = false /\ x < y).

(** The stream has bytes to send: accepted from the application and never put in
    a packet, or lost since; and the peer did not ask to stop. *)
Definition waiting (x : Z) (c : conn) : Prop :=
  exists s, cn_get x c = Some s /\ st_stopped s = false /\
    exists b, In b (sb_data (st_send s)) /\ rb_is_empty b = false.

(** A packet with room for any STREAM frame header, or for none. *)
Definition roomy (op : cn_op) : Prop :=
  match op with CnSendStream room => room <= 12 \/ 19 <= room | _ => True end.

(** What readable() and writable() list. *)
Definition in_readable (x : Z) (c : conn) : Prop := In x (map k_id (c_rq c)).
Definition in_writable (x : Z) (c : conn) : Prop := In x (map k_id (c_wq c)).

(** The stream has something to read: data, its end, or an error. *)
Definition can_read (x : Z) (c : conn) : Prop := exists s, cn_get x c = Some s /\ st_readable s = true.
(** More can be written than the low watermark the application asked for. *)
Definition can_write (x : Z) (c : conn) : Prop :=
  exists s, cn_get x c = Some s /\ sb_shut (st_send s) = false /\ sb_fin_off (st_send s) = None /\
    st_lowat s < sb_max_data (st_send s) - sb_off (st_send s).

(** Since the call [op], which returned [o], [Q] was true of every state. *)
Definition since (P : params) (i : start) (op : cn_op) (o : cn_out) (Q : conn -> Prop) (ops : list cn_op) (outs : list cn_out) : Prop :=
  exists pre post, ops = pre ++ op :: post /\ nth_error outs (length pre) = Some o /\
    forall a b outs' c', post = a ++ b -> history P i (pre ++ op :: a) outs' c' -> Q c'.

(** The number of bytes the application last asked for in vain on a stream, with
    stream_writable; one if it never did. *)
Definition asked_step (sid : Z) (n : Z) (e : cn_op * cn_out) : Z :=
  match e with
  | (CnWritable x len, CoBool false) => if x =? sid then Z.max 1 len else n
  | _ => n
  end.
Definition asked (sid : Z) (ops : list cn_op) (outs : list cn_out) : Z :=
  fold_left (asked_step sid) (events ops outs) 1.
