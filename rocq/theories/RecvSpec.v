(** Vocabulary for the receive-side properties: it only talks about the calls
    made on a stream and what they returned. *)
Require Import Verif.Base Verif.Errors Verif.RecvBufModel.

(** Arguments a caller can produce: unsigned offsets and sizes. *)
Definition rv_op_ok (op : rv_op) : Prop :=
  match op with
  | RvFrame off _ _ => 0 <= off
  | RvRead cap => 0 <= cap
  | RvReset _ final => 0 <= final
  | RvShutdown => True
  | RvLimit now rtt _ => 0 <= now /\ 0 <= rtt
  end.

(** Byte [x] at stream offset [o] is carried by this frame. *)
Definition carries (op : rv_op) (o x : Z) : Prop :=
  match op with
  | RvFrame off data _ => zget data (o - off) = Some x
  | _ => False
  end.

Definition arrived (ops : list rv_op) (o : Z) : Prop :=
  exists op x, In op ops /\ carries op o x.

(** The frame's bytes are bytes of [S] at their true offsets. *)
Definition cut_from (S : list Z) (op : rv_op) : Prop :=
  forall o x, carries op o x -> zget S o = Some x.

(** What the application read, in order. *)
Fixpoint read_bytes (outs : list rv_out) : list Z :=
  match outs with
  | [] => []
  | ORead (Ok (bytes, _)) :: tl => bytes ++ read_bytes tl
  | _ :: tl => read_bytes tl
  end.

(** The final size an event announces, and the highest offset it uses. *)
Definition final_size_of (op : rv_op) (f : Z) : Prop :=
  match op with
  | RvFrame off data true => f = off + zlen data
  | RvReset _ final => f = final
  | _ => False
  end.

Definition uses_up_to (op : rv_op) (e : Z) : Prop :=
  match op with
  | RvFrame off data fin => e = off + zlen data /\ (data <> [] \/ fin = true)
  | RvReset _ final => e = final
  | _ => False
  end.

Definition is_reset (op : rv_op) : Prop :=
  match op with RvReset _ _ => True | _ => False end.

(** Bytes handed back to the connection's flow control by a call, and bytes
    charged to it. *)
Definition out_credit (o : rv_out) : Z :=
  match o with
  | OFrame _ credit => credit
  | ORead (Ok (bytes, _)) => zlen bytes
  | OReset (_, credit) => credit
  | OShutdown (Ok n) => n
  | _ => 0
  end.
Definition out_charge (o : rv_out) : Z :=
  match o with
  | OFrame charge _ => charge
  | OReset (charge, _) => charge
  | _ => 0
  end.
Fixpoint sum_of {A} (f : A -> Z) (l : list A) : Z :=
  match l with [] => 0 | x :: tl => f x + sum_of f tl end.

(** The limit the peer was last told: [initial], then each MAX_STREAM_DATA. *)
Fixpoint last_limit (initial : Z) (outs : list rv_out) : Z :=
  match outs with
  | [] => initial
  | OLimit (Some l) :: tl => last_limit l tl
  | _ :: tl => last_limit initial tl
  end.

(** STREAM frames that carry data or end the stream. *)
Definition not_empty_frame (op : rv_op) : Prop :=
  match op with RvFrame _ data fin => data <> [] \/ fin = true | _ => True end.

(** [h] is the highest offset used so far. *)
Definition highest (ops : list rv_op) (h : Z) : Prop :=
  (forall op e, In op ops -> uses_up_to op e -> e <= h) /\
  (h = 0 \/ exists op, In op ops /\ uses_up_to op h).

(** The limits announced to the peer, in order. *)
Fixpoint limits (outs : list rv_out) : list Z :=
  match outs with
  | [] => []
  | OLimit (Some l) :: tl => l :: limits tl
  | _ :: tl => limits tl
  end.

(** The stream was shut down for reading or reset. *)
Definition stopped (ops : list rv_op) : Prop :=
  In RvShutdown ops \/ exists op, In op ops /\ is_reset op.
