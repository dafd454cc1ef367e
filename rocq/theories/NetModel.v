(** A sending stream, a receiving stream and the network between them.

    The two ends are the models of SendBufModel (stream/send_buf.rs with the
    calls of lib.rs) and RecvBufModel (stream/recv_buf.rs with the calls of
    lib.rs).  The network is not quiche code: it may deliver any frame that was
    ever sent, at any time, any number of times, in any order, or never; packet
    protection is taken to deliver frames unmodified.  The transport is modelled
    by three restrictions: a frame is acknowledged only after it was delivered
    (lib.rs acknowledges packets it processed), limits reach the sender only
    when the receiver announced them, and limits that do not fit a QUIC variable
    length integer cannot be sent.  A frame can be declared lost at any time,
    rightly or not.  Once a receiving stream is collected lib.rs ignores its
    late frames (stream/mod.rs:336-345, lib.rs:8528-8533); here they still reach
    the finished receive buffer. *)
Require Import Verif.Base Verif.Errors Verif.SendBufModel Verif.SendSpec Verif.RecvBufModel
  Verif.RecvSpec.

(** Both ends with the history of the calls made on them and their results, and
    the numbers of the frames that arrived. *)
Record net : Type := mkNet {
  n_snd : sendst; n_sops : list sn_op; n_souts : list sn_out;
  n_rcv : recvbuf; n_rops : list rv_op; n_routs : list rv_out;
  n_got : list nat }.

(** The sender starts with the limit the receiver enforces: the receiver's
    initial_max_stream_data transport parameter (stream/mod.rs:180-230). *)
Definition nt_new (md w mw : Z) : net := mkNet (sn_new md) [] [] (rv_new md w mw) [] [] [].

Inductive nt_op : Type :=
| NtSender (op : sn_op)
| NtReceiver (op : rv_op)
| NtDeliver (i : nat)
| NtDeliverReset (i : nat) (code : Z)
| NtDeliverLimit (i : nat)
| NtAck (i : nat).

(** The final sizes in the RESET_STREAM frames sent. *)
Fixpoint resets (outs : list sn_out) : list Z :=
  match outs with
  | [] => []
  | SoReset (Some (final, _)) :: outs => final :: resets outs
  | _ :: outs => resets outs
  end.

Definition nt_sender (op : sn_op) (n : net) : res error net :=
  let* '(o, s) := sn_step op (n_snd n) in
  Ok (mkNet s (n_sops n ++ [op]) (n_souts n ++ [o]) (n_rcv n) (n_rops n) (n_routs n) (n_got n)).

Definition nt_receiver (op : rv_op) (got : list nat) (n : net) : res error net :=
  let* '(o, r) := rv_step op (n_rcv n) in
  Ok (mkNet (n_snd n) (n_sops n) (n_souts n) r (n_rops n ++ [op]) (n_routs n ++ [o])
            (n_got n ++ got)).

Definition nt_step (op : nt_op) (n : net) : res error net :=
  match op with
  | NtSender op => nt_sender op n
  | NtReceiver op => nt_receiver op [] n
  | NtDeliver i =>
      match nth_error (frames (n_souts n)) i with
      | Some f => nt_receiver (RvFrame (sf_off f) (sf_bytes f) (sf_fin f)) [i] n
      | None => Ok n
      end
  | NtDeliverReset i code =>
      match nth_error (resets (n_souts n)) i with
      | Some final => nt_receiver (RvReset code final) [] n
      | None => Ok n
      end
  | NtDeliverLimit i =>
      match nth_error (limits (n_routs n)) i with
      | Some l => if l <=? max_varint then nt_sender (SnMaxData l) n else Ok n
      | None => Ok n
      end
  | NtAck i => if existsb (Nat.eqb i) (n_got n) then nt_sender (SnAck i) n else Ok n
  end.

Fixpoint nt_run (ops : list nt_op) (n : net) : res error net :=
  match ops with
  | [] => Ok n
  | op :: ops => let* n := nt_step op n in nt_run ops n
  end.

(** What each application and transport may do on its own: everything except
    inventing frames, limits and acknowledgements. *)
Definition nt_op_ok (op : nt_op) : Prop :=
  match op with
  | NtSender (SnMaxData _) | NtSender (SnAck _) => False
  | NtSender op => sn_op_ok op
  | NtReceiver (RvFrame _ _ _) | NtReceiver (RvReset _ _) => False
  | NtReceiver op => rv_op_ok op
  | _ => True
  end.
