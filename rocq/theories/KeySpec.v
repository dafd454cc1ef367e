(** What is said about key updates: any history of calls, and an honest peer (RFC 9001,
    6) across a network that loses, repeats, delays and forges packets. *)
Require Import Verif.Base Verif.Errors Verif.KeyModel.

Fixpoint krun (ops : list kop) (c : kst) : list (kop * kout) * kst :=
  match ops with
  | [] => ([], c)
  | o :: tl => let (y, c1) := kstep o c in let (t, c2) := krun tl c1 in ((o, y) :: t, c2)
  end.

(** The peer numbers its packets upwards, seals each with its current keys, whose
    generation the phase bit shows, and moves to the next keys only when it has got a
    packet of ours sealed with the current ones (and, as a server, had the handshake
    confirmed, which it has; as a client, once it is told). *)
Record net := mkNet {
  n_us : kst;
  n_theirs : list kpkt;      (* what the peer sent *)
  n_last : Z;                (* the largest number in it *)
  n_gen : Z;                 (* the keys the peer seals with *)
  n_heard : Z;               (* the newest keys it got a packet with *)
  n_ours : list kpkt }.      (* what we sent *)
Definition net_new (server : bool) : net := mkNet (key_new server) [] (-1) 0 (-1) [].

Inductive nop :=
| NTheirs (skip : Z) (done : bool)            (* the peer sends *)
| NUpdate                                     (* it updates its keys, if it may *)
| NDeliver (i : nat) (now : Z) (e : kenv)     (* one of its packets reaches us, for the first time or not *)
| NForge (now : Z) (e : kenv) (p : kpkt)      (* something else does *)
| NSend (pn : Z) (some done : bool)           (* we send *)
| NHeard (i : nat)                            (* one of ours reaches it *)
| NTimeout (now : Z).

Definition nstep (o : nop) (n : net) : option (res error unit) * net :=
  match o with
  | NTheirs skip done =>
      let pn := n_last n + 1 + Z.max 0 skip in
      (None, mkNet (n_us n) (n_theirs n ++ [mkKp pn (Z.odd (n_gen n)) (Some (n_gen n)) done]) pn (n_gen n) (n_heard n) (n_ours n))
  | NUpdate => (None, if n_heard n =? n_gen n then mkNet (n_us n) (n_theirs n) (n_last n) (n_gen n + 1) (n_heard n) (n_ours n) else n)
  | NDeliver i now e =>
      match nth_error (n_theirs n) i with
      | Some p => let (r, c) := krecv now e p (n_us n) in (Some r, mkNet c (n_theirs n) (n_last n) (n_gen n) (n_heard n) (n_ours n))
      | None => (None, n)
      end
  | NForge now e p => let (r, c) := krecv now e (mkKp (kp_pn p) (kp_phase p) None (kp_done p)) (n_us n) in (Some r, mkNet c (n_theirs n) (n_last n) (n_gen n) (n_heard n) (n_ours n))
  | NSend pn some done =>
      let (p, c) := ksend pn some done (n_us n) in
      (None, mkNet c (n_theirs n) (n_last n) (n_gen n) (n_heard n) (match p with Some p => n_ours n ++ [p] | None => n_ours n end))
  | NHeard i =>
      match nth_error (n_ours n) i with
      | Some p => (None, mkNet (n_us n) (n_theirs n) (n_last n) (n_gen n) (match kp_gen p with Some g => Z.max (n_heard n) g | None => n_heard n end) (n_ours n))
      | None => (None, n)
      end
  | NTimeout now => (None, mkNet (ktimeout now (n_us n)) (n_theirs n) (n_last n) (n_gen n) (n_heard n) (n_ours n))
  end.
Fixpoint nrun (ops : list nop) (n : net) : list (option (res error unit)) * net :=
  match ops with
  | [] => ([], n)
  | o :: tl => let (r, n1) := nstep o n in let (l, n2) := nrun tl n1 in (r :: l, n2)
  end.

(** The packet is new, not empty and on a path. *)
Definition plain (e : kenv) : Prop := e_dup e = false /\ e_empty e = false /\ e_pid e = None.
