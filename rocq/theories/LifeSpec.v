(** What the theorems about the life of a connection speak of: runs of operations,
    and what went in and came out of them. *)
Require Import Verif.Base Verif.Errors Verif.LifeModel.

(** A run: each operation with its result *)
Definition trace : Type := list (op * out).
Fixpoint run (ops : list op) (c : conn) : trace * conn :=
  match ops with
  | [] => ([], c)
  | o :: ops => let '(y, c) := step o c in let '(t, c) := run ops c in ((o, y) :: t, c)
  end.
Fixpoint sum_of {A} (f : A -> Z) (l : list A) : Z := match l with [] => 0 | x :: l => f x + sum_of f l end.

(** The packets of a datagram received, and the ones it sent where *)
Definition packets_in (x : op * out) : list (addr * packet) := match fst x with ORecv _ a ks => map (pair a) ks | _ => [] end.
Definition packets_out (x : op * out) : list (addr * sent) := match snd x with OutSent (Ok (_, a, ss)) => map (pair a) ss | _ => [] end.
Definition all_in (t : trace) := flat_map packets_in t.
Definition all_out (t : trace) := flat_map packets_out t.

(** Bytes received from [a]; bytes of 0-RTT packets received from [a]; bytes of
    packets, and of whole datagrams, sent to [a] *)
Definition rx (a : addr) (t : trace) : Z := sum_of (fun x => if aeqb (fst x) a then k_len (snd x) else 0) (all_in t).
Definition rx_zero (a : addr) (t : trace) : Z :=
  sum_of (fun x => if aeqb (fst x) a then match k_ty (snd x) with TZero => k_len (snd x) | _ => 0 end else 0) (all_in t).
Definition tx (a : addr) (t : trace) : Z := sum_of (fun x => if aeqb (fst x) a then s_size (snd x) else 0) (all_out t).
Definition tx_datagrams (a : addr) (t : trace) : Z :=
  sum_of (fun x : op * out => match snd x with OutSent (Ok (n, b, _)) => if aeqb b a then n else 0 | _ => 0 end) t.

(** The frames of a packet that was opened *)
Definition frames_of (k : packet) : list frame := match k_in k with IOk _ _ _ fs => fs | _ => [] end.
Definition accepted (k : packet) : Prop := exists known pn ku fs, k_in k = IOk known pn ku fs.

(** A challenge [d] was sent to [a] in a packet of [n] bytes; a response [d] was
    received *)
Definition asked (t : trace) (a : addr) (d n : Z) : Prop :=
  exists s, In (a, s) (all_out t) /\ s_chal s = Some d /\ s_size s = n.
Definition heard (t : trace) (d : Z) : Prop :=
  exists b k, In (b, k) (all_in t) /\ k_ty k <> TZero /\ In (FResponse d) (frames_of k).
(** First asked in a packet of at least [n] bytes, then answered *)
Definition proven (t : trace) (a : addr) (n : Z) : Prop :=
  exists t1 t2 d m, t = t1 ++ t2 /\ asked t1 a d m /\ n <= m /\ heard t2 d.

(** Nothing proves that the peer is at [a]: no Handshake packet was accepted, and no
    challenge sent to [a] was answered. *)
Definition no_handshake (t : trace) : Prop := forall b k, In (b, k) (all_in t) -> k_ty k = THandshake -> ~ accepted k.
Definition unproven (t : trace) (a : addr) : Prop := no_handshake t /\ forall d n, asked t a d n -> ~ heard t d.

(** Lengths are not negative. *)
Definition sane (ops : list op) : Prop :=
  Forall (fun o => match o with ORecv _ _ ks => Forall (fun k => 0 <= k_len k) ks | _ => True end) ops.

(** How many challenges [d] were received, from [a]; how many responses [d] were
    sent, to [a] *)
Definition count (d : Z) (l : list Z) : Z := sum_of (fun x => if x =? d then 1 else 0) l.
Definition challenges_in (k : packet) : list Z := flat_map (fun f => match f with FChallenge d => [d] | _ => [] end) (frames_of k).
Definition challenges (d : Z) (t : trace) : Z := sum_of (fun x => count d (challenges_in (snd x))) (all_in t).
Definition responses_to (d : Z) (t : trace) : Z := sum_of (fun x => count d (s_resp (snd x))) (all_out t).
Definition challenges_from (a : addr) (d : Z) (t : trace) : Z :=
  sum_of (fun x => if aeqb (fst x) a then count d (challenges_in (snd x)) else 0) (all_in t).
Definition responses_sent_to (a : addr) (d : Z) (t : trace) : Z :=
  sum_of (fun x => if aeqb (fst x) a then count d (s_resp (snd x)) else 0) (all_out t).

(** The close frames sent *)
Definition closes (t : trace) : list cerr :=
  flat_map (fun x => match s_close (snd x) with Some e => [e] | None => [] end) (all_out t).

(** When an operation takes place, and operations in the order of their times *)
Definition time_of (o : op) : option Z := match o with ORecv n _ _ | OSend n _ _ _ _ _ | OTimeout n _ => Some n | _ => None end.
Fixpoint clock (l : Z) (ops : list op) : Prop :=
  match ops with
  | [] => True
  | o :: ops => match time_of o with Some n => l <= n /\ clock n ops | None => clock l ops end
  end.

(** The idle timeout in force, in nanoseconds, from the two max_idle_timeout values
    in milliseconds, where 0 means that the endpoint disabled it *)
Definition least (mine theirs : Z) : option Z :=
  match filter (fun x => negb (x =? 0)) [mine; theirs] with
  | [] => None
  | [x] => Some (x * 1000000)
  | x :: y :: _ => Some (Z.min x y * 1000000)
  end.
(** With our value [mine], every value of the peer's that TLS hands over leaves a
    timeout of at least [b]. *)
Definition at_least (mine b : Z) (theirs : Z) : Prop := exists v, least mine theirs = Some v /\ b <= v.
Definition hands_over (h : hout) : Z := match h with HOk h | HErr _ _ h | HAlert _ _ h => h_pidle h end.
Definition idle_ok (mine b : Z) (ops : list op) : Prop :=
  Forall (fun o => match o with
    | ORecv _ _ ks => forall k x, In k ks -> In (FCrypto x) (frames_of k) -> at_least mine b (hands_over x)
    | OSend _ _ _ _ x _ => at_least mine b (hands_over x)
    | _ => True end) ops.
