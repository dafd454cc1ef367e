(** What loss detection promises, in terms of the packets handed to it and the
    calls made.  Independent of how sent packets are stored. *)
Require Import Verif.Base Verif.Errors Verif.RttModel Verif.RecoveryModel.

(** * The ledger: every packet ever sent, and what became of it *)

Inductive fate : Type := Out | Acked | Lost | Gone.

Record entry : Type := mkEn { en_e : epoch; en_p : pkt; en_at : Z; en_fate : fate }.
Definition en_num (x : entry) : Z := p_num (en_p x).
Definition set_fate (f : fate) (x : entry) : entry := mkEn (en_e x) (en_p x) (en_at x) f.

Definition ledger : Type := list entry.

(** A packet number occurs in an ACK frame *)
Definition covered (rs : list (Z * Z)) (n : Z) : bool :=
  existsb (fun r => (fst r <=? n) && (n <? snd r)) rs.

Definition epoch_eqb (a b : epoch) : bool :=
  match a, b with EInitial, EInitial | EHandshake, EHandshake | EApp, EApp => true | _, _ => false end.

Definition is_out (x : entry) : bool := match en_fate x with Out => true | _ => false end.

(** An acknowledgement settles the outstanding packets it covers *)
Definition acks (e : epoch) (rs : list (Z * Z)) (x : entry) : bool :=
  epoch_eqb e (en_e x) && is_out x && covered rs (en_num x).
Definition ack_entry (e : epoch) (rs : list (Z * Z)) (x : entry) : entry :=
  if acks e rs x then set_fate Acked x else x.

(** A packet may be given up at time [now] if a packet sent later was
    acknowledged and either [thresh] packets or [delay] ns have passed; in the
    absence of any acknowledgement packet 0 may be given up after [delay]. *)
Definition may_give_up (delay thresh now : Z) (led : ledger) (x : entry) : Prop :=
  (exists z, In z led /\ en_e z = en_e x /\ en_fate z = Acked /\ en_num x < en_num z /\
     (en_num x + thresh <= en_num z \/ en_at x + delay <= now)) \/
  (en_num x = 0 /\ en_at x + delay <= now /\
   forall z, In z led -> en_e z = en_e x -> en_fate z <> Acked).

(** [after] is [before] with some outstanding packets of [e] given up *)
Definition give_up_some (delay thresh now : Z) (e : epoch) (before after : ledger) : Prop :=
  Forall2 (fun x y => y = x \/
    (en_fate x = Out /\ en_e x = e /\ y = set_fate Lost x /\ may_give_up delay thresh now before x)) before after.

(** Sizes summed over the entries that satisfy a test *)
Definition total (f : entry -> bool) (led : ledger) : Z :=
  fold_right (fun x acc => if f x then p_size (en_p x) + acc else acc) 0 led.
Definition number (f : entry -> bool) (led : ledger) : Z :=
  fold_right (fun x acc => if f x then 1 + acc else acc) 0 led.

Definition in_flight (x : entry) : bool := is_out x && p_inf (en_p x).

(** What was lost between two ledgers; probes of the path MTU do not count *)
Definition lost_fate (x : entry) : bool := match en_fate x with Lost => true | _ => false end.
Definition counted (x : entry) : bool := lost_fate x && negb (p_probe (en_p x)).
Definition lost_reports (n bytes : Z) (before after : ledger) : Prop :=
  n = number counted after - number counted before /\
  bytes = total (fun x => counted x && p_inf (en_p x)) after - total (fun x => counted x && p_inf (en_p x)) before.

(** The delay and threshold in force in a state: rtt() and the reordering seen *)
Definition delay_of (fl : floats) (v : rec) : Z := rtt_loss_delay (fl_scale fl (v_reordered v)) (v_rtt v).

(** One call: [v] is the state after it, [x] what it reported *)
Definition ledger_step (fl : floats) (v : rec) (o : rop) (x : rout) (led led' : ledger) : Prop :=
  match o with
  | RSent e p _ now => led' = led ++ [mkEn e p now Out]
  | RAck e rs _ _ now _ =>
      let mid := map (ack_entry e rs) led in
      exists n b spur, x = OAck (n, b, total (fun y => acks e rs y && p_inf (en_p y)) led, spur) /\
      give_up_some (delay_of fl v) (v_thresh v) now e mid led' /\ lost_reports n b mid led'
  | RTimeout _ now =>
      exists e n b, x = OLost n b /\
      give_up_some (delay_of fl v) (v_thresh v) now e led led' /\ lost_reports n b led led'
  | RPathChange e now =>
      exists n b, x = OLost n b /\
      give_up_some (delay_of fl v) (v_thresh v) now e led led' /\ lost_reports n b led led'
  | RDiscard e _ _ => led' = map (fun y => if epoch_eqb e (en_e y) && is_out y then set_fate Gone y else y) led
  | _ => led' = led
  end.

(** The ledger of a whole history *)
Inductive explains (fl : floats) : list rop -> rec -> ledger -> rec -> ledger -> Prop :=
| ex_nil v led : explains fl [] v led v led
| ex_cons o ops v led v1 x led1 v' led' :
    rec_step fl o v = Ok (v1, x) -> ledger_step fl v1 o x led led1 ->
    explains fl ops v1 led1 v' led' ->
    explains fl (o :: ops) v led v' led'.

(** * The calls a connection makes *)

(** The ranges of a decoded ACK frame: not empty, increasing and disjoint *)
Fixpoint valid_ranges (rs : list (Z * Z)) : Prop :=
  match rs with
  | [] => False
  | [(lo, hi)] => lo < hi
  | (lo, hi) :: (((lo', _) :: _) as tl) => lo < hi /\ hi < lo' /\ valid_ranges tl
  end.

(** Packet numbers increase within a space; a packet is new; only packets in
    flight have a size; probes of the path MTU are in flight. *)
Definition fresh (e : epoch) (p : pkt) (sent : list (epoch * Z)) : Prop :=
  p_acked p = None /\ p_lost p = None /\ 0 <= p_num p /\ 0 <= p_size p /\
  (p_probe p = true -> p_inf p = true) /\ (forall n, In (e, n) sent -> n < p_num p).

Fixpoint valid_ops (sent : list (epoch * Z)) (ops : list rop) : Prop :=
  match ops with
  | [] => True
  | RSent e p _ _ :: tl => fresh e p sent /\ valid_ops ((e, p_num p) :: sent) tl
  | RAck _ rs _ _ _ _ :: tl => valid_ranges rs /\ valid_ops sent tl
  | _ :: tl => valid_ops sent tl
  end.

(** * Frames: what was handed in, and what was handed back *)

Definition acked_fate (x : entry) : bool := match en_fate x with Acked => true | _ => false end.

Fixpoint frames_sent (e : epoch) (ops : list rop) : list Z :=
  match ops with
  | [] => []
  | RSent e' p _ _ :: tl => (if epoch_eqb e e' then p_frames p else []) ++ frames_sent e tl
  | _ :: tl => frames_sent e tl
  end.

(** The frames reported as acknowledged, and as lost, in a space *)
Fixpoint reported_acked (e : epoch) (ops : list rop) (xs : list rout) : list Z :=
  match ops, xs with
  | RNextAcked e' :: ops, OFrame (Some f) :: xs => (if epoch_eqb e e' then [f] else []) ++ reported_acked e ops xs
  | _ :: ops, _ :: xs => reported_acked e ops xs
  | _, _ => []
  end.
Fixpoint reported_lost (e : epoch) (ops : list rop) (xs : list rout) : list Z :=
  match ops, xs with
  | RNextLost e' :: ops, OFrame (Some f) :: xs => (if epoch_eqb e e' then [f] else []) ++ reported_lost e ops xs
  | _ :: ops, _ :: xs => reported_lost e ops xs
  | _, _ => []
  end.

Fixpoint timeouts (ops : list rop) : Z :=
  match ops with [] => 0 | RTimeout _ _ :: tl => 1 + timeouts tl | _ :: tl => timeouts tl end.
Definition discarded (e : epoch) (ops : list rop) : bool :=
  existsb (fun o => match o with RDiscard e' _ _ => epoch_eqb e e' | _ => false end) ops.

(** The number of times a frame occurs *)
Definition times (f : Z) (l : list Z) : nat := count_occ Z.eq_dec l f.

(** * Congestion window *)

(** The datagram sizes a history tells recovery to use *)
Fixpoint sizes (ops : list rop) : list Z :=
  match ops with [] => [] | (RPmtudMds n | RUpdateMds n) :: tl => n :: sizes tl | _ :: tl => sizes tl end.

(** * Proportional rate reduction: what happens in one recovery episode *)

Inductive pev : Type :=
| PSent (n : Z)
| PAck (delivered pipe : Z).

Definition prr_step (ssthresh mds : Z) (p : prr) (x : pev) : prr :=
  match x with PSent n => prr_sent n p | PAck d pipe => prr_acked d pipe ssthresh mds p end.
Definition prr_run (ssthresh mds recoverfs : Z) (l : list pev) : prr :=
  fold_left (prr_step ssthresh mds) l (prr_event recoverfs prr_new).

Fixpoint pdelivered (l : list pev) : Z :=
  match l with [] => 0 | PAck d _ :: tl => d + pdelivered tl | _ :: tl => pdelivered tl end.
Fixpoint psent (l : list pev) : Z :=
  match l with [] => 0 | PSent n :: tl => n + psent tl | _ :: tl => psent tl end.
Fixpoint packs (l : list pev) : Z :=
  match l with [] => 0 | PAck _ _ :: tl => 1 + packs tl | _ :: tl => packs tl end.

(** The sender never sends more than it is allowed to *)
Fixpoint obeys (ssthresh mds : Z) (p : prr) (l : list pev) : Prop :=
  match l with
  | [] => True
  | x :: tl =>
      match x with PSent n => 0 <= n <= pr_snd p | PAck d pipe => 0 <= d /\ 0 <= pipe end /\
      obeys ssthresh mds (prr_step ssthresh mds p x) tl
  end.

Definition ceil_div (a b : Z) : Z := - ((- a) / b).

(** * Time with data in flight *)

Inductive bev : Type := BAdd (n : Z) (now : Z) | BSub (n : Z) (now : Z).
Definition bev_time (x : bev) : Z := match x with BAdd _ t | BSub _ t => t end.
Definition bif_step (b : bif) (x : bev) : bif :=
  match x with BAdd n t => bif_add n t b | BSub n t => bif_sub n t b end.

(** In flight, and the time spent with data in flight, computed event by event *)
Fixpoint busy (n last : Z) (l : list bev) : Z :=
  match l with
  | [] => 0
  | x :: tl =>
      (if 0 <? n then bev_time x - last else 0) +
      busy (match x with BAdd k _ => n + k | BSub k _ => Z.max 0 (n - k) end) (bev_time x) tl
  end.
Fixpoint bev_ok (last : Z) (l : list bev) : Prop :=
  match l with
  | [] => True
  | x :: tl => last <= bev_time x /\ match x with BAdd n _ => 0 < n | BSub n _ => 0 <= n end /\ bev_ok (bev_time x) tl
  end.

(** * Timers *)

(** The earliest of some optional times *)
Definition earlier (a b : option Z) : option Z :=
  match a, b with Some x, Some y => Some (Z.min x y) | Some x, None => Some x | None, o => o end.

(** When the loss detection timer is set, and with what status of the handshake *)
Definition arms (o : rop) (x : rout) : option (hstatus * Z) :=
  match o, x with
  | RSent _ p hs now, _ => if p_inf p then Some (hs, now) else None
  | RAck _ _ _ hs now _, OAck (_, _, k, _) => if 0 <? k then Some (hs, now) else None
  | RTimeout hs now, _ => Some (hs, now)
  | RDiscard _ hs now, _ => Some (hs, now)
  | _, _ => None
  end.

(** The last time an ack-eliciting packet in flight was sent in a space, since
    the space was last discarded *)
Definition last_el_step (e : epoch) (acc : option Z) (o : rop) : option Z :=
  match o with
  | RSent e' p _ now => if epoch_eqb e e' && p_inf p && p_el p then Some now else acc
  | RDiscard e' _ _ => if epoch_eqb e e' then None else acc
  | _ => acc
  end.
Definition last_el (e : epoch) (ops : list rop) : option Z := fold_left (last_el_step e) ops None.

(** Packets in flight are ack-eliciting *)
Definition eliciting (ops : list rop) : Prop :=
  Forall (fun o => match o with RSent _ p _ _ => p_inf p = true -> p_el p = true | _ => True end) ops.

(** Something is in flight in a space *)
Definition busy_space (e : epoch) (led : ledger) : bool := existsb (fun x => epoch_eqb e (en_e x) && in_flight x) led.

(** The probe timeout of a space: from the last ack-eliciting packet, doubled with every
    probe timeout in a row up to 2^32 - 1 times (times are in nanoseconds) *)
Definition pto_of (e : epoch) (v : rec) (ops : list rop) (led : ledger) : option Z :=
  if busy_space e led
  then option_map (fun t => t + (r_srtt (v_rtt v) + Z.max (r_var (v_rtt v) * 4) 1000000 + match e with EApp => r_max_ack_delay (v_rtt v) | _ => 0 end) * Z.min (2 ^ v_pto_count v) (2 ^ 32 - 1))
         (last_el e ops)
  else None.

(** Probe timeouts in a row *)
Definition pto_step (o : rop) (x : rout) (n : Z) (n' : Z) : Prop :=
  match o, x with
  | RTimeout _ _, _ => n' = n + 1 \/ n' = n
  | RAck _ _ _ _ _ _, OAck (_, _, k, _) => (0 < k -> n' = 0) /\ (n' = 0 \/ n' = n)
  | _, _ => n' = n
  end.
