(** What happened to packets, counted without the sampler.  A congestion event is
    taken apart into its losses, its acknowledgments and its end.  Histories are
    written newest first. *)
Require Import Verif.Base Verif.BwModel Verif.SampModel.

Inductive sev : Type :=
| SSent (t n bytes flight : Z) (retr : bool)
| SNeut (n : Z)
| SLost (n bytes : Z)
| SAcked (now n : Z)
| SEnd (bw : Z)
| SApp
| SObs (least : Z).

(** The history up to and including the sending of a packet with data that can be
    retransmitted, unless it was acknowledged, lost or forgotten since. *)
Fixpoint open_ (n : Z) (h : list sev) : option (list sev) :=
  match h with
  | [] => None
  | SSent _ n' _ _ true :: h' => if n' =? n then Some h else open_ n h'
  | (SNeut n' | SLost n' _ | SAcked _ n') :: h' => if n' =? n then None else open_ n h'
  | SObs least :: h' => if n <? least then None else open_ n h'
  | _ :: h' => open_ n h'
  end.
Definition head_size (h : list sev) : Z := match h with SSent _ _ b _ _ :: _ => b | _ => 0 end.
Definition head_time (h : list sev) : Z := match h with SSent t _ _ _ _ :: _ => t | _ => 0 end.
Definition head_flight (h : list sev) : Z := match h with SSent _ _ b f _ :: _ => f + b | _ => 0 end.

Fixpoint sent_total (h : list sev) : Z :=
  match h with [] => 0 | SSent _ _ b _ true :: h => b + sent_total h | _ :: h => sent_total h end.
(** The sizes of the packets acknowledged while open: each is once. *)
Fixpoint acked_total (h : list sev) : Z :=
  match h with
  | [] => 0
  | SAcked _ n :: h => acked_total h + match open_ n h with Some q => head_size q | None => 0 end
  | _ :: h => acked_total h
  end.
Fixpoint lost_total (h : list sev) : Z := match h with [] => 0 | SLost _ b :: h => b + lost_total h | _ :: h => lost_total h end.
Fixpoint neut_total (h : list sev) : Z :=
  match h with
  | [] => 0
  | SNeut n :: h => neut_total h + match open_ n h with Some q => head_size q | None => 0 end
  | _ :: h => neut_total h
  end.

(** When the last acknowledgment came, or the sending that found nothing in
    flight, if later. *)
Fixpoint news (t0 : Z) (h : list sev) : Z :=
  match h with
  | [] => t0
  | SSent t _ _ f true :: h => if f =? 0 then t else news t0 h
  | SAcked now n :: h => match open_ n h with Some _ => now | None => news t0 h end
  | _ :: h => news t0 h
  end.
(** The packet acknowledged last, or the one that found nothing in flight, if
    later: when it was sent and how much had been sent by then, itself included. *)
Fixpoint flagged (t0 : Z) (h : list sev) : Z * Z :=
  match h with
  | [] => (t0, 0)
  | SSent t _ _ f true :: h' => if f =? 0 then (t, sent_total h) else flagged t0 h'
  | SAcked _ n :: h' => match open_ n h' with Some q => (head_time q, sent_total q) | None => flagged t0 h' end
  | _ :: h' => flagged t0 h'
  end.
Fixpoint last_num (h : list sev) : Z := match h with [] => 0 | SSent _ n _ _ _ :: _ => n | _ :: h => last_num h end.
(** Whether packets sent now count as limited by the application: at first, until
    the first acknowledgment; then from a report until a packet sent after it is
    acknowledged ([Some e]: a number above [e]). *)
Fixpoint limit (h : list sev) : option (option Z) :=
  match h with
  | [] => Some None
  | SApp :: h => Some (Some (last_num h))
  | SAcked _ n :: h =>
      match open_ n h, limit h with
      | Some _, Some None => None
      | Some _, Some (Some e) => if e <? n then None else Some (Some e)
      | _, l => l
      end
  | _ :: h => limit h
  end.
Definition limited (l : option (option Z)) : bool := match l with Some _ => true | None => false end.
(** The points at which it was known how much had been acknowledged. *)
Fixpoint ack_line (h : list sev) : list apoint :=
  match h with
  | [] => []
  | SSent t _ _ f true :: h => if f =? 0 then mkAp t (acked_total h) :: ack_line h else ack_line h
  | SAcked now n :: h' => match open_ n h' with Some _ => mkAp now (acked_total h) :: ack_line h' | None => ack_line h' end
  | _ :: h => ack_line h
  end.

(** What is remembered of a packet whose sending ends the history [q]. *)
Definition describe (t0 : Z) (q : list sev) : bpkt :=
  mkBp (head_time q) (head_size q) (snd (flagged t0 q)) (fst (flagged t0 q)) (news t0 q) (limited (limit q)) (sent_total q) (acked_total q) (lost_total q) (head_flight q).

(** The sampler after a history *)
Definition sp_step (c : scfg) (ev : sev) (s : sampler) : res unit sampler :=
  match ev with
  | SSent t n b f r => sp_on_sent c t n b f r s
  | SNeut n => Ok (sp_on_neutered n s)
  | SLost n b => Ok (fst (sp_on_lost n b s))
  | SAcked now n => let* '(s, _) := sp_on_acked c now n s in Ok s
  | SEnd bw => let* '(s, _) := sp_on_end c bw s in Ok s
  | SApp => Ok (sp_on_app_limited s)
  | SObs least => Ok (sp_on_obsolete least s)
  end.
Fixpoint sp_after_all (c : scfg) (t0 : Z) (h : list sev) : res unit sampler :=
  match h with [] => Ok (sp_new t0) | ev :: h => let* s := sp_after_all c t0 h in sp_step c ev s end.

(** Packet numbers grow, sizes are not negative, times are instants of 64 bits of
    nanoseconds. *)
Definition instant (t : Z) : Prop := 0 <= t <= u64_max.
Fixpoint sensible (h : list sev) : Prop :=
  match h with
  | [] => True
  | SSent t n b f _ :: h => instant t /\ 0 <= b /\ 0 <= f /\ (forall t' n' b' f' r', In (SSent t' n' b' f' r') h -> n' < n) /\ sensible h
  | SAcked now _ :: h => instant now /\ sensible h
  | _ :: h => sensible h
  end.

(** A rate in bits per second: at least one, if anything was sent. *)
Definition rate_of (bytes nanos : Z) : Z := if bytes =? 0 then 0 else Z.max 1 (8 * bytes * 1000000000 / nanos).

(** Acknowledgments come in the order of sending; a packet is sent with nothing in
    flight exactly when none is open, and the first one is. *)
Fixpoint in_order (h : list sev) : Prop :=
  match h with
  | [] => True
  | SAcked _ n :: h => (forall now' n', In (SAcked now' n') h -> n' < n) /\ in_order h
  | SSent _ _ _ f true :: h => (f = 0 -> forall n, open_ n h = None) /\ (f <> 0 -> exists t n b, In (SSent t n b 0 true) h) /\ in_order h
  | _ :: h => in_order h
  end.

(** The events a congestion event consists of, newest first *)
Definition event_history (now : Z) (acked : list Z) (lost : list (Z * Z)) (h : list sev) : list sev :=
  rev (map (SAcked now) acked) ++ rev (map (fun x => SLost (fst x) (snd x)) lost) ++ h.
(** The samples of its acknowledgments, in order *)
Fixpoint samples (c : scfg) (now : Z) (acked : list Z) (s : sampler) : res unit (sampler * list bsample) :=
  match acked with
  | [] => Ok (s, [])
  | n :: acked =>
      let* '(s, r) := sp_on_acked c now n s in
      let* '(s, l) := samples c now acked s in
      Ok (s, match r with Some r => r :: l | None => l end)
  end.
