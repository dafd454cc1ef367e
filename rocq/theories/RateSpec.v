(** What was sent and acknowledged in a history, counted without the estimator. *)
Require Import Verif.Base Verif.RateModel.

(** The sizes of the packets sent, in order: the identity of a packet is its place. *)
Fixpoint sizes (evs : list rate_event) : list Z :=
  match evs with [] => [] | RvSend _ size _ _ :: evs => size :: sizes evs | _ :: evs => sizes evs end.
(** The identities acknowledged, in order. *)
Fixpoint acked (evs : list rate_event) : list Z :=
  match evs with [] => [] | RvAck ids _ _ :: evs => ids ++ acked evs | _ :: evs => acked evs end.
Definition size_of (ss : list Z) (id : Z) : Z := nth (Z.to_nat id) ss 0.
Definition bytes_of (ss : list Z) (ids : list Z) : Z := fold_right (fun id a => size_of ss id + a) 0 ids.
(** The bytes acknowledged in [evs], by packets sent in [all]. *)
Definition acked_bytes (all evs : list rate_event) : Z := bytes_of (sizes all) (acked evs).

(** Time does not run backwards, and sizes are not negative. *)
Fixpoint orderly (t0 : Z) (evs : list rate_event) : Prop :=
  match evs with
  | [] => True
  | RvSend _ size t _ :: evs => t0 <= t /\ 0 <= size /\ orderly t evs
  | RvAck _ now mr :: evs => t0 <= now /\ 0 <= mr /\ orderly now evs
  | _ :: evs => orderly t0 evs
  end.
Definition reached (t0 : Z) (evs : list rate_event) (r : rate) : Prop := orderly t0 evs /\ r_run evs (r_new t0) = Ok r.

(** When the last acknowledgment came, or the sending that found nothing in
    flight, if later. *)
Fixpoint last_news (t0 : Z) (evs : list rate_event) : Z :=
  match evs with
  | [] => t0
  | RvSend _ _ t true :: evs => last_news t evs
  | RvAck (_ :: _) now _ :: evs => last_news now evs
  | _ :: evs => last_news t0 evs
  end.

(** When the packets were sent, and with which numbers, by their identity. *)
Fixpoint times (evs : list rate_event) : list Z :=
  match evs with [] => [] | RvSend _ _ t _ :: evs => t :: times evs | _ :: evs => times evs end.
Fixpoint numbers (evs : list rate_event) : list Z :=
  match evs with [] => [] | RvSend num _ _ _ :: evs => num :: numbers evs | _ :: evs => numbers evs end.

(** When the packet acknowledged last was sent, or the packet that found nothing
    in flight, if later; [ts] are the times of all packets. *)
Fixpoint last_mark (ts : list Z) (t0 : Z) (evs : list rate_event) : Z :=
  match evs with
  | [] => t0
  | RvSend _ _ t true :: evs => last_mark ts t evs
  | RvAck (id :: ids) _ _ :: evs => last_mark ts (nth (Z.to_nat (last ids id)) ts 0) evs
  | _ :: evs => last_mark ts t0 evs
  end.
Fixpoint increasing (l : list Z) : Prop :=
  match l with [] => True | x :: l => Forall (fun y => x < y) l /\ increasing l end.

(** Whether the application says anything about its limit. *)
Definition says_limit (ev : rate_event) : bool := match ev with RvApp _ => true | _ => false end.
