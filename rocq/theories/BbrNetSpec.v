(** Histories of calls on the network model, newest first with what each returned,
    and what they say of the network. *)
Require Import Verif.Base Verif.BwModel Verif.SampModel Verif.SampSpec Verif.BbrNetModel.

Inductive nop : Type :=
  | NSent (t flight n bytes : Z) (retr : bool) | NEvent (time cwnd prior : Z) (probing : bool) (acked : list Z) (lost : list (Z * Z))
  | NFinish (least : Z) (c : cev) | NExpire (c : cev) | NRestart | NGrowth (c : cev) | NQueue (target : Z) | NAdvance
  | NHi (x : Z) | NClearIn | NCapIn (cap : Z) | NClearLo | NPostpone (d : Z) | NApp | NNeut (n : Z) | NFull.
Inductive nout : Type := OEv (c : cev) | OBool (b : bool) | ONone.

(** One call (network_model.rs, as cited in BbrNetModel; the setters are at 440-442,
    748-750, 778-815) *)
Definition nt_step (p : npar) (o : nop) (n : net) : res unit (net * nout) :=
  match o with
  | NSent t f k b r => let* n := nt_sent p t f k b r n in Ok (n, ONone)
  | NEvent t c pr pb a l => let* '(n, e) := nt_start p t c pr pb a l n in Ok (n, OEv e)
  | NFinish least c => Ok (nt_finish least c n, ONone)
  | NExpire c => let '(n, b) := nt_expire p c n in Ok (n, OBool b)
  | NRestart => Ok (nt_restart n, ONone)
  | NGrowth c => let '(n, b) := nt_growth p c n in Ok (n, OBool b)
  | NQueue t => Ok (nt_queue p t n, ONone)
  | NAdvance => Ok (nt_advance n, ONone)
  | NHi x => Ok (nt_with_bounds (nt_lo n) (nt_in_lo n) x n, ONone)
  | NClearIn => Ok (nt_with_bounds (nt_lo n) u64_max (nt_in_hi n) n, ONone)
  | NCapIn x => Ok (nt_with_bounds (nt_lo n) (if nt_in_lo n =? u64_max then nt_in_lo n else Z.min x (nt_in_lo n)) (nt_in_hi n) n, ONone)
  | NClearLo => Ok (nt_with_bounds None (nt_in_lo n) (nt_in_hi n) n, ONone)
  | NPostpone d => Ok (nt_with_rtt (nt_rtt n) (nt_rtt_at n + d) n, ONone)
  | NApp => Ok (nt_with_sp (sp_on_app_limited (nt_sp n)) n, ONone)
  | NNeut k => Ok (nt_with_sp (sp_on_neutered k (nt_sp n)) n, ONone)
  | NFull => Ok (nt_with_full true (nt_base n) (nt_stale n) (nt_queued n) n, ONone)
  end.
Definition nlog : Type := list (nop * nout).
Fixpoint nt_all (p : npar) (t0 rtt0 : Z) (ops : list nop) : res unit (net * nlog) :=
  match ops with
  | [] => Ok (nt_new t0 rtt0, [])
  | o :: ops => let* '(n, l) := nt_all p t0 rtt0 ops in let* '(n, x) := nt_step p o n in Ok (n, (o, x) :: l)
  end.

(** The samples of bandwidth and of the round trip that events reported *)
Definition bw_samples (l : nlog) : list Z := flat_map (fun x => match snd x with OEv c => match ce_bw c with Some b => [b] | None => [] end | _ => [] end) l.
Definition advances (l : nlog) : Z := Z.of_nat (length (filter (fun x => match fst x with NAdvance => true | _ => false end) l)).

(** The packet sent last; and the one sent last when the current round began *)
Fixpoint last_sent (l : nlog) : Z := match l with [] => 0 | (NSent _ _ n _ _, _) :: _ => n | _ :: l => last_sent l end.
Fixpoint round_mark (l : nlog) : option Z :=
  match l with
  | [] => None
  | (NRestart, _) :: l => Some (last_sent l)
  | (_, OEv c) :: l => if ce_end c then Some (last_sent l) else round_mark l
  | _ :: l => round_mark l
  end.
Fixpoint rounds_of (l : nlog) : Z := match l with [] => 0 | (_, OEv c) :: l => (if ce_end c then 1 else 0) + rounds_of l | _ :: l => rounds_of l end.
(** The bytes lost since the current round was begun, and the events with losses *)
Fixpoint round_lost (l : nlog) : Z :=
  match l with
  | [] | (NRestart, _) :: _ => 0
  | (NFinish _ c, _) :: l => if ce_end c then 0 else round_lost l
  | (_, OEv c) :: l => ce_lost c + round_lost l
  | _ :: l => round_lost l
  end.
Fixpoint round_losses (l : nlog) : Z :=
  match l with
  | [] | (NRestart, _) :: _ => 0
  | (NFinish _ c, _) :: l => if ce_end c then 0 else round_losses l
  | (_, OEv c) :: l => (if 0 <? ce_lost c then 1 else 0) + round_losses l
  | _ :: l => round_losses l
  end.
(** The round trip samples since the last one that was let expire, with that one or
    the initial value at the end *)
Fixpoint rtt_window (rtt0 : Z) (l : nlog) : list Z :=
  match l with
  | [] => [rtt0]
  | (NExpire c, OBool true) :: l => match ce_rtt c with Some r => [r] | None => rtt_window rtt0 l end
  | (_, OEv c) :: l => match ce_rtt c with Some r => r :: rtt_window rtt0 l | None => rtt_window rtt0 l end
  | _ :: l => rtt_window rtt0 l
  end.
(** When that shortest round trip was set: seen, let expire, or put off *)
Fixpoint rtt_since (t0 rtt0 : Z) (l : nlog) : Z :=
  match l with
  | [] => t0
  | (NPostpone d, _) :: l => rtt_since t0 rtt0 l + d
  | (NExpire c, OBool true) :: _ => ce_time c
  | (_, OEv c) :: l => match ce_rtt c with Some r => if forallb (fun x => r <? x) (rtt_window rtt0 l) then ce_time c else rtt_since t0 rtt0 l | None => rtt_since t0 rtt0 l end
  | _ :: l => rtt_since t0 rtt0 l
  end.
(** The best sample of the round, one that ended a round being the first of the next;
    likewise for inflight *)
Fixpoint round_best (l : nlog) : Z :=
  match l with
  | [] => 0
  | (_, OEv c) :: l => match ce_raw c with Some b => if ce_end c then b else Z.max (round_best l) b | None => round_best l end
  | _ :: l => round_best l
  end.
Fixpoint round_inflight (l : nlog) : Z :=
  match l with
  | [] => 0
  | (_, OEv c) :: l => if ce_end c && (0 <? ce_inf c) then ce_inf c else Z.max (round_inflight l) (ce_inf c)
  | _ :: l => round_inflight l
  end.
(** The least in flight in the round, and the rounds in a row found with more than
    the target *)
Fixpoint round_min (l : nlog) : Z :=
  match l with
  | [] | (NRestart, _) :: _ => u64_max
  | (NFinish _ c, _) :: l => if ce_end c then u64_max else round_min l
  | (NSent _ f _ _ _, _) :: l => Z.min (round_min l) f
  | (_, OEv c) :: l => Z.min (round_min l) (ce_flight c)
  | _ :: l => round_min l
  end.
Fixpoint queued_rounds (l : nlog) : Z :=
  match l with
  | [] | (NRestart, _) :: _ => 0
  | (NQueue target, _) :: l => if round_min l <? target then 0 else 1 + queued_rounds l
  | _ :: l => queued_rounds l
  end.
(** The checks without growth since the last growth, those limited by the
    application not counting if so configured *)
Fixpoint stale_rounds (p : npar) (l : nlog) : Z :=
  match l with
  | [] | (NGrowth _, OBool true) :: _ => 0
  | (NGrowth c, OBool false) :: l => match ce_last c with None => stale_rounds p l | Some s => (if np_ignore p && bp_app s then 0 else 1) + stale_rounds p l end
  | _ :: l => stale_rounds p l
  end.
Fixpoint sent_bytes (l : nlog) : Z := match l with [] => 0 | (NSent _ _ _ b true, _) :: l => b + sent_bytes l | _ :: l => sent_bytes l end.
Fixpoint acked_bytes (l : nlog) : Z := match l with [] => 0 | (_, OEv c) :: l => ce_acked c + acked_bytes l | _ :: l => acked_bytes l end.
Fixpoint lost_bytes (l : nlog) : Z := match l with [] => 0 | (_, OEv c) :: l => ce_lost c + lost_bytes l | _ :: l => lost_bytes l end.

(** The most delivered in the round over the flight of one packet; the upper bound
    last set; and whether a packet of the round reached it *)
Fixpoint round_delivered (l : nlog) : Z :=
  match l with
  | [] | (NRestart, _) :: _ => 0
  | (NFinish _ c, _) :: l => if ce_end c then 0 else round_delivered l
  | (_, OEv c) :: l => match ce_last c with Some s => if 0 <? ce_acked c then Z.max (round_delivered l) (ce_acked c + acked_bytes l - bp_acked s) else round_delivered l | None => round_delivered l end
  | _ :: l => round_delivered l
  end.
Fixpoint hi_of (l : nlog) : Z := match l with [] => u64_max | (NHi x, _) :: _ => x | _ :: l => hi_of l end.
Fixpoint round_limited (l : nlog) : bool :=
  match l with
  | [] | (NRestart, _) :: _ => false
  | (NFinish _ c, _) :: l => if ce_end c then false else round_limited l
  | (NSent _ f _ b _, _) :: l => round_limited l || (hi_of l <=? f + b)
  | _ :: l => round_limited l
  end.

(** Packet numbers grow, sizes are not negative, and times are instants *)
Fixpoint nsensible (ops : list nop) : Prop :=
  match ops with
  | [] => True
  | NSent t f n b _ :: ops => instant t /\ 0 <= b /\ 0 <= f /\ (forall t' f' n' b' r', In (NSent t' f' n' b' r') ops -> n' < n) /\ nsensible ops
  | NEvent t _ _ _ _ lost :: ops => instant t /\ Forall (fun x => 0 <= snd x) lost /\ nsensible ops
  | _ :: ops => nsensible ops
  end.
