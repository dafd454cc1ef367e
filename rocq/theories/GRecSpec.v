(** What loss detection with BBR2 promises, with the ledger of RecoverySpec: every
    packet ever sent and what became of it.  A packet's time is the one it was
    stamped with. *)
Require Import Verif.Base Verif.Errors Verif.RecoveryModel Verif.RecoverySpec Verif.GRecModel.

(** A packet may be given up at time [now] if a packet sent later was acknowledged
    and either [thresh] packets, if there is such a threshold, or [delay] ns have
    passed; in the absence of any acknowledgement packet 0 may be given up after
    [delay]. *)
Definition gmay_give_up (delay : Z) (thresh : option Z) (now : Z) (led : ledger) (x : entry) : Prop :=
  (exists z, In z led /\ en_e z = en_e x /\ en_fate z = Acked /\ en_num x < en_num z /\
     ((exists t, thresh = Some t /\ en_num x + t <= en_num z) \/ en_at x + delay <= now)) \/
  (en_num x = 0 /\ en_at x + delay <= now /\ forall z, In z led -> en_e z = en_e x -> en_fate z <> Acked).

Definition ggive_up_some (delay : Z) (thresh : option Z) (now : Z) (e : epoch) (before after : ledger) : Prop :=
  Forall2 (fun x y => y = x \/
    (en_fate x = Out /\ en_e x = e /\ y = set_fate Lost x /\ gmay_give_up delay thresh now before x)) before after.

(** The oldest outstanding packet of its space *)
Definition oldest (led : ledger) (x : entry) : Prop :=
  In x led /\ en_fate x = Out /\ forall y, In y led -> en_e y = en_e x -> en_fate y = Out -> en_num x <= en_num y.

(** Nothing is kept too long: if a packet sent after the oldest outstanding one was
    acknowledged, the oldest one is within both limits, and its deadline is kept. *)
Definition gtimely (delay : Z) (thresh : option Z) (now : Z) (e : epoch) (v : grec) (led : ledger) : Prop :=
  forall x z, oldest led x -> en_e x = e -> In z led -> en_e z = e -> en_fate z = Acked -> en_num x < en_num z ->
    now < en_at x + delay /\ (forall t, thresh = Some t -> en_num z < en_num x + t) /\
    gs_loss_time (gget e v) = Some (en_at x + delay).

(** One call: [v] is the state after it, [x] what it reported *)
Definition gledger_step (fl : gpar) (v : grec) (o : rop) (x : rout) (led led' : ledger) : Prop :=
  match o with
  | RSent e p _ _ => led' = led ++ [mkEn e p (p_sent p) Out]
  | RAck e rs _ _ now _ =>
      let mid := map (ack_entry e rs) led in
      exists n b spur, x = OAck (n, b, total (fun y => acks e rs y && p_inf (en_p y)) led, spur) /\
      ggive_up_some (gdelay fl v) (gv_thresh v) now e mid led' /\ lost_reports n b mid led' /\
      (existsb (acks e rs) led = true -> gtimely (gdelay fl v) (gv_thresh v) now e v led')
  | RTimeout _ now =>
      exists e n b, x = OLost n b /\ ggive_up_some (gdelay fl v) (gv_thresh v) now e led led' /\ lost_reports n b led led'
  | RPathChange e now =>
      exists n b, x = OLost n b /\ ggive_up_some (gdelay fl v) (gv_thresh v) now e led led' /\ lost_reports n b led led' /\
      gtimely (gdelay fl v) (gv_thresh v) now e v led'
  | RDiscard e _ _ => led' = map (fun y => if epoch_eqb e (en_e y) && is_out y then set_fate Gone y else y) led
  | _ => led' = led
  end.

Inductive gexplains (fl : gpar) : list rop -> grec -> ledger -> grec -> ledger -> Prop :=
| gex_nil v led : gexplains fl [] v led v led
| gex_cons o ops v led v1 x led1 v' led' :
    grec_step fl o v = Ok (v1, x) -> gledger_step fl v1 o x led led1 ->
    gexplains fl ops v1 led1 v' led' -> gexplains fl (o :: ops) v led v' led'.
