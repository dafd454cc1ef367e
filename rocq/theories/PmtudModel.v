(** quiche/src/pmtud.rs.  Sizes are [Z]; all that occur are below 2^17. *)
Require Import Verif.Base Verif.Errors.

(** MAX_PROBES_DEFAULT, MIN_PLPMTU (pmtud.rs:22,27) *)
Definition MAX_PROBES_DEFAULT : Z := 3.
Definition MIN_PLPMTU : Z := 1200.

(** struct Pmtud (pmtud.rs:29-58) *)
Record pmtud : Type := mkPm {
  pm_pmtu : option Z;
  pm_probe : Z;
  pm_max : Z;
  pm_failed : option Z;       (* smallest failed probe *)
  pm_success : option Z;      (* largest successful probe *)
  pm_in_flight : bool;
  pm_failures : Z;
  pm_max_probes : Z }.

(** Pmtud::new (pmtud.rs:60-80) *)
Definition pm_new (max max_probes : Z) : pmtud :=
  mkPm None max max None None false 0 (if max_probes =? 0 then MAX_PROBES_DEFAULT else max_probes).

(** should_probe (pmtud.rs:84-92) *)
Definition pm_should_probe (p : pmtud) : bool :=
  negb (pm_in_flight p) &&
  match pm_pmtu p with None => true | Some _ => false end &&
  negb (match pm_failed p with Some f => f =? MIN_PLPMTU | None => false end).

(** get_current_mtu (pmtud.rs:104-108) *)
Definition pm_current (p : pmtud) : Z :=
  match pm_success p with Some s => s | None => MIN_PLPMTU end.

Definition pm_set_pmtu (s : Z) (p : pmtud) : pmtud :=                   (* 239-243 *)
  mkPm (Some s) s (pm_max p) (pm_failed p) (pm_success p) (pm_in_flight p) 0 (pm_max_probes p).
Definition pm_set_probe (s : Z) (p : pmtud) : pmtud :=
  mkPm (pm_pmtu p) s (pm_max p) (pm_failed p) (pm_success p) (pm_in_flight p) (pm_failures p) (pm_max_probes p).
Definition pm_restart (p : pmtud) : pmtud :=                            (* 219-225 *)
  mkPm None (Z.min (pm_max p) (pm_max p)) (pm_max p) None None (pm_in_flight p) 0 (pm_max_probes p).

(** update_probe_size (pmtud.rs:117-161) *)
Definition pm_update (p : pmtud) : pmtud :=
  match pm_failed p, pm_success p with
  | Some f, Some s =>
      if f <=? s then pm_restart p
      else if f - s <=? 1 then pm_set_pmtu s p
      else pm_set_probe ((s + f) / 2) p
  | Some f, None => pm_set_probe ((MIN_PLPMTU + f) / 2) p
  | None, Some s => pm_set_pmtu s p
  | None, None => pm_set_probe (pm_max p) p
  end.

(** set_in_flight (pmtud.rs:164-166) *)
Definition pm_set_in_flight (b : bool) (p : pmtud) : pmtud :=
  mkPm (pm_pmtu p) (pm_probe p) (pm_max p) (pm_failed p) (pm_success p) b (pm_failures p) (pm_max_probes p).

(** successful_probe (pmtud.rs:169-182) *)
Definition pm_successful (n : Z) (p : pmtud) : pmtud :=
  let n := Z.min n (pm_max p) in
  let s := match pm_success p with Some s => Z.max n s | None => n end in
  pm_set_in_flight false
    (pm_update (mkPm (pm_pmtu p) (pm_probe p) (pm_max p) (pm_failed p) (Some s) (pm_in_flight p) 0 (pm_max_probes p))).

(** failed_probe (pmtud.rs:185-215); the failure count is a u8 *)
Definition pm_fail (n : Z) (p : pmtud) : res error pmtud :=
  let n := Z.max n MIN_PLPMTU in
  let c := pm_failures p + 1 in
  if 255 <? c then Panic
  else if c <? pm_max_probes p then
    Ok (mkPm (pm_pmtu p) (pm_probe p) (pm_max p) (pm_failed p) (pm_success p) false c (pm_max_probes p))
  else
    let f := match pm_failed p with Some f => Z.min f n | None => n end in
    Ok (pm_set_in_flight false
      (pm_update (mkPm (pm_pmtu p) (pm_probe p) (pm_max p) (Some f) (pm_success p) (pm_in_flight p) 0 (pm_max_probes p)))).

(** revalidate_pmtu (pmtud.rs:230-237) *)
Definition pm_revalidate (p : pmtud) : pmtud :=
  match pm_pmtu p with
  | None => p
  | Some m => mkPm None (Z.min m (pm_max p)) (pm_max p) (pm_failed p) None (pm_in_flight p) 0 (pm_max_probes p)
  end.

(** What happens to it: a probe of the current probe size is sent when
    should_probe (path.rs:380-395, lib.rs:4591-4648), the outstanding probe is
    acknowledged (lib.rs:3528-3541) or declared lost (lib.rs:4293-4301), the
    application calls revalidate_pmtu (lib.rs:7705-7711).  The second component
    is the size of the outstanding probe. *)
Inductive pm_op : Type := PmProbe | PmAcked | PmLost | PmRevalidate.
Inductive pm_out : Type :=
| PoSent (n : Z) | PoAcked (n : Z) | PoLost (n : Z) | PoNone.

Definition pm_step (op : pm_op) (st : pmtud * option Z) : res error (pm_out * (pmtud * option Z)) :=
  let '(p, out) := st in
  match op with
  | PmProbe =>
      if pm_should_probe p
      then Ok (PoSent (pm_probe p), (pm_set_in_flight true p, Some (pm_probe p)))
      else Ok (PoNone, st)
  | PmAcked =>
      match out with
      | Some n => Ok (PoAcked n, (pm_successful n p, None))
      | None => Ok (PoNone, st)
      end
  | PmLost =>
      match out with
      | Some n => let* p := pm_fail n p in Ok (PoLost n, (p, None))
      | None => Ok (PoNone, st)
      end
  | PmRevalidate => Ok (PoNone, (pm_revalidate p, out))
  end.

Fixpoint pm_run (ops : list pm_op) (st : pmtud * option Z) : res error (list pm_out * (pmtud * option Z)) :=
  match ops with
  | [] => Ok ([], st)
  | op :: ops =>
      let* '(o, st) := pm_step op st in
      let* '(os, st) := pm_run ops st in
      Ok (o :: os, st)
  end.
