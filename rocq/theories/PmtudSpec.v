(** Vocabulary of C47. *)
Require Import Verif.Base Verif.PmtudModel.

(** Probes sent, acknowledged and lost, in order *)
Fixpoint sizes_sent (os : list pm_out) : list Z :=
  match os with
  | [] => []
  | PoSent n :: tl => n :: sizes_sent tl
  | _ :: tl => sizes_sent tl
  end.
Fixpoint sizes_acked (os : list pm_out) : list Z :=
  match os with
  | [] => []
  | PoAcked n :: tl => n :: sizes_acked tl
  | _ :: tl => sizes_acked tl
  end.

(** A path that carries exactly the packets of at most [mtu] bytes *)
Definition true_of_path (mtu : Z) (o : pm_out) : Prop :=
  match o with
  | PoAcked n => n <= mtu
  | PoLost n => mtu < n
  | _ => True
  end.

(** Discovery has ended: nothing is outstanding and no probe is due. *)
Definition finished (st : pmtud * option Z) : Prop :=
  snd st = None /\ pm_should_probe (fst st) = false.

(** What Pmtud::new is given: at least 1200 bytes, a u8 *)
Definition valid_config (max max_probes : Z) : Prop := 1200 <= max /\ 0 <= max_probes <= 255.
Definition attempts (max_probes : Z) : Z := if max_probes =? 0 then 3 else max_probes.
