(** What the killswitch is for. *)
Require Import Verif.Base Verif.Assoc Verif.KillModel.

(** A state reached by some interleaving of spawns, tasks and at most one
    activation, with a map of [n] shards. *)
Definition reached (n : Z) (evs : list kev) (s : kst) : Prop := 0 < n /\ k_run n evs k_new = Ok s.

(** The call that was to spawn a task has returned: nothing, or an id. *)
Definition returned (id : Z) (s : kst) : Prop :=
  exists t, aget id (k_tasks s) = Some t /\ (t_call t = SpNone \/ t_call t = SpSome).
Definition returned_none (id : Z) (s : kst) : Prop :=
  exists t, aget id (k_tasks s) = Some t /\ t_call t = SpNone.
(** A future was handed to the runtime. *)
Definition spawned (id : Z) (s : kst) : Prop :=
  exists t, aget id (k_tasks s) = Some t /\ t_status t <> TNone.
(** Its future has ended, or was told to. *)
Definition ended (id : Z) (s : kst) : Prop :=
  exists t, aget id (k_tasks s) = Some t /\ (t_status t = TDropping \/ t_status t = TDone).
Definition gone (id : Z) (s : kst) : Prop :=
  exists t, aget id (k_tasks s) = Some t /\ t_status t = TDone.
Definition told (id : Z) (s : kst) : Prop :=
  exists t, aget id (k_tasks s) = Some t /\ t_abort t = true.
(** [killed_signal()] has resolved. *)
Definition all_killed (s : kst) : Prop := k_kill s = KDone.
Definition activated (evs : list kev) : Prop := In EvActivate evs.
