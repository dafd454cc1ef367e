(** What is said of a pool: what it holds, and when nothing is under way. *)
Require Import Verif.Base Verif.Assoc Verif.BufModel Verif.PoolModel.

(** A pool reached by threads that do anything, in any order. *)
Definition reached (n limit trim : Z) (evs : list pool_event) (s : pool) : Prop :=
  1 <= n /\ 0 <= limit /\ 0 <= trim /\ p_run evs (p_new n limit trim) = Ok s.

(** How many buffers the pool stores, in all its shards. *)
Definition stored (s : pool) : Z := asum (fun sh => zlen (sh_queue sh)) (p_shards s).

(** The buffers that user [id] has in hand, wherever it is. *)
Definition in_hand (ph : phase) : list item :=
  match ph with BPopped x | BHeld x | BReturn x | BPush x => [x] | BGet | BOver | BGone => [] end.
(** All buffers there are: those stored and those in hand. *)
Definition all_items (s : pool) : list item :=
  flat_map (fun p => sh_queue (snd p)) (p_shards s) ++ flat_map (fun p => in_hand (snd (snd p))) (p_ops s).

(** No get or drop is under way. *)
Definition quiet (s : pool) : Prop :=
  forall id i ph, aget id (p_ops s) = Some (i, ph) -> match ph with BHeld _ | BGone => True | _ => False end.
