(** The pool of byte buffers (buffer-pool/src/lib.rs), as atomic steps of any
    number of threads in any order: each step is one operation on an atomic
    counter or on a queue.

    Simplified: a buffer carries a number, given when it is made, that tells it
    from all others; the counter of a shard is unbounded above, and a
    decrement below zero, which would wrap, is a [Panic]. *)
Require Import Verif.Base Verif.Assoc Verif.BufModel.

Definition item : Type := (Z * cbuf)%type.

(** QueueShard (lib.rs:69-81), with its part of the gauges of idle buffers and
    bytes (the gauges are shared by the shards) *)
Record shard : Type := mkSh { sh_queue : list item; sh_cnt : Z; sh_idle : Z; sh_idle_bytes : Z }.

(** Where a thread is that uses a buffer: in get (lib.rs:168-183), holding the
    buffer, or in drop (lib.rs:114-138) *)
Inductive phase : Type :=
| BGet                    (* get: the shard is chosen *)
| BPopped (x : item)      (* get: popped, the counter not yet lowered *)
| BHeld (x : item)        (* the caller has the buffer *)
| BReturn (x : item)      (* drop: the buffer was cleaned and is worth keeping *)
| BPush (x : item)        (* drop: counted, not yet pushed *)
| BOver                   (* drop: counted, but the shard was full *)
| BGone.                  (* dropped *)

(** Pool (lib.rs:60-66); [p_fresh] numbers buffers *)
Record pool : Type := mkPool {
  p_shards : list (Z * shard); p_n : Z; p_max : Z; p_trim : Z; p_next : Z;
  p_ops : list (Z * (Z * phase)); p_op : Z; p_fresh : Z }.

Definition empty_shard : shard := mkSh [] 0 0 0.
(** new (lib.rs:149-155): [limit / n] buffers in each shard *)
Definition p_new (n limit trim : Z) : pool :=
  mkPool (map (fun i => (Z.of_nat i, empty_shard)) (seq 0 (Z.to_nat n))) n (limit / n) trim 0 [] 0 0.

Inductive pool_event : Type :=
| PvGet                        (* get: next_shard.fetch_add *)
| PvPop (id : Z)               (* get: queue.pop *)
| PvSub (id : Z)               (* get: elem_cnt.fetch_sub *)
| PvEmpty                      (* get_empty *)
| PvOwned (b : cbuf)           (* from_owned *)
| PvUse (id : Z) (b : cbuf)    (* the caller changes the buffer it holds *)
| PvTake (id : Z)              (* into_inner *)
| PvDrop (id : Z)              (* drop: reuse *)
| PvAdd (id : Z)               (* drop: elem_cnt.fetch_add *)
| PvPush (id : Z)              (* drop: queue.push *)
| PvUndo (id : Z).             (* drop: elem_cnt.fetch_sub *)

Definition set_ops (s : pool) ops := mkPool (p_shards s) (p_n s) (p_max s) (p_trim s) (p_next s) ops (p_op s) (p_fresh s).
Definition set_phase (id i : Z) (ph : phase) (s : pool) : pool := set_ops s (aset id (i, ph) (p_ops s)).
Definition set_shard (i : Z) (sh : shard) (s : pool) : pool :=
  mkPool (aset i sh (p_shards s)) (p_n s) (p_max s) (p_trim s) (p_next s) (p_ops s) (p_op s) (p_fresh s).
Definition get_shard (i : Z) (s : pool) : shard := match aget i (p_shards s) with Some sh => sh | None => empty_shard end.
Definition shard_at (s : pool) : Z := p_next s mod p_n s.
(** A new user of shard [i] in phase [ph] *)
Definition start (i : Z) (ph : phase) (bump : bool) (fresh : Z) (s : pool) : pool :=
  mkPool (p_shards s) (p_n s) (p_max s) (p_trim s) (if bump then (p_next s + 1) mod 18446744073709551616 else p_next s)
    (aset (p_op s) (i, ph) (p_ops s)) (p_op s + 1) fresh.
Definition cap_of (x : item) : Z := v_cap (cb_inner (snd x)).

(** One step; an event that is not possible now is an [Err] *)
Definition p_step (ev : pool_event) (s : pool) : res unit pool :=
  match ev with
  | PvGet => Ok (start (shard_at s) BGet true (p_fresh s) s)
  | PvPop id =>
      match aget id (p_ops s) with
      | Some (i, BGet) =>
          let sh := get_shard i s in
          match sh_queue sh with
          | x :: q => Ok (set_phase id i (BPopped x) (set_shard i (mkSh q (sh_cnt sh) (sh_idle sh) (sh_idle_bytes sh)) s))
          | [] => Ok (let s' := set_phase id i (BHeld (p_fresh s, cb_default)) s in
                      mkPool (p_shards s') (p_n s') (p_max s') (p_trim s') (p_next s') (p_ops s') (p_op s') (p_fresh s' + 1))
          end
      | _ => Err tt
      end
  | PvSub id =>
      match aget id (p_ops s) with
      | Some (i, BPopped x) =>
          let sh := get_shard i s in
          if (sh_cnt sh <? 1) || (sh_idle sh <? 1) || (sh_idle_bytes sh <? cap_of x) then Panic
          else Ok (set_phase id i (BHeld x) (set_shard i (mkSh (sh_queue sh) (sh_cnt sh - 1) (sh_idle sh - 1) (sh_idle_bytes sh - cap_of x)) s))
      | _ => Err tt
      end
  | PvEmpty => Ok (start (shard_at s) (BHeld (p_fresh s, cb_default)) false (p_fresh s + 1) s)
  | PvOwned b => Ok (start (shard_at s) (BHeld (p_fresh s, b)) true (p_fresh s + 1) s)
  | PvUse id b =>
      match aget id (p_ops s) with Some (i, BHeld x) => Ok (set_phase id i (BHeld (fst x, b)) s) | _ => Err tt end
  | PvTake id =>
      match aget id (p_ops s) with Some (i, BHeld x) => Ok (set_phase id i BGone s) | _ => Err tt end
  | PvDrop id =>
      match aget id (p_ops s) with
      | Some (i, BHeld x) =>
          let '(keep, b) := cb_reuse (p_trim s) (snd x) in
          Ok (set_phase id i (if keep then BReturn (fst x, b) else BGone) s)
      | _ => Err tt
      end
  | PvAdd id =>
      match aget id (p_ops s) with
      | Some (i, BReturn x) =>
          let sh := get_shard i s in
          if sh_cnt sh <? p_max s
          then Ok (set_phase id i (BPush x) (set_shard i (mkSh (sh_queue sh) (sh_cnt sh + 1) (sh_idle sh + 1) (sh_idle_bytes sh + cap_of x)) s))
          else Ok (set_phase id i BOver (set_shard i (mkSh (sh_queue sh) (sh_cnt sh + 1) (sh_idle sh) (sh_idle_bytes sh)) s))
      | _ => Err tt
      end
  | PvPush id =>
      match aget id (p_ops s) with
      | Some (i, BPush x) =>
          let sh := get_shard i s in
          Ok (set_phase id i BGone (set_shard i (mkSh (sh_queue sh ++ [x]) (sh_cnt sh) (sh_idle sh) (sh_idle_bytes sh)) s))
      | _ => Err tt
      end
  | PvUndo id =>
      match aget id (p_ops s) with
      | Some (i, BOver) =>
          let sh := get_shard i s in
          if sh_cnt sh <? 1 then Panic
          else Ok (set_phase id i BGone (set_shard i (mkSh (sh_queue sh) (sh_cnt sh - 1) (sh_idle sh) (sh_idle_bytes sh)) s))
      | _ => Err tt
      end
  end.

Fixpoint p_run (evs : list pool_event) (s : pool) : res unit pool :=
  match evs with [] => Ok s | ev :: evs => let* s := p_step ev s in p_run evs s end.
