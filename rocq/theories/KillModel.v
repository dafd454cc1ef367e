(** The task killswitch (task-killswitch/src/lib.rs): tasks are spawned through
    it from any number of threads, and one activation aborts all of them.

    The model is the set of interleavings of atomic steps.  What is atomic: one
    access to [activated]; one access to the entry of a task in the map, which
    is made with the lock of the map's shard held; the visit of one shard by
    [retain].  The loads and stores of [activated] are relaxed in the code; the
    model lets every step see the latest value, which the shard locks give for
    the one use that matters (the test made with the lock held).

    What tokio does is modelled as: a spawned future is first polled at some
    time or never; it ends when it is done, when it panics, or, after an abort,
    when it yields; an aborted future that was never polled is dropped without
    running.  Task ids are taken to be all different (tokio only promises that
    no two running tasks share one, but draws them from a counter). *)
Require Import Verif.Base Verif.Assoc.

(** Where a future is: not spawned; spawned but never polled; polled, so its
    drop guard exists; ended, its guard about to be dropped; gone. *)
Inductive kstatus : Type := TNone | TReady | TRunning | TDropping | TDone.

(** Where the call to [spawn_task] is (lib.rs:101-125): past the first test;
    past [tokio::spawn]; refused by [add_task_if]; returned [None]; returned
    [Some]. *)
Inductive kcall : Type := SpChecked | SpAdding | SpFailed | SpNone | SpSome.

Record ktask : Type := mkT { t_status : kstatus; t_abort : bool; t_call : kcall }.

(** TaskEntry (lib.rs:153-159) *)
Inductive kentry : Type := Handle | Tombstone.

(** The thread started by [activate] (lib.rs:137-142): not started; about to
    visit a shard; over, with [signal_killed] dropped. *)
Inductive kkill : Type := KIdle | KRun (shard : Z) | KDone.

(** TaskKillswitch and ActiveTasks (lib.rs:56-70, 161-164) *)
Record kst : Type := mkK {
  k_act : bool;
  k_tasks : list (Z * ktask);
  k_next : Z;
  k_map : list (Z * kentry);
  k_kill : kkill }.

(** new (lib.rs:73-83) *)
Definition k_new : kst := mkK false [] 0 [] KIdle.

Inductive kev : Type :=
| EvCheck            (* a call to spawn_task starts: the first test *)
| EvSpawn (id : Z)   (* ... tokio::spawn *)
| EvAdd (id : Z)     (* ... add_task_if *)
| EvAbort (id : Z)   (* ... handle.abort() after a refusal *)
| EvPoll (id : Z)    (* the future is polled for the first time *)
| EvEnd (id : Z)     (* the future is done, panics, or is dropped after an abort *)
| EvDrop (id : Z)    (* its guard is dropped *)
| EvActivate         (* activate() *)
| EvKill.            (* the next step of the thread that kills *)

Definition k_put (id : Z) (t : ktask) (s : kst) : kst :=
  mkK (k_act s) (aset id t (k_tasks s)) (k_next s) (k_map s) (k_kill s).
Definition k_set_map (m : list (Z * kentry)) (s : kst) : kst :=
  mkK (k_act s) (k_tasks s) (k_next s) m (k_kill s).

(** The first lines of spawn_task (lib.rs:104-106) *)
Definition k_check (s : kst) : kst :=
  let t := mkT TNone false (if k_act s then SpNone else SpChecked) in
  mkK (k_act s) (aset (k_next s) t (k_tasks s)) (k_next s + 1) (k_map s) (k_kill s).

(** add_task_if with [cond] = not activated, and the return of spawn_task
    (lib.rs:176-198, 118-124) *)
Definition k_add (id : Z) (t : ktask) (s : kst) : res unit kst :=
  match aget id (k_map s) with
  | None =>
      if k_act s then Ok (k_put id (mkT (t_status t) (t_abort t) SpFailed) s)
      else Ok (k_put id (mkT (t_status t) (t_abort t) SpSome) (k_set_map (aset id Handle (k_map s)) s))
  | Some Tombstone => Ok (k_put id (mkT (t_status t) (t_abort t) SpSome) (k_set_map (adel id (k_map s)) s))
  | Some Handle => Panic
  end.

(** remove_task (lib.rs:200-212) *)
Definition k_remove (id : Z) (m : list (Z * kentry)) : list (Z * kentry) :=
  match aget id m with
  | None => aset id Tombstone m
  | Some Tombstone => m
  | Some Handle => adel id m
  end.

Definition in_shard (n k id : Z) : bool := (id mod n) =? k.

(** kill_all (lib.rs:167-174) on one shard: abort what has a handle, remove
    every entry *)
Definition k_kill_shard (n k : Z) (s : kst) : kst :=
  mkK (k_act s)
      (map (fun e => let '(id, t) := e in
         match aget id (k_map s) with
         | Some Handle => if in_shard n k id then (id, mkT (t_status t) true (t_call t)) else (id, t)
         | _ => (id, t)
         end) (k_tasks s))
      (k_next s)
      (filter (fun e => negb (in_shard n k (fst e))) (k_map s))
      (KRun (k + 1)).

(** One step; [Err] means that it cannot happen now.  [n] is the number of
    shards of the map. *)
Definition k_step (n : Z) (ev : kev) (s : kst) : res unit kst :=
  match ev with
  | EvCheck => Ok (k_check s)
  | EvSpawn id =>
      match aget id (k_tasks s) with
      | Some (mkT TNone a SpChecked) => Ok (k_put id (mkT TReady a SpAdding) s)
      | _ => Err tt
      end
  | EvAdd id =>
      match aget id (k_tasks s) with
      | Some (mkT st a SpAdding) => k_add id (mkT st a SpAdding) s
      | _ => Err tt
      end
  | EvAbort id =>
      match aget id (k_tasks s) with
      | Some (mkT st _ SpFailed) => Ok (k_put id (mkT st true SpNone) s)
      | _ => Err tt
      end
  | EvPoll id =>
      match aget id (k_tasks s) with
      | Some (mkT TReady false c) => Ok (k_put id (mkT TRunning false c) s)
      | _ => Err tt
      end
  | EvEnd id =>
      match aget id (k_tasks s) with
      | Some (mkT TRunning a c) => Ok (k_put id (mkT TDropping a c) s)
      | Some (mkT TReady true c) => Ok (k_put id (mkT TDone true c) s)
      | _ => Err tt
      end
  | EvDrop id =>
      match aget id (k_tasks s) with
      | Some (mkT TDropping a c) =>
          Ok (k_put id (mkT TDone a c) (k_set_map (k_remove id (k_map s)) s))
      | _ => Err tt
      end
  | EvActivate =>
      (* activate (lib.rs:127-143): the assertion, then the thread *)
      if k_act s then Panic
      else Ok (mkK true (k_tasks s) (k_next s) (k_map s) (KRun 0))
  | EvKill =>
      match k_kill s with
      | KRun k =>
          if k <? n then Ok (k_kill_shard n k s)
          else Ok (mkK (k_act s) (k_tasks s) (k_next s) (k_map s) KDone)
      | _ => Err tt
      end
  end.

Fixpoint k_run (n : Z) (evs : list kev) (s : kst) : res unit kst :=
  match evs with
  | [] => Ok s
  | ev :: evs => let* s := k_step n ev s in k_run n evs s
  end.
