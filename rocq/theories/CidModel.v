(** quiche/src/cid.rs: connection ids, and the code of lib.rs that announces,
    retires and assigns them to paths. *)
Require Import Verif.Base Verif.Errors Verif.TpModel.

(** ConnectionIdEntry (cid.rs:80-94) *)
Record ent := mkE { e_cid : list Z; e_seq : Z; e_tok : option Z; e_pid : option Z }.

(** ConnectionIdentifiers (cid.rs:221-259), with its two
    BoundedNonEmptyConnectionIdVecDeque (cid.rs:96-103) and its
    BoundedConnectionIdSeqSet (cid.rs:45-52) given as content and capacity.  The
    hash set is a list without repetitions.  largest_destination_seq is written
    but never read, and left out. *)
Record cids := mkC {
  c_d : list ent; c_dcap : Z;
  c_s : list ent; c_scap : Z;
  c_adv : list Z;
  c_ret : list Z; c_rcap : Z;
  c_retired : list (list Z);
  c_lrpt : Z;
  c_next : Z;
  c_rpt : Z;
  c_lim : Z;
  c_zs : bool; c_zd : bool }.

(** Field updates. *)
Definition w_d d s := mkC d (c_dcap s) (c_s s) (c_scap s) (c_adv s) (c_ret s) (c_rcap s) (c_retired s) (c_lrpt s) (c_next s) (c_rpt s) (c_lim s) (c_zs s) (c_zd s).
Definition w_s x s := mkC (c_d s) (c_dcap s) x (c_scap s) (c_adv s) (c_ret s) (c_rcap s) (c_retired s) (c_lrpt s) (c_next s) (c_rpt s) (c_lim s) (c_zs s) (c_zd s).
Definition w_adv x s := mkC (c_d s) (c_dcap s) (c_s s) (c_scap s) x (c_ret s) (c_rcap s) (c_retired s) (c_lrpt s) (c_next s) (c_rpt s) (c_lim s) (c_zs s) (c_zd s).
Definition w_ret x s := mkC (c_d s) (c_dcap s) (c_s s) (c_scap s) (c_adv s) x (c_rcap s) (c_retired s) (c_lrpt s) (c_next s) (c_rpt s) (c_lim s) (c_zs s) (c_zd s).
Definition w_retired x s := mkC (c_d s) (c_dcap s) (c_s s) (c_scap s) (c_adv s) (c_ret s) (c_rcap s) x (c_lrpt s) (c_next s) (c_rpt s) (c_lim s) (c_zs s) (c_zd s).
Definition w_lrpt x s := mkC (c_d s) (c_dcap s) (c_s s) (c_scap s) (c_adv s) (c_ret s) (c_rcap s) (c_retired s) x (c_next s) (c_rpt s) (c_lim s) (c_zs s) (c_zd s).
Definition w_next x s := mkC (c_d s) (c_dcap s) (c_s s) (c_scap s) (c_adv s) (c_ret s) (c_rcap s) (c_retired s) (c_lrpt s) x (c_rpt s) (c_lim s) (c_zs s) (c_zd s).
Definition w_rpt x s := mkC (c_d s) (c_dcap s) (c_s s) (c_scap s) (c_adv s) (c_ret s) (c_rcap s) (c_retired s) (c_lrpt s) (c_next s) x (c_lim s) (c_zs s) (c_zd s).
Definition w_lim x cap s := mkC (c_d s) (c_dcap s) (c_s s) cap (c_adv s) (c_ret s) (c_rcap s) (c_retired s) (c_lrpt s) (c_next s) (c_rpt s) x (c_zs s) (c_zd s).

Definition is_empty {A} (l : list A) : bool := match l with [] => true | _ => false end.

(** ConnectionIdentifiers::new (cid.rs:265-320), then set_initial_dcid
    (cid.rs:427-439), with initial path 0.  Both happen before any other
    operation modelled here. *)
Definition cids_new (dlimit : Z) (scid : list Z) (stok : option Z) (dcid : list Z) (dtok : option Z) : cids :=
  let dlimit := if dlimit <? 2 then 2 else dlimit in
  mkC [mkE dcid 0 dtok (Some 0)] dlimit [mkE scid 0 stok (Some 0)] 3 [] [] (dlimit * 3) [] 0 1 0 2 (is_empty scid) (is_empty dcid).

(** set_source_conn_id_limit (cid.rs:323-334).  [v] is below 2^63. *)
Definition set_limit (v : Z) (s : cids) : cids :=
  if 2 <=? v then w_lim v (if c_scap s <? 2 * v - 1 then 2 * v - 1 else c_scap s) s else s.

(** BoundedNonEmptyConnectionIdVecDeque::get, insert, remove (cid.rs:129-199) *)
Definition dq_get (seq : Z) (l : list ent) : option ent := find (fun e => e_seq e =? seq) l.
Fixpoint dq_replace (e : ent) (l : list ent) : list ent :=
  match l with
  | [] => []
  | x :: l => if e_seq x =? e_seq e then e :: l else x :: dq_replace e l
  end.
Definition dq_insert (e : ent) (cap : Z) (l : list ent) : res error (list ent) :=
  match dq_get (e_seq e) l with
  | Some _ => Ok (dq_replace e l)
  | None => if cap <=? zlen l then Err IdLimit else Ok (l ++ [e])
  end.
Fixpoint dq_del (seq : Z) (l : list ent) : list ent :=
  match l with
  | [] => []
  | x :: l => if e_seq x =? seq then l else x :: dq_del seq l
  end.
Definition dq_remove (seq : Z) (l : list ent) : res error (option ent * list ent) :=
  if zlen l <=? 1 then Err OutOfIdentifiers
  else match dq_get seq l with
       | Some e => Ok (Some e, dq_del seq l)
       | None => Ok (None, l)
       end.

(** get_oldest (cid.rs:124-126) *)
Definition oldest (l : list ent) : res error ent := match l with [] => Panic | e :: _ => Ok e end.

(** min of an iterator *)
Fixpoint min_of (l : list Z) : option Z :=
  match l with
  | [] => None
  | x :: l => match min_of l with None => Some x | Some m => Some (Z.min x m) end
  end.

(** lowest_usable_scid_seq (cid.rs:644-656), lowest_available_dcid_seq (cid.rs:661-672) *)
Definition lowest_usable (s : cids) : option Z :=
  min_of (map e_seq (filter (fun e => c_rpt s <=? e_seq e) (c_s s))).
Definition lowest_available (s : cids) : option Z :=
  min_of (map e_seq (filter (fun e => match e_pid e with None => true | Some _ => false end) (c_d s))).

(** mark_advertise_new_scid_seq (cid.rs:733-745) *)
Fixpoint del_first (x : Z) (l : list Z) : list Z :=
  match l with
  | [] => []
  | y :: l => if y =? x then l else y :: del_first x l
  end.
Definition mark_adv (seq : Z) (advertise : bool) (s : cids) : cids :=
  w_adv (if advertise then c_adv s ++ [seq] else del_first seq (c_adv s)) s.

(** BoundedConnectionIdSeqSet::insert, remove (cid.rs:63-73) and
    mark_retire_dcid_seq (cid.rs:751-761) *)
Definition set_insert (x cap : Z) (l : list Z) : res error (list Z) :=
  if cap <=? zlen l then Err IdLimit
  else Ok (if existsb (Z.eqb x) l then l else l ++ [x]).
Definition mark_retire (seq : Z) (s : cids) : res error unit * cids :=
  match set_insert seq (c_rcap s) (c_ret s) with
  | Ok l => (Ok tt, w_ret l s)
  | Err e => (Err e, s)
  | Panic => (Panic, s)
  end.
Definition unmark_retire (seq : Z) (s : cids) : cids := w_ret (del_first seq (c_ret s)) s.

(** new_scid (cid.rs:378-424), with the arguments of Connection::new_scid
    (lib.rs:7324-7334): there is always a reset token, the id is advertised, and
    not yet used on a path. *)
Definition new_scid (cid : list Z) (tok : Z) (retire_if_needed : bool) (s : cids) : res error Z * cids :=
  if c_zs s then (Err InvalidState, s)
  else
    let go (s : cids) :=
      match find (fun e => cid_eqb (e_cid e) cid) (c_s s) with
      | Some e =>
          match e_tok e with
          | Some t => if t =? tok then (Ok (e_seq e), s) else (Err InvalidState, s)
          | None => (Err InvalidState, s)
          end
      | None =>
          let seq := c_next s in
          match dq_insert (mkE cid seq (Some tok) None) (c_scap s) (c_s s) with
          | Ok l => (Ok seq, mark_adv seq true (w_next (seq + 1) (w_s l s)))
          | Err e => (Err e, s)
          | Panic => (Panic, s)
          end
      end in
    if c_lim s <=? zlen (c_s s) then
      if negb retire_if_needed then (Err IdLimit, s)
      else match lowest_usable s with
           | None => (Err InvalidState, s)
           | Some l => go (w_rpt (l + 1) s)
           end
    else go s.

(** retire_scid (cid.rs:564-589).  The path ids of source ids are left out. *)
Definition retire_scid (seq : Z) (pkt_dcid : list Z) (s : cids) : res error unit * cids :=
  if c_next s <=? seq then (Err InvalidState, s)
  else match dq_remove seq (c_s s) with
       | Ok (Some e, l) =>
           let s := w_s l s in
           if cid_eqb (e_cid e) pkt_dcid then (Err InvalidState, s)
           else
             let s := w_retired (c_retired s ++ [e_cid e]) s in
             match lowest_usable s with
             | None => (Err InvalidState, s)
             | Some l => (Ok tt, w_rpt l s)
             end
       | Ok (None, _) => (Ok tt, s)
       | Err e => (Err e, s)
       | Panic => (Panic, s)
       end.

(** The retain_mut loop of new_dcid (cid.rs:207-218, 525-536): the entries kept, the
    pairs of retired number and path, the set of numbers to retire, and the
    first error. *)
Fixpoint retire_loop (rpt rcap : Z) (l : list ent) (ret : list Z) : list ent * list (Z * Z) * list Z * option error :=
  match l with
  | [] => ([], [], ret, None)
  | e :: l =>
      if e_seq e <? rpt then
        match set_insert (e_seq e) rcap ret with
        | Ok ret =>
            let '(k, p, ret, err) := retire_loop rpt rcap l ret in
            (k, match e_pid e with Some pid => (e_seq e, pid) :: p | None => p end, ret, err)
        | _ =>
            let '(k, p, ret, _) := retire_loop rpt rcap l ret in
            (k, match e_pid e with Some pid => (e_seq e, pid) :: p | None => p end, ret, Some IdLimit)
        end
      else
        let '(k, p, ret, err) := retire_loop rpt rcap l ret in (e :: k, p, ret, err)
  end.

(** new_dcid (cid.rs:450-552).  The check of line 519 repeats that of line 479. *)
Definition new_dcid (cid : list Z) (seq tok rpt : Z) (s : cids) : res error unit * list (Z * Z) * cids :=
  if c_zd s then (Err InvalidState, [], s)
  else match find (fun e => cid_eqb (e_cid e) cid || (e_seq e =? seq)) (c_d s) with
  | Some e =>
      if negb (cid_eqb (e_cid e) cid) || negb (e_seq e =? seq) || negb (match e_tok e with Some t => t =? tok | None => false end)
      then (Err InvalidFrame, [], s) else (Ok tt, [], s)
  | None =>
      if seq <? rpt then (Err InvalidFrame, [], s)
      else if seq <? c_lrpt s then let '(r, s) := mark_retire seq s in (r, [], s)
      else
        let '(p, err, s) :=
          if c_lrpt s <? rpt then
            let '(k, p, ret, err) := retire_loop rpt (c_rcap s) (c_d s) (c_ret s) in
            (p, err, w_lrpt rpt (w_ret ret (w_d k s)))
          else ([], None, s) in
        match dq_insert (mkE cid seq (Some tok) None) (c_dcap s) (c_d s) with
        | Ok l => (match err with Some e => Err e | None => Ok tt end, p, w_d l s)
        | Err e => (Err e, p, s)
        | Panic => (Panic, p, s)
        end
  end.

(** retire_dcid (cid.rs:604-614) *)
Definition retire_dcid (seq : Z) (s : cids) : res error (option Z) * cids :=
  if c_zd s then (Err InvalidState, s)
  else match dq_remove seq (c_d s) with
       | Ok (Some e, l) =>
           match mark_retire seq (w_d l s) with
           | (Ok _, s) => (Ok (e_pid e), s)
           | (Err e, s) => (Err e, s)
           | (Panic, s) => (Panic, s)
           end
       | Ok (None, _) => (Err InvalidState, s)
       | Err e => (Err e, s)
       | Panic => (Panic, s)
       end.

(** link_dcid_to_path_id (cid.rs:633-639).  It fails when there is no such entry; it is only
    called with the number of an entry. *)
Fixpoint link (seq pid : Z) (l : list ent) : list ent :=
  match l with
  | [] => []
  | e :: l => if e_seq e =? seq then mkE (e_cid e) (e_seq e) (e_tok e) (Some pid) :: l else e :: link seq pid l
  end.

(** get_new_connection_id_frame_for (cid.rs:811-821): number, retire_prior_to, id and token *)
Definition new_cid_frame (seq : Z) (s : cids) : res error (Z * Z * list Z * Z) :=
  match dq_get seq (c_s s) with
  | Some e => match e_tok e with Some t => Ok (seq, c_rpt s, e_cid e, t) | None => Err InvalidState end
  | None => Err InvalidState
  end.

(** The connection: the ids, the active_dcid_seq of each path (path.rs:135) by path
    id, and the active path.  Paths are only added; the slab of path.rs can also
    reuse the slot of a path without destination id. *)
Record cst := mkX { x_ids : cids; x_paths : list (option Z); x_active : Z }.
Definition x_init (s : cids) : cst := mkX s [Some 0] 0.

Definition path_seq (x : cst) (pid : Z) : option Z := match zget (x_paths x) pid with Some o => o | None => None end.
Definition known_pid (pid : Z) (x : cst) : bool := (0 <=? pid) && (pid <? zlen (x_paths x)).
Fixpoint set_nth (n : nat) (v : option Z) (l : list (option Z)) : list (option Z) :=
  match l, n with
  | [], _ => []
  | _ :: l, O => v :: l
  | x :: l, S n => x :: set_nth n v l
  end.
Definition set_path (pid : Z) (v : option Z) (x : cst) : cst :=
  mkX (x_ids x) (if pid <? 0 then x_paths x else set_nth (Z.to_nat pid) v (x_paths x)) (x_active x).
Definition with_ids (s : cids) (x : cst) : cst := mkX s (x_paths x) (x_active x).

(** Gives a path a free destination id if there is one (lib.rs:7412-7419, 8725-8744). *)
Definition reassign (pid : Z) (x : cst) : cst :=
  match lowest_available (x_ids x) with
  | Some q => set_path pid (Some q) (with_ids (w_d (link q pid (c_d (x_ids x))) (x_ids x)) x)
  | None => set_path pid None x
  end.

(** The loop over retired path ids (lib.rs:8717-8745). *)
Fixpoint reassign_all (l : list (Z * Z)) (x : cst) : cst :=
  match l with
  | [] => x
  | (q, pid) :: l =>
      reassign_all l (match path_seq x pid with
                      | Some a => if a =? q then reassign pid x else x
                      | None => x
                      end)
  end.

(** The loop over paths without destination id after each packet (lib.rs:3725-3744). *)
Fixpoint fill (pids : list Z) (x : cst) : cst :=
  match pids with
  | [] => x
  | pid :: pids =>
      match path_seq x pid with
      | Some _ => fill pids x
      | None =>
          if c_zd (x_ids x) then fill pids (set_path pid (Some 0) x)
          else match lowest_available (x_ids x) with
               | None => x
               | Some _ => fill pids (reassign pid x)
               end
      end
  end.
Definition all_pids (x : cst) : list Z := map Z.of_nat (seq 0 (length (x_paths x))).

(** The destination id of a packet sent on a path (lib.rs:4402-4405). *)
Definition send_dcid (pid : Z) (x : cst) : res error (list Z) :=
  match path_seq x pid with
  | None => Err OutOfIdentifiers
  | Some q => match dq_get q (c_d (x_ids x)) with Some e => Ok (e_cid e) | None => Err InvalidState end
  end.

Inductive cid_op : Type :=
| NewScid (cid : list Z) (tok : Z) (retire : bool)      (* Connection::new_scid *)
| GotRetire (seq : Z) (pkt_dcid : list Z)               (* RETIRE_CONNECTION_ID (lib.rs:8751-8767) *)
| SetLimit (v : Z)                                      (* the peer's active_connection_id_limit *)
| SendNewCid                                            (* one NEW_CONNECTION_ID frame (lib.rs:4692-4703) *)
| LostNewCid (seq : Z)                                  (* lib.rs:4285-4287 *)
| PopRetired                                            (* Connection::retired_scid_next *)
| GotNewCid (cid : list Z) (seq tok rpt : Z)            (* NEW_CONNECTION_ID (lib.rs:8695-8749) *)
| AfterRecv                                             (* the end of recv_single *)
| RetireDcid (seq : Z) (other_usable : bool)            (* Connection::retire_dcid (lib.rs:7386-7423) *)
| SendRetire (pid seq : Z)                              (* one RETIRE_CONNECTION_ID frame (lib.rs:4945-4967) *)
| LostRetire (seq : Z)                                  (* lib.rs:4289-4291 *)
| NewPath (client : bool)                               (* create_path_on_client (lib.rs:9173-9214), or a new path at the server *)
| PeerMigrated (pid : Z) (disable_dcid_reuse : bool)    (* on_peer_migrated (lib.rs:9150-9170) *)
| Migrate (pid : Z).                                    (* Connection::migrate to a known path (lib.rs:7237-7289) *)

Inductive cid_out : Type :=
| OSeq (seq : Z)
| OFrame (seq rpt : Z) (cid : list Z) (tok : Z)
| ORetired (cid : option (list Z))
| OUnit
| OFail (e : error)
| OPanic.

Definition out_of {A} (f : A -> cid_out) (r : res error A) : cid_out :=
  match r with Ok a => f a | Err e => OFail e | Panic => OPanic end.

Definition cid_step (op : cid_op) (x : cst) : cid_out * cst :=
  let s := x_ids x in
  match op with
  | NewScid cid tok retire => let '(r, s) := new_scid cid tok retire s in (out_of OSeq r, with_ids s x)
  | GotRetire seq dcid =>
      if c_zs s then (OFail InvalidState, x)
      else let '(r, s) := retire_scid seq dcid s in (out_of (fun _ => OUnit) r, with_ids s x)
  | SetLimit v => (OUnit, with_ids (set_limit v s) x)
  | SendNewCid =>
      match c_adv s with
      | [] => (OUnit, x)
      | seq :: _ =>
          match new_cid_frame seq s with
          | Ok (q, r, c, t) => (OFrame q r c t, with_ids (mark_adv seq false s) x)
          | Err e => (OFail e, x)
          | Panic => (OPanic, x)
          end
      end
  | LostNewCid seq => (OUnit, with_ids (mark_adv seq true s) x)
  | PopRetired =>
      match c_retired s with
      | [] => (ORetired None, x)
      | c :: l => (ORetired (Some c), with_ids (w_retired l s) x)
      end
  | GotNewCid cid seq tok rpt =>
      if c_zd s then (OFail InvalidState, x)
      else let '(r, p, s) := new_dcid cid seq tok rpt s in (out_of (fun _ => OUnit) r, reassign_all p (with_ids s x))
  | AfterRecv => (OUnit, fill (all_pids x) x)
  | RetireDcid seq other_usable =>
      if c_zd s then (OFail InvalidState, x)
      else match path_seq x (x_active x) with
      | None => (OFail InvalidState, x)
      | Some a =>
          if (a =? seq) && match lowest_available s with None => true | _ => false end && negb other_usable
          then (OFail OutOfIdentifiers, x)
          else match retire_dcid seq s with
               | (Ok (Some pid), s) => (OUnit, reassign pid (with_ids s x))
               | (Ok None, s) => (OUnit, with_ids s x)
               | (Err e, s) => (OFail e, with_ids s x)
               | (Panic, s) => (OPanic, with_ids s x)
               end
      end
  | SendRetire pid seq =>
      match path_seq x pid with
      | None => (OFail InvalidState, x)
      | Some a =>
          if existsb (Z.eqb seq) (c_ret s) && negb (a =? seq)
          then (OSeq seq, with_ids (unmark_retire seq s) x) else (OUnit, x)
      end
  | LostRetire seq => let '(r, s) := mark_retire seq s in (out_of (fun _ => OUnit) r, with_ids s x)
  | NewPath client =>
      if client then
        match (if c_zd s then Some 0 else lowest_available s) with
        | None => (OFail OutOfIdentifiers, x)
        | Some q =>
            let pid := zlen (x_paths x) in
            (OUnit, mkX (w_d (link q pid (c_d s)) s) (x_paths x ++ [Some q]) (x_active x))
        end
      else (OUnit, mkX s (x_paths x ++ [None]) (x_active x))
  | PeerMigrated pid disable =>
      if negb (known_pid pid x) then (OFail InvalidState, x)
      else if x_active x =? pid then (OUnit, x)
      else
        let x' := mkX s (x_paths x) pid in
        match path_seq x pid with
        | None => (OUnit, if disable then x' else set_path pid (path_seq x (x_active x)) x')
        | Some _ => (OUnit, x')
        end
  | Migrate pid =>
      if negb (known_pid pid x) then (OFail InvalidState, x)
      else if x_active x =? pid then
        (match path_seq x pid with Some q => OSeq q | None => OFail OutOfIdentifiers end, x)
      else match path_seq x pid with
      | Some q => (OSeq q, mkX s (x_paths x) pid)
      | None =>
          match lowest_available s with
          | None => (OFail OutOfIdentifiers, x)
          | Some q => let x := reassign pid x in (OSeq q, mkX (x_ids x) (x_paths x) pid)
          end
      end
  end.

Fixpoint cid_run (ops : list cid_op) (x : cst) : list cid_out * cst :=
  match ops with
  | [] => ([], x)
  | op :: ops =>
      let '(o, x) := cid_step op x in
      let '(os, x) := cid_run ops x in
      (o :: os, x)
  end.
