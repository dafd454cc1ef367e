(** The packet numbers a connection uses: next_pkt_num (lib.rs:1330, 2066,
    4389-4393, 5466), PktNumManager (packet.rs:1013-1122) and the checks of the ACK
    arm of process_frame (lib.rs:8288-8361) with
    detect_and_remove_acked_packets (recovery/congestion/recovery.rs:120-150). *)
Require Import Verif.Base Verif.Errors Verif.RangesModel.

(** Epoch (packet.rs:60-90) *)
Inductive epoch : Type := EInitial | EHandshake | EApplication.
Definition epoch_eqb (a b : epoch) : bool :=
  match a, b with
  | EInitial, EInitial | EHandshake, EHandshake | EApplication, EApplication => true
  | _, _ => false
  end.
Definition upd {A} (f : epoch -> A) (e : epoch) (v : A) : epoch -> A :=
  fun x => if epoch_eqb e x then v else f x.

(** DEFAULT_INITIAL_CONGESTION_WINDOW_PACKETS is 10; MIN_SKIP_COUNTER_VALUE
    (packet.rs:59-60) *)
Definition MIN_SKIP_COUNTER_VALUE : Z := 20.

(** PktNumManager (packet.rs:1013-1034) *)
Record pnmgr : Type := mkMgr { m_skip : option Z; m_counter : option Z }.
Definition pm_new : pnmgr := mkMgr None None.

Definition is_none {A} (o : option A) : bool := match o with None => true | _ => false end.

(** arm_skip_counter (packet.rs:1094-1121).  rand_u64_uniform(n) is any number
    below n, here [rnd mod n]. *)
Definition pm_arm (cwnd mds rnd : Z) (m : pnmgr) : res error pnmgr :=
  if mds <=? 0 then Panic
  else
    let packets := cwnd / mds in
    let lower := packets / 2 in
    let upper := packets * 2 in
    let skip_range := upper - lower + 1 in
    Ok (mkMgr (m_skip m) (Some (MIN_SKIP_COUNTER_VALUE + lower + rnd mod skip_range))).

(** on_packet_sent, should_arm_skip_counter (packet.rs:1036-1058) *)
Definition pm_on_sent (cwnd mds rnd : Z) (hs : bool) (m : pnmgr) : res error pnmgr :=
  match m_counter m with
  | Some c => Ok (mkMgr (m_skip m) (Some (sat_sub c 1)))
  | None => if is_none (m_skip m) && hs then pm_arm cwnd mds rnd m else Ok m
  end.

(** should_skip_pn (packet.rs:1060-1074) *)
Definition pm_should_skip (hs : bool) (m : pnmgr) : bool :=
  match m_counter m with Some c => c =? 0 | None => false end && is_none (m_skip m) && hs.

(** set_skip_pn (packet.rs:1080-1091); the debug assertions panic here. *)
Definition pm_set_skip (s : option Z) (m : pnmgr) : res error pnmgr :=
  match s with
  | Some _ =>
      if is_none (m_skip m) && match m_counter m with Some c => c =? 0 | None => false end
      then Ok (mkMgr s None) else Panic
  | None => Ok (mkMgr None None)
  end.

(** The part of a connection that numbers packets.  [s_tx] is largest_tx_pkt_num of
    each space (packet.rs:908-912); [s_paths] is the largest acknowledged packet of
    each path and epoch; [s_log] stands for the queues of sent packets, and keeps
    everything that was ever sent. *)
Record snd_state : Type := mkSnd {
  s_next : Z;
  s_mgr : pnmgr;
  s_tx : epoch -> option Z;
  s_paths : list (epoch -> option Z);
  s_log : list (epoch * Z) }.
Definition pn_init : snd_state := mkSnd 0 pm_new (fun _ => None) [fun _ => None] [].

Inductive pn_op : Type :=
(** send_single in an epoch; [produced] says whether a packet comes out *)
| PnSend (e : epoch) (hs produced : bool) (cwnd mds rnd : Z)
(** an ACK frame.  Which packets of a path are newly acknowledged depends on what
    was acknowledged, declared lost or dropped before, and is left open: [newly]
    gives the largest one for each path, and is only used if that packet was sent
    and is in the ranges. *)
| PnAck (e : epoch) (ranges : list (Z * Z)) (newly : list (option Z))
| PnPath.

Inductive pn_out : Type :=
| PnSent (e : epoch) (pn : Z)
| PnNothing
| PnAcked
| PnRejected (err : error).

Definition in_ranges (ranges : list (Z * Z)) (n : Z) : bool :=
  existsb (fun r => (fst r <=? n) && (n <? snd r)) ranges.

(** RangeSet::last (ranges.rs): the end of the last range, minus one *)
Definition ranges_last (ranges : list (Z * Z)) : option Z :=
  match rev ranges with [] => None | r :: _ => Some (snd r - 1) end.

Definition sent_in (log : list (epoch * Z)) (e : epoch) (n : Z) : bool :=
  existsb (fun x => epoch_eqb e (fst x) && (n =? snd x)) log.

(** the loop over paths of the ACK arm (lib.rs:8312-8361) *)
Fixpoint ack_paths (e : epoch) (ranges : list (Z * Z)) (largest : Z) (tx : option Z) (log : list (epoch * Z))
  (newly : list (option Z)) (paths : list (epoch -> option Z)) (m : pnmgr) :
  pn_out * list (epoch -> option Z) * pnmgr :=
  match paths with
  | [] => (PnAcked, [], m)
  | p :: ps =>
      if match tx with Some l => l <? largest | None => false end then (PnRejected InvalidAckRange, paths, m)
      else if match m_skip m with Some s => in_ranges ranges s | None => false end
        then (PnRejected OptimisticAckDetected, paths, m)
      else
        let la := match newly with
                  | Some n :: _ =>
                      if sent_in log e n && in_ranges ranges n
                      then Some (Z.max (match p e with Some a => a | None => 0 end) n)
                      else p e
                  | _ => p e
                  end in
        let m := match la, m_skip m with
                 | Some a, Some s => if s <? a then mkMgr None None else m
                 | _, _ => m
                 end in
        let '(o, ps, m) := ack_paths e ranges largest tx log (tl newly) ps m in
        (o, upd p e la :: ps, m)
  end.

Definition pn_step (op : pn_op) (s : snd_state) : res error (pn_out * snd_state) :=
  match op with
  | PnSend e hs produced cwnd mds rnd =>
      let* '(next, m) :=
        if pm_should_skip hs (s_mgr s) then
          let* m := pm_set_skip (Some (s_next s)) (s_mgr s) in Ok (s_next s + 1, m)
        else Ok (s_next s, s_mgr s) in
      if produced then
        let* m := pm_on_sent cwnd mds rnd hs m in
        Ok (PnSent e next,
            mkSnd (next + 1) m
              (upd (s_tx s) e (Some (match s_tx s e with Some l => Z.max l next | None => next end)))
              (s_paths s) ((e, next) :: s_log s))
      else Ok (PnNothing, mkSnd next m (s_tx s) (s_paths s) (s_log s))
  | PnAck e ranges newly =>
      match ranges_last ranges with
      | None => Panic
      | Some largest =>
          let '(o, ps, m) := ack_paths e ranges largest (s_tx s e) (s_log s) newly (s_paths s) (s_mgr s) in
          Ok (o, mkSnd (s_next s) m (s_tx s) ps (s_log s))
      end
  | PnPath => Ok (PnNothing, mkSnd (s_next s) (s_mgr s) (s_tx s) (s_paths s ++ [fun _ => None]) (s_log s))
  end.

Fixpoint pn_run (ops : list pn_op) (s : snd_state) : res error (list pn_out * snd_state) :=
  match ops with
  | [] => Ok ([], s)
  | op :: ops =>
      let* '(o, s) := pn_step op s in
      let* '(os, s) := pn_run ops s in
      Ok (o :: os, s)
  end.
