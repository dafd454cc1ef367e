(** The streams of a connection: quiche/src/stream/mod.rs (StreamMap, Stream,
    StreamPriorityKey) and the parts of lib.rs that drive it: the stream API
    (stream_recv, stream_send, stream_priority, stream_shutdown,
    stream_capacity, stream_readable_next, stream_writable_next,
    stream_writable), the stream arms of process_frame, the stream part of
    send_single, and what acknowledged and lost frames do.
    The per-stream buffers are those of RecvBufModel and SendBufModel.
    Not modelled: qlog, statistics counters, connection close (a frame error
    ends the history), 0-RTT, set_max_streams_bidi (lib.rs:8075, only during the
    handshake), and what decides when a packet is built. *)
Require Import Verif.Base Verif.Errors Verif.Assoc Verif.OctetsModel Verif.FlowControlModel
  Verif.RangeBufModel Verif.RecvBufModel Verif.SendBufModel.

(** MAX_STREAM_ID (lib.rs:461), MAX_STREAM_OVERHEAD (frame.rs:47), and
    DEFAULT_URGENCY (stream/mod.rs:47) *)
Definition MAX_STREAM_ID : Z := 2 ^ 60.
Definition MAX_STREAM_OVERHEAD : Z := 12.
Definition DEFAULT_URGENCY : Z := 127.

(** is_local, is_bidi (stream/mod.rs:881-889) *)
Definition is_local (sid : Z) (is_server : bool) : bool := Z.land sid 1 =? Z.b2z is_server.
Definition is_bidi (sid : Z) : bool := Z.land sid 2 =? 0.

(** StreamPriorityKey (stream/mod.rs:891-914).  A stream has one key at a time,
    and the three link fields say whether that key is in the corresponding
    tree: here, whether a key with that id is in the list. *)
Record skey : Type := mkKey { k_urg : Z; k_inc : bool; k_id : Z }.

(** [self.cmp(other) == Less] (stream/mod.rs:930-966) *)
Definition key_lt (a b : skey) : bool :=
  if k_id a =? k_id b then false
  else if negb (k_urg a =? k_urg b) then k_urg a <? k_urg b
  else if negb (k_inc a) && negb (k_inc b) then k_id a <? k_id b
  else if k_inc a && negb (k_inc b) then false
  else if negb (k_inc a) && k_inc b then true
  else false.

(** RBTree::insert of the intrusive_collections crate descends left when
    [new < node] and right otherwise; a tree is the list of its keys in order.
    On a list where [new < node] holds from some point on, as it does for the
    lists that occur, every such descent ends before the first such node. *)
Fixpoint q_ins (k : skey) (l : list skey) : list skey :=
  match l with
  | [] => [k]
  | x :: tl => if key_lt k x then k :: l else x :: q_ins k tl
  end.
Definition linked (sid : Z) (l : list skey) : bool := existsb (fun x => k_id x =? sid) l.

(** insert_readable/_writable/_flushable, remove_* (stream/mod.rs:352-433) *)
Definition q_insert (k : skey) (l : list skey) : list skey :=
  if linked (k_id k) l then l else q_ins k l.
Definition q_remove (sid : Z) (l : list skey) : list skey :=
  filter (fun x => negb (k_id x =? sid)) l.

(** update_priority (stream/mod.rs:439-457), for one tree *)
Definition q_update (new : skey) (l : list skey) : list skey :=
  if linked (k_id new) l then q_ins new (q_remove (k_id new) l) else l.

(** struct Stream (stream/mod.rs:779-803); [urgency] and [incremental] always
    equal those of the key and are not repeated. *)
Record stream : Type := mkStream {
  st_recv : recvbuf;
  st_send : sendbuf;
  st_lowat : Z;
  st_bidi : bool;
  st_local : bool;
  st_key : skey }.
Definition set_recv (r : recvbuf) (s : stream) : stream :=
  mkStream r (st_send s) (st_lowat s) (st_bidi s) (st_local s) (st_key s).
Definition set_send (b : sendbuf) (s : stream) : stream :=
  mkStream (st_recv s) b (st_lowat s) (st_bidi s) (st_local s) (st_key s).
Definition set_lowat (n : Z) (s : stream) : stream :=
  mkStream (st_recv s) (st_send s) n (st_bidi s) (st_local s) (st_key s).
Definition set_key (k : skey) (s : stream) : stream :=
  mkStream (st_recv s) (st_send s) (st_lowat s) (st_bidi s) (st_local s) k.

(** Stream::new (stream/mod.rs:807-827) *)
Definition st_new (sid max_rx max_tx : Z) (local : bool) (window max_window : Z) : stream :=
  mkStream (rv_new max_rx window max_window) (sb_new max_tx) 1 (is_bidi sid) local
           (mkKey DEFAULT_URGENCY true sid).

(** is_readable, is_writable, is_flushable, is_complete (stream/mod.rs:829-877) *)
Definition st_readable (s : stream) : bool := rv_ready (st_recv s).
Definition st_writable (s : stream) : bool :=
  negb (sb_shut (st_send s)) && negb (sb_is_fin (st_send s)) &&
  (sb_off (st_send s) + st_lowat s <? sb_max_data (st_send s)).
Definition st_flushable (s : stream) : bool := sb_is_flushable (st_send s).
Definition st_complete (s : stream) : bool :=
  match st_bidi s, st_local s with
  | true, _ => rv_is_fin (st_recv s) && sb_is_complete (st_send s)
  | false, true => sb_is_complete (st_send s)
  | false, false => rv_is_fin (st_recv s)
  end.
Definition st_stopped (s : stream) : bool :=
  match sb_error (st_send s) with Some _ => true | None => false end.

(** Stream count limits of one kind of stream (stream/mod.rs:120-165), whether
    a lost MAX_STREAMS must be repeated (lib.rs:1402-1405), and the
    StreamsBlockedState (lib.rs:1276-1285). *)
Record lim : Type := mkLim {
  l_peer_max : Z;
  l_local_opened : Z;
  l_local_max : Z;
  l_local_next : Z;
  l_initial : Z;
  l_peer_opened : Z;
  l_should : bool;
  l_blk_at : option Z;
  l_blk_sent : option Z }.
Definition set_l_peer_max (v : Z) (x : lim) : lim :=
  mkLim v (l_local_opened x) (l_local_max x) (l_local_next x) (l_initial x) (l_peer_opened x) (l_should x) (l_blk_at x) (l_blk_sent x).
Definition set_l_local_opened (v : Z) (x : lim) : lim :=
  mkLim (l_peer_max x) v (l_local_max x) (l_local_next x) (l_initial x) (l_peer_opened x) (l_should x) (l_blk_at x) (l_blk_sent x).
Definition set_l_local_max (v : Z) (x : lim) : lim :=
  mkLim (l_peer_max x) (l_local_opened x) v (l_local_next x) (l_initial x) (l_peer_opened x) (l_should x) (l_blk_at x) (l_blk_sent x).
Definition set_l_local_next (v : Z) (x : lim) : lim :=
  mkLim (l_peer_max x) (l_local_opened x) (l_local_max x) v (l_initial x) (l_peer_opened x) (l_should x) (l_blk_at x) (l_blk_sent x).
Definition set_l_initial (v : Z) (x : lim) : lim :=
  mkLim (l_peer_max x) (l_local_opened x) (l_local_max x) (l_local_next x) v (l_peer_opened x) (l_should x) (l_blk_at x) (l_blk_sent x).
Definition set_l_peer_opened (v : Z) (x : lim) : lim :=
  mkLim (l_peer_max x) (l_local_opened x) (l_local_max x) (l_local_next x) (l_initial x) v (l_should x) (l_blk_at x) (l_blk_sent x).
Definition set_l_should (v : bool) (x : lim) : lim :=
  mkLim (l_peer_max x) (l_local_opened x) (l_local_max x) (l_local_next x) (l_initial x) (l_peer_opened x) v (l_blk_at x) (l_blk_sent x).
Definition set_l_blk_at (v : option Z) (x : lim) : lim :=
  mkLim (l_peer_max x) (l_local_opened x) (l_local_max x) (l_local_next x) (l_initial x) (l_peer_opened x) (l_should x) v (l_blk_sent x).
Definition set_l_blk_sent (v : option Z) (x : lim) : lim :=
  mkLim (l_peer_max x) (l_local_opened x) (l_local_max x) (l_local_next x) (l_initial x) (l_peer_opened x) (l_should x) (l_blk_at x) v.

(** Frames kept with sent packets, for acknowledgement and loss. *)
Inductive sentf : Type :=
| SfStream (sid : Z) (f : sframe)
| SfReset (sid code final : Z)
| SfStop (sid code : Z)
| SfMaxStreamData (sid : Z)
| SfMaxData
| SfMaxStreams (bidi : bool)
| SfStreamsBlocked (bidi : bool) (limit : Z).

(** The fields of StreamMap (stream/mod.rs:106-201) and Connection
    (lib.rs:1385-1465) involved.  A stream entry carries whether it was
    collected: the code drops the stream and puts its id in [collected]; the
    model keeps the last state, which nothing reads.  The trees: [c_rq]
    readable, [c_wq] writable, [c_fq] flushable.  [c_sent]: frames sent so far. *)
Record conn : Type := mkConn {
  c_streams : list (Z * (stream * bool));
  c_bidi : lim;
  c_uni : lim;
  c_rq : list skey;
  c_wq : list skey;
  c_fq : list skey;
  c_almost : list Z;
  c_blocked : list (Z * Z);
  c_reset : list (Z * (Z * Z));
  c_stopped : list (Z * Z);
  c_txbuf : Z;
  c_rx : Z;
  c_fc : flowctl;
  c_maxdata : bool;
  c_max_tx : Z;
  c_tx : Z;
  c_txcap : Z;
  c_blk : option Z;
  c_sent : list sentf }.
Definition set_c_streams (v : list (Z * (stream * bool))) (x : conn) : conn :=
  mkConn v (c_bidi x) (c_uni x) (c_rq x) (c_wq x) (c_fq x) (c_almost x) (c_blocked x) (c_reset x) (c_stopped x) (c_txbuf x) (c_rx x) (c_fc x) (c_maxdata x) (c_max_tx x) (c_tx x) (c_txcap x) (c_blk x) (c_sent x).
Definition set_c_bidi (v : lim) (x : conn) : conn :=
  mkConn (c_streams x) v (c_uni x) (c_rq x) (c_wq x) (c_fq x) (c_almost x) (c_blocked x) (c_reset x) (c_stopped x) (c_txbuf x) (c_rx x) (c_fc x) (c_maxdata x) (c_max_tx x) (c_tx x) (c_txcap x) (c_blk x) (c_sent x).
Definition set_c_uni (v : lim) (x : conn) : conn :=
  mkConn (c_streams x) (c_bidi x) v (c_rq x) (c_wq x) (c_fq x) (c_almost x) (c_blocked x) (c_reset x) (c_stopped x) (c_txbuf x) (c_rx x) (c_fc x) (c_maxdata x) (c_max_tx x) (c_tx x) (c_txcap x) (c_blk x) (c_sent x).
Definition set_c_rq (v : list skey) (x : conn) : conn :=
  mkConn (c_streams x) (c_bidi x) (c_uni x) v (c_wq x) (c_fq x) (c_almost x) (c_blocked x) (c_reset x) (c_stopped x) (c_txbuf x) (c_rx x) (c_fc x) (c_maxdata x) (c_max_tx x) (c_tx x) (c_txcap x) (c_blk x) (c_sent x).
Definition set_c_wq (v : list skey) (x : conn) : conn :=
  mkConn (c_streams x) (c_bidi x) (c_uni x) (c_rq x) v (c_fq x) (c_almost x) (c_blocked x) (c_reset x) (c_stopped x) (c_txbuf x) (c_rx x) (c_fc x) (c_maxdata x) (c_max_tx x) (c_tx x) (c_txcap x) (c_blk x) (c_sent x).
Definition set_c_fq (v : list skey) (x : conn) : conn :=
  mkConn (c_streams x) (c_bidi x) (c_uni x) (c_rq x) (c_wq x) v (c_almost x) (c_blocked x) (c_reset x) (c_stopped x) (c_txbuf x) (c_rx x) (c_fc x) (c_maxdata x) (c_max_tx x) (c_tx x) (c_txcap x) (c_blk x) (c_sent x).
Definition set_c_almost (v : list Z) (x : conn) : conn :=
  mkConn (c_streams x) (c_bidi x) (c_uni x) (c_rq x) (c_wq x) (c_fq x) v (c_blocked x) (c_reset x) (c_stopped x) (c_txbuf x) (c_rx x) (c_fc x) (c_maxdata x) (c_max_tx x) (c_tx x) (c_txcap x) (c_blk x) (c_sent x).
Definition set_c_blocked (v : list (Z * Z)) (x : conn) : conn :=
  mkConn (c_streams x) (c_bidi x) (c_uni x) (c_rq x) (c_wq x) (c_fq x) (c_almost x) v (c_reset x) (c_stopped x) (c_txbuf x) (c_rx x) (c_fc x) (c_maxdata x) (c_max_tx x) (c_tx x) (c_txcap x) (c_blk x) (c_sent x).
Definition set_c_reset (v : list (Z * (Z * Z))) (x : conn) : conn :=
  mkConn (c_streams x) (c_bidi x) (c_uni x) (c_rq x) (c_wq x) (c_fq x) (c_almost x) (c_blocked x) v (c_stopped x) (c_txbuf x) (c_rx x) (c_fc x) (c_maxdata x) (c_max_tx x) (c_tx x) (c_txcap x) (c_blk x) (c_sent x).
Definition set_c_stopped (v : list (Z * Z)) (x : conn) : conn :=
  mkConn (c_streams x) (c_bidi x) (c_uni x) (c_rq x) (c_wq x) (c_fq x) (c_almost x) (c_blocked x) (c_reset x) v (c_txbuf x) (c_rx x) (c_fc x) (c_maxdata x) (c_max_tx x) (c_tx x) (c_txcap x) (c_blk x) (c_sent x).
Definition set_c_txbuf (v : Z) (x : conn) : conn :=
  mkConn (c_streams x) (c_bidi x) (c_uni x) (c_rq x) (c_wq x) (c_fq x) (c_almost x) (c_blocked x) (c_reset x) (c_stopped x) v (c_rx x) (c_fc x) (c_maxdata x) (c_max_tx x) (c_tx x) (c_txcap x) (c_blk x) (c_sent x).
Definition set_c_rx (v : Z) (x : conn) : conn :=
  mkConn (c_streams x) (c_bidi x) (c_uni x) (c_rq x) (c_wq x) (c_fq x) (c_almost x) (c_blocked x) (c_reset x) (c_stopped x) (c_txbuf x) v (c_fc x) (c_maxdata x) (c_max_tx x) (c_tx x) (c_txcap x) (c_blk x) (c_sent x).
Definition set_c_fc (v : flowctl) (x : conn) : conn :=
  mkConn (c_streams x) (c_bidi x) (c_uni x) (c_rq x) (c_wq x) (c_fq x) (c_almost x) (c_blocked x) (c_reset x) (c_stopped x) (c_txbuf x) (c_rx x) v (c_maxdata x) (c_max_tx x) (c_tx x) (c_txcap x) (c_blk x) (c_sent x).
Definition set_c_maxdata (v : bool) (x : conn) : conn :=
  mkConn (c_streams x) (c_bidi x) (c_uni x) (c_rq x) (c_wq x) (c_fq x) (c_almost x) (c_blocked x) (c_reset x) (c_stopped x) (c_txbuf x) (c_rx x) (c_fc x) v (c_max_tx x) (c_tx x) (c_txcap x) (c_blk x) (c_sent x).
Definition set_c_max_tx (v : Z) (x : conn) : conn :=
  mkConn (c_streams x) (c_bidi x) (c_uni x) (c_rq x) (c_wq x) (c_fq x) (c_almost x) (c_blocked x) (c_reset x) (c_stopped x) (c_txbuf x) (c_rx x) (c_fc x) (c_maxdata x) v (c_tx x) (c_txcap x) (c_blk x) (c_sent x).
Definition set_c_tx (v : Z) (x : conn) : conn :=
  mkConn (c_streams x) (c_bidi x) (c_uni x) (c_rq x) (c_wq x) (c_fq x) (c_almost x) (c_blocked x) (c_reset x) (c_stopped x) (c_txbuf x) (c_rx x) (c_fc x) (c_maxdata x) (c_max_tx x) v (c_txcap x) (c_blk x) (c_sent x).
Definition set_c_txcap (v : Z) (x : conn) : conn :=
  mkConn (c_streams x) (c_bidi x) (c_uni x) (c_rq x) (c_wq x) (c_fq x) (c_almost x) (c_blocked x) (c_reset x) (c_stopped x) (c_txbuf x) (c_rx x) (c_fc x) (c_maxdata x) (c_max_tx x) (c_tx x) v (c_blk x) (c_sent x).
Definition set_c_blk (v : option Z) (x : conn) : conn :=
  mkConn (c_streams x) (c_bidi x) (c_uni x) (c_rq x) (c_wq x) (c_fq x) (c_almost x) (c_blocked x) (c_reset x) (c_stopped x) (c_txbuf x) (c_rx x) (c_fc x) (c_maxdata x) (c_max_tx x) (c_tx x) (c_txcap x) v (c_sent x).
Definition set_c_sent (v : list sentf) (x : conn) : conn :=
  mkConn (c_streams x) (c_bidi x) (c_uni x) (c_rq x) (c_wq x) (c_fq x) (c_almost x) (c_blocked x) (c_reset x) (c_stopped x) (c_txbuf x) (c_rx x) (c_fc x) (c_maxdata x) (c_max_tx x) (c_tx x) (c_txcap x) (c_blk x) v.

(** What does not change: the role, both sides' initial limits (after the
    handshake), the window cap, the factor of lib.rs:8932 as a fraction, and
    whether STREAMS_BLOCKED is enabled. *)
Record params : Type := mkParams {
  p_server : bool;
  p_rx_bidi_local : Z; p_rx_bidi_remote : Z; p_rx_uni : Z;
  p_tx_bidi_local : Z; p_tx_bidi_remote : Z; p_tx_uni : Z;
  p_max_window : Z;
  p_num : Z; p_den : Z;
  p_blocked : bool }.

Section Conn.
Variable P : params.

Definition kind (sid : Z) (c : conn) : lim := if is_bidi sid then c_bidi c else c_uni c.
Definition set_kind (bidi : bool) (l : lim) (c : conn) : conn :=
  if bidi then set_c_bidi l c else set_c_uni l c.

(** get, get_mut (stream/mod.rs:222-230) *)
Definition cn_get (sid : Z) (c : conn) : option stream :=
  match aget sid (c_streams c) with Some (s, false) => Some s | _ => None end.
Definition collected (sid : Z) (c : conn) : bool :=
  match aget sid (c_streams c) with Some (_, true) => true | _ => false end.
Definition cn_put (sid : Z) (s : stream) (c : conn) : conn :=
  set_c_streams (aset sid (s, false) (c_streams c)) c.

(** The flow control limits of a new stream (stream/mod.rs:260-279): receive, send *)
Definition new_limits (local bidi : bool) : Z * Z :=
  match local, bidi with
  | true, true => (p_rx_bidi_local P, p_tx_bidi_remote P)
  | true, false => (0, p_tx_uni P)
  | false, true => (p_rx_bidi_remote P, p_tx_bidi_local P)
  | false, false => (p_rx_uni P, 0)
  end.

(** get_or_create (stream/mod.rs:243-345); [id >> 2] is the sequence number *)
Definition cn_get_or_create (sid : Z) (local : bool) (c : conn) : res error (stream * conn) :=
  match aget sid (c_streams c) with
  | Some (s, false) => Ok (s, c)
  | Some (_, true) => Err Done
  | None =>
      if negb (Bool.eqb local (is_local sid (p_server P))) then Err (InvalidStreamState sid)
      else
        let bidi := is_bidi sid in
        let '(rx, tx) := new_limits local bidi in
        let l := kind sid c in
        let seq := Z.shiftr sid 2 in
        let* l :=
          if is_local sid (p_server P)
          then let n := Z.max (l_local_opened l) (seq + 1) in
               if l_peer_max l <? n then Err StreamLimit else Ok (set_l_local_opened n l)
          else let n := Z.max (l_peer_opened l) (seq + 1) in
               if l_local_max l <? n then Err StreamLimit else Ok (set_l_peer_opened n l) in
        let s := st_new sid rx tx local rx (p_max_window P) in
        let c := cn_put sid s (set_kind bidi l c) in
        let c := if st_writable s then set_c_wq (q_ins (st_key s) (c_wq c)) c else c in
        Ok (s, c)
  end.

(** collect (stream/mod.rs:587-609): [unwrap] of a missing stream panics.  The
    readable queue is returned to the caller's care by the three removals. *)
Definition cn_collect (sid : Z) (c : conn) : res error conn :=
  match cn_get sid c with
  | None => Panic
  | Some s =>
      let l := kind sid c in
      let c := if st_local s then c
               else set_kind (is_bidi sid)
                      (set_l_local_next (Z.min u64_max (l_local_next l + 1)) l) c in
      let c := set_c_streams (aset sid (s, true) (c_streams c)) c in
      let c := set_c_rq (q_remove sid (c_rq c)) c in
      let c := set_c_wq (q_remove sid (c_wq c)) c in
      Ok (set_c_fq (q_remove sid (c_fq c)) c)
  end.

(** add_tx_buffered, sub_tx_buffered (stream/mod.rs:732-747); the debug
    assertion is not modelled, the saturation is. *)
Definition add_txbuf (n : Z) (c : conn) : conn := set_c_txbuf (c_txbuf c + n) c.
Definition sub_txbuf (n : Z) (c : conn) : conn := set_c_txbuf (sat_sub (c_txbuf c) n) c.

(** update_tx_cap (lib.rs:8922-8932), with [cwnd] the active path's available
    window.  The f64 product is modelled exactly. *)
Definition update_tx_cap (cwnd : Z) (c : conn) : res error conn :=
  if c_max_tx c <? c_tx c then Panic
  else
    let cap := Z.min cwnd (c_max_tx c - c_tx c) in
    Ok (set_c_txcap ((cap * p_num P + p_den P - 1) / p_den P) c).

Definition set_add (x : Z) (l : list Z) : list Z :=
  if existsb (Z.eqb x) l then l else l ++ [x].
Definition set_del (x : Z) (l : list Z) : list Z := filter (fun y => negb (y =? x)) l.
Definition set_mem (x : Z) (l : list Z) : bool := existsb (Z.eqb x) l.

(** ** What happens to a connection's streams *)
Inductive dirn : Type := ShutRead | ShutWrite.

Inductive cn_op : Type :=
(* frames received *)
| CnStream (sid off : Z) (data : list Z) (fin : bool)
| CnReset (sid code final : Z)
| CnStop (sid code : Z)
| CnMaxData (m : Z)
| CnMaxStreamData (sid m : Z)
| CnMaxStreams (bidi : bool) (m : Z)
| CnStreamsBlocked (bidi : bool) (limit : Z)
(* application calls *)
| CnRecv (sid cap : Z)                       (* stream_recv, stream_discard *)
| CnSend (zc : bool) (sid : Z) (data : list Z) (fin : bool)
| CnPriority (sid urg : Z) (inc : bool)
| CnShutdown (sid : Z) (d : dirn) (code cwnd : Z)
| CnCapacity (sid : Z)
| CnWritable (sid len : Z)
| CnReadableNext
| CnWritableNext
(* packets built and sent *)
| CnCwnd (cwnd : Z)                          (* end of recv (lib.rs:3784) *)
| CnSendMaxStreams (bidi fits : bool)
| CnSendDataBlocked (fits : bool)
| CnSendStreamsBlocked (bidi fits : bool)
| CnSendMaxStreamData (sid now rtt : Z) (fits : bool)
| CnSendMaxData (now rtt : Z) (fits : bool)
| CnSendStop (sid : Z) (fits : bool)
| CnSendReset (sid : Z) (fits : bool)
| CnSendStreamDataBlocked (sid : Z) (fits : bool)
| CnSendStream (left : Z)
(* the i-th frame sent is acknowledged; declared lost *)
| CnAck (i : nat)
| CnLost (i : nat).

Inductive cn_out : Type :=
| CoOk                                       (* processed, nothing returned *)
| CoIgnored                                  (* frame for a closed stream *)
| CoErr (e : error)                          (* error returned by a call *)
| CoRead (bytes : list Z) (fin : bool)
| CoWrote (n : Z)
| CoCap (n : Z)
| CoBool (b : bool)
| CoNext (sid : option Z)
| CoSent (f : option sentf)                  (* frame put in a packet *)
| CoMaxStreams (bidi : bool) (m : Z)         (* limits announced *)
| CoMaxStreamData (sid m : Z)
| CoMaxData (m : Z)
| CoDataBlocked (limit : Z)
| CoStreamDataBlocked (sid limit : Z).

(** STREAM (lib.rs:8541-8597) *)
Definition cn_stream (sid off : Z) (data : list Z) (fin : bool) (c : conn)
  : res error (cn_out * conn) :=
  if negb (is_bidi sid) && is_local sid (p_server P) then Err (InvalidStreamState sid)
  else if fc_max_data (c_fc c) <? c_rx c then Panic
  else
    let left := fc_max_data (c_fc c) - c_rx c in
    match cn_get_or_create sid false c with
    | Panic => Panic
    | Err Done => Ok (CoIgnored, c)
    | Err e => Err e
    | Ok (s, c) =>
        let buf := rb_from data off fin in
        let delta := sat_sub (rbM buf) (rv_len (st_recv s)) in
        if left <? delta then Err FlowControlE
        else
          let was_readable := st_readable s in
          let was_draining := rv_drain (st_recv s) in
          let* r := rv_write buf (st_recv s) in
          let s := set_recv r s in
          let c := cn_put sid s c in
          let c := if negb was_readable && st_readable s
                   then set_c_rq (q_insert (st_key s) (c_rq c)) c else c in
          let c := set_c_rx (c_rx c + delta) c in
          let c := if was_draining then set_c_fc (fc_add_consumed delta (c_fc c)) c else c in
          Ok (CoOk, c)
    end.

(** RESET_STREAM (lib.rs:8364-8419) *)
Definition cn_reset (sid code final : Z) (c : conn) : res error (cn_out * conn) :=
  if negb (is_bidi sid) && is_local sid (p_server P) then Err (InvalidStreamState sid)
  else if fc_max_data (c_fc c) <? c_rx c then Panic
  else
    let left := fc_max_data (c_fc c) - c_rx c in
    match cn_get_or_create sid false c with
    | Panic => Panic
    | Err Done => Ok (CoIgnored, c)
    | Err e => Err e
    | Ok (s, c) =>
        let was_readable := st_readable s in
        match rv_reset code final (st_recv s) with
        | (Panic, _) => Panic
        | (Err e, _) => Err e
        | (Ok (delta, credit), r) =>
            if left <? delta then Err FlowControlE
            else
              let s := set_recv r s in
              let c := cn_put sid s c in
              let c := if negb was_readable && st_readable s
                       then set_c_rq (q_insert (st_key s) (c_rq c)) c else c in
              let c := set_c_rx (c_rx c + delta) c in
              Ok (CoOk, set_c_fc (fc_add_consumed credit (c_fc c)) c)
        end
    end.

(** STOP_SENDING (lib.rs:8421-8510) *)
Definition cn_stop (sid code : Z) (c : conn) : res error (cn_out * conn) :=
  if negb (is_local sid (p_server P)) && negb (is_bidi sid) then Err (InvalidStreamState sid)
  else
    match cn_get_or_create sid false c with
    | Panic => Panic
    | Err Done => Ok (CoIgnored, c)
    | Err e => Err e
    | Ok (s, c) =>
        let was_writable := st_writable s in
        let buffered := sb_buffered (st_send s) in
        match sb_stop code (st_send s) with
        | Panic => Panic
        | Err _ => Ok (CoOk, c)
        | Ok (final, unsent, b) =>
            let s := set_send b s in
            let c := cn_put sid s c in
            let c := set_c_tx (sat_sub (c_tx c) unsent) c in
            let c := sub_txbuf buffered c in
            let c := set_c_reset (aset sid (code, final) (c_reset c)) c in
            let c := if negb was_writable
                     then set_c_wq (q_insert (st_key s) (c_wq c)) c else c in
            Ok (CoOk, c)
        end
    end.

(** MAX_STREAM_DATA (lib.rs:8605-8649) *)
Definition cn_max_stream_data (sid m : Z) (c : conn) : res error (cn_out * conn) :=
  if negb (is_bidi sid) && negb (is_local sid (p_server P)) then Err (InvalidStreamState sid)
  else
    match cn_get_or_create sid false c with
    | Panic => Panic
    | Err Done => Ok (CoIgnored, c)
    | Err e => Err e
    | Ok (s, c) =>
        let was_flushable := st_flushable s in
        let s := set_send (sb_update_max_data m (st_send s)) s in
        let c := cn_put sid s c in
        let c := if st_flushable s && negb was_flushable
                 then set_c_fq (q_insert (st_key s) (c_fq c)) c else c in
        let c := if st_writable s then set_c_wq (q_insert (st_key s) (c_wq c)) c else c in
        Ok (CoOk, c)
    end.

(** MAX_STREAMS, STREAMS_BLOCKED (lib.rs:8651-8693); update_peer_max_streams_*
    (stream/mod.rs:515-523) *)
Definition cn_max_streams (bidi : bool) (m : Z) (c : conn) : res error (cn_out * conn) :=
  if MAX_STREAM_ID <? m then Err InvalidFrame
  else
    let l := if bidi then c_bidi c else c_uni c in
    Ok (CoOk, set_kind bidi (set_l_peer_max (Z.max (l_peer_max l) m) l) c).
Definition cn_streams_blocked (limit : Z) (c : conn) : res error (cn_out * conn) :=
  if MAX_STREAM_ID <? limit then Err InvalidFrame else Ok (CoOk, c).

(** do_stream_recv (lib.rs:5767-5861), used by stream_recv and stream_discard *)
Definition cn_recv (sid cap : Z) (c : conn) : res error (cn_out * conn) :=
  if negb (is_bidi sid) && is_local sid (p_server P) then Ok (CoErr (InvalidStreamState sid), c)
  else
    match cn_get sid c with
    | None => Ok (CoErr (InvalidStreamState sid), c)
    | Some s =>
        if negb (st_readable s) then Ok (CoErr Done, c)
        else
          match rv_emit cap (st_recv s) with
          | (Panic, _) => Panic
          | (Err e, r) =>
              let s := set_recv r s in
              let c := cn_put sid s c in
              let* c := if st_complete s then cn_collect sid c else Ok c in
              Ok (CoErr e, set_c_rq (q_remove sid (c_rq c)) c)
          | (Ok (bytes, fin), r) =>
              let s := set_recv r s in
              let c := cn_put sid s c in
              let c := set_c_fc (fc_add_consumed (zlen bytes) (c_fc c)) c in
              let readable := st_readable s in
              let complete := st_complete s in
              let* full := rv_almost_full (st_recv s) in
              let c := if full then set_c_almost (set_add sid (c_almost c)) c else c in
              let c := if readable then c else set_c_rq (q_remove sid (c_rq c)) c in
              let* c := if complete then cn_collect sid c else Ok c in
              let c := if k_inc (st_key s) && readable
                       then set_c_rq (q_insert (st_key s) (q_remove sid (c_rq c))) c else c in
              Ok (CoRead bytes fin, c)
          end
    end.

(** Option's order on limits (lib.rs:1287-1307) *)
Definition opt_lt (a b : option Z) : bool :=
  match a, b with
  | None, Some _ => true
  | Some x, Some y => x <? y
  | _, None => false
  end.
Definition blk_update_at (limit : Z) (l : lim) : lim :=
  set_l_blk_at (Some (match l_blk_at l with Some x => Z.max x limit | None => limit end)) l.

(** stream_do_send (lib.rs:5954-6147), for stream_send and stream_send_zc *)
Definition cn_send (zc : bool) (sid : Z) (data : list Z) (fin : bool) (c : conn)
  : res error (cn_out * conn) :=
  if negb (is_bidi sid) && negb (is_local sid (p_server P))
  then Ok (CoErr (InvalidStreamState sid), c)
  else if c_max_tx c <? c_tx c then Panic
  else
    let len := zlen data in
    let c := if c_max_tx c - c_tx c <? len then set_c_blk (Some (c_max_tx c)) c else c in
    let txcap := c_txcap c in
    match cn_get_or_create sid true c with
    | Panic => Panic
    | Err StreamLimit =>
        let c := if p_blocked P && is_local sid (p_server P)
                 then set_kind (is_bidi sid)
                        (blk_update_at (l_peer_max (kind sid c)) (kind sid c)) c else c in
        Ok (CoErr StreamLimit, c)
    | Err e => Ok (CoErr e, c)
    | Ok (s, c) =>
        let was_writable := st_writable s in
        let was_flushable := st_flushable s in
        match sb_cap (st_send s) with
        | Panic => Panic
        | Err e =>
            let* c := if st_complete s && negb (st_readable s) then cn_collect sid c else Ok c in
            Ok (CoErr e, c)
        | Ok _ =>
            if (txcap =? 0) && (0 <? len) then
              Ok (CoErr Done,
                  if was_writable then set_c_wq (q_insert (st_key s) (c_wq c)) c else c)
            else
              let '(cap, fin, by_cap) :=
                if txcap <? len then (txcap, false, true) else (len, fin, false) in
              match (if zc then sb_write_zc data cap fin (st_send s)
                     else sb_write (take cap data) fin (st_send s)) with
              | Panic => Panic
              | Err e => Ok (CoErr e, set_c_wq (q_remove sid (c_wq c)) c)
              | Ok (sent, b) =>
                  let flushable := sb_is_flushable b in
                  let writable := st_writable (set_send b s) in
                  let empty_fin := (len =? 0) && fin in
                  let '(b, blocked) :=
                    if sent <? cap then
                      if match sb_blocked b with Some o => o =? sb_max_data b | None => false end
                      then (b, c_blocked c)
                      else (sb_update_blocked (Some (sb_max_data b)) b,
                            aset sid (sb_max_data b) (c_blocked c))
                    else (sb_update_blocked None b, adel sid (c_blocked c)) in
                  let c := cn_put sid (set_send b s) c in
                  let c := set_c_blocked blocked c in
                  let c := if (flushable || empty_fin) && negb was_flushable
                           then set_c_fq (q_insert (st_key s) (c_fq c)) c else c in
                  let c := if negb writable then set_c_wq (q_remove sid (c_wq c)) c
                           else if was_writable && by_cap
                           then set_c_wq (q_insert (st_key s) (c_wq c)) c else c in
                  let c := set_c_txcap (c_txcap c - sent) c in
                  let c := set_c_tx (c_tx c + sent) c in
                  let c := add_txbuf sent c in
                  if c_txcap c <? 0 then Panic
                  else if (sent =? 0) && (0 <? cap) then Ok (CoErr Done, c)
                  else
                    let c := if k_inc (st_key s) && writable
                             then set_c_wq (q_insert (st_key s) (q_remove sid (c_wq c))) c
                             else c in
                    Ok (CoWrote sent, c)
              end
        end
    end.

(** stream_priority (lib.rs:6158-6193) *)
Definition cn_priority (sid urg : Z) (inc : bool) (c : conn) : res error (cn_out * conn) :=
  match cn_get_or_create sid true c with
  | Panic => Panic
  | Err Done => Ok (CoOk, c)
  | Err e => Ok (CoErr e, c)
  | Ok (s, c) =>
      if (k_urg (st_key s) =? urg) && Bool.eqb (k_inc (st_key s)) inc then Ok (CoOk, c)
      else
        let k := mkKey urg inc sid in
        let c := cn_put sid (set_key k s) c in
        let c := set_c_rq (q_update k (c_rq c)) c in
        let c := set_c_wq (q_update k (c_wq c)) c in
        Ok (CoOk, set_c_fq (q_update k (c_fq c)) c)
  end.

(** stream_shutdown (lib.rs:6219-6309) *)
Definition cn_shutdown (sid : Z) (d : dirn) (code cwnd : Z) (c : conn)
  : res error (cn_out * conn) :=
  let local := is_local sid (p_server P) in
  let bidi := is_bidi sid in
  if match d with ShutRead => local && negb bidi | ShutWrite => negb local && negb bidi end
  then Ok (CoErr (InvalidStreamState sid), c)
  else
    match cn_get sid c with
    | None => Ok (CoErr Done, c)
    | Some s =>
        match d with
        | ShutRead =>
            match rv_shutdown (st_recv s) with
            | Panic => Panic
            | Err e => Ok (CoErr e, c)
            | Ok (n, r) =>
                let s := set_recv r s in
                let c := cn_put sid s c in
                let c := set_c_fc (fc_add_consumed n (c_fc c)) c in
                let c := if rv_is_fin r then c
                         else set_c_stopped (aset sid code (c_stopped c)) c in
                Ok (CoOk, set_c_rq (q_remove sid (c_rq c)) c)
            end
        | ShutWrite =>
            let buffered := sb_buffered (st_send s) in
            match sb_shutdown (st_send s) with
            | Panic => Panic
            | Err e => Ok (CoErr e, c)
            | Ok (final, unsent, b) =>
                let c := cn_put sid (set_send b s) c in
                let c := set_c_tx (sat_sub (c_tx c) unsent) c in
                let c := sub_txbuf buffered c in
                let* c := update_tx_cap cwnd c in
                let c := set_c_reset (aset sid (code, final) (c_reset c)) c in
                Ok (CoOk, set_c_wq (q_remove sid (c_wq c)) c)
            end
        end
    end.

(** stream_capacity (lib.rs:6330-6356) *)
Definition cn_capacity (sid : Z) (c : conn) : res error (res error Z * conn) :=
  match cn_get sid c with
  | None => Ok (Err (InvalidStreamState sid), c)
  | Some s =>
      match sb_cap (st_send s) with
      | Panic => Panic
      | Err e =>
          let* c := if st_complete s && negb (st_readable s) then cn_collect sid c else Ok c in
          Ok (Err e, c)
      | Ok n => Ok (Ok (Z.min (c_txcap c) n), c)
      end
  end.

(** stream_writable (lib.rs:6489-6528) *)
Definition cn_writable (sid len : Z) (c : conn) : res error (cn_out * conn) :=
  let* '(r, c) := cn_capacity sid c in
  match r with
  | Panic => Panic
  | Err e => Ok (CoErr e, c)
  | Ok n =>
      if len <=? n then Ok (CoBool true, c)
      else
        match cn_get sid c with
        | None => Ok (CoErr (InvalidStreamState sid), c)
        | Some s =>
            let s := set_lowat (Z.max 1 len) s in
            let is_writable := st_writable s in
            if c_max_tx c <? c_tx c then Panic
            else
              let c := if c_max_tx c - c_tx c <? len then set_c_blk (Some (c_max_tx c)) c else c in
              let c := cn_put sid s c in
              match sb_cap (st_send s) with
              | Panic => Panic
              | Err e => Ok (CoErr e, c)
              | Ok n =>
                  if n <? len then
                    let m := sb_max_data (st_send s) in
                    if match sb_blocked (st_send s) with Some o => o =? m | None => false end
                    then Ok (CoBool false, c)
                    else
                      let c := cn_put sid (set_send (sb_update_blocked (Some m) (st_send s)) s) c in
                      Ok (CoBool false, set_c_blocked (aset sid m (c_blocked c)) c)
                  else if is_writable
                  then Ok (CoBool false, set_c_wq (q_insert (st_key s) (c_wq c)) c)
                  else Ok (CoBool false, c)
              end
        end
  end.

(** stream_readable_next (lib.rs:6369-6375) *)
Definition cn_readable_next (c : conn) : res error (cn_out * conn) :=
  match c_rq c with
  | [] => Ok (CoNext None, c)
  | k :: _ => Ok (CoNext (Some (k_id k)), set_c_rq (q_remove (k_id k) (c_rq c)) c)
  end.

(** The cursor loop of stream_writable_next (lib.rs:6437-6463) *)
Fixpoint next_writable (l : list skey) (c : conn) : res error (option Z) :=
  match l with
  | [] => Ok None
  | k :: tl =>
      match cn_get (k_id k) c with
      | None => next_writable tl c
      | Some s =>
          match sb_cap (st_send s) with
          | Panic => Panic
          | Err _ => Ok (Some (k_id k))
          | Ok n => if st_lowat s <=? Z.min (c_txcap c) n then Ok (Some (k_id k))
                    else next_writable tl c
          end
      end
  end.
(** stream_writable_next (lib.rs:6430-6466) *)
Definition cn_writable_next (c : conn) : res error (cn_out * conn) :=
  if c_txcap c =? 0 then Ok (CoNext None, c)
  else
    let* r := next_writable (c_wq c) c in
    match r with
    | None => Ok (CoNext None, c)
    | Some sid => Ok (CoNext (Some sid), set_c_wq (q_remove sid (c_wq c)) c)
    end.

Definition log (f : sentf) (c : conn) : conn := set_c_sent (c_sent c ++ [f]) c.

(** should_update_max_streams_* (stream/mod.rs:683-703) *)
Definition should_update (l : lim) : bool :=
  negb (l_local_next l =? l_local_max l) &&
  (sat_sub (l_local_max l) (l_peer_opened l) <=? l_initial l / 2).

(** MAX_STREAMS generation (lib.rs:4723-4755) *)
Definition cn_send_max_streams (bidi fits : bool) (c : conn) : res error (cn_out * conn) :=
  let l := if bidi then c_bidi c else c_uni c in
  if (should_update l || l_should l) && fits then
    let m := l_local_next l in
    let c := set_kind bidi (set_l_should false (set_l_local_max m l)) c in
    Ok (CoMaxStreams bidi m, log (SfMaxStreams bidi) c)
  else Ok (CoSent None, c).

(** DATA_BLOCKED (lib.rs:4757-4768) *)
Definition cn_send_data_blocked (fits : bool) (c : conn) : res error (cn_out * conn) :=
  match c_blk c with
  | Some limit => if fits then Ok (CoDataBlocked limit, set_c_blk None c) else Ok (CoSent None, c)
  | None => Ok (CoSent None, c)
  end.

(** STREAMS_BLOCKED (lib.rs:4770-4812) *)
Definition cn_send_streams_blocked (bidi fits : bool) (c : conn) : res error (cn_out * conn) :=
  let l := if bidi then c_bidi c else c_uni c in
  if opt_lt (l_blk_sent l) (l_blk_at l) then
    match l_blk_at l with
    | Some limit =>
        if fits then
          let f := SfStreamsBlocked bidi limit in
          Ok (CoSent (Some f), log f (set_kind bidi (set_l_blk_sent (Some limit) l) c))
        else Ok (CoSent None, c)
    | None => Ok (CoSent None, c)
    end
  else Ok (CoSent None, c).

(** MAX_STREAM_DATA generation for one stream of the almost full set
    (lib.rs:4814-4855); CONNECTION_WINDOW_FACTOR is 1.5. *)
Definition cn_send_max_stream_data (sid now rtt : Z) (fits : bool) (c : conn)
  : res error (cn_out * conn) :=
  if negb (set_mem sid (c_almost c)) then Ok (CoSent None, c)
  else
    match cn_get sid c with
    | None => Ok (CoSent None, set_c_almost (set_del sid (c_almost c)) c)
    | Some s =>
        let* full := rv_almost_full (st_recv s) in
        let r := if full then rv_autotune now rtt (st_recv s) else st_recv s in
        if fits then
          let m := fc_max_data_next (rv_fc r) in
          let win := fc_window (rv_fc r) in
          let c := cn_put sid (set_recv (rv_update_max_data now r) s) c in
          let c := set_c_almost (set_del sid (c_almost c)) c in
          let c := set_c_fc (fc_ensure_lower (win * 3 / 2) (c_fc c)) c in
          Ok (CoMaxStreamData sid m, log (SfMaxStreamData sid) c)
        else Ok (CoSent None, cn_put sid (set_recv r s) c)
    end.

(** MAX_DATA generation (lib.rs:4857-4881) *)
Definition cn_send_max_data (now rtt : Z) (fits : bool) (c : conn) : res error (cn_out * conn) :=
  let* due := fc_should_update (c_fc c) in
  let organic := due && (fc_max_data (c_fc c) <? fc_max_data_next (c_fc c)) in
  let f := if organic then fc_autotune now rtt (c_fc c) else c_fc c in
  let pending := organic || c_maxdata c in
  if pending && fits then
    let f := fc_update_max_data now f in
    Ok (CoMaxData (fc_max_data f), log SfMaxData (set_c_maxdata false (set_c_fc f c)))
  else Ok (CoSent None, set_c_maxdata pending (set_c_fc f c)).

(** STOP_SENDING, RESET_STREAM, STREAM_DATA_BLOCKED (lib.rs:4883-4945), for one
    entry of the corresponding map *)
Definition cn_send_stop (sid : Z) (fits : bool) (c : conn) : res error (cn_out * conn) :=
  match aget sid (c_stopped c) with
  | Some code =>
      if fits then
        let f := SfStop sid code in
        Ok (CoSent (Some f), log f (set_c_stopped (adel sid (c_stopped c)) c))
      else Ok (CoSent None, c)
  | None => Ok (CoSent None, c)
  end.
Definition cn_send_reset (sid : Z) (fits : bool) (c : conn) : res error (cn_out * conn) :=
  match aget sid (c_reset c) with
  | Some (code, final) =>
      if fits then
        let f := SfReset sid code final in
        Ok (CoSent (Some f), log f (set_c_reset (adel sid (c_reset c)) c))
      else Ok (CoSent None, c)
  | None => Ok (CoSent None, c)
  end.
Definition cn_send_sdb (sid : Z) (fits : bool) (c : conn) : res error (cn_out * conn) :=
  match aget sid (c_blocked c) with
  | Some limit =>
      if fits then Ok (CoStreamDataBlocked sid limit, set_c_blocked (adel sid (c_blocked c)) c)
      else Ok (CoSent None, c)
  | None => Ok (CoSent None, c)
  end.

(** The STREAM part of send_single (lib.rs:5172-5288): the loop over the
    flushable queue with [left] bytes of room; each turn that does not end it
    takes one entry out, so [fuel] is the queue's length. *)
Fixpoint send_stream_loop (fuel : nat) (left : Z) (c : conn) : res error (cn_out * conn) :=
  match c_fq c with
  | [] => Ok (CoSent None, c)
  | k :: _ =>
      match fuel with
      | O => Panic
      | S fuel =>
          let sid := k_id k in
          let skip := set_c_fq (q_remove sid (c_fq c)) c in
          match cn_get sid c with
          | None => send_stream_loop fuel left skip
          | Some s =>
              if st_stopped s then send_stream_loop fuel left skip
              else
                let off := sb_off_front (st_send s) in
                let hdr := 1 + varint_len sid + varint_len off + 2 in
                if left <? hdr then send_stream_loop fuel left skip
                else
                  let* '(bytes, fin, b) := sb_emit (left - hdr) (st_send s) in
                  let f := SfStream sid (mkFrame off bytes fin) in
                  let s := set_send b s in
                  let c := cn_put sid s c in
                  let c := if negb (st_flushable s)
                           then set_c_fq (q_remove sid (c_fq c)) c
                           else if k_inc (st_key s)
                           then set_c_fq (q_insert (st_key s) (q_remove sid (c_fq c))) c
                           else c in
                  let c := sub_txbuf (zlen bytes) c in
                  Ok (CoSent (Some f), log f c)
          end
      end
  end.
Definition cn_send_stream (left : Z) (c : conn) : res error (cn_out * conn) :=
  if left <=? MAX_STREAM_OVERHEAD then Ok (CoSent None, c)
  else send_stream_loop (length (c_fq c)) left c.

(** Whether a stream whose frame was acknowledged is collected (lib.rs:3627-3655
    and 3694-3712) *)
Definition collect_on_ack (sid : Z) (s : stream) (c : conn) : res error conn :=
  let is_writable := linked sid (c_wq c) && st_stopped s in
  if st_complete s && negb (st_readable s) && negb is_writable then cn_collect sid c else Ok c.

(** ACK of a frame (lib.rs:3590-3719) *)
Definition cn_ack (i : nat) (c : conn) : res error (cn_out * conn) :=
  match nth_error (c_sent c) i with
  | Some (SfStream sid f) =>
      match cn_get sid c with
      | None => Ok (CoOk, c)
      | Some s =>
          let* '(dropped, b) := sb_ack_and_drop (sf_off f) (zlen (sf_bytes f)) (st_send s) in
          let s := set_send b s in
          let* c := collect_on_ack sid s (cn_put sid s c) in
          Ok (CoOk, if 0 <? dropped then sub_txbuf dropped c else c)
      end
  | Some (SfReset sid _ _) =>
      match cn_get sid c with
      | None => Ok (CoOk, c)
      | Some s => let* c := collect_on_ack sid s c in Ok (CoOk, c)
      end
  | _ => Ok (CoOk, c)
  end.

(** Loss of a frame (lib.rs:4144-4285) *)
Definition cn_lost (i : nat) (c : conn) : res error (cn_out * conn) :=
  match nth_error (c_sent c) i with
  | Some (SfStream sid f) =>
      match cn_get sid c with
      | None => Ok (CoOk, c)
      | Some s =>
          if st_stopped s then Ok (CoOk, c)
          else
            let was_flushable := st_flushable s in
            let empty_fin := (zlen (sf_bytes f) =? 0) && sf_fin f in
            let* '(n, b) := sb_retransmit (sf_off f) (zlen (sf_bytes f)) (st_send s) in
            let s := set_send b s in
            let c := cn_put sid s c in
            let c := if (st_flushable s || empty_fin) && negb was_flushable
                     then set_c_fq (q_insert (st_key s) (c_fq c)) c else c in
            Ok (CoOk, add_txbuf n c)
      end
  | Some (SfReset sid code final) =>
      Ok (CoOk, set_c_reset (aset sid (code, final) (c_reset c)) c)
  | Some (SfStop sid code) =>
      match cn_get sid c with
      | Some s => if rv_is_fin (st_recv s) then Ok (CoOk, c)
                  else Ok (CoOk, set_c_stopped (aset sid code (c_stopped c)) c)
      | None => Ok (CoOk, c)
      end
  | Some (SfMaxStreamData sid) =>
      match cn_get sid c with
      | Some _ => Ok (CoOk, set_c_almost (set_add sid (c_almost c)) c)
      | None => Ok (CoOk, c)
      end
  | Some SfMaxData => Ok (CoOk, set_c_maxdata true c)
  | Some (SfMaxStreams bidi) =>
      let l := if bidi then c_bidi c else c_uni c in
      Ok (CoOk, set_kind bidi (set_l_should true l) c)
  | Some (SfStreamsBlocked bidi limit) =>
      let l := if bidi then c_bidi c else c_uni c in
      match l_blk_sent l with
      | Some x => Ok (CoOk, if x =? limit then set_kind bidi (set_l_blk_sent None l) c else c)
      | None => Ok (CoOk, c)
      end
  | None => Ok (CoOk, c)
  end.

Definition cn_step (op : cn_op) (c : conn) : res error (cn_out * conn) :=
  match op with
  | CnStream sid off data fin => cn_stream sid off data fin c
  | CnReset sid code final => cn_reset sid code final c
  | CnStop sid code => cn_stop sid code c
  | CnMaxData m => Ok (CoOk, set_c_max_tx (Z.max (c_max_tx c) m) c)   (* lib.rs:8601-8603 *)
  | CnMaxStreamData sid m => cn_max_stream_data sid m c
  | CnMaxStreams bidi m => cn_max_streams bidi m c
  | CnStreamsBlocked _ limit => cn_streams_blocked limit c
  | CnRecv sid cap => cn_recv sid cap c
  | CnSend zc sid data fin => cn_send zc sid data fin c
  | CnPriority sid urg inc => cn_priority sid urg inc c
  | CnShutdown sid d code cwnd => cn_shutdown sid d code cwnd c
  | CnCapacity sid =>
      let* '(r, c) := cn_capacity sid c in
      match r with Ok n => Ok (CoCap n, c) | Err e => Ok (CoErr e, c) | Panic => Panic end
  | CnWritable sid len => cn_writable sid len c
  | CnReadableNext => cn_readable_next c
  | CnWritableNext => cn_writable_next c
  | CnCwnd cwnd => let* c := update_tx_cap cwnd c in Ok (CoOk, c)
  | CnSendMaxStreams bidi fits => cn_send_max_streams bidi fits c
  | CnSendDataBlocked fits => cn_send_data_blocked fits c
  | CnSendStreamsBlocked bidi fits => cn_send_streams_blocked bidi fits c
  | CnSendMaxStreamData sid now rtt fits => cn_send_max_stream_data sid now rtt fits c
  | CnSendMaxData now rtt fits => cn_send_max_data now rtt fits c
  | CnSendStop sid fits => cn_send_stop sid fits c
  | CnSendReset sid fits => cn_send_reset sid fits c
  | CnSendStreamDataBlocked sid fits => cn_send_sdb sid fits c
  | CnSendStream room => cn_send_stream room c
  | CnAck i => cn_ack i c
  | CnLost i => cn_lost i c
  end.

Fixpoint cn_run (ops : list cn_op) (c : conn) : res error (list cn_out * conn) :=
  match ops with
  | [] => Ok ([], c)
  | op :: ops =>
      let* '(o, c) := cn_step op c in
      let* '(os, c) := cn_run ops c in
      Ok (o :: os, c)
  end.
End Conn.

(** StreamMap::new (stream/mod.rs:204-219), Connection (lib.rs:2100-2140) once
    the peer's transport parameters are known (lib.rs:7959-7971): initial
    limits on received data (with window cap) and sent data, on streams the
    peer and the local side may open, and the congestion window. *)
Definition lim_new (local_max peer_max : Z) : lim :=
  mkLim peer_max 0 local_max local_max local_max 0 false None None.
Record start : Type := mkStart {
  i_rx : Z; i_rx_window : Z; i_tx : Z; i_cwnd : Z;
  i_local_bidi : Z; i_local_uni : Z; i_peer_bidi : Z; i_peer_uni : Z }.
Definition cn_new (P : params) (i : start) : conn :=
  mkConn [] (lim_new (i_local_bidi i) (i_peer_bidi i)) (lim_new (i_local_uni i) (i_peer_uni i))
         [] [] [] [] [] [] [] 0 0 (fc_new (i_rx i) (i_rx i) (i_rx_window i)) false
         (i_tx i) 0 ((Z.min (i_cwnd i) (i_tx i) * p_num P + p_den P - 1) / p_den P) None [].

(** Queries (lib.rs:6378-6600): readable() and writable() list the queues,
    stream_readable, stream_finished, stream_closed, peer_streams_left_*
    ([None]: the subtraction underflows). *)
Definition q_stream_readable (sid : Z) (c : conn) : bool :=
  match cn_get sid c with Some s => st_readable s | None => false end.
Definition q_stream_finished (sid : Z) (c : conn) : bool :=
  match cn_get sid c with Some s => rv_is_fin (st_recv s) | None => true end.
Definition q_stream_closed (sid : Z) (c : conn) : bool :=
  match cn_get sid c with
  | None => collected sid c
  | Some s =>
      match st_bidi s, st_local s with
      | true, _ => rv_is_fin (st_recv s) && sb_is_fin (st_send s)
      | false, true => sb_is_fin (st_send s)
      | false, false => rv_is_fin (st_recv s)
      end
  end.
Definition q_streams_left (bidi : bool) (c : conn) : option Z :=
  let l := if bidi then c_bidi c else c_uni c in
  if l_peer_max l <? l_local_opened l then None else Some (l_peer_max l - l_local_opened l).
