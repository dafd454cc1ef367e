(** Model of quiche/src/stream/recv_buf.rs.
    The [BTreeMap<u64, RangeBuf>] keyed by [max_off] is the list of its values
    in key order; [data_insert] recomputes the key with [rbM], which is the key
    under which the code stores it (recv_buf.rs:185).  [consume] does not change
    [max_off], so keys never go stale. *)
Require Import Verif.Base Verif.Errors Verif.FlowControlModel Verif.RangeBufModel.

(** struct RecvBuf (recv_buf.rs:50-72) *)
Record recvbuf : Type := mkRecv {
  rv_data : list rangebuf;
  rv_off : Z;
  rv_len : Z;
  rv_fc : flowctl;
  rv_fin_off : option Z;
  rv_error : option Z;
  rv_drain : bool }.

(** new (recv_buf.rs:76-85) *)
Definition rv_new (max_data window max_window : Z) : recvbuf :=
  mkRecv [] 0 0 (fc_new max_data window max_window) None None false.

(** BTreeMap::insert under key [max_off]; an equal key is replaced. *)
Fixpoint data_insert (b : rangebuf) (l : list rangebuf) : list rangebuf :=
  match l with
  | [] => [b]
  | x :: tl =>
      if rbM b <? rbM x then b :: l
      else if rbM b =? rbM x then b :: tl
      else x :: data_insert b tl
  end.

(** BTreeMap::range(k..) *)
Definition data_range (k : Z) (l : list rangebuf) : list rangebuf :=
  filter (fun x => k <=? rbM x) l.

(** The [for (_, b) in self.data.range(buf.off()..)] loop (recv_buf.rs:152-179).
    [None] is [continue 'tmp]; the second component is what was pushed on
    [tmp_bufs].  *)
Fixpoint overlap_scan (bs : list rangebuf) (buf : rangebuf) (pushed : list rangebuf)
  : res error (option rangebuf * list rangebuf) :=
  match bs with
  | [] => Ok (Some buf, pushed)
  | b :: tl =>
      let off := rbO buf in
      if rbM buf <? rbO b then Ok (Some buf, pushed)
      else if (rbO b <=? off) && (rbM buf <=? rbM b) then Ok (None, pushed)
      else
        let* buf :=
          if (rbO b <=? off) && (off <? rbM b)
          then let* '(_, hi) := rb_split_off (rbM b - off) buf in Ok hi
          else Ok buf in
        if (off <? rbO b) && (rbO b <? rbM buf)
        then let* '(lo, hi) := rb_split_off (rbO b - off) buf in
             overlap_scan tl lo (pushed ++ [hi])
        else overlap_scan tl buf pushed
  end.

(** The ['tmp: while let Some(mut buf) = tmp_bufs.pop_front()] loop
    (recv_buf.rs:137-192).  [fuel] bounds the iterations; running out is
    [Panic] and is proved impossible. *)
Fixpoint write_loop (fuel : nat) (tmp : list rangebuf) (st : recvbuf)
  : res error recvbuf :=
  match tmp with
  | [] => Ok st
  | buf :: tmp =>
      match fuel with
      | O => Panic
      | S fuel =>
          let* buf :=
            if rbO buf <? rv_off st
            then let* '(_, hi) := rb_split_off (rv_off st - rbO buf) buf in Ok hi
            else Ok buf in
          let* '(r, pushed) :=
            if (rbO buf <? rv_len st) || rb_is_empty buf
            then overlap_scan (data_range (rbO buf) (rv_data st)) buf []
            else Ok (Some buf, []) in
          match r with
          | None => write_loop fuel (tmp ++ pushed) st
          | Some buf =>
              let len := Z.max (rv_len st) (rbM buf) in
              let st :=
                if rv_drain st
                then mkRecv (rv_data st) len len (rv_fc st) (rv_fin_off st)
                            (rv_error st) (rv_drain st)
                else mkRecv (data_insert buf (rv_data st)) (rv_off st) len (rv_fc st)
                            (rv_fin_off st) (rv_error st) (rv_drain st) in
              write_loop fuel (tmp ++ pushed) st
          end
      end
  end.

Definition set_fin_off (f : option Z) (st : recvbuf) : recvbuf :=
  mkRecv (rv_data st) (rv_off st) (rv_len st) (rv_fc st) f (rv_error st) (rv_drain st).

(** write (recv_buf.rs:92-195).  Every error return happens before any field
    is changed, so an error carries no new state. *)
Definition rv_write (buf : rangebuf) (st : recvbuf) : res error recvbuf :=
  if fc_max_data (rv_fc st) <? rbM buf then Err FlowControlE
  else if match rv_fin_off st with Some f => f <? rbM buf | None => false end
  then Err FinalSize
  else if match rv_fin_off st with
          | Some f => rb_fin buf && negb (f =? rbM buf) | None => false end
  then Err FinalSize
  else if rb_fin buf && (rbM buf <? rv_len st) then Err FinalSize
  else if match rv_fin_off st with Some _ => true | None => false end && rb_is_empty buf
  then Ok st
  else
    let st := if rb_fin buf then set_fin_off (Some (rbM buf)) st else st in
    if negb (rb_fin buf) && rb_is_empty buf then Ok st
    else if (rbM buf <=? rv_off st) && negb (rb_is_empty buf) then Ok st
    else write_loop (S (S (length (rb_data buf)))) [buf] st.

(** ready (recv_buf.rs:413-420) *)
Definition rv_ready (st : recvbuf) : bool :=
  match rv_data st with
  | [] => false
  | b :: _ => rbO b =? rv_off st
  end.

(** is_fin (recv_buf.rs:399-405) *)
Definition rv_is_fin (st : recvbuf) : bool :=
  match rv_fin_off st with Some f => f =? rv_off st | None => false end.

(** The [while cap > 0 && self.ready()] loop of emit_or_discard
    (recv_buf.rs:252-287): new data, new off, bytes emitted. *)
Fixpoint emit_loop (cap : Z) (data : list rangebuf) (off : Z) (out : list Z)
  : list rangebuf * Z * list Z :=
  match data with
  | [] => ([], off, out)
  | b :: tl =>
      if (0 <? cap) && (rbO b =? off) then
        let n := Z.min (rbL b) cap in
        let out := out ++ take n (rb_bytes b) in
        if n <? rbL b then (rb_consume n b :: tl, off + n, out)
        else emit_loop (cap - n) tl (off + n) out
      else (data, off, out)
  end.

(** emit_or_discard (recv_buf.rs:230-293) with [cap] the output size; Emit and
    Discard differ only in whether [out] is copied, so the bytes returned here
    are those copied or discarded.  The [StreamReset] error clears the data. *)
Definition rv_emit (cap : Z) (st : recvbuf)
  : res error (list Z * bool) * recvbuf :=
  if negb (rv_ready st) then (Err Done, st)
  else
    match rv_error st with
    | Some e =>
        (Err (StreamReset e),
         mkRecv [] (rv_off st) (rv_len st) (rv_fc st) (rv_fin_off st) (rv_error st)
                (rv_drain st))
    | None =>
        let '(data, off, out) := emit_loop cap (rv_data st) (rv_off st) [] in
        let st := mkRecv data off (rv_len st) (fc_add_consumed (zlen out) (rv_fc st))
                         (rv_fin_off st) (rv_error st) (rv_drain st) in
        (Ok (out, rv_is_fin st), st)
    end.

(** reset (recv_buf.rs:295-335); returns (max_data_delta,
    consumed_flowcontrol).  If the final [write] fails the state has already
    been changed, so the state is returned with the error. *)
Definition rv_reset (error_code final_size : Z) (st : recvbuf)
  : res error (Z * Z) * recvbuf :=
  if match rv_fin_off st with Some f => negb (f =? final_size) | None => false end
  then (Err FinalSize, st)
  else if final_size <? rv_len st then (Err FinalSize, st)
  else
    match rv_error st with
    | Some _ => (Ok (0, 0), st)
    | None =>
        let r := (final_size - rv_len st, final_size - rv_off st) in
        let st := mkRecv [] final_size (rv_len st) (rv_fc st) (rv_fin_off st)
                         (Some error_code) (rv_drain st) in
        match rv_write (rb_from [] final_size true) st with
        | Ok st => (Ok r, st)
        | Err e => (Err e, st)
        | Panic => (Panic, st)
        end
    end.

(** shutdown (recv_buf.rs:365-378) *)
Definition rv_shutdown (st : recvbuf) : res error (Z * recvbuf) :=
  if rv_drain st then Err Done
  else if rv_len st <? rv_off st then Panic
  else Ok (rv_len st - rv_off st,
           mkRecv [] (rv_len st) (rv_len st) (rv_fc st) (rv_fin_off st) (rv_error st) true).

(** readable_len (recv_buf.rs:429-450) *)
Fixpoint rl_loop (max_len : Z) (bs : list rangebuf) (contiguous next : Z) : Z :=
  match bs with
  | [] => contiguous
  | b :: tl =>
      if negb (rbO b =? next) then contiguous
      else
        let c := Z.min (contiguous + rbL b) max_len in
        if c =? max_len then c else rl_loop max_len tl c (rbM b)
  end.
Definition rv_readable_len (max_len : Z) (st : recvbuf) : Z :=
  rl_loop max_len (rv_data st) 0 (rv_off st).

(** almost_full (recv_buf.rs:386-388) *)
Definition rv_almost_full (st : recvbuf) : res error bool :=
  match rv_fin_off st with
  | Some _ => Ok false
  | None => fc_should_update (rv_fc st)
  end.

Definition rv_set_fc (f : flowctl) (st : recvbuf) : recvbuf :=
  mkRecv (rv_data st) (rv_off st) (rv_len st) f (rv_fin_off st) (rv_error st) (rv_drain st).

(** update_max_data, autotune_window (recv_buf.rs:338-361) *)
Definition rv_update_max_data (now : Z) (st : recvbuf) : recvbuf :=
  rv_set_fc (fc_update_max_data now (rv_fc st)) st.
Definition rv_autotune (now rtt : Z) (st : recvbuf) : recvbuf :=
  rv_set_fc (fc_autotune now rtt (rv_fc st)) st.

(** ** Histories of one receive stream *)

(** Calls made on a receive stream by lib.rs: STREAM frames (lib.rs:8541-8597),
    reads (lib.rs:5767-5861), RESET_STREAM frames (lib.rs:8364-8418), read
    shutdown (lib.rs, stream_shutdown), MAX_STREAM_DATA generation
    (lib.rs:4815-4852). *)
Inductive rv_op : Type :=
| RvFrame (off : Z) (data : list Z) (fin : bool)
| RvRead (cap : Z)
| RvReset (code final_size : Z)
| RvShutdown
| RvLimit (now rtt : Z) (fits : bool).

Inductive rv_out : Type :=
| OFrame (charge credit : Z)
| ORead (r : res error (list Z * bool))
| OReset (deltas : Z * Z)
| OShutdown (r : res error Z)
| OLimit (limit : option Z).

(** MAX_STREAM_DATA generation (lib.rs:4815-4852) for a stream in the almost
    full set: it was put there by a read that found [almost_full]
    (lib.rs:5822-5824), and the available window has not grown since, or by the
    loss of an earlier MAX_STREAM_DATA (lib.rs:4252-4256), which requires an
    earlier update; [due] is that condition.  [fits] is [push_frame_to_pkt!]:
    whether the frame fitted; a stream that is not in the set behaves like one
    whose frame does not fit. *)
Definition rv_limit (now rtt : Z) (fits : bool) (st : recvbuf)
  : res error (option Z * recvbuf) :=
  let* full := rv_almost_full st in
  let f := rv_fc st in
  let due := (fc_max_data f - fc_consumed f <? fc_window f / 2) ||
             match fc_last_update f with Some _ => true | None => false end in
  let st := if full then rv_autotune now rtt st else st in
  if due && fits then
    let st := rv_update_max_data now st in
    Ok (Some (fc_max_data (rv_fc st)), st)
  else Ok (None, st).

(** One call.  An error from a STREAM or RESET_STREAM frame closes the
    connection (lib.rs recv_single returns it), so it ends the history. *)
Definition rv_step (op : rv_op) (st : recvbuf) : res error (rv_out * recvbuf) :=
  match op with
  | RvFrame off data fin =>
      (* lib.rs:8569-8596: [charge] is added to the connection's received
         count, [credit] to its consumed count. *)
      let buf := rb_from data off fin in
      let charge := sat_sub (rbM buf) (rv_len st) in
      let credit := if rv_drain st then charge else 0 in
      let* st := rv_write buf st in Ok (OFrame charge credit, st)
  | RvRead cap =>
      let '(r, st) := rv_emit cap st in
      match r with Panic => Panic | _ => Ok (ORead r, st) end
  | RvReset code final_size =>
      match rv_reset code final_size st with
      | (Ok d, st) => Ok (OReset d, st)
      | (Err e, _) => Err e
      | (Panic, _) => Panic
      end
  | RvShutdown =>
      match rv_shutdown st with
      | Ok (n, st) => Ok (OShutdown (Ok n), st)
      | Err e => Ok (OShutdown (Err e), st)
      | Panic => Panic
      end
  | RvLimit now rtt fits =>
      let* '(l, st) := rv_limit now rtt fits st in Ok (OLimit l, st)
  end.

Fixpoint rv_run (ops : list rv_op) (st : recvbuf)
  : res error (list rv_out * recvbuf) :=
  match ops with
  | [] => Ok ([], st)
  | op :: ops =>
      let* '(o, st) := rv_step op st in
      let* '(os, st) := rv_run ops st in
      Ok (o :: os, st)
  end.
