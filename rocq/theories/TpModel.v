(** quiche/src/transport_params.rs: the QUIC transport parameters extension, and
    the setters of Config and the checks of Connection that feed and use it. *)
Require Import Verif.Base Verif.Errors.
Require Import Verif.OctetsModel Verif.FrameModel.

(** struct TransportParams (transport_params.rs:155-195).  Connection ids are byte
    lists, the 128-bit token is a number.  UnknownTransportParameters
    (transport_params.rs:101-108) is the pair of its capacity and its parameters. *)
Record tparams := mkTp {
  tp_odcid : option (list Z);
  tp_idle : Z;
  tp_token : option Z;
  tp_udp : Z;
  tp_data : Z;
  tp_bidi_local : Z;
  tp_bidi_remote : Z;
  tp_uni : Z;
  tp_streams_bidi : Z;
  tp_streams_uni : Z;
  tp_ade : Z;
  tp_mad : Z;
  tp_dam : bool;
  tp_acil : Z;
  tp_iscid : option (list Z);
  tp_rscid : option (list Z);
  tp_dgram : option Z;
  tp_unknown : option (Z * list (Z * list Z))
}.

(** TransportParams::default (transport_params.rs:197-220). *)
Definition tp_default : tparams :=
  mkTp None 0 None 65527 0 0 0 0 0 0 3 25 false 2 None None None None.

(** MAX_ACK_DELAY_EXPONENT (transport_params.rs:47), MAX_STREAM_ID (lib.rs:461). *)
Definition MAX_ACK_DELAY_EXPONENT : Z := 20.
Definition MAX_STREAM_ID : Z := 2 ^ 60.

(** UnknownTransportParameters::push (transport_params.rs:113-122); the error is
    dropped by its only caller. *)
Definition unknown_push (id : Z) (val : list Z) (u : Z * list (Z * list Z)) : Z * list (Z * list Z) :=
  let '(capacity, ps) := u in
  let size := zlen val + 8 in
  if size <? capacity then (capacity - size, ps ++ [(id, val)]) else (capacity, ps).

(** A varint at the start of the value; what follows it is not looked at. *)
Definition val_varint (val : list Z) : res error Z :=
  let* '(v, _) := get_v val in Ok v.

(** Field updates. *)
Definition set_odcid x t := mkTp x (tp_idle t) (tp_token t) (tp_udp t) (tp_data t) (tp_bidi_local t) (tp_bidi_remote t) (tp_uni t) (tp_streams_bidi t) (tp_streams_uni t) (tp_ade t) (tp_mad t) (tp_dam t) (tp_acil t) (tp_iscid t) (tp_rscid t) (tp_dgram t) (tp_unknown t).
Definition set_idle x t := mkTp (tp_odcid t) x (tp_token t) (tp_udp t) (tp_data t) (tp_bidi_local t) (tp_bidi_remote t) (tp_uni t) (tp_streams_bidi t) (tp_streams_uni t) (tp_ade t) (tp_mad t) (tp_dam t) (tp_acil t) (tp_iscid t) (tp_rscid t) (tp_dgram t) (tp_unknown t).
Definition set_token x t := mkTp (tp_odcid t) (tp_idle t) x (tp_udp t) (tp_data t) (tp_bidi_local t) (tp_bidi_remote t) (tp_uni t) (tp_streams_bidi t) (tp_streams_uni t) (tp_ade t) (tp_mad t) (tp_dam t) (tp_acil t) (tp_iscid t) (tp_rscid t) (tp_dgram t) (tp_unknown t).
Definition set_udp x t := mkTp (tp_odcid t) (tp_idle t) (tp_token t) x (tp_data t) (tp_bidi_local t) (tp_bidi_remote t) (tp_uni t) (tp_streams_bidi t) (tp_streams_uni t) (tp_ade t) (tp_mad t) (tp_dam t) (tp_acil t) (tp_iscid t) (tp_rscid t) (tp_dgram t) (tp_unknown t).
Definition set_data x t := mkTp (tp_odcid t) (tp_idle t) (tp_token t) (tp_udp t) x (tp_bidi_local t) (tp_bidi_remote t) (tp_uni t) (tp_streams_bidi t) (tp_streams_uni t) (tp_ade t) (tp_mad t) (tp_dam t) (tp_acil t) (tp_iscid t) (tp_rscid t) (tp_dgram t) (tp_unknown t).
Definition set_bidi_local x t := mkTp (tp_odcid t) (tp_idle t) (tp_token t) (tp_udp t) (tp_data t) x (tp_bidi_remote t) (tp_uni t) (tp_streams_bidi t) (tp_streams_uni t) (tp_ade t) (tp_mad t) (tp_dam t) (tp_acil t) (tp_iscid t) (tp_rscid t) (tp_dgram t) (tp_unknown t).
Definition set_bidi_remote x t := mkTp (tp_odcid t) (tp_idle t) (tp_token t) (tp_udp t) (tp_data t) (tp_bidi_local t) x (tp_uni t) (tp_streams_bidi t) (tp_streams_uni t) (tp_ade t) (tp_mad t) (tp_dam t) (tp_acil t) (tp_iscid t) (tp_rscid t) (tp_dgram t) (tp_unknown t).
Definition set_uni x t := mkTp (tp_odcid t) (tp_idle t) (tp_token t) (tp_udp t) (tp_data t) (tp_bidi_local t) (tp_bidi_remote t) x (tp_streams_bidi t) (tp_streams_uni t) (tp_ade t) (tp_mad t) (tp_dam t) (tp_acil t) (tp_iscid t) (tp_rscid t) (tp_dgram t) (tp_unknown t).
Definition set_streams_bidi x t := mkTp (tp_odcid t) (tp_idle t) (tp_token t) (tp_udp t) (tp_data t) (tp_bidi_local t) (tp_bidi_remote t) (tp_uni t) x (tp_streams_uni t) (tp_ade t) (tp_mad t) (tp_dam t) (tp_acil t) (tp_iscid t) (tp_rscid t) (tp_dgram t) (tp_unknown t).
Definition set_streams_uni x t := mkTp (tp_odcid t) (tp_idle t) (tp_token t) (tp_udp t) (tp_data t) (tp_bidi_local t) (tp_bidi_remote t) (tp_uni t) (tp_streams_bidi t) x (tp_ade t) (tp_mad t) (tp_dam t) (tp_acil t) (tp_iscid t) (tp_rscid t) (tp_dgram t) (tp_unknown t).
Definition set_ade x t := mkTp (tp_odcid t) (tp_idle t) (tp_token t) (tp_udp t) (tp_data t) (tp_bidi_local t) (tp_bidi_remote t) (tp_uni t) (tp_streams_bidi t) (tp_streams_uni t) x (tp_mad t) (tp_dam t) (tp_acil t) (tp_iscid t) (tp_rscid t) (tp_dgram t) (tp_unknown t).
Definition set_mad x t := mkTp (tp_odcid t) (tp_idle t) (tp_token t) (tp_udp t) (tp_data t) (tp_bidi_local t) (tp_bidi_remote t) (tp_uni t) (tp_streams_bidi t) (tp_streams_uni t) (tp_ade t) x (tp_dam t) (tp_acil t) (tp_iscid t) (tp_rscid t) (tp_dgram t) (tp_unknown t).
Definition set_dam x t := mkTp (tp_odcid t) (tp_idle t) (tp_token t) (tp_udp t) (tp_data t) (tp_bidi_local t) (tp_bidi_remote t) (tp_uni t) (tp_streams_bidi t) (tp_streams_uni t) (tp_ade t) (tp_mad t) x (tp_acil t) (tp_iscid t) (tp_rscid t) (tp_dgram t) (tp_unknown t).
Definition set_acil x t := mkTp (tp_odcid t) (tp_idle t) (tp_token t) (tp_udp t) (tp_data t) (tp_bidi_local t) (tp_bidi_remote t) (tp_uni t) (tp_streams_bidi t) (tp_streams_uni t) (tp_ade t) (tp_mad t) (tp_dam t) x (tp_iscid t) (tp_rscid t) (tp_dgram t) (tp_unknown t).
Definition set_iscid x t := mkTp (tp_odcid t) (tp_idle t) (tp_token t) (tp_udp t) (tp_data t) (tp_bidi_local t) (tp_bidi_remote t) (tp_uni t) (tp_streams_bidi t) (tp_streams_uni t) (tp_ade t) (tp_mad t) (tp_dam t) (tp_acil t) x (tp_rscid t) (tp_dgram t) (tp_unknown t).
Definition set_rscid x t := mkTp (tp_odcid t) (tp_idle t) (tp_token t) (tp_udp t) (tp_data t) (tp_bidi_local t) (tp_bidi_remote t) (tp_uni t) (tp_streams_bidi t) (tp_streams_uni t) (tp_ade t) (tp_mad t) (tp_dam t) (tp_acil t) (tp_iscid t) x (tp_dgram t) (tp_unknown t).
Definition set_dgram x t := mkTp (tp_odcid t) (tp_idle t) (tp_token t) (tp_udp t) (tp_data t) (tp_bidi_local t) (tp_bidi_remote t) (tp_uni t) (tp_streams_bidi t) (tp_streams_uni t) (tp_ade t) (tp_mad t) (tp_dam t) (tp_acil t) (tp_iscid t) (tp_rscid t) x (tp_unknown t).
Definition set_unknown x t := mkTp (tp_odcid t) (tp_idle t) (tp_token t) (tp_udp t) (tp_data t) (tp_bidi_local t) (tp_bidi_remote t) (tp_uni t) (tp_streams_bidi t) (tp_streams_uni t) (tp_ade t) (tp_mad t) (tp_dam t) (tp_acil t) (tp_iscid t) (tp_rscid t) (tp_dgram t) x.

(** The match on the parameter id (transport_params.rs:248-386). *)
Definition apply_param (is_server : bool) (id : Z) (val : list Z) (t : tparams) : res error tparams :=
  if id =? 0x00 then
    if is_server then Err InvalidTransportParam else Ok (set_odcid (Some val) t)
  else if id =? 0x01 then
    let* v := val_varint val in Ok (set_idle v t)
  else if id =? 0x02 then
    if is_server then Err InvalidTransportParam
    else let* '(b, _) := get_n 16 val in Ok (set_token (Some (be_dec b)) t)
  else if id =? 0x03 then
    let* v := val_varint val in
    if v <? 1200 then Err InvalidTransportParam else Ok (set_udp v t)
  else if id =? 0x04 then
    let* v := val_varint val in Ok (set_data v t)
  else if id =? 0x05 then
    let* v := val_varint val in Ok (set_bidi_local v t)
  else if id =? 0x06 then
    let* v := val_varint val in Ok (set_bidi_remote v t)
  else if id =? 0x07 then
    let* v := val_varint val in Ok (set_uni v t)
  else if id =? 0x08 then
    let* v := val_varint val in
    if MAX_STREAM_ID <? v then Err InvalidTransportParam else Ok (set_streams_bidi v t)
  else if id =? 0x09 then
    let* v := val_varint val in
    if MAX_STREAM_ID <? v then Err InvalidTransportParam else Ok (set_streams_uni v t)
  else if id =? 0x0a then
    let* v := val_varint val in
    if MAX_ACK_DELAY_EXPONENT <? v then Err InvalidTransportParam else Ok (set_ade v t)
  else if id =? 0x0b then
    let* v := val_varint val in
    if 2 ^ 14 <=? v then Err InvalidTransportParam else Ok (set_mad v t)
  else if id =? 0x0c then Ok (set_dam true t)
  else if id =? 0x0d then
    if is_server then Err InvalidTransportParam else Ok t
  else if id =? 0x0e then
    let* v := val_varint val in
    if v <? 2 then Err InvalidTransportParam else Ok (set_acil v t)
  else if id =? 0x0f then Ok (set_iscid (Some val) t)
  else if id =? 0x10 then
    if is_server then Err InvalidTransportParam else Ok (set_rscid (Some val) t)
  else if id =? 0x20 then
    let* v := val_varint val in Ok (set_dgram (Some v) t)
  else
    match tp_unknown t with
    | Some u => Ok (set_unknown (Some (unknown_push id val u)) t)
    | None => Ok t
    end.

(** The loop of decode (transport_params.rs:238-388); [seen] is the hash set.  Every
    round reads at least one byte, so the number of bytes is enough fuel. *)
Fixpoint decode_loop (fuel : nat) (is_server : bool) (b : list Z) (seen : list Z) (t : tparams) : res error tparams :=
  match fuel with
  | O => Panic
  | S fuel =>
      match b with
      | [] => Ok t
      | _ =>
          let* '(id, b) := get_v b in
          if existsb (Z.eqb id) seen then Err InvalidTransportParam
          else
            let* '(val, b) := get_lv b in
            let* t := apply_param is_server id val t in
            decode_loop fuel is_server b (id :: seen) t
      end
  end.

(** TransportParams::decode (transport_params.rs:223-392).  [is_server]: the decoder is the server. *)
Definition tp_decode (b : list Z) (is_server : bool) (unknown_size : option Z) : res error tparams :=
  decode_loop (S (length b)) is_server b []
    (match unknown_size with Some n => set_unknown (Some (n, [])) tp_default | None => tp_default end).

(** encode_param (transport_params.rs:394-401) and the value after it. *)
Definition param_puts (id len : Z) (val : list put) : list put := PutV id :: PutV len :: val.

(** The numeric parameters: assert!(v <= max), then id, length and value. *)
Definition int_param (id max v : Z) : list put :=
  if max <? v then [PutPanic] else param_puts id (varint_len v) [PutV v].
Definition nz_param (id max v : Z) : list put := if v =? 0 then [] else int_param id max v.
Definition cid_param (id : Z) (o : option (list Z)) : list put :=
  match o with Some d => param_puts id (zlen d) [PutB d] | None => [] end.

(** TransportParams::encode (transport_params.rs:403-565). *)
Definition tp_puts (t : tparams) (is_server : bool) : list put :=
  (if is_server then cid_param 0x00 (tp_odcid t) else []) ++
  nz_param 0x01 max_varint (tp_idle t) ++
  (if is_server then match tp_token t with Some k => param_puts 0x02 16 [PutB (be_enc 16 k)] | None => [] end else []) ++
  nz_param 0x03 max_varint (tp_udp t) ++
  nz_param 0x04 max_varint (tp_data t) ++
  nz_param 0x05 max_varint (tp_bidi_local t) ++
  nz_param 0x06 max_varint (tp_bidi_remote t) ++
  nz_param 0x07 max_varint (tp_uni t) ++
  nz_param 0x08 max_varint (tp_streams_bidi t) ++
  nz_param 0x09 max_varint (tp_streams_uni t) ++
  nz_param 0x0a MAX_ACK_DELAY_EXPONENT (tp_ade t) ++
  nz_param 0x0b max_varint (tp_mad t) ++
  (if tp_dam t then param_puts 0x0c 0 [] else []) ++
  (if tp_acil t =? 2 then [] else int_param 0x0e max_varint (tp_acil t)) ++
  cid_param 0x0f (tp_iscid t) ++
  (if is_server then cid_param 0x10 (tp_rscid t) else []) ++
  match tp_dgram t with Some v => int_param 0x20 max_varint v | None => [] end.

Definition tp_encode (t : tparams) (is_server : bool) (out : list Z) : res error (list Z) :=
  match do_puts (tp_puts t is_server) (mkOct out 0) with
  | (Ok _, o) => Ok (take (oc_off o) (oc_buf o))
  | (Err _, _) => Err BufferTooShort
  | (Panic, _) => Panic
  end.

(** The setters of Config (lib.rs:906-1077, 1180-1190, 1222-1224).  The arguments are u64. *)
Inductive cfg_op : Type :=
| SetIdle (v : Z) | SetUdp (v : Z) | SetData (v : Z) | SetBidiLocal (v : Z) | SetBidiRemote (v : Z) | SetUni (v : Z)
| SetStreamsBidi (v : Z) | SetStreamsUni (v : Z) | SetAde (v : Z) | SetMad (v : Z) | SetAcil (v : Z) | SetDam (b : bool)
| SetDgram (b : bool) | SetToken (o : option Z).

(** MAX_DGRAM_FRAME_SIZE (lib.rs:474) *)
Definition MAX_DGRAM_FRAME_SIZE : Z := 65536.

Definition cfg_step (op : cfg_op) (t : tparams) : tparams :=
  match op with
  | SetIdle v => set_idle (Z.min v max_varint) t
  | SetUdp v => set_udp (Z.min v max_varint) t
  | SetData v => set_data (Z.min v max_varint) t
  | SetBidiLocal v => set_bidi_local (Z.min v max_varint) t
  | SetBidiRemote v => set_bidi_remote (Z.min v max_varint) t
  | SetUni v => set_uni (Z.min v max_varint) t
  | SetStreamsBidi v => set_streams_bidi (Z.min v max_varint) t
  | SetStreamsUni v => set_streams_uni (Z.min v max_varint) t
  | SetAde v => set_ade (Z.min v MAX_ACK_DELAY_EXPONENT) t
  | SetMad v => set_mad (Z.min v max_varint) t
  | SetAcil v => if 2 <=? v then set_acil (Z.min v max_varint) t else t
  | SetDam b => set_dam b t
  | SetDgram b => set_dgram (if b then Some MAX_DGRAM_FRAME_SIZE else None) t
  | SetToken o => set_token o t
  end.

Definition cfg_run (ops : list cfg_op) : tparams := fold_left (fun t op => cfg_step op t) ops tp_default.

(** The connection id checks of parse_peer_transport_params (lib.rs:7906-7950).
    [dcid] is destination_id(), [odcid] and [rscid] are the fields of Connection. *)
Definition cid_eqb (a b : list Z) : bool := if list_eq_dec Z.eq_dec a b then true else false.

Definition check_peer_cids (is_server : bool) (dcid : list Z) (odcid rscid : option (list Z)) (t : tparams) : res error unit :=
  let* u := match tp_iscid t with
            | Some v => if cid_eqb v dcid then Ok tt else Err InvalidTransportParam
            | None => Err InvalidTransportParam
            end in
  let* u := match odcid with
            | Some o => match tp_odcid t with
                        | Some v => if cid_eqb v o then Ok tt else Err InvalidTransportParam
                        | None => if is_server then Ok tt else Err InvalidTransportParam
                        end
            | None => Ok tt
            end in
  match rscid with
  | Some r => match tp_rscid t with
              | Some v => if cid_eqb v r then Ok tt else Err InvalidTransportParam
              | None => Err InvalidTransportParam
              end
  | None => Ok tt
  end.
