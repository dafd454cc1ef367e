(** C29, C30, C67: transport parameters. *)
Require Import Verif.Base Verif.Errors Verif.OctetsSpec Verif.TpModel Verif.TpSpec Verif.TpProofs2 Verif.TpProofs3.

(** C29: what one endpoint encodes, its peer decodes; the server-only parameters
    of a client are not sent; 206 (144) bytes are enough. *)
Theorem C29_round_trip t is_server out track : tp_sane t -> bytes_ok out ->
  match tp_encode t is_server out with
  | Ok enc => tp_decode enc (negb is_server) track = Ok (tp_seen is_server track t)
  | Err e => e = BufferTooShort /\ zlen out < if is_server then 206 else 144
  | Panic => False
  end.
Proof. exact (tp_round_trip t is_server out track). Qed.
Print Assumptions C29_round_trip.

(** C29: no configuration makes the encoder panic, with any connection ids of a handshake. *)
Theorem C29_config_never_panics ops odcid iscid rscid is_server out : Forall cfg_legal ops -> bytes_ok out ->
  (forall d, odcid = Some d \/ iscid = Some d \/ rscid = Some d -> bytes_ok d /\ zlen d <= 20) ->
  tp_encode (set_odcid odcid (set_iscid iscid (set_rscid rscid (cfg_run ops)))) is_server out <> Panic.
Proof. exact (cfg_no_panic ops odcid iscid rscid is_server out). Qed.
Print Assumptions C29_config_never_panics.

(** C29 fails for an ACK delay exponent of zero, and for a maximum ACK delay of
    zero: they are left out, and the peer assumes the defaults 3 and 25. *)
Theorem C29_zero_exponent_refuted :
  Forall cfg_legal [SetAde 0; SetMad 0] /\
  tp_ade (cfg_run [SetAde 0; SetMad 0]) = 0 /\ tp_mad (cfg_run [SetAde 0; SetMad 0]) = 0 /\
  match tp_encode (cfg_run [SetAde 0; SetMad 0]) false (repeat 0 128) with
  | Ok enc => match tp_decode enc true None with Ok t => tp_ade t = 3 /\ tp_mad t = 25 | _ => False end
  | _ => False
  end.
Proof. split; [repeat constructor; discriminate|vm_compute; repeat split; reflexivity]. Qed.
Print Assumptions C29_zero_exponent_refuted.

(** C29 fails for configurations the setters accept and the peer rejects. *)
Theorem C29_config_rejected_refuted :
  Forall (fun op => match tp_encode (cfg_run [op]) false (repeat 0 128) with
                    | Ok enc => tp_decode enc true None = Err InvalidTransportParam
                    | _ => False
                    end) [SetMad 16384; SetUdp 1199; SetStreamsBidi (2 ^ 60 + 1); SetStreamsUni (2 ^ 60 + 1)].
Proof. repeat (apply Forall_cons; [vm_compute; reflexivity|]). apply Forall_nil. Qed.
Print Assumptions C29_config_rejected_refuted.

(** C29 fails in the 128 bytes the TLS code reserves (tls/mod.rs:465): an ordinary
    server that uses Retry, stateless reset tokens and 20-byte connection ids
    cannot be set up. *)
Theorem C29_fits_refuted :
  let ops := [SetIdle 30000; SetData 10000000; SetBidiLocal 1000000; SetBidiRemote 1000000; SetUni 1000000;
              SetStreamsBidi 100; SetStreamsUni 100; SetToken (Some 12345)] in
  let t := set_odcid (Some (repeat 7 20)) (set_iscid (Some (repeat 8 20)) (set_rscid (Some (repeat 9 20)) (cfg_run ops))) in
  Forall cfg_legal ops /\ tp_encode t true (repeat 0 128) = Err BufferTooShort.
Proof. split; [repeat (apply Forall_cons; [cbn; lia|]); apply Forall_nil|vm_compute; reflexivity]. Qed.
Print Assumptions C29_fits_refuted.

(** C30: exactly the sequences of distinct, acceptable parameters are accepted, and
    the result says what they say. *)
Theorem C30_decode_iff b is_server track t : bytes_ok b ->
  (tp_decode b is_server track = Ok t <->
   exists l, params_wire b l /\ NoDup (map fst l) /\ Forall (param_ok is_server) l /\ says l track t).
Proof. exact (tp_decode_iff b is_server track t). Qed.
Print Assumptions C30_decode_iff.

Theorem C30_decode_total b is_server track : bytes_ok b -> tp_decode b is_server track <> Panic.
Proof. exact (tp_decode_np b is_server track). Qed.
Print Assumptions C30_decode_total.

(** C30: a parameter that comes twice is an error, however far apart. *)
Theorem C30_duplicates_rejected b is_server track l1 l2 l3 i v1 v2 :
  bytes_ok b -> params_wire b (l1 ++ (i, v1) :: l2 ++ (i, v2) :: l3) -> exists e, tp_decode b is_server track = Err e.
Proof. exact (tp_decode_dup b is_server track l1 l2 l3 i v1 v2). Qed.
Print Assumptions C30_duplicates_rejected.

(** C30: so is an out-of-range or truncated value, or a server-only parameter from a client. *)
Theorem C30_bad_value_rejected b is_server track l p :
  bytes_ok b -> params_wire b l -> In p l -> ~ param_ok is_server p -> exists e, tp_decode b is_server track = Err e.
Proof. exact (tp_decode_bad b is_server track l p). Qed.
Print Assumptions C30_bad_value_rejected.

(** C30: the application and the connection only ever see values in range. *)
Theorem C30_decoded_in_range b is_server track t : bytes_ok b -> tp_decode b is_server track = Ok t ->
  ub (tp_idle t) /\ ub (tp_data t) /\ ub (tp_bidi_local t) /\ ub (tp_bidi_remote t) /\ ub (tp_uni t) /\
  1200 <= tp_udp t <= 2 ^ 62 - 1 /\ 0 <= tp_streams_bidi t <= 2 ^ 60 /\ 0 <= tp_streams_uni t <= 2 ^ 60 /\
  0 <= tp_ade t <= 20 /\ 0 <= tp_mad t < 2 ^ 14 /\ 2 <= tp_acil t <= 2 ^ 62 - 1 /\
  (forall v, tp_dgram t = Some v -> ub v) /\
  (is_server = true -> tp_odcid t = None /\ tp_token t = None /\ tp_rscid t = None).
Proof. exact (tp_decoded_range b is_server track t). Qed.
Print Assumptions C30_decoded_in_range.

(** C30: unknown parameters never take more than the configured budget. *)
Theorem C30_unknown_bounded b is_server cap t : bytes_ok b -> 0 <= cap -> tp_decode b is_server (Some cap) = Ok t ->
  exists c k l, tp_unknown t = Some (c, k) /\ 0 <= c /\ c + fold_right (fun p s => zlen (snd p) + 8 + s) 0 k = cap /\
    params_wire b l /\ forall p, In p k -> In p l /\ knownb (fst p) = false.
Proof. exact (tp_decode_unknown b is_server cap t). Qed.
Print Assumptions C30_unknown_bounded.

(** C30 fails for junk after the integer in a value, for a
    disable_active_migration with a value, and for connection ids over 20 bytes:
    all of these are accepted. *)
Theorem C30_trailing_bytes_refuted :
  match tp_decode ([0x04; 3; 5; 99; 99] ++ [0x0c; 1; 7] ++ 0x0f :: 25 :: repeat 1 25) true None with
  | Ok t => tp_data t = 5 /\ tp_dam t = true /\ tp_iscid t = Some (repeat 1 25)
  | _ => False
  end.
Proof. vm_compute. repeat split; reflexivity. Qed.
Print Assumptions C30_trailing_bytes_refuted.

(** C67: the connection ids in the transport parameters are checked against those
    of the handshake. *)
Theorem C67_cids_authenticated is_server dcid odcid rscid t :
  check_peer_cids is_server dcid odcid rscid t = Ok tt <->
  tp_iscid t = Some dcid /\
  (forall o, odcid = Some o -> tp_odcid t = Some o \/ tp_odcid t = None /\ is_server = true) /\
  (forall r, rscid = Some r -> tp_rscid t = Some r).
Proof. exact (check_cids_iff is_server dcid odcid rscid t). Qed.
Print Assumptions C67_cids_authenticated.

(** C67 fails for a retry_source_connection_id when there was no Retry: RFC 9000
    section 7.3 makes it an error, the client accepts it. *)
Theorem C67_unexpected_retry_cid_refuted :
  let t := set_rscid (Some [9; 9]) (set_odcid (Some [1; 2]) (set_iscid (Some [3; 4]) tp_default)) in
  check_peer_cids false [3; 4] (Some [1; 2]) None t = Ok tt.
Proof. reflexivity. Qed.
Print Assumptions C67_unexpected_retry_cid_refuted.

(** Witnesses. *)
Definition tp_ex : tparams :=
  mkTp (Some [1; 2; 3]) 30000 (Some (2 ^ 127 + 5)) 1500 1000000 70000 70001 70002 100 3 5 20 true 4 (Some [4; 5]) (Some [6]) (Some 65536) None.

Example C29_witness : tp_sane tp_ex /\
  match tp_encode tp_ex true (repeat 0 128) with
  | Ok enc => tp_decode enc false (Some 50) = Ok (set_unknown (Some (50, [])) tp_ex)
  | _ => False
  end /\
  match tp_encode tp_ex false (repeat 0 128) with
  | Ok enc => tp_decode enc true None = Ok (set_odcid None (set_token None (set_rscid None tp_ex))) /\
      tp_decode enc true None <> Ok tp_ex
  | _ => False
  end.
Proof.
  split; [|vm_compute; repeat split; try reflexivity; discriminate].
  unfold tp_sane, tp_ex, ub. cbn [tp_odcid tp_idle tp_token tp_udp tp_data tp_bidi_local tp_bidi_remote tp_uni tp_streams_bidi tp_streams_uni tp_ade tp_mad
  tp_dam tp_acil tp_iscid tp_rscid tp_dgram tp_unknown]. repeat match goal with |- _ /\ _ => split end; try lia.
  - intros v e. injection e as <-. lia.
  - intros d [e|[e|e]]; injection e as <-; (split; [|vm_compute; discriminate]); repeat constructor; discriminate.
  - intros k e. injection e as <-. lia.
Qed.

Example C30_witness :
  tp_decode [0x04; 1; 5; 0x40; 0x99; 2; 8; 9; 0x01; 2; 0x43; 0xe8] true (Some 11) =
    Ok (set_idle 1000 (set_data 5 (set_unknown (Some (1, [(0x99, [8; 9])])) tp_default))) /\
  tp_decode [0x04; 1; 5; 0x05; 1; 6; 0x04; 1; 5] true None = Err InvalidTransportParam /\
  tp_decode [0x00; 1; 5] true None = Err InvalidTransportParam /\
  tp_decode [0x0a; 1; 21] true None = Err InvalidTransportParam /\
  params_wire [0x04; 1; 5; 0x0a; 1; 21] [(4, [5]); (10, [21])].
Proof.
  repeat match goal with |- _ /\ _ => split end; try (vm_compute; reflexivity).
  assert (q : forall x, 0 <= x < 64 -> qvarint [x] x).
  { intros x hx. split; [repeat constructor; lia|]. exists 0. cbn [be_value]. change (zlen [x]) with 1. change (zlen (@nil Z)) with 0. change (2 ^ (8 * 2 ^ 0 - 2)) with 64. change (256 ^ 0) with 1. lia. }
  apply (PwCons [4] 4 [1; 5] [5] [10; 1; 21]); [apply q; lia|exists [1]; split; [apply (q 1); lia|reflexivity]|].
  apply (PwCons [10] 10 [1; 21] [21] []); [apply q; lia|exists [1]; split; [apply (q 1); lia|reflexivity]|constructor].
Qed.

Example C67_witness :
  let t := set_rscid (Some [9; 9]) (set_odcid (Some [1; 2]) (set_iscid (Some [3; 4]) tp_default)) in
  check_peer_cids false [3; 4] (Some [1; 2]) (Some [9; 9]) t = Ok tt /\
  check_peer_cids false [3; 4] (Some [1; 2]) (Some [9; 8]) t = Err InvalidTransportParam /\
  check_peer_cids false [3; 4] (Some [1; 3]) (Some [9; 9]) t = Err InvalidTransportParam.
Proof. repeat split; reflexivity. Qed.
