(** Version Negotiation and Retry: the first part of recv_single (quiche/src/lib.rs:
    2993-3162, 3190-3206, 3390-3425), with the ids and the keys of Initial packets that it
    changes.  TLS is taken to start over without errors. *)
Require Import Verif.Base Verif.Errors.

(** Versions and ids are what they are on the wire. *)
Definition V1 : Z := 1.
(** version_is_supported (lib.rs:1877-1879) *)
Definition supported (v : Z) : bool := v =? V1.
Fixpoint same (a b : list Z) : bool :=
  match a, b with [], [] => true | x :: a, y :: b => (x =? y) && same a b | _, _ => false end.

(** A received packet, once its header is parsed.  A Retry packet is its source id, its
    token, all of its bytes before the tag, and the tag.  Of any other packet: whether it
    has a short header, its version, its source id, the keys it was sealed with if it is
    an Initial packet (they are derived from an id and a version), else whether it can be
    opened; and whether all that is in it was processed. *)
Inductive seal := ByInitial (cid : list Z) (v : Z) | ByOther (opened : bool).
Inductive gpkt :=
| GVn (dcid scid : list Z) (versions : option (list Z))
| GRetry (scid token body tag : list Z)
| GPkt (short : bool) (v : Z) (scid : list Z) (s : seal) (rest : bool).

(** Of Connection: is_server, version, did_version_negotiation, did_retry, recv_count, the
    source and the destination id, odcid, rscid, token, what the Initial keys are derived
    from, got_peer_conn_id, and how often the handshake was started over. *)
Record neg := mkG { g_srv : bool; g_v : Z; g_vn : bool; g_retry : bool; g_count : Z; g_scid : list Z; g_dcid : list Z; g_odcid : option (list Z); g_rscid : option (list Z); g_token : option (list Z); g_keys : option (list Z * Z); g_got : bool; g_starts : Z }.

(** Connection::with_tls (lib.rs:2151-2153, 2255-2290), for a client that chose [dcid], and
    a server not asked to send a Retry *)
Definition client_new (v : Z) (scid dcid : list Z) : neg := mkG false v false false 0 scid dcid None None None (Some (dcid, v)) false 1.
Definition server_new (v : Z) (scid : list Z) : neg := mkG true v false false 0 scid [] None None None None false 1.

(** Which version is chosen (lib.rs:3026-3042) *)
Fixpoint pick (l : list Z) (v : Z) : Z :=
  match l with
  | [] => v
  | x :: tl => if supported x then if x =? V1 then x else pick tl (Z.max v x) else pick tl v
  end.

(** lib.rs:2993-3079 *)
Definition on_vn (dcid scid : list Z) (versions : option (list Z)) (c : neg) : res error unit * neg :=
  if g_srv c then (Err Done, c)
  else if g_vn c then (Err Done, c)
  else if 0 <? g_count c then (Err Done, c)
  else if negb (same dcid (g_scid c)) then (Err Done, c)
  else if negb (same scid (g_dcid c)) then (Err Done, c)
  else match versions with
  | None => (Err Done, c)
  | Some l =>
      if existsb (Z.eqb (g_v c)) l then (Err Done, c)
      else if existsb supported l then
        let v := pick l (g_v c) in
        (Err Done, mkG (g_srv c) v true (g_retry c) (g_count c) (g_scid c) (g_dcid c) (g_odcid c) (g_rscid c) (g_token c) (Some (g_dcid c, v)) false (g_starts c + 1))
      else (Err UnknownVersion, mkG (g_srv c) (pick l (g_v c)) (g_vn c) (g_retry c) (g_count c) (g_scid c) (g_dcid c) (g_odcid c) (g_rscid c) (g_token c) (g_keys c) (g_got c) (g_starts c))
  end.

(** verify_retry_integrity (packet.rs:787-842): [mac] is the AEAD tag over the pseudo packet,
    the destination id preceded by its length, then the packet. *)
Definition retry_ok (mac : list Z -> list Z) (odcid body tag : list Z) : bool := same tag (mac (zlen odcid mod 256 :: odcid ++ body)).

(** lib.rs:3082-3139.  There is an active path. *)
Definition on_retry (mac : list Z -> list Z) (scid token body tag : list Z) (c : neg) : res error unit * neg :=
  if g_srv c then (Err Done, c)
  else if g_retry c then (Err Done, c)
  else if negb (retry_ok mac (g_dcid c) body tag) then (Err Done, c)
  else (Err Done, mkG (g_srv c) (g_v c) (g_vn c) true (g_count c) (g_scid c) scid (Some (g_dcid c)) (Some scid) (Some token) (Some (scid, g_v c)) false (g_starts c + 1)).

(** Any other packet, with the server's choice of the version (lib.rs:3141-3162), the
    derivation of its keys (lib.rs:3190-3203), and the ids (lib.rs:3390-3425).  [hdcid] is the
    destination id of the packet, which matters to a server only. *)
Definition on_pkt (hdcid : list Z) (short : bool) (v : Z) (scid : list Z) (s : seal) (rest : bool) (c : neg) : res error unit * neg :=
  if g_srv c && negb (g_vn c) && negb (supported v) then (Err UnknownVersion, c)
  else
    let c := if g_srv c && negb (g_vn c) then mkG (g_srv c) v true (g_retry c) (g_count c) (g_scid c) (g_dcid c) (g_odcid c) (g_rscid c) (g_token c) (g_keys c) (g_got c) (g_starts c) else c in
    if negb short && negb (v =? g_v c) then (Err Done, c)
    else
      let c := match g_keys c with
               | None => mkG (g_srv c) (g_v c) (g_vn c) (g_retry c) (g_count c) (g_scid c) (g_dcid c) (g_odcid c) (g_rscid c) (g_token c) (Some (hdcid, g_v c)) (g_got c) (g_starts c)
               | Some _ => c
               end in
      if negb (match s with ByInitial cid w => match g_keys c with Some (k, kv) => same cid k && (w =? kv) | None => false end | ByOther b => b end)
      then (Err (if g_srv c && (g_count c =? 0) then CryptoFail else Done), c)
      else
        let c := if g_got c then c
                 else mkG (g_srv c) (g_v c) (g_vn c) (g_retry c) (g_count c) (g_scid c) scid
                        (if g_srv c then g_odcid c else match g_odcid c with None => Some (g_dcid c) | o => o end) (g_rscid c) (g_token c) (g_keys c) true (g_starts c) in
        if rest then (Ok tt, mkG (g_srv c) (g_v c) (g_vn c) (g_retry c) (g_count c + 1) (g_scid c) (g_dcid c) (g_odcid c) (g_rscid c) (g_token c) (g_keys c) (g_got c) (g_starts c))
        else (Err InvalidFrame, c).

Definition gstep (mac : list Z -> list Z) (x : list Z * gpkt) (c : neg) : res error unit * neg :=
  match snd x with
  | GVn dcid scid versions => on_vn dcid scid versions c
  | GRetry scid token body tag => on_retry mac scid token body tag c
  | GPkt short v scid s rest => on_pkt (fst x) short v scid s rest c
  end.
