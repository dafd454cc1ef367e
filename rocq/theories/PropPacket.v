(** C26, C27, C28: packet headers, header protection, packet protection. *)
Require Import Verif.Base Verif.Errors Verif.OctetsModel Verif.OctetsSpec Verif.FrameModel Verif.FrameSpec.
Require Import Verif.FrameProofs Verif.PktNumModel Verif.PktNumProofs Verif.PacketModel Verif.PacketSpec Verif.PacketProofs Verif.PacketProofs2 Verif.PacketProofs3.

(** C26: a header that is written can be read back by an endpoint that uses
    connection IDs of that length, whatever follows it.  A Retry packet is
    followed by its 16-byte tag. *)
Theorem C26_header_round_trip h c : hdr_legal h -> cursor_ok c ->
  exists bs, bytes_ok bs /\
    (zlen bs <= zlen (oc_buf c) - oc_off c -> exists c', hdr_to_bytes h c = (Ok tt, c') /\ oc_off c' = oc_off c + zlen bs /\
       oc_buf c' = take (oc_off c) (oc_buf c) ++ bs ++ drop (oc_off c + zlen bs) (oc_buf c)) /\
    (zlen (oc_buf c) - oc_off c < zlen bs -> exists c', hdr_to_bytes h c = (Err BufferTooShort, c')) /\
    (forall rest, (h_ty h = PRetry -> zlen rest = 16) -> hdr_from_bytes (bs ++ rest) (zlen (h_dcid h)) = Ok (seen h, rest)).
Proof. intros h1 h2. destruct (hdr_round_trip h c h1 h2) as (bs & k1 & _ & k2). eauto. Qed.
Print Assumptions C26_header_round_trip.

(** C26: the first byte carries the form bit, the fixed bit, the type and the
    length of the packet number. *)
Theorem C26_first_byte h out c' : hdr_legal h -> bytes_ok out -> hdr_to_bytes h (mkOct out 0) = (Ok tt, c') ->
  let b := hd 0 (oc_buf c') in
  b / 64 = (match h_ty h with PShort => 1 | _ => 3 end) /\
  (h_ty h <> PShort -> long_type b (h_version h) = h_ty h) /\
  (h_ty h = PShort -> (b / 4) mod 2 = if h_key_phase h then 1 else 0) /\
  b mod 4 = Z.max 0 (h_pkt_num_len h - 1).
Proof. exact (hdr_first_byte h out c'). Qed.
Print Assumptions C26_first_byte.

(** C26: reading a header succeeds exactly on the wire format. *)
Theorem C26_decode_iff n b h rest : 0 <= n -> bytes_ok b ->
  (hdr_from_bytes b n = Ok (h, rest) <-> exists l, b = l ++ rest /\ header_wire n l rest h).
Proof. exact (hdr_decode_iff n b h rest). Qed.
Print Assumptions C26_decode_iff.

(** C26: and is total. *)
Theorem C26_decode_total n b : 0 <= n -> bytes_ok b -> hdr_from_bytes b n <> Panic.
Proof. exact (hdr_decode_total n b). Qed.
Print Assumptions C26_decode_total.

(** C26: connection IDs of more than 20 bytes are rejected in version 1. *)
Theorem C26_cid_limit n b h rest : 0 <= n <= 20 -> bytes_ok b -> hdr_from_bytes b n = Ok (h, rest) ->
  h_version h = 1 \/ h_ty h = PShort -> zlen (h_dcid h) <= 20 /\ zlen (h_scid h) <= 20.
Proof. exact (hdr_cid_limit n b h rest). Qed.
Print Assumptions C26_cid_limit.

(** C26: a Version Negotiation packet offers version 1, with the connection IDs
    swapped. *)
Theorem C26_version_negotiation_round_trip rnd scid dcid out n : 0 <= rnd < 256 -> bytes_ok scid -> bytes_ok dcid -> bytes_ok out ->
  zlen scid <= 255 -> zlen dcid <= 255 -> 0 <= n ->
  let size := 11 + zlen scid + zlen dcid in
  (zlen out < size -> exists c', puts (negotiate_version_puts rnd scid dcid) (mkOct out 0) = (Err BufferTooShort, c')) /\
  (size <= zlen out -> exists c', puts (negotiate_version_puts rnd scid dcid) (mkOct out 0) = (Ok tt, c') /\ oc_off c' = size /\
     hdr_from_bytes (take size (oc_buf c')) n = Ok (mkHdr PVersionNegotiation 0 scid dcid 0 0 None (Some [1]) false, [])).
Proof. exact (version_negotiation_read rnd scid dcid out n). Qed.
Print Assumptions C26_version_negotiation_round_trip.

(** C26: a Retry packet is read back with its token, followed by the tag of
    everything before it. *)
Theorem C26_retry_round_trip tag scid dcid new_scid token version out :
  (forall b, bytes_ok (tag b) /\ zlen (tag b) = 16) -> bytes_ok scid -> bytes_ok new_scid -> bytes_ok token -> bytes_ok out ->
  zlen scid <= 20 -> zlen new_scid <= 20 -> zlen token < 2 ^ 62 ->
  let size := 23 + zlen scid + zlen new_scid + zlen token in
  (version <> 1 -> retry tag scid dcid new_scid token version out = Err UnknownVersion) /\
  (version = 1 -> zlen out < size -> retry tag scid dcid new_scid token version out = Err BufferTooShort) /\
  (version = 1 -> size <= zlen out -> exists out' hb, retry tag scid dcid new_scid token version out = Ok (size, out') /\
     take size out' = hb ++ tag hb /\
     hdr_from_bytes (take size out') (zlen scid) = Ok (mkHdr PRetry 1 scid new_scid 0 0 (Some token) None false, tag hb)).
Proof. exact (retry_read tag scid dcid new_scid token version out). Qed.
Print Assumptions C26_retry_round_trip.

Definition w_initial : header := mkHdr PInitial 1 [1; 2; 3; 4] [9; 8] 0 2 (Some [7; 7; 7]) None false.
Definition w_short : header := mkHdr PShort 0 [1; 2; 3; 4] [] 0 2 None None true.

Example C26_header_round_trip_witness :
  hdr_legal w_initial /\ cursor_ok (mkOct (repeat 0 40) 3) /\
  hdr_from_bytes ([193; 0; 0; 0; 1; 4; 1; 2; 3; 4; 2; 9; 8; 3; 7; 7; 7] ++ [5]) 4 =
    Ok (mkHdr PInitial 1 [1; 2; 3; 4] [9; 8] 0 0 (Some [7; 7; 7]) None false, [5]) /\
  hdr_from_bytes ([193; 0; 0; 0; 1; 21] ++ repeat 0 21 ++ [0; 0]) 4 = Err InvalidPacket.
Proof.
  split. { unfold hdr_legal, w_initial. cbn. ands; try lia; try discriminate; repeat constructor; unfold is_byte; lia. }
  split. { split; cbn; [lia|]. apply Forall_forall. intros x hx. cbn in hx. unfold is_byte. intuition lia. }
  split; vm_compute; reflexivity.
Qed.

(** C27: header protection changes only the low bits of the first byte and the
    packet number, and removing it gives the packet back: packet number, key phase
    and all.  [more] is what else is in the buffer. *)
Theorem C27_header_protection_round_trip mask b pn_len payload more h : mask_ok mask -> bytes_ok b -> bytes_ok payload ->
  1 <= pn_len <= 4 -> pn_len < zlen b -> hd 0 b mod 4 = pn_len - 1 -> 20 <= pn_len + zlen payload ->
  exists b', encrypt_hdr mask b pn_len payload = Ok b' /\ bytes_ok b' /\
    same_but (if 128 <=? hd 0 b then 15 else 31) pn_len b' b /\
    decrypt_hdr mask (mkOct (b' ++ payload ++ more) (zlen b - pn_len)) h =
      Ok (with_pn h (hd 0 b) (be_value (drop (zlen b - pn_len) b)) pn_len, mkOct (b ++ payload ++ more) (zlen b)).
Proof.
  intros h1 h2 h3 h4 h5 h6 h7. destruct (hp_round_trip mask b pn_len payload more h h1 h2 h3 h4 h5 h6 h7) as (b' & f & k1 & k2 & _ & k3 & k4).
  eauto.
Qed.
Print Assumptions C27_header_protection_round_trip.

Definition w_mask (s : list Z) : res error (list Z) := Ok (take 5 s).

Example C27_header_protection_round_trip_witness :
  let b := [0x45; 1; 2; 3; 0xaa; 0xbb] in let payload := map Z.of_nat (seq 100 30) in
  mask_ok w_mask /\ bytes_ok b /\ bytes_ok payload /\ hd 0 b mod 4 = 2 - 1 /\
  encrypt_hdr w_mask b 2 payload = Ok [0x43; 1; 2; 3; 0xcd; 0xd3] /\
  decrypt_hdr w_mask (mkOct ([0x43; 1; 2; 3; 0xcd; 0xd3] ++ payload) 4) w_short =
    Ok (mkHdr PShort 0 [1; 2; 3; 4] [] 0xaabb 2 None None true, mkOct (b ++ payload) 6).
Proof.
  cbv zeta. split.
  { intros s hs hl. exists (take 5 s). split; [reflexivity|]. split; [rewrite zlen_take by lia; lia|]. apply bytes_ok_take. auto. }
  split. { repeat constructor; unfold is_byte; lia. }
  split. { apply Forall_forall. intros x hx. vm_compute in hx. unfold is_byte. intuition lia. }
  split; [reflexivity|]. split; vm_compute; reflexivity.
Qed.

(** C28: nonces of different packet numbers differ. *)
Theorem C28_nonce_injective iv a b n : zlen iv = 12 -> 0 <= a < 2 ^ 64 -> 0 <= b < 2 ^ 64 ->
  make_nonce iv a = Ok n -> make_nonce iv b = Ok n -> a = b.
Proof. exact (nonce_injective iv a b n). Qed.
Print Assumptions C28_nonce_injective.

Theorem C28_nonce_defined iv pn : zlen iv = 12 -> exists n, make_nonce iv pn = Ok n /\ zlen n = 12.
Proof. exact (nonce_ok iv pn). Qed.
Print Assumptions C28_nonce_defined.

(** RFC 9001 A.5: packet number 654360564. *)
Example C28_nonce_injective_witness :
  make_nonce [0xe0; 0x45; 0x9b; 0x34; 0x74; 0xbd; 0xd0; 0xe4; 0x4a; 0x41; 0xc1; 0x44] 654360564 =
    Ok [0xe0; 0x45; 0x9b; 0x34; 0x74; 0xbd; 0xd0; 0xe4; 0x6d; 0x41; 0x7e; 0xb0].
Proof. vm_compute. reflexivity. Qed.

(** C26: packets.  A packet that is built, put in a datagram (a packet with a long
    header may be followed by anything), and opened by a peer that has received
    packets up to [largest] gives back the header, the packet number, the payload
    and the size of the packet.  It needs [size] bytes, and building it fails with
    an error if there are fewer; no byte after it is touched.  The payload limit is
    that of a two byte length field, as send_single enforces it. *)
Theorem C26_packet_round_trip k h pn la payload out : keys_ok k -> hdr_legal h -> h_ty h <> PRetry ->
  0 <= la -> 0 <= pn < 2 ^ 62 -> pn - la < 2 ^ 31 - 1 -> h_pkt_num_len h = pkt_num_len pn la ->
  bytes_ok payload -> zlen payload < 2 ^ 14 - 20 -> bytes_ok out ->
  exists size, (zlen out < size -> exists e, build_pkt k h pn payload out = Err e) /\
    (size <= zlen out -> exists out', build_pkt k h pn payload out = Ok (size, out') /\
       zlen out' = zlen out /\ drop size out' = drop size out /\
       forall rest largest, (h_ty h = PShort -> rest = []) -> bytes_ok rest ->
         la <= largest -> largest - pn < 2 ^ (8 * h_pkt_num_len h - 1) - 1 ->
         open_pkt k (take size out' ++ rest) (zlen (h_dcid h)) largest = Ok (opened h pn, pn, padded payload, size)).
Proof. exact (packet_round_trip_la k h pn la payload out). Qed.
Print Assumptions C26_packet_round_trip.

(** C26: whatever comes from the network, opening it does not panic. *)
Theorem C26_open_never_panics k b n largest : zlen (k_iv k) = 12 -> (forall nc ad c, k_open k nc ad c <> Panic) -> mask_ok (k_mask k) ->
  0 <= n -> bytes_ok b -> open_pkt k b n largest <> Panic.
Proof. exact (open_never_panics k b n largest). Qed.
Print Assumptions C26_open_never_panics.

(** A toy cipher that meets the assumptions: it reverses the payload and appends
    the sum of the associated data and the nonce. *)
Definition w_tag (n ad : list Z) : list Z := repeat (fold_right Z.add 0 (n ++ ad) mod 256) 16.
Definition w_keys : keys := mkKeys [0; 1; 2; 3; 4; 5; 6; 7; 8; 9; 10; 11]
  (fun n ad p => rev p ++ w_tag n ad)
  (fun n ad c => if list_eq_dec Z.eq_dec (drop (zlen c - 16) c) (w_tag n ad) then Ok (rev (take (zlen c - 16) c)) else Err CryptoFail)
  w_mask.

Lemma w_keys_ok : keys_ok w_keys.
Proof.
  assert (lt : forall n ad, zlen (w_tag n ad) = 16) by (intros; unfold w_tag, zlen; rewrite repeat_length; reflexivity).
  constructor; cbn [w_keys k_iv k_seal k_open k_mask].
  - reflexivity.
  - intros n ad p. rewrite zlen_app, lt. unfold zlen. rewrite rev_length. reflexivity.
  - intros n ad p hp. apply bytes_ok_app. split; [apply Forall_rev; auto|]. apply Forall_forall. intros x hx. apply repeat_spec in hx. subst x.
    unfold is_byte. apply Z.mod_pos_bound. lia.
  - intros n ad p hp. rewrite zlen_app, lt. replace (zlen (rev p) + 16 - 16) with (zlen (rev p)) by lia. rewrite drop_app_exact, take_app_exact.
    destruct (list_eq_dec Z.eq_dec (w_tag n ad) (w_tag n ad)); [|congruence]. rewrite rev_involutive. reflexivity.
  - apply C27_header_protection_round_trip_witness.
Qed.

Example C26_packet_round_trip_witness :
  keys_ok w_keys /\ hdr_legal w_initial /\ h_pkt_num_len w_initial = pkt_num_len 1000 800 /\
  (exists out', build_pkt w_keys w_initial 1000 [6; 0; 1] (repeat 0 100) = Ok (41, out') /\
     open_pkt w_keys (take 41 out' ++ [1; 2; 3]) 4 999 = Ok (opened w_initial 1000, 1000, [6; 0; 1; 0], 41)).
Proof.
  split; [exact w_keys_ok|]. split; [apply C26_header_round_trip_witness|]. split; [reflexivity|].
  eexists. split; [vm_compute; reflexivity|]. vm_compute. reflexivity.
Qed.
