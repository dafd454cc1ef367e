(** RFC 8999 and RFC 9000 section 17: the wire format of packet headers before
    header protection is considered.  Stated without the code. *)
Require Import Verif.Base Verif.Errors Verif.OctetsSpec Verif.FrameModel Verif.FrameSpec Verif.PacketModel.

(** The type of a long header packet: version 0 is Version Negotiation, otherwise
    bits 4 and 5 of the first byte. *)
Definition long_type (first version : Z) : pkt_type :=
  if version =? 0 then PVersionNegotiation
  else match (first / 16) mod 4 with 0 => PInitial | 1 => PZeroRTT | 2 => PHandshake | _ => PRetry end.

(** What comes after the connection IDs: an Initial packet has a token with its
    length; a Retry packet has a token up to the 16 bytes of the integrity tag,
    which end the packet; a Version Negotiation packet is a list of versions. *)
Definition type_fields (ty : pkt_type) (l rest : list Z) (token versions : option (list Z)) : Prop :=
  match ty with
  | PInitial => exists t, with_len l t /\ token = Some t /\ versions = None
  | PRetry => token = Some l /\ versions = None /\ zlen rest = 16
  | PVersionNegotiation =>
      exists vs, l = concat vs /\ Forall (fun v => zlen v = 4) vs /\ rest = [] /\
        token = None /\ versions = Some (map be_value vs)
  | _ => l = [] /\ token = None /\ versions = None
  end.

(** [header_wire n l rest h]: the bytes [l], followed by [rest] in the datagram,
    are the header [h] for an endpoint whose connection IDs have [n] bytes.
    Version 1 is the known one; its connection IDs have at most 20 bytes. *)
Inductive header_wire (n : Z) : list Z -> list Z -> header -> Prop :=
| HwShort first dcid rest :
    0 <= first < 128 -> zlen dcid = n ->
    header_wire n ([first] ++ dcid) rest (mkHdr PShort 0 dcid [] 0 0 None None false)
| HwLong first vb dcid scid l token versions rest :
    128 <= first < 256 -> zlen vb = 4 -> zlen dcid <= 255 -> zlen scid <= 255 ->
    (be_value vb = 1 -> zlen dcid <= 20 /\ zlen scid <= 20) ->
    type_fields (long_type first (be_value vb)) l rest token versions ->
    header_wire n ([first] ++ vb ++ [zlen dcid] ++ dcid ++ [zlen scid] ++ scid ++ l) rest
      (mkHdr (long_type first (be_value vb)) (be_value vb) dcid scid 0 0 token versions false).

(** Headers the code may be asked to write. *)
Definition hdr_legal (h : header) : Prop :=
  bytes_ok (h_dcid h) /\ bytes_ok (h_scid h) /\ zlen (h_dcid h) <= 20 /\ zlen (h_scid h) <= 20 /\
  0 < h_version h < 2 ^ 32 /\ 0 <= h_pkt_num_len h <= 4 /\
  match h_token h with Some t => bytes_ok t /\ zlen t < 2 ^ 62 | None => h_ty h <> PRetry end /\
  h_ty h <> PVersionNegotiation.

(** What a reader sees of a header before header protection is removed: short
    headers show the destination only, and an Initial packet always has a token,
    which may be empty. *)
Definition seen (h : header) : header :=
  match h_ty h with
  | PShort => mkHdr PShort 0 (h_dcid h) [] 0 0 None None false
  | ty =>
      mkHdr ty (h_version h) (h_dcid h) (h_scid h) 0 0
        (match ty with
         | PInitial => Some (match h_token h with Some t => t | None => [] end)
         | PRetry => h_token h
         | _ => None
         end) None false
  end.

(** Two byte strings that differ only in the bits of [mask] in the first byte and
    in the last [n] bytes. *)
Definition same_but (mask n : Z) (a b : list Z) : Prop :=
  zlen a = zlen b /\
  slice 1 (zlen a - n) a = slice 1 (zlen b - n) b /\
  (forall i, 0 <= i -> Z.testbit mask i = false -> Z.testbit (hd 0 a) i = Z.testbit (hd 0 b) i).

(** The header with the packet number and, in a short header, the key phase that
    were under header protection; [first] is the first byte without it. *)
Definition with_pn (h : header) (first pn pn_len : Z) : header :=
  mkHdr (h_ty h) (h_version h) (h_dcid h) (h_scid h) pn pn_len (h_token h) (h_versions h)
    (match h_ty h with PShort => negb (Z.land first KEY_PHASE_BIT =? 0) | _ => h_key_phase h end).

Definition mask_ok (mask : list Z -> res error (list Z)) : Prop :=
  forall s, bytes_ok s -> zlen s = 16 -> exists m, mask s = Ok m /\ zlen m = 5 /\ bytes_ok m.

(** What is asked of the cryptographic primitives: the IV has twelve bytes,
    sealing adds 16 bytes and opening undoes it, and the header protection mask of
    16 sampled bytes has five bytes. *)
Record keys_ok (k : keys) : Prop := {
  ko_iv : zlen (k_iv k) = 12;
  ko_len : forall n ad p, zlen (k_seal k n ad p) = zlen p + 16;
  ko_bytes : forall n ad p, bytes_ok p -> bytes_ok (k_seal k n ad p);
  ko_open : forall n ad p, bytes_ok p -> k_open k n ad (k_seal k n ad p) = Ok p;
  ko_mask : mask_ok (k_mask k) }.

(** Short payloads are padded to four bytes. *)
Definition padded (payload : list Z) : list Z := payload ++ repeat 0 (Z.to_nat (4 - zlen payload)).

(** The header as the other side knows it in the end. *)
Definition opened (h : header) (pn : Z) : header :=
  let s := seen h in
  mkHdr (h_ty s) (h_version s) (h_dcid s) (h_scid s) (pn mod 256 ^ h_pkt_num_len h) (h_pkt_num_len h) (h_token s) None
    (match h_ty s with PShort => h_key_phase h | _ => false end).
