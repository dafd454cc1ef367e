(** quiche/src/packet.rs: headers, header protection and packet protection, with
    the parts of send_single and recv_single that put a packet together and take
    it apart, and quiche/src/crypto/mod.rs: make_nonce. *)
Require Import Verif.Base Verif.Errors Verif.OctetsModel Verif.FrameModel Verif.PktNumModel.

(** FORM_BIT .. PKT_NUM_MASK, MAX_CID_LEN, SAMPLE_LEN (packet.rs:44-55) *)
Definition FORM_BIT : Z := 128.
Definition FIXED_BIT : Z := 64.
Definition KEY_PHASE_BIT : Z := 4.
Definition TYPE_MASK : Z := 48.
Definition PKT_NUM_MASK : Z := 3.
Definition MAX_CID_LEN : Z := 20.
Definition MAX_PKT_NUM_LEN : Z := 4.
Definition SAMPLE_LEN : Z := 16.
(** RETRY_AEAD_ALG.tag_len(): 16 as for every algorithm (crypto/mod.rs) *)
Definition TAG_LEN : Z := 16.

(** PROTOCOL_VERSION_V1, version_is_supported (lib.rs:1876-1879) *)
Definition PROTOCOL_VERSION_V1 : Z := 1.
Definition version_is_supported (v : Z) : bool := v =? PROTOCOL_VERSION_V1.

(** Header (packet.rs:291-327).  Connection IDs are their bytes. *)
Record header : Type := mkHdr {
  h_ty : pkt_type;
  h_version : Z;
  h_dcid : list Z;
  h_scid : list Z;
  h_pkt_num : Z;
  h_pkt_num_len : Z;
  h_token : option (list Z);
  h_versions : option (list Z);
  h_key_phase : bool }.

(** is_long (packet.rs:529-531) *)
Definition is_long (b : Z) : bool := negb (Z.land b FORM_BIT =? 0).

(** The [while] loop of the VersionNegotiation arm (packet.rs:426-429).  Each turn
    reads four bytes; running out of [fuel] is a panic here. *)
Fixpoint versions_loop (fuel : nat) (b : list Z) (acc : list Z) : res error (list Z * list Z) :=
  match b with
  | [] => Ok (acc, b)
  | _ =>
      match fuel with
      | O => Panic
      | S fuel => let* '(v, b) := rd (rd_u 4 b) in versions_loop fuel b (acc ++ [v])
      end
  end.

(** from_bytes (packet.rs:354-449), on the remaining bytes *)
Definition hdr_from_bytes (b : list Z) (dcid_len : Z) : res error (header * list Z) :=
  let* '(first, b) := rd (rd_u 1 b) in
  if negb (is_long first) then
    let* '(dcid, b) := get_n dcid_len b in
    Ok (mkHdr PShort 0 dcid [] 0 0 None None false, b)
  else
    let* '(version, b) := rd (rd_u 4 b) in
    let* ty :=
      if version =? 0 then Ok PVersionNegotiation
      else
        match Z.shiftr (Z.land first TYPE_MASK) 4 with
        | 0 => Ok PInitial
        | 1 => Ok PZeroRTT
        | 2 => Ok PHandshake
        | 3 => Ok PRetry
        | _ => Err InvalidPacket
        end in
    let* '(dlen, b) := rd (rd_u 1 b) in
    if version_is_supported version && (MAX_CID_LEN <? dlen) then Err InvalidPacket
    else
      let* '(dcid, b) := get_n dlen b in
      let* '(slen, b) := rd (rd_u 1 b) in
      if version_is_supported version && (MAX_CID_LEN <? slen) then Err InvalidPacket
      else
        let* '(scid, b) := get_n slen b in
        let mk token versions := mkHdr ty version dcid scid 0 0 token versions false in
        match ty with
        | PInitial =>
            let* '(token, b) := get_lv b in
            Ok (mk (Some token) None, b)
        | PRetry =>
            if zlen b <? TAG_LEN then Err InvalidPacket
            else
              let* '(token, b) := get_n (zlen b - TAG_LEN) b in
              Ok (mk (Some token) None, b)
        | PVersionNegotiation =>
            let* '(list, b) := versions_loop (S (length b)) b [] in
            Ok (mk None (Some list), b)
        | _ => Ok (mk None None, b)
        end.

(** to_bytes (packet.rs:451-524): the writes it makes, in order; put_u32 is
    written as its four bytes.  [usize as u8] is [mod 256]. *)
Definition hdr_puts (h : header) : res error (list put) :=
  let first := Z.max 0 (h_pkt_num_len h - 1) mod 256 in
  match h_ty h with
  | PShort =>
      let first := Z.land first (Z.lnot FORM_BIT) in
      let first := Z.lor first FIXED_BIT in
      let first := if h_key_phase h then Z.lor first KEY_PHASE_BIT
                   else Z.land first (Z.lnot KEY_PHASE_BIT) in
      Ok [PutU8 first; PutB (h_dcid h)]
  | PVersionNegotiation => Err InvalidPacket
  | ty =>
      let ty := match ty with PInitial => 0 | PZeroRTT => 1 | PHandshake => 2 | _ => 3 end in
      let first := Z.lor first (Z.lor (Z.lor FORM_BIT FIXED_BIT) (Z.shiftl ty 4)) in
      let ids :=
        [PutU8 first; PutB (be_enc 4 (h_version h));
         PutU8 (zlen (h_dcid h) mod 256); PutB (h_dcid h);
         PutU8 (zlen (h_scid h) mod 256); PutB (h_scid h)] in
      match h_ty h with
      | PInitial =>
          match h_token h with
          | Some v => Ok (ids ++ [PutV (zlen v); PutB v])
          | None => Ok (ids ++ [PutV 0])
          end
      | PRetry =>
          match h_token h with
          | Some v => Ok (ids ++ [PutB v])
          | None => Ok (ids ++ [PutPanic])
          end
      | _ => Ok ids
      end
  end.

(** A BufferTooShortError of a cursor as an Error. *)
Definition lift {A} (r : res oct_err A) : res error A :=
  match r with Ok a => Ok a | Err _ => Err BufferTooShort | Panic => Panic end.

Definition puts (ps : list put) (c : oct) : res error unit * oct :=
  let '(r, c) := do_puts ps c in (lift r, c).

Definition hdr_to_bytes (h : header) (c : oct) : res error unit * oct :=
  match hdr_puts h with
  | Ok ps => puts ps c
  | Err e => (Err e, c)
  | Panic => (Panic, c)
  end.

(** negotiate_version (packet.rs:737-755); [rnd] is rand_u8. *)
Definition negotiate_version_puts (rnd : Z) (scid dcid : list Z) : list put :=
  [PutU8 (Z.lor rnd FORM_BIT); PutB (be_enc 4 0);
   PutU8 (zlen scid mod 256); PutB scid; PutU8 (zlen dcid mod 256); PutB dcid;
   PutB (be_enc 4 PROTOCOL_VERSION_V1)].

(** retry (packet.rs:757-786); [tag] stands for compute_retry_integrity_tag, a
    function of the bytes written so far. *)
Definition retry (tag : list Z -> list Z) (scid dcid new_scid token : list Z) (version : Z) (out : list Z) :
  res error (Z * list Z) :=
  if negb (version_is_supported version) then Err UnknownVersion
  else
    let h := mkHdr PRetry version scid new_scid 0 0 (Some token) None false in
    match hdr_to_bytes h (mkOct out 0) with
    | (Ok _, c) =>
        match puts [PutB (tag (take (oc_off c) (oc_buf c)))] c with
        | (Ok _, c) => Ok (oc_off c, oc_buf c)
        | (Err e, _) => Err e
        | (Panic, _) => Panic
        end
    | (Err e, _) => Err e
    | (Panic, _) => Panic
    end.

(** ** Header protection *)

(** [mask : list Z -> res error (list Z)] is new_mask of the key: five bytes for a
    sample.  The loops [for i in 0..pn_len { pn_buf[i] ^= mask[i + 1] }]. *)
Fixpoint xor_bytes (a m : list Z) : list Z :=
  match a, m with
  | x :: a, y :: m => Z.lxor x y :: xor_bytes a m
  | _, _ => a
  end.

Definition hp_first (first m0 : Z) : Z :=
  if is_long first then Z.lxor first (Z.land m0 15) else Z.lxor first (Z.land m0 31).

(** encrypt_hdr (packet.rs:674-700).  [b] is the header including the packet
    number, [payload] the rest of the buffer.  Slicing [payload] out of bounds and
    [MAX_PKT_NUM_LEN - pn_len] below zero panic. *)
Definition encrypt_hdr (mask : list Z -> res error (list Z)) (b : list Z) (pn_len : Z) (payload : list Z) :
  res error (list Z) :=
  if (MAX_PKT_NUM_LEN <? pn_len) || (zlen payload <? SAMPLE_LEN + (MAX_PKT_NUM_LEN - pn_len)) then Panic
  else
    let* m := mask (slice (MAX_PKT_NUM_LEN - pn_len) (SAMPLE_LEN + (MAX_PKT_NUM_LEN - pn_len)) payload) in
    match b with
    | [] => Err BufferTooShort
    | first :: rest =>
        let first := hp_first first (nth 0 m 0) in
        if zlen rest <? pn_len then Err BufferTooShort
        else Ok (first :: take (zlen rest - pn_len) rest ++ xor_bytes (drop (zlen rest - pn_len) rest) (drop 1 m))
    end.

(** decrypt_hdr (packet.rs:577-632).  The cursor is at the packet number. *)
Definition decrypt_hdr (mask : list Z -> res error (list Z)) (c : oct) (h : header) : res error (header * oct) :=
  match oc_buf c with
  | [] => Err BufferTooShort
  | first :: _ =>
      let b := drop (oc_off c) (oc_buf c) in
      if zlen b <? MAX_PKT_NUM_LEN + SAMPLE_LEN then Err BufferTooShort
      else
        let* m := mask (slice MAX_PKT_NUM_LEN (MAX_PKT_NUM_LEN + SAMPLE_LEN) b) in
        let first := hp_first first (nth 0 m 0) in
        let pn_len := Z.land first PKT_NUM_MASK + 1 in
        let b := xor_bytes (take pn_len b) (drop 1 m) ++ drop pn_len b in
        let buf := take (oc_off c) (oc_buf c) ++ b in
        let* pn := match pn_len with
                   | 1 | 2 | 3 | 4 => Ok (be_dec (take pn_len b))
                   | _ => Err InvalidPacket
                   end in
        let buf := first :: drop 1 buf in
        Ok (mkHdr (h_ty h) (h_version h) (h_dcid h) (h_scid h) pn pn_len (h_token h) (h_versions h)
              (match h_ty h with
               | PShort => negb (Z.land first KEY_PHASE_BIT =? 0)
               | _ => h_key_phase h
               end),
            mkOct buf (oc_off c + pn_len))
  end.

(** ** Packet protection *)

(** make_nonce (crypto/mod.rs:495-506).  copy_from_slice panics unless the IV has
    twelve bytes. *)
Definition make_nonce (iv : list Z) (counter : Z) : res error (list Z) :=
  if negb (zlen iv =? 12) then Panic
  else Ok (take 4 iv ++ xor_bytes (drop 4 iv) (be_enc 8 counter)).

(** The keys of one direction: IV, AEAD and header protection.  [k_seal] and
    [k_open] take the nonce, the associated data and the plaintext or the
    ciphertext with its tag. *)
Record keys : Type := mkKeys {
  k_iv : list Z;
  k_seal : list Z -> list Z -> list Z -> list Z;
  k_open : list Z -> list Z -> list Z -> res error (list Z);
  k_mask : list Z -> res error (list Z) }.

(** encrypt_pkt (packet.rs:702-717) with seal_with_u64_counter
    (crypto/boringssl.rs:119-166), without extra_in.  [b] is the whole buffer; the
    result is the number of bytes of the packet and the buffer. *)
Definition encrypt_pkt (k : keys) (b : list Z) (pn pn_len payload_len payload_offset : Z) : res error (Z * list Z) :=
  if zlen b <? payload_offset then Err BufferTooShort
  else
    let hdr := take payload_offset b in
    let payload := drop payload_offset b in
    if zlen payload <? payload_len + TAG_LEN then Err CryptoFail
    else
      let* nonce := make_nonce (k_iv k) pn in
      let sealed := k_seal k nonce hdr (take payload_len payload) in
      let payload := sealed ++ drop (zlen sealed) payload in
      let* hdr := encrypt_hdr (k_mask k) hdr pn_len payload in
      Ok (payload_offset + zlen sealed, hdr ++ payload).

(** decrypt_pkt (packet.rs:654-672) with open_with_u64_counter
    (crypto/boringssl.rs:83-117) *)
Definition decrypt_pkt (k : keys) (c : oct) (pn pn_len payload_len : Z) : res error (list Z * oct) :=
  let hdr := take (oc_off c) (oc_buf c) in
  let payload := drop (oc_off c) (oc_buf c) in
  if payload_len <? pn_len then Err InvalidPacket
  else
    let payload_len := payload_len - pn_len in
    if zlen payload <? payload_len then Err BufferTooShort
    else if payload_len <? TAG_LEN then Err CryptoFail
    else
      let* nonce := make_nonce (k_iv k) pn in
      let* plain := k_open k nonce hdr (take payload_len payload) in
      let buf := hdr ++ plain ++ drop (zlen plain) payload in
      Ok (plain, mkOct buf (oc_off c + zlen plain)).

(** ** Whole packets *)

(** PAYLOAD_LENGTH_LEN, PAYLOAD_MIN_LEN (lib.rs:448, lib.rs:477) *)
Definition PAYLOAD_MIN_LEN : Z := 4.

(** What send_single does to the output buffer once it has chosen the header,
    the packet number and the frames (lib.rs:4439, 4510-4513, 5348-5370 and
    5427-5435).  The payload length is known here from the start instead of being
    filled in afterwards; [payload] is padded to four bytes as in
    lib.rs:5348-5359. *)
Definition build_pkt (k : keys) (h : header) (pn : Z) (payload : list Z) (out : list Z) : res error (Z * list Z) :=
  let pn_len := h_pkt_num_len h in
  let payload := payload ++ repeat 0 (Z.to_nat (PAYLOAD_MIN_LEN - zlen payload)) in
  match hdr_to_bytes h (mkOct out 0) with
  | (Ok _, c) =>
      let* pnb := encode_pkt_num pn pn_len in
      let len := match h_ty h with PShort => [] | _ => [PutV2 (pn_len + zlen payload + TAG_LEN)] end in
      match puts (len ++ [PutB pnb]) c with
      | (Ok _, c) =>
          match puts [PutB payload] c with
          | (Ok _, c') => encrypt_pkt k (oc_buf c') pn pn_len (zlen payload) (oc_off c)
          | (Err e, _) => Err e
          | (Panic, _) => Panic
          end
      | (Err e, _) => Err e
      | (Panic, _) => Panic
      end
  | (Err e, _) => Err e
  | (Panic, _) => Panic
  end.

(** What recv_single does to a packet that is neither Version Negotiation nor
    Retry, with the keys of its epoch (lib.rs:2980-2991, 3164-3187, 3250-3258,
    3310-3321); [dcid_len] is the length of the connection's own connection ID and
    [largest] the largest packet number received in the epoch.  The result also
    has the number of bytes used: lib.rs:3789 adds the length of the tag. *)
Definition open_pkt (k : keys) (b : list Z) (dcid_len largest : Z) : res error (header * Z * list Z * Z) :=
  let* '(h, rest) := hdr_from_bytes b dcid_len in
  let* '(payload_len, rest) := match h_ty h with PShort => Ok (zlen rest, rest) | _ => get_v rest end in
  if zlen rest <? payload_len then Err InvalidPacket
  else
    let* '(h, c) := decrypt_hdr (k_mask k) (mkOct b (zlen b - zlen rest)) h in
    let pn := decode_pkt_num largest (h_pkt_num h) (h_pkt_num_len h) in
    let* '(plain, c) := decrypt_pkt k c pn (h_pkt_num_len h) payload_len in
    Ok (h, pn, plain, oc_off c + TAG_LEN).
