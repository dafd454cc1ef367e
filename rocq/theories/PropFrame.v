(** C22 to C25: the frame codec. *)
Require Import Verif.Base Verif.Errors Verif.OctetsModel Verif.OctetsSpec Verif.FrameModel Verif.FrameSpec.
Require Import Verif.FrameProofs Verif.FrameProofs2 Verif.FrameProofs3.

(** C23: every frame with fields in the wire range, written at any place of any
    buffer, takes the bytes wire_len says and decodes to itself whatever follows;
    where those bytes do not fit the encoder reports it.  (What follows a PADDING
    frame must not be a zero byte, which would belong to it.) *)
Theorem C23_frame_round_trip f pkt c rest : frame_legal f -> cursor_ok c -> has_frames pkt -> accepted_in pkt f ->
  bytes_ok rest -> follows f rest ->
  exists n, frame_wire_len f = Some n /\
    if zlen (oc_buf c) - oc_off c <? n then exists c', frame_to_bytes f c = (Err TooShort, c')
    else exists c' bs, frame_to_bytes f c = (Ok n, c') /\ zlen bs = n /\ oc_off c' = oc_off c + n /\
      oc_buf c' = take (oc_off c) (oc_buf c) ++ bs ++ drop (oc_off c + n) (oc_buf c) /\
      frame_from_bytes (bs ++ rest) pkt = Ok (f, rest).
Proof. exact (frame_round_trip f pkt c rest). Qed.
Print Assumptions C23_frame_round_trip.

(** C23: and those bytes are the frame of RFC 9000 section 19. *)
Theorem C23_frame_encoding f c : frame_legal f -> cursor_ok c ->
  exists n bs, frame_wire_len f = Some n /\ zlen bs = n /\ bytes_ok bs /\
    (forall rest, follows f rest -> frame_wire bs rest f) /\
    (n <= zlen (oc_buf c) - oc_off c -> exists c', frame_to_bytes f c = (Ok n, c') /\
       oc_off c' = oc_off c + n /\
       oc_buf c' = take (oc_off c) (oc_buf c) ++ bs ++ drop (oc_off c + n) (oc_buf c)) /\
    (zlen (oc_buf c) - oc_off c < n -> exists c', frame_to_bytes f c = (Err TooShort, c')).
Proof. exact (frame_encode f c). Qed.
Print Assumptions C23_frame_encoding.

(** C23: STREAM, CRYPTO and DATAGRAM headers, which the send path writes apart from
    the data, make the frame together with the data and leave the rest alone. *)
Theorem C23_header_encoding f hdr n data c : cursor_ok c -> frame_legal f ->
  match f with
  | FStream id off d fin => hdr = stream_header_puts id off (zlen d) fin /\ data = d /\ frame_wire_len (FStreamHeader id off (zlen d) fin) = Some n
  | FCrypto off d => hdr = crypto_header_puts off (zlen d) /\ data = d /\ frame_wire_len (FCryptoHeader off (zlen d)) = Some n
  | FDatagram d => hdr = dgram_header_puts (zlen d) /\ data = d /\ frame_wire_len (FDatagramHeader (zlen d)) = Some n
  | _ => False
  end ->
  exists bs, zlen bs + zlen data = n /\ (forall rest, frame_wire (bs ++ data) rest f) /\
    (zlen bs <= zlen (oc_buf c) - oc_off c -> exists c', do_puts hdr c = (Ok tt, c') /\
       oc_off c' = oc_off c + zlen bs /\
       oc_buf c' = take (oc_off c) (oc_buf c) ++ bs ++ drop (oc_off c + zlen bs) (oc_buf c)).
Proof. exact (header_encode f hdr n data c). Qed.
Print Assumptions C23_header_encoding.

Example C23_witness :
  let f := FStream 16383 (2 ^ 30) [1; 2; 3] true in
  frame_legal f /\ accepted_in PShort f /\ frame_wire_len f = Some 16 /\
  exists c, frame_to_bytes f (mkOct (repeat 9 20) 2) = (Ok 16, c) /\
    oc_buf c = [9; 9; 15; 127; 255; 192; 0; 0; 0; 64; 0; 0; 0; 64; 3; 1; 2; 3; 9; 9] /\
    frame_from_bytes ([15; 127; 255; 192; 0; 0; 0; 64; 0; 0; 0; 64; 3; 1; 2; 3] ++ [1]) PShort = Ok (f, [1]).
Proof.
  cbv zeta. split; [cbn; unfold is_v; repeat split; try lia; repeat constructor; lia|].
  split; [split; [cbn; tauto|intros (h & _); discriminate]|]. split; [reflexivity|].
  eexists. split; [vm_compute; reflexivity|]. split; reflexivity.
Qed.

(** C22: an ACK frame for any non-empty set of separated ranges below 2^62 and any
    delay parses back to the same set, whatever follows. *)
Theorem C22_ack_round_trip delay ranges ecn pkt c rest : frame_legal (FAck delay ranges ecn) -> cursor_ok c ->
  In pkt [PInitial; PHandshake; PShort] -> bytes_ok rest ->
  exists n, frame_wire_len (FAck delay ranges ecn) = Some n /\
    if zlen (oc_buf c) - oc_off c <? n then exists c', frame_to_bytes (FAck delay ranges ecn) c = (Err TooShort, c')
    else exists c' bs, frame_to_bytes (FAck delay ranges ecn) c = (Ok n, c') /\ zlen bs = n /\ oc_off c' = oc_off c + n /\
      oc_buf c' = take (oc_off c) (oc_buf c) ++ bs ++ drop (oc_off c + n) (oc_buf c) /\
      frame_from_bytes (bs ++ rest) pkt = Ok (FAck delay ranges ecn, rest).
Proof.
  intros h1 h2 h3 h4. apply frame_round_trip; auto; [| |exact I].
  - destruct h3 as [<-|[<-|[<-|[]]]]; cbn; tauto.
  - split; [destruct h3 as [<-|[<-|[<-|[]]]]; cbn; tauto|intros (_ & [])].
Qed.
Print Assumptions C22_ack_round_trip.

(** C22: what arbitrary bytes parse to is always a well-formed set: ranges below
    2^62, none empty, in ascending order and apart. *)
Theorem C22_ack_parsed_well_formed b pkt delay ranges ecn rest : bytes_ok b ->
  frame_from_bytes b pkt = Ok (FAck delay ranges ecn, rest) -> is_v delay /\ ack_ok (-1) ranges.
Proof.
  intros hb h. apply frame_decode_iff in h as (l & _ & h & _); auto. apply (ack_parsed_ok _ _ _ _ _ h).
Qed.
Print Assumptions C22_ack_parsed_well_formed.

Example C22_witness :
  let f := FAck 25 [(0, 3); (5, 6); (100, 1000)] (Some (1, 2, 70)) in
  frame_legal f /\ frame_wire_len f = Some 16 /\
  exists c, frame_to_bytes f (mkOct (repeat 0 16) 0) = (Ok 16, c) /\
    frame_from_bytes (oc_buf c ++ [1]) PInitial = Ok (f, [1]).
Proof.
  cbv zeta. split; [cbn; unfold is_v; repeat split; try lia; repeat constructor; lia|]. split; [reflexivity|].
  eexists. split; [vm_compute; reflexivity|]. vm_compute. reflexivity.
Qed.

(** Outside the precondition: the encoder panics on the empty set and on ranges
    that touch.  (A range set never holds either, by C03, and ACK frames are built
    only from sets that are not empty, by C21.) *)
Theorem C22_encode_panics :
  fst (frame_to_bytes (FAck 0 [] None) (mkOct [0; 0] 0)) = Panic /\
  fst (frame_to_bytes (FAck 0 [(1, 3); (3, 4)] None) (mkOct (repeat 0 20) 0)) = Panic.
Proof. split; vm_compute; reflexivity. Qed.
Print Assumptions C22_encode_panics.

(** C24: decoding arbitrary bytes never panics, one frame at a time or a payload. *)
Theorem C24_decode_total b pkt : bytes_ok b -> frame_from_bytes b pkt <> Panic /\ payload_frames b pkt <> Panic.
Proof. intros h. split; [exact (frame_decode_total b pkt h)|exact (payload_total b pkt h)]. Qed.
Print Assumptions C24_decode_total.

(** C24: what is decoded is exactly a frame in the sense of section 19 that starts
    the bytes, in a packet that takes it; the rest is handed back untouched. *)
Theorem C24_decode_iff b pkt f rest : bytes_ok b -> has_frames pkt ->
  (frame_from_bytes b pkt = Ok (f, rest) <-> exists l, b = l ++ rest /\ frame_wire l rest f /\ accepted_in pkt f).
Proof. exact (frame_decode_table b pkt f rest). Qed.
Print Assumptions C24_decode_iff.

(** C24: a payload is accepted exactly if it is not empty and is a sequence of
    such frames. *)
Theorem C24_payload_iff b pkt fs : bytes_ok b -> has_frames pkt ->
  (payload_frames b pkt = Ok fs <-> b <> [] /\ frames_wire b pkt fs).
Proof. exact (payload_iff b pkt fs). Qed.
Print Assumptions C24_payload_iff.

(** C24: a frame Table 3 does not permit in the packet is InvalidPacket. *)
Theorem C24_not_permitted l rest pkt f : has_frames pkt -> frame_wire l rest f ->
  ~ In pkt (table3 f) -> frame_from_bytes (l ++ rest) pkt = Err InvalidPacket.
Proof. exact (frame_not_permitted l rest pkt f). Qed.
Print Assumptions C24_not_permitted.

(** C24, the other direction, does not hold: Table 3 permits CONNECTION_CLOSE in
    0-RTT packets and the code rejects the packet. *)
Theorem C24_permitted_accepted_refuted :
  ~ forall l rest pkt f, has_frames pkt -> frame_wire l rest f -> In pkt (table3 f) ->
      frame_from_bytes (l ++ rest) pkt = Ok (f, rest).
Proof.
  intros h. specialize (h [0x1c; 0; 0; 0] [] PZeroRTT (FConnectionClose 0 0 [])). cbn [app] in h.
  assert (q : forall x, 0 <= x < 64 -> qvarint [x] x).
  { intros x hx. split; [repeat constructor; lia|]. exists 0. cbn. lia. }
  assert (hw : frame_wire [0x1c; 0; 0; 0] [] (FConnectionClose 0 0 [])).
  { exists [0x1c], 0x1c, [0; 0; 0]. split; [reflexivity|]. split; [apply q; lia|].
    apply (BConnectionClose 0 0 [] [0] [0] [0] []); try (apply q; lia). exists [0]. split; [apply q; cbn; lia|reflexivity]. }
  specialize (h ltac:(cbn; tauto) hw ltac:(cbn; tauto)). vm_compute in h. discriminate.
Qed.
Print Assumptions C24_permitted_accepted_refuted.

Example C24_witness :
  payload_frames [1; 0; 0; 0x18; 2; 1; 2; 7; 8; 0; 1; 2; 3; 4; 5; 6; 7; 8; 9; 10; 11; 12; 13; 14; 15; 0x30; 9; 9] PShort =
    Ok [FPing None; FPadding 2; FNewConnectionId 2 1 [7; 8] [0; 1; 2; 3; 4; 5; 6; 7; 8; 9; 10; 11; 12; 13; 14; 15]; FDatagram [9; 9]] /\
  payload_frames [1; 0x1e] PInitial = Err InvalidPacket /\ payload_frames [0x10] PShort = Err BufferTooShort /\
  payload_frames [0x21] PShort = Err InvalidFrame.
Proof. repeat split; vm_compute; reflexivity. Qed.

(** C25: an accepted STREAM frame ends below 2^62. *)
Theorem C25_stream_end b pkt id off d fin rest : bytes_ok b ->
  frame_from_bytes b pkt = Ok (FStream id off d fin, rest) -> 0 <= off /\ off + zlen d < 2 ^ 62.
Proof. exact (stream_end_below b pkt id off d fin rest). Qed.
Print Assumptions C25_stream_end.

(** C25: a decoded CRYPTO frame has offset and length below 2^62, so their sum
    does not overflow, and processing it goes on only if it ends below 65536. *)
Theorem C25_crypto_end b pkt off d rest : bytes_ok b ->
  frame_from_bytes b pkt = Ok (FCrypto off d, rest) ->
  0 <= off < 2 ^ 62 /\ zlen d < 2 ^ 62 /\ (crypto_arm_check off d = Ok tt <-> off + zlen d < 65536).
Proof. exact (crypto_end_below b pkt off d rest). Qed.
Print Assumptions C25_crypto_end.

(** C25: decoding by itself does not bound CRYPTO frames. *)
Theorem C25_crypto_decode_refuted :
  ~ forall b pkt off d rest, bytes_ok b -> frame_from_bytes b pkt = Ok (FCrypto off d, rest) -> off + zlen d < 2 ^ 62.
Proof.
  intros h. specialize (h [6; 255; 255; 255; 255; 255; 255; 255; 255; 1; 0] PShort (2 ^ 62 - 1) [0] []).
  assert (k : 2 ^ 62 - 1 + 1 < 2 ^ 62) by (apply h; [repeat constructor; lia|vm_compute; reflexivity]). lia.
Qed.
Print Assumptions C25_crypto_decode_refuted.

Example C25_witness :
  frame_from_bytes [0x0e; 4; 255; 255; 255; 255; 255; 255; 255; 254; 1; 7] PShort = Ok (FStream 4 (2 ^ 62 - 2) [7] false, []) /\
  frame_from_bytes [0x0e; 4; 255; 255; 255; 255; 255; 255; 255; 255; 1; 7] PShort = Err InvalidFrame.
Proof. split; vm_compute; reflexivity. Qed.
