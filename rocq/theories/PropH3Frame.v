(** C55: HTTP/3 frames. *)
Require Import Verif.Base Verif.OctetsModel Verif.OctetsSpec Verif.OctetsProofs Verif.HuffmanModel Verif.H3FrameModel Verif.H3FrameSpec Verif.H3FrameProofs.

(** Every well-formed payload is parsed to the frame it carries (SETTINGS up to 256 bytes). *)
Theorem C55_decode ty p f : carries ty p f -> (ty = 4 -> zlen p <= 256) -> h3_from_bytes ty (zlen p) p = Ok f.
Proof. apply from_bytes_exact. Qed.
Print Assumptions C55_decode.

(** Whatever is parsed was well formed, except that bytes after the integer of
    CANCEL_PUSH, GOAWAY and MAX_PUSH_ID are ignored. *)
Theorem C55_decode_sound ty p f : bytes_ok p -> h3_from_bytes ty (zlen p) p = Ok f ->
  exists q junk, p = q ++ junk /\ carries ty q f /\ (junk = [] \/ In ty [3; 7; 13]) /\ (ty = 4 -> zlen p <= 256).
Proof. apply from_bytes_sound. Qed.
Print Assumptions C55_decode_sound.

(** SETTINGS with a setting of HTTP/2, or a flag that is neither 0 nor 1, is refused. *)
Theorem C55_settings p l : setting_list p l -> zlen p <= 256 ->
  h3_from_bytes 4 (zlen p) p = if existsb forbidden l then Err HSettingsError else Ok (HSettings (says l)).
Proof. apply settings_frame_exact. Qed.
Print Assumptions C55_settings.

(** SETTINGS longer than 256 bytes are refused without being read. *)
Theorem C55_settings_load p : 256 < zlen p -> h3_from_bytes 4 (zlen p) p = Err HExcessiveLoad.
Proof. intros h. cbn. unfold parse_settings, MAX_SETTINGS_SIZE. destruct (Z.ltb_spec 256 (zlen p)); [reflexivity|lia]. Qed.
Print Assumptions C55_settings_load.

(** No payload makes the parser panic. *)
Theorem C55_total ty p : bytes_ok p -> h3_from_bytes ty (zlen p) p <> Panic.
Proof. apply from_bytes_total. Qed.
Print Assumptions C55_total.

(** A frame is written as one well-formed frame or, when it does not fit, refused. *)
Theorem C55_encode f room out : writable_frame f -> 0 <= room -> exists bs ty p, h3_wire bs ty p /\ carries ty p (as_read f) /\
  h3_to_bytes f (mkWr room out) = if room <? zlen bs then Err HBufferTooShort else Ok (mkWr (room - zlen bs) (out ++ bs)).
Proof. intros h hr. destruct (to_bytes_ok f h) as (bs & ty & p & h1 & h2 & h3). exists bs, ty, p. split; [exact h2|]. split; [exact h3|]. exact (h1 (mkWr room out) hr). Qed.
Print Assumptions C55_encode.

(** Reading back what was written: the type, the length and the frame. *)
Theorem C55_roundtrip f room w rest : writable_frame f -> 0 <= room -> h3_to_bytes f (mkWr room []) = Ok w ->
  exists ty b1 n b2 p, rd_varint (wr_out w ++ rest) = Some (ty, b1) /\ rd_varint b1 = Some (n, b2) /\ rd_bytes n b2 = Some (p, rest) /\
    ((ty = 4 -> n <= 256) -> h3_from_bytes ty n p = Ok (as_read f)).
Proof.
  intros h hr e. destruct (C55_encode f room [] h hr) as (bs & ty & p & (t & n & q1 & q2 & ->) & h2 & h3).
  rewrite h3 in e. destruct (room <? _) in e; [discriminate e|]. injection e as <-. cbn [wr_out app].
  exists ty, (n ++ p ++ rest), (zlen p), (p ++ rest), p. rewrite <- !app_assoc.
  split; [apply rd_varint_app, q1|]. split; [apply rd_varint_app, q2|]. split; [apply rd_bytes_app|]. intros hs. apply from_bytes_exact; assumption.
Qed.
Print Assumptions C55_roundtrip.

(** RFC 9114 section 7.1 makes additional bytes after the fields of a frame a connection
    error of type H3_FRAME_ERROR.  They are ignored: a GOAWAY frame of two bytes, of which
    the second is no part of the identifier. *)
Theorem C55_trailing_refuted : ~ (forall ty p f, bytes_ok p -> h3_from_bytes ty (zlen p) p = Ok f -> carries ty p f).
Proof.
  intros h. specialize (h 7 [4; 0] (HGoAway 4) ltac:(repeat constructor; unfold is_byte; lia) eq_refl). destruct h as (_ & h).
  destruct h as (hb & k & hk & hl & hv & he). cbn in hl. assert (k = 1) by (assert (k = 0 \/ k = 1 \/ k = 2 \/ k = 3) as [-> |[-> |[-> | ->]]] by lia; cbn in hl; lia). subst k. cbn in he. lia.
Qed.
Print Assumptions C55_trailing_refuted.

(** RFC 9114 section 7.1: a frame that ends before the end of its fields is a connection
    error of type H3_FRAME_ERROR.  The parser reports BufferTooShort, which is sent as
    0x999, a code no document registers. *)
Theorem C55_truncated_refuted : ~ (forall ty p e, bytes_ok p -> h3_from_bytes ty (zlen p) p = Err e -> ty <> 4 -> e = HFrameError).
Proof. intros h. specialize (h 7 [] HBufferTooShort ltac:(constructor) eq_refl ltac:(lia)). discriminate h. Qed.
Print Assumptions C55_truncated_refuted.
Example C55_truncated_code : to_wire HBufferTooShort = 0x999. Proof. reflexivity. Qed.

(** ** Witnesses *)
Definition ex_settings := mkSettings (Some 16384) (Some 0) None (Some 1) (Some 1) (Some (4611686018427387903, 7)) None None.
Example C55_settings_writable : writable_frame (HSettings ex_settings).
Proof.
  cbn. unfold osmall, oflag, small, max_varint. split; [intros v e; injection e as <-; lia|]. split; [intros v e; injection e as <-; lia|]. split; [intros v e; discriminate e|].
  split; [intros v e; injection e as <-; lia|]. split; [intros v e; injection e as <-; lia|]. split; [|cbn; lia].
  constructor; [|constructor]. unfold extra_ok, small, max_varint. cbn. repeat split; lia.
Qed.
Example C55_settings_frame : exists w, h3_to_bytes (HSettings ex_settings) (mkWr 64 []) = Ok w /\
  wr_out w = [4; 23; 6; 128; 0; 64; 0; 1; 0; 8; 1; 66; 118; 1; 51; 1; 255; 255; 255; 255; 255; 255; 255; 255; 7] /\
  h3_from_bytes 4 23 (drop 2 (wr_out w)) = Ok (as_read (HSettings ex_settings)).
Proof. eexists. split; [reflexivity|]. split; reflexivity. Qed.
Example C55_carries_priority : carries 984832 [64; 4; 117; 61; 49] (HPriorityRequest 4 [117; 61; 49]).
Proof. split; [reflexivity|]. exists [64; 4]. split; [|reflexivity]. split; [repeat constructor; unfold is_byte; lia|]. exists 1. cbn. repeat split; lia. Qed.
Example C55_no_room : h3_to_bytes (HGoAway 16384) (mkWr 5 []) = Err HBufferTooShort. Proof. reflexivity. Qed.
Example C55_http2_setting : h3_from_bytes 4 4 [1; 0; 3; 50] = Err HSettingsError. Proof. reflexivity. Qed.
