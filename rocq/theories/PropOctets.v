(** C01 and C02: integers and cursors over byte buffers. *)
Require Import Verif.Base Verif.OctetsModel Verif.OctetsSpec Verif.OctetsProofs Verif.OctetsProofs2.

(** C01: a value below 2^62 written where there is room is read back exactly,
    the bytes are a QUIC encoding of it, and the rest of the buffer stays. *)
Theorem C01_varint_round_trip v c : cursor_ok c -> 0 <= v < 2 ^ 62 ->
  varint_len v <= zlen (oc_buf c) - oc_off c ->
  exists c', put_varint v c = (Ok tt, c') /\ oc_off c' = oc_off c + varint_len v /\
    get_varint (mkOct (oc_buf c') (oc_off c)) = (Ok v, c') /\
    qvarint (slice (oc_off c) (oc_off c') (oc_buf c')) v /\
    take (oc_off c) (oc_buf c') = take (oc_off c) (oc_buf c) /\
    drop (oc_off c') (oc_buf c') = drop (oc_off c') (oc_buf c).
Proof. exact (varint_round_trip v c). Qed.
Print Assumptions C01_varint_round_trip.

(** C01: where there is no room nothing is written. *)
Theorem C01_varint_no_room v c : cursor_ok c -> 0 <= v < 2 ^ 62 ->
  zlen (oc_buf c) - oc_off c < varint_len v -> put_varint v c = (Err TooShort, c).
Proof. exact (varint_no_room v c). Qed.
Print Assumptions C01_varint_no_room.

(** C01: no QUIC encoding of the value is shorter than what [varint_len] says. *)
Theorem C01_varint_shortest l v : qvarint l v -> varint_len v <= zlen l.
Proof. exact (varint_shortest l v). Qed.
Print Assumptions C01_varint_shortest.

(** C01: arbitrary bytes decode to a value below 2^62 whose encoding was there,
    or the decoder reports that the bytes are too short for any encoding. *)
Theorem C01_varint_decode_total c : cursor_ok c ->
  (exists v c', get_varint c = (Ok v, c') /\ 0 <= v < 2 ^ 62 /\ oc_buf c' = oc_buf c /\
     oc_off c < oc_off c' <= zlen (oc_buf c) /\ qvarint (slice (oc_off c) (oc_off c') (oc_buf c)) v) \/
  (get_varint c = (Err TooShort, c) /\
   forall l rest v, drop (oc_off c) (oc_buf c) = l ++ rest -> ~ qvarint l v).
Proof. exact (varint_decode_total c). Qed.
Print Assumptions C01_varint_decode_total.

(** C01: a longer form than necessary is also read back exactly. *)
Theorem C01_varint_long_form v n c : cursor_ok c -> 0 <= v < 2 ^ 62 -> In n [1; 2; 4; 8] ->
  varint_len v <= n -> n <= zlen (oc_buf c) - oc_off c ->
  exists c', put_varint_with_len v n c = (Ok tt, c') /\ oc_off c' = oc_off c + n /\
    get_varint (mkOct (oc_buf c') (oc_off c)) = (Ok v, c').
Proof. exact (varint_long_form v n c). Qed.
Print Assumptions C01_varint_long_form.

(** C01 outside its range: 2^62 panics, and a form too short for the value
    silently writes another value. *)
Theorem C01_varint_too_large_panics : exists c, cursor_ok c /\ fst (put_varint (2 ^ 62) c) = Panic.
Proof. exists (mkOct (repeat 0 16) 0). split; [split; [vm_compute; split; discriminate|repeat constructor; discriminate]|reflexivity]. Qed.
Print Assumptions C01_varint_too_large_panics.

(** Writing a value with a length too small for it corrupts it instead of failing. *)
Theorem C01_short_form_corrupts_refuted : exists v c c' w, cursor_ok c /\ 0 <= v < 2 ^ 62 /\
  put_varint_with_len v 1 c = (Ok tt, c') /\ fst (get_varint (mkOct (oc_buf c') (oc_off c))) = Ok w /\ w <> v.
Proof.
  exists 300, (mkOct (repeat 0 16) 0). eexists _, 44.
  split; [split; [vm_compute; split; discriminate|repeat constructor; discriminate]|]. split; [lia|].
  split; [reflexivity|]. split; [reflexivity|discriminate].
Qed.
Print Assumptions C01_short_form_corrupts_refuted.

(** C02: an integer of [n] bytes written is read back, big endian. *)
Theorem C02_int_round_trip n v c c' : cursor_ok c -> 0 <= v < 256 ^ Z.of_nat n ->
  put_u n v c = (Ok tt, c') ->
  get_u n (mkOct (oc_buf c') (oc_off c)) = (Ok v, c') /\
  be_value (slice (oc_off c) (oc_off c') (oc_buf c')) = v /\ oc_off c' = oc_off c + Z.of_nat n.
Proof. exact (int_round_trip n v c c'). Qed.
Print Assumptions C02_int_round_trip.

(** C02: every call of fixed size succeeds exactly when the bytes are there,
    returns those bytes, moves by that much and touches nothing else. *)
Theorem C02_fixed_size_calls op c n : cursor_ok c -> legal_op op -> needs op = Some n ->
  (n <= zlen (oc_buf c) - oc_off c ->
     exists v c', oc_step op c = (Ok v, c') /\ oc_off c' = oc_off c + moves op /\
       (forall w, reads op (drop (oc_off c) (oc_buf c)) = Some w -> v = w) /\
       (is_write op = false -> oc_buf c' = oc_buf c) /\
       take (oc_off c) (oc_buf c') = take (oc_off c) (oc_buf c) /\
       drop (oc_off c + n) (oc_buf c') = drop (oc_off c + n) (oc_buf c)) /\
  (zlen (oc_buf c) - oc_off c < n -> oc_step op c = (Err TooShort, c)).
Proof. exact (fixed_size_calls op c n). Qed.
Print Assumptions C02_fixed_size_calls.

(** C02: no sequence of calls panics, leaves the buffer, or resizes it. *)
Theorem C02_calls_never_panic ops c : cursor_ok c -> Forall legal_op ops ->
  exists rs c', oc_run ops c = Some (rs, c') /\ cursor_ok c' /\ zlen (oc_buf c') = zlen (oc_buf c).
Proof. exact (oc_run_safe ops c). Qed.
Print Assumptions C02_calls_never_panic.

(** C02: a failing call changes nothing, except for length-prefixed reads... *)
Theorem C02_failed_call_changes_nothing_partial op c e c' : cursor_ok c -> legal_op op ->
  length_prefixed op = false -> oc_step op c = (Err e, c') -> c' = c.
Proof. exact (failed_call_no_effect op c e c'). Qed.
Print Assumptions C02_failed_call_changes_nothing_partial.

(** ... which consume the length before they fail: each of the three does. *)
Theorem C02_length_prefixed_read_moves_refuted op : length_prefixed op = true ->
  exists c e c', cursor_ok c /\ oc_step op c = (Err e, c') /\ c' <> c.
Proof.
  destruct op; try discriminate; intros _.
  - exists (mkOct [5; 1] 0), TooShort. eexists. split; [split; [vm_compute; split; discriminate|repeat constructor; discriminate]|].
    split; [reflexivity|discriminate].
  - exists (mkOct [0; 5; 1] 0), TooShort. eexists. split; [split; [vm_compute; split; discriminate|repeat constructor; discriminate]|].
    split; [reflexivity|discriminate].
  - exists (mkOct [5; 1] 0), TooShort. eexists. split; [split; [vm_compute; split; discriminate|repeat constructor; discriminate]|].
    split; [reflexivity|discriminate].
Qed.
Print Assumptions C02_length_prefixed_read_moves_refuted.

(** ** The hypotheses are met *)
Definition w_buf : oct := mkOct (repeat 7 12) 2.

Example w_cursor : cursor_ok w_buf.
Proof. split; [vm_compute; split; discriminate|repeat constructor; discriminate]. Qed.

(** RFC 9000 appendix A.1 *)
Example w_C01 : qvarint [194; 25; 124; 94; 255; 20; 232; 140] 151288809941952652 /\
  fst (get_varint (mkOct [194; 25; 124; 94; 255; 20; 232; 140] 0)) = Ok 151288809941952652 /\
  qvarint [157; 127; 62; 125] 494878333 /\ qvarint [64; 37] 37 /\ qvarint [37] 37 /\
  fst (get_varint (mkOct [64; 37] 0)) = Ok 37 /\
  put_varint 494878333 w_buf = (Ok tt, mkOct [7; 7; 157; 127; 62; 125; 7; 7; 7; 7; 7; 7] 6).
Proof.
  assert (q : forall l v k, Forall is_byte l -> 0 <= k <= 3 /\ zlen l = 2 ^ k /\ 0 <= v < 2 ^ (8 * 2 ^ k - 2) /\
    be_value l = k * 2 ^ (8 * 2 ^ k - 2) + v -> qvarint l v) by (intros l v k h hh; split; [exact h|exists k; exact hh]).
  split; [apply (q _ _ 3); [repeat constructor; discriminate|vm_compute; repeat split; discriminate]|].
  split; [vm_compute; reflexivity|].
  split; [apply (q _ _ 2); [repeat constructor; discriminate|vm_compute; repeat split; discriminate]|].
  split; [apply (q _ _ 1); [repeat constructor; discriminate|vm_compute; repeat split; discriminate]|].
  split; [apply (q _ _ 0); [repeat constructor; discriminate|vm_compute; repeat split; discriminate]|].
  split; vm_compute; reflexivity.
Qed.

Example w_C02 : put_u 3 66051 w_buf = (Ok tt, mkOct [7; 7; 1; 2; 3; 7; 7; 7; 7; 7; 7; 7] 5) /\
  Forall legal_op [OcGetU 3; OcPutVarint 1000; OcGetBytesU8; OcRewind 4; OcSkip 9] /\
  option_map fst (oc_run [OcGetU 3; OcPutVarint 1000; OcGetBytesU8; OcRewind 4; OcSkip 9] w_buf) =
    Some [Ok (VInt 460551); Ok VUnit; Err TooShort; Ok VUnit; Err TooShort].
Proof. split; [reflexivity|]. split; [repeat constructor; discriminate|reflexivity]. Qed.
