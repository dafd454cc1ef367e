(** C19, C20, C21: packet numbers, duplicate detection and what is acknowledged. *)
Require Import Verif.Base Verif.Errors Verif.RangesModel Verif.RangesSpec Verif.OctetsModel Verif.OctetsSpec.
Require Import Verif.PktNumModel Verif.PktNumSpec Verif.PktNumProofs Verif.PktNumProofs2.

(** C19: a sender that has [la] acknowledged truncates [pn]; a receiver that has
    received at least [la], and nothing too far above [pn], recovers [pn]. *)
Theorem C19_packet_number_round_trip pn la largest : 0 <= la -> 0 <= pn < 2 ^ 62 -> la <= largest ->
  let len := pkt_num_len pn la in
  pn - la < 2 ^ 31 - 1 -> largest - pn < 2 ^ (8 * len - 1) - 1 ->
  exists bs, encode_pkt_num pn len = Ok bs /\ zlen bs = len /\
    decode_pkt_num largest (be_value bs) len = pn.
Proof. exact (pn_round_trip pn la largest). Qed.
Print Assumptions C19_packet_number_round_trip.

(** C19: beyond that distance nothing wrong is sent: encoding fails. *)
Theorem C19_too_far_is_an_error pn la : 0 <= la -> 2 ^ 31 - 1 <= pn - la ->
  encode_pkt_num pn (pkt_num_len pn la) = Err InvalidPacket.
Proof. exact (pn_too_far_is_an_error pn la). Qed.
Print Assumptions C19_too_far_is_an_error.

(** The example of RFC 9000 A.2 and A.3. *)
Example C19_packet_number_round_trip_witness :
  pkt_num_len 0xac5c02 0xabe8b3 = 2 /\ encode_pkt_num 0xac5c02 2 = Ok [0x5c; 0x02] /\
  pkt_num_len 0xace8fe 0xabe8b3 = 3 /\
  decode_pkt_num 0xa82f30ea 0x9b32 2 = 0xa82f9b32 /\
  0xac5c02 - 0xabe8b3 < 2 ^ 31 - 1 /\ 0xac6000 - 0xac5c02 < 2 ^ (8 * 2 - 1) - 1 /\
  decode_pkt_num 0xac6000 0x5c02 2 = 0xac5c02.
Proof. vm_compute. repeat split; reflexivity. Qed.

(** C20: the window reports exactly the numbers recorded and those more than 127
    below the largest, for any list of recorded numbers. *)
Theorem C20_window_exact pns s : Forall (fun x => 0 <= x < 2 ^ 62) pns -> small_jumps pns -> 0 <= s ->
  (pw_contains s (fold_left (fun w x => pw_insert x w) pns pw_new) = true <-> In s pns \/ s < max_list pns - 127).
Proof. exact (window_exact pns s). Qed.
Print Assumptions C20_window_exact.

(** C20: in a packet number space, over any history, no number is accepted twice. *)
Theorem C20_accepted_once ops outs st : Forall sp_legal ops -> sp_run ops (sp_new, []) = Ok (outs, st) ->
  Forall (fun x => x < 2 ^ 62) (accepted_pns outs) -> NoDup (accepted_pns outs).
Proof. destruct st as [s sent]. exact (space_no_duplicates ops outs s sent). Qed.
Print Assumptions C20_accepted_once.

(** C20: a packet is called a duplicate exactly when its number was accepted or is
    more than 127 below the largest accepted; otherwise it is processed. *)
Theorem C20_duplicate_iff ops outs st trunc len el ok : Forall sp_legal ops ->
  sp_run ops (sp_new, []) = Ok (outs, st) ->
  Forall (fun x => x < 2 ^ 62) (accepted_pns outs) -> sp_legal (SpRecv trunc len el ok) ->
  let pn := decode_pkt_num (max_list (accepted_pns outs)) trunc len in
  exists o st', sp_run (ops ++ [SpRecv trunc len el ok]) (sp_new, []) = Ok (outs ++ [o], st') /\
    ((In pn (accepted_pns outs) \/ pn < max_list (accepted_pns outs) - 127) -> o = SpDuplicate pn) /\
    (~ (In pn (accepted_pns outs) \/ pn < max_list (accepted_pns outs) - 127) ->
      o = if ok then SpAccepted pn else SpFailed pn).
Proof. destruct st as [s sent]. exact (space_duplicate_iff ops outs s sent trunc len el ok). Qed.
Print Assumptions C20_duplicate_iff.

(** The bound on jumps in [C20_window_exact] is needed: the shift distance is cut
    to 32 bits.  The decoder never makes such a jump, so the space is safe. *)
Theorem C20_window_large_jump_refuted :
  exists pns s, Forall (fun x => 0 <= x < 2 ^ 62) pns /\ ~ In s pns /\ max_list pns - 127 <= s /\
    pw_contains s (fold_left (fun w x => pw_insert x w) pns pw_new) = true.
Proof.
  exists [5; 2 ^ 32 + 127], (2 ^ 32 + 5). split; [repeat constructor; lia|]. split; [cbn; lia|]. split; [cbn; lia|].
  vm_compute. reflexivity.
Qed.
Print Assumptions C20_window_large_jump_refuted.

Definition pn_history : list sp_op :=
  [SpRecv 3 1 true true; SpRecv 3 1 true true; SpRecv 200 2 true true; SpSendAck false; SpRecv 10 2 true true;
   SpRecv 100 2 true false; SpRecv 100 2 false true; SpAckAcked 0; SpRecv 5 1 true true; SpSendAck false].

Example C20_witness :
  Forall sp_legal pn_history /\ exists st,
  sp_run pn_history (sp_new, []) =
    Ok ([SpAccepted 3; SpDuplicate 3; SpAccepted 200; SpAck [(3, 4); (200, 201)]; SpDuplicate 10;
         SpFailed 100; SpAccepted 100; SpNothing; SpAccepted 261; SpAck [(261, 262)]], st).
Proof. split; [repeat constructor; cbn; lia|]. eexists. vm_compute. reflexivity. Qed.

(** C21: no history makes the bookkeeping panic. *)
Theorem C21_never_panics ops : Forall sp_legal ops -> exists r, sp_run ops (sp_new, []) = Ok r.
Proof. exact (space_never_panics ops). Qed.
Print Assumptions C21_never_panics.

(** C21: an ACK frame has 1 to 68 separated non-empty ranges holding only accepted
    numbers.  An accepted number may be missing only if the peer acknowledged an
    ACK frame reaching at least as high, or at least 67 larger numbers were
    accepted. *)
Theorem C21_acks_only_received ops req outs st r : Forall sp_legal ops ->
  sp_run (ops ++ [SpSendAck req]) (sp_new, []) = Ok (outs ++ [SpAck r], st) ->
  r <> [] /\ zlen r <= 68 /\ separated r /\ (forall s e, In (s, e) r -> 0 <= s < e) /\
  (forall x, in_ranges r x -> In x (accepted_pns outs)) /\
  (forall x, In x (accepted_pns outs) -> ~ in_ranges r x ->
     (exists i r' y, In (SpAckAcked i) ops /\ nth_error (acks_sent outs) i = Some r' /\ in_ranges r' y /\ x <= y) \/
     67 <= zlen (filter (fun y => x <? y) (accepted_pns outs))).
Proof. exact (space_ack ops req outs st r). Qed.
Print Assumptions C21_acks_only_received.

(** C21: a packet just accepted is in the ACK frame built next. *)
Theorem C21_next_ack_covers ops trunc len el ok req outs pn st : Forall sp_legal ops ->
  sp_legal (SpRecv trunc len el ok) ->
  sp_run (ops ++ [SpRecv trunc len el ok]) (sp_new, []) = Ok (outs ++ [SpAccepted pn], st) -> el || req = true ->
  exists r st', sp_run ((ops ++ [SpRecv trunc len el ok]) ++ [SpSendAck req]) (sp_new, []) =
                  Ok ((outs ++ [SpAccepted pn]) ++ [SpAck r], st') /\ in_ranges r pn.
Proof. exact (space_ack_next ops trunc len el ok req outs pn st). Qed.
Print Assumptions C21_next_ack_covers.

(** C21: an ACK frame is built exactly when the caller requires one or an
    ack-eliciting packet was accepted since the last one (as long as the peer has
    not acknowledged ACK frames, which may leave nothing to report). *)
Theorem C21_ack_built_iff ops outs st req : Forall sp_legal ops -> sp_run ops (sp_new, []) = Ok (outs, st) ->
  (forall i, ~ In (SpAckAcked i) ops) -> accepted_pns outs <> [] ->
  exists o st', sp_run (ops ++ [SpSendAck req]) (sp_new, []) = Ok (outs ++ [o], st') /\
    if ack_due ops outs false || req then exists r, o = SpAck r else o = SpNothing.
Proof. exact (space_ack_built_iff ops outs st req). Qed.
Print Assumptions C21_ack_built_iff.

Example C21_ack_due_witness :
  ack_due [SpRecv 3 1 true true; SpRecv 4 1 false true; SpSendAck false; SpRecv 7 1 true true; SpRecv 9 1 false true]
    [SpAccepted 3; SpAccepted 4; SpAck [(3, 5)]; SpAccepted 7; SpAccepted 9] false = true.
Proof. reflexivity. Qed.

(** With more than 68 gaps the oldest packets drop out. *)
Definition gap_history : list sp_op := map (fun k => SpRecv (2 * Z.of_nat k) 2 true true) (seq 0 70).

Example C21_witness : Forall sp_legal gap_history /\
  exists outs st r, sp_run (gap_history ++ [SpSendAck false]) (sp_new, []) = Ok (outs ++ [SpAck r], st) /\
    zlen r = 68 /\ hd (0, 0) r = (4, 5) /\ accepted_pns outs = map (fun k => 2 * Z.of_nat k) (seq 0 70).
Proof.
  split; [apply Forall_forall; intros op h; apply in_map_iff in h as (k & <- & h); apply in_seq in h; cbn [sp_legal]; lia|].
  eexists (map (fun k => SpAccepted (2 * Z.of_nat k)) (seq 0 70)), _, _. split; [vm_compute; reflexivity|]. vm_compute. repeat split; reflexivity.
Qed.
