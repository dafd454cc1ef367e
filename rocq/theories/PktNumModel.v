(** quiche/src/packet.rs: packet numbers, and one packet number space on the
    receiving side (with the parts of recv_single and send_single that use it). *)
Require Import Verif.Base Verif.Errors Verif.RangesModel Verif.OctetsModel.

(** pkt_num_len (packet.rs:569-575).  [u64::BITS - leading_zeros] is the bit
    length, which is [log2 + 1] of a positive number. *)
Definition pkt_num_len (pn largest_acked : Z) : Z :=
  let num_unacked := sat_sub pn largest_acked + 1 in
  let min_bits := (Z.log2 num_unacked + 1) + 1 in
  (min_bits + 7) / 8.

(** encode_pkt_num (packet.rs:719-735): the bytes written. *)
Definition encode_pkt_num (pn pn_len : Z) : res error (list Z) :=
  match pn_len with
  | 1 => Ok (be_enc 1 pn)
  | 2 => Ok (be_enc 2 pn)
  | 3 => Ok (be_enc 3 pn)
  | 4 => Ok (be_enc 4 pn)
  | _ => Err InvalidPacket
  end.

(** decode_pkt_num (packet.rs:634-652) *)
Definition decode_pkt_num (largest_pn truncated_pn pn_len : Z) : Z :=
  let pn_nbits := pn_len * 8 in
  let expected_pn := largest_pn + 1 in
  let pn_win := 2 ^ pn_nbits in
  let pn_hwin := pn_win / 2 in
  let pn_mask := pn_win - 1 in
  let candidate := Z.lor (Z.land expected_pn (Z.lnot pn_mask)) truncated_pn in
  if (candidate + pn_hwin <=? expected_pn) && (candidate <? 2 ^ 62 - pn_win) then candidate + pn_win
  else if (expected_pn + pn_hwin <? candidate) && (pn_win <=? candidate) then candidate - pn_win
  else candidate.

(** PktNumWindow (packet.rs:1124-1128) *)
Record pnwin : Type := mkWin { pw_lower : Z; pw_bits : Z }.
Definition pw_new : pnwin := mkWin 0 0.

(** upper (packet.rs:1164-1166) *)
Definition pw_upper (w : pnwin) : Z := Z.min u64_max (pw_lower w + 128) - 1.

(** [window.checked_shl(diff as u32).unwrap_or(0)] on u128 (packet.rs:1142). *)
Definition shl_or_zero (bits diff : Z) : Z :=
  let d := diff mod 2 ^ 32 in
  if d <? 128 then Z.shiftl bits d mod 2 ^ 128 else 0.

(** insert (packet.rs:1131-1147) *)
Definition pw_insert (seq : Z) (w : pnwin) : pnwin :=
  if seq <? pw_lower w then w
  else
    let w := if pw_upper w <? seq then
               let diff := seq - pw_upper w in
               mkWin (pw_lower w + diff) (shl_or_zero (pw_bits w) diff)
             else w in
    mkWin (pw_lower w) (Z.lor (pw_bits w) (Z.shiftl 1 (pw_upper w - seq))).

(** contains (packet.rs:1149-1162) *)
Definition pw_contains (seq : Z) (w : pnwin) : bool :=
  if pw_upper w <? seq then false
  else if seq <? pw_lower w then true
  else negb (Z.land (pw_bits w) (Z.shiftl 1 (pw_upper w - seq)) =? 0).

(** MAX_ACK_RANGES (lib.rs:458) *)
Definition MAX_ACK_RANGES : Z := 68.

(** The receiving side of PktNumSpace (packet.rs:864-898); times and the
    non-probing counter are left out. *)
Record pnspace : Type := mkSpace {
  sp_largest : Z;
  sp_need : rangeset;
  sp_win : pnwin;
  sp_elicited : bool
}.
Definition sp_new : pnspace := mkSpace 0 (rs_new MAX_ACK_RANGES) pw_new false.

Inductive sp_op : Type :=
(** a packet that decrypts: its truncated number and length, whether it elicits
    an acknowledgement and whether its frames are processed without error *)
| SpRecv (trunc len : Z) (eliciting ok : bool)
(** build an ACK frame; [required] is ack_elicit_required *)
| SpSendAck (required : bool)
(** the packet that carried the [i]th ACK frame is acknowledged *)
| SpAckAcked (i : nat).

Inductive sp_out : Type :=
| SpAccepted (pn : Z)
| SpDuplicate (pn : Z)
| SpFailed (pn : Z)
| SpAck (ranges : list range)
| SpNothing.

(** recv_single (lib.rs:3254-3258, 3323-3326, 3500-3503, 3752-3760), send_single
    (lib.rs:4528-4565: frame built when there is something to acknowledge) and the
    ACK arm of the acked frames loop (lib.rs:3573-3583).  [sent] lists the ACK
    frames sent so far. *)
Definition sp_step (op : sp_op) (st : pnspace * list (list range)) : res error (sp_out * (pnspace * list (list range))) :=
  let '(s, sent) := st in
  match op with
  | SpRecv trunc len eliciting ok =>
      let pn := decode_pkt_num (sp_largest s) trunc len in
      if pw_contains pn (sp_win s) then Ok (SpDuplicate pn, st)
      else if negb ok then Ok (SpFailed pn, st)
      else
        match rs_push_item pn (sp_need s) with
        | Ok need =>
            Ok (SpAccepted pn,
                (mkSpace (Z.max (sp_largest s) pn) need (pw_insert pn (sp_win s)) (sp_elicited s || eliciting), sent))
        | _ => Panic
        end
  | SpSendAck required =>
      if (0 <? rs_len (sp_need s)) && (sp_elicited s || required) then
        Ok (SpAck (rs_ranges (sp_need s)),
            (mkSpace (sp_largest s) (sp_need s) (sp_win s) false, sent ++ [rs_ranges (sp_need s)]))
      else Ok (SpNothing, st)
  | SpAckAcked i =>
      match nth_error sent i with
      | Some ranges =>
          match rev ranges with
          | [] => Ok (SpNothing, st)
          | (_, e) :: _ =>
              if e =? 0 then Panic
              else
                match rs_remove_until (e - 1) (sp_need s) with
                | Ok need => Ok (SpNothing, (mkSpace (sp_largest s) need (sp_win s) (sp_elicited s), sent))
                | _ => Panic
                end
          end
      | None => Ok (SpNothing, st)
      end
  end.

Fixpoint sp_run (ops : list sp_op) (st : pnspace * list (list range)) : res error (list sp_out * (pnspace * list (list range))) :=
  match ops with
  | [] => Ok ([], st)
  | op :: ops =>
      let* '(o, st) := sp_step op st in
      let* '(os, st) := sp_run ops st in
      Ok (o :: os, st)
  end.
