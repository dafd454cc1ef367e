(** C66, C28: the numbers of the packets a connection sends, and skipped numbers. *)
Require Import Verif.Base Verif.Errors Verif.PnSendModel Verif.PnSendSpec Verif.PnSendProofs Verif.PacketModel.
Require Import Sorting.Sorted.

(** C66: over any history, across all epochs and paths, numbers only grow, so none
    is used twice, and at most one in twenty is skipped. *)
Theorem C66_numbers_increase ops outs s : Forall pn_legal ops -> pn_run ops pn_init = Ok (outs, s) ->
  StronglySorted Z.lt (sent_pns outs) /\
  Forall (fun pn => 0 <= pn < zlen (sent_pns outs) + zlen (sent_pns outs) / 20) (sent_pns outs).
Proof. exact (pn_increasing ops outs s). Qed.
Print Assumptions C66_numbers_increase.

Theorem C66_never_panics ops : Forall pn_legal ops -> exists outs s, pn_run ops pn_init = Ok (outs, s).
Proof. exact (pn_total ops). Qed.
Print Assumptions C66_never_panics.

(** C28: so no nonce is used twice with one IV, in less than 2^63 packets. *)
Theorem C28_nonces_never_repeat ops outs s iv : Forall pn_legal ops -> pn_run ops pn_init = Ok (outs, s) -> zlen iv = 12 ->
  zlen (sent_pns outs) < 2 ^ 63 -> NoDup (map (make_nonce iv) (sent_pns outs)).
Proof. exact (nonces_never_repeat ops outs s iv). Qed.
Print Assumptions C28_nonces_never_repeat.

(** C66: a skipped number is never sent, before or after. *)
Theorem C66_skipped_never_sent ops1 ops2 outs1 s1 outs s x : Forall pn_legal (ops1 ++ ops2) ->
  pn_run ops1 pn_init = Ok (outs1, s1) -> m_skip (s_mgr s1) = Some x ->
  pn_run (ops1 ++ ops2) pn_init = Ok (outs, s) -> ~ In x (sent_pns outs).
Proof. exact (pn_skipped_never_sent ops1 ops2 outs1 s1 outs s x). Qed.
Print Assumptions C66_skipped_never_sent.

(** C66: it stays under watch until the peer has acknowledged a later packet. *)
Theorem C66_watched_until_validated ops1 ops2 outs1 s1 outs s x : Forall pn_legal (ops1 ++ ops2) ->
  pn_run ops1 pn_init = Ok (outs1, s1) -> m_skip (s_mgr s1) = Some x ->
  pn_run (ops1 ++ ops2) pn_init = Ok (outs, s) ->
  m_skip (s_mgr s) = Some x \/
  exists e n ranges newly, x < n /\ In n (sent_pns_in e outs) /\ In (PnAck e ranges newly) (ops1 ++ ops2) /\ covers ranges n.
Proof. exact (pn_watched_until_validated ops1 ops2 outs1 s1 outs s x). Qed.
Print Assumptions C66_watched_until_validated.

(** C66: acknowledging it meanwhile is an error. *)
Theorem C66_optimistic_ack_rejected ops outs s e ranges newly x : Forall pn_legal ops -> pn_run ops pn_init = Ok (outs, s) ->
  pn_legal (PnAck e ranges newly) -> m_skip (s_mgr s) = Some x -> covers ranges x ->
  exists err s', pn_step (PnAck e ranges newly) s = Ok (PnRejected err, s') /\ s_mgr s' = s_mgr s.
Proof. exact (pn_optimistic_ack ops outs s e ranges newly x). Qed.
Print Assumptions C66_optimistic_ack_rejected.

(** C66: a peer that acknowledges only what was sent in the epoch is never
    rejected. *)
Theorem C66_honest_ack_accepted ops outs s e ranges newly : Forall pn_legal ops -> pn_run ops pn_init = Ok (outs, s) ->
  pn_legal (PnAck e ranges newly) -> (forall n, covers ranges n -> In n (sent_pns_in e outs)) ->
  exists s', pn_step (PnAck e ranges newly) s = Ok (PnAcked, s').
Proof. exact (pn_honest_ack ops outs s e ranges newly). Qed.
Print Assumptions C66_honest_ack_accepted.

(** C66: an acknowledgement above everything sent in an epoch is an error, if
    anything was sent there. *)
Theorem C66_ack_beyond_rejected ops outs s e ranges a b newly : Forall pn_legal ops -> pn_run ops pn_init = Ok (outs, s) ->
  sent_pns_in e outs <> [] -> Forall (fun n => n < b - 1) (sent_pns_in e outs) ->
  exists s', pn_step (PnAck e (ranges ++ [(a, b)]) newly) s = Ok (PnRejected InvalidAckRange, s').
Proof. exact (pn_ack_beyond ops outs s e ranges a b newly). Qed.
Print Assumptions C66_ack_beyond_rejected.

(** Finding: not every acknowledgement of a packet that was not sent is rejected.
    Before anything is sent in an epoch every ACK passes, and so do numbers used in
    other epochs. *)
Theorem C66_unsent_ack_rejected_refuted :
  (exists s', pn_step (PnAck EHandshake [(0, 2 ^ 61)] [Some 5]) pn_init = Ok (PnAcked, s')) /\
  (exists outs s s', pn_run [PnSend EInitial false true 12000 1200 0; PnSend EApplication false true 12000 1200 0] pn_init = Ok (outs, s) /\
     sent_pns_in EApplication outs = [1] /\ pn_step (PnAck EApplication [(0, 2)] [Some 0]) s = Ok (PnAcked, s')).
Proof. split; [eexists; reflexivity|]. eexists _, _, _. split; [reflexivity|]. split; reflexivity. Qed.
Print Assumptions C66_unsent_ack_rejected_refuted.

(** The first packet arms the counter with 20 and the next 20 run it down: number 21
    is skipped. *)
Definition w_sends (n : nat) : list pn_op := repeat (PnSend EApplication true true 1200 1200 0) n.

Example C66_skip_witness :
  Forall pn_legal (w_sends 30) /\
  match pn_run (w_sends 30) pn_init with
  | Ok (outs, s) =>
      m_skip (s_mgr s) = Some 21 /\ sent_pns outs = map Z.of_nat (seq 0 21) ++ map Z.of_nat (seq 22 9) /\
      match pn_step (PnAck EApplication [(3, 25)] [None]) s with Ok (o, _) => o = PnRejected OptimisticAckDetected | _ => False end /\
      match pn_step (PnAck EApplication [(3, 21); (22, 25)] [Some 24]) s with Ok (o, s') => o = PnAcked /\ m_skip (s_mgr s') = None | _ => False end /\
      match pn_step (PnAck EApplication [(3, 32)] [None]) s with Ok (o, _) => o = PnRejected InvalidAckRange | _ => False end
  | _ => False
  end.
Proof.
  split; [apply Forall_forall; intros x hx; apply repeat_spec in hx; subst; cbn; lia|].
  vm_compute. repeat split; reflexivity.
Qed.
