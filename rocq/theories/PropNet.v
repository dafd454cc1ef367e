(** C15: a sending stream and a receiving stream joined by a network that loses,
    reorders and duplicates frames.  [nt_run ops (nt_new md w mw)] is any
    interleaving of the calls on the two ends with deliveries of frames, resets
    and limits and with acknowledgements and losses. *)
Require Import Verif.Base Verif.Errors Verif.SendBufModel Verif.SendSpec Verif.RecvBufModel Verif.RecvSpec
  Verif.NetModel Verif.NetProofs Verif.NetProofs2.

(** No schedule makes either end panic or the receiver reject a frame. *)
Theorem C15_receiver_never_rejects :
  forall md w mw ops, 0 <= md <= max_varint -> 0 <= w -> 0 <= mw -> Forall nt_op_ok ops ->
    exists n, nt_run ops (nt_new md w mw) = Ok n.
Proof.
  intros md w mw ops h1 h2 h3 h4.
  destruct (net_run md w mw h1 h2 h3 ops _ (net_new md w mw) h4) as (n & k & _). eauto.
Qed.
Print Assumptions C15_receiver_never_rejects.

(** What was read is a prefix of what was written. *)
Theorem C15_reads_are_prefix_of_writes :
  forall md w mw ops n, 0 <= md <= max_varint -> 0 <= w -> 0 <= mw -> Forall nt_op_ok ops ->
    nt_run ops (nt_new md w mw) = Ok n ->
    exists rest, written (n_sops n) (n_souts n) = read_bytes (n_routs n) ++ rest.
Proof.
  intros md w mw ops n h1 h2 h3 h4 h5.
  exact (net_prefix md w mw h1 h2 h3 n (net_of md w mw h1 h2 h3 ops n h4 h5)).
Qed.
Print Assumptions C15_reads_are_prefix_of_writes.

(** The end of the stream is reported only when the sender finished the stream
    and all of it was read. *)
Theorem C15_fin_means_everything_read :
  forall md w mw ops n b, 0 <= md <= max_varint -> 0 <= w -> 0 <= mw -> Forall nt_op_ok ops ->
    nt_run ops (nt_new md w mw) = Ok n -> ~ was_reset (n_souts n) ->
    In (ORead (Ok (b, true))) (n_routs n) ->
    fin_written (n_sops n) (n_souts n) /\
    read_bytes (n_routs n) = written (n_sops n) (n_souts n).
Proof.
  intros md w mw ops n b h1 h2 h3 h4 h5.
  exact (net_fin md w mw h1 h2 h3 n b (net_of md w mw h1 h2 h3 ops n h4 h5)).
Qed.
Print Assumptions C15_fin_means_everything_read.

(** Whatever happened before, once the sender gets enough turns, the network
    delivers the frames not declared lost, and the application reads, all that
    was written has been read, and the end has been reported if it was written
    with data. *)
Theorem C15_everything_written_arrives :
  forall md w mw ops n ns, 0 <= md <= max_varint -> 0 <= w -> 0 <= mw -> Forall nt_op_ok ops ->
    nt_run ops (nt_new md w mw) = Ok n ->
    ~ was_reset (n_souts n) -> ~ In SnNoRoom (n_sops n) -> ~ stopped (n_rops n) ->
    Forall (fun k => 1 <= k) ns -> zlen (written (n_sops n) (n_souts n)) <= zlen ns ->
    exists n2, nt_run (map (fun k => NtSender (SnEmit k)) ns) n = Ok n2 /\
      forall ds, (forall i, (i < length (frames (n_souts n2)))%nat ->
                    ~ frame_lost (n_sops n2) (n_souts n2) i -> In i ds) ->
      exists n3, nt_run (map NtDeliver ds) n2 = Ok n3 /\
        forall cap, zlen (written (n_sops n) (n_souts n)) <= cap ->
        exists n4, nt_step (NtReceiver (RvRead cap)) n3 = Ok n4 /\
          read_bytes (n_routs n4) = written (n_sops n) (n_souts n) /\
          (fin_written_with_data (n_sops n) (n_souts n) ->
           exists b, In (ORead (Ok (b, true))) (n_routs n4)).
Proof.
  intros md w mw ops n ns h1 h2 h3 h4 h5.
  exact (net_arrives md w mw h1 h2 h3 n ns (net_of md w mw h1 h2 h3 ops n h4 h5)).
Qed.
Print Assumptions C15_everything_written_arrives.

(** Six bytes over a limit of four: a loss, a duplicate, reordering, a limit
    update on its way back, and the end. *)
Definition ex_net : list nt_op :=
  [NtSender (SnWrite [1; 2; 3; 4; 5; 6] 9 true); NtSender (SnEmit 2); NtSender (SnEmit 2);
   NtDeliver 1; NtAck 1; NtSender (SnLost 0); NtSender (SnEmit 2); NtDeliver 2; NtDeliver 1;
   NtReceiver (RvRead 9); NtReceiver (RvLimit 5 1 true); NtDeliverLimit 0;
   NtSender (SnWrite [5; 6] 9 true); NtSender (SnEmit 9); NtDeliver 3; NtReceiver (RvRead 9)].
Example C15_witness :
  Forall nt_op_ok ex_net /\
  exists n, nt_run ex_net (nt_new 4 4 16) = Ok n /\
    n_souts n = [SoWrite (Ok 4); SoFrame (Some (mkFrame 0 [1; 2] false));
                 SoFrame (Some (mkFrame 2 [3; 4] false)); SoNone; SoNone;
                 SoFrame (Some (mkFrame 0 [1; 2] false)); SoNone; SoWrite (Ok 2);
                 SoFrame (Some (mkFrame 4 [5; 6] true))] /\
    n_routs n = [OFrame 4 0; OFrame 0 0; OFrame 0 0; ORead (Ok ([1; 2; 3; 4], false)); OLimit (Some 8);
                 OFrame 2 0; ORead (Ok ([5; 6], true))].
Proof.
  split; [repeat (apply Forall_cons; [cbn; auto; lia|]); apply Forall_nil|].
  eexists. split; [vm_compute; reflexivity|]. split; reflexivity.
Qed.

(** The hypotheses of the delivery theorem, with a frame lost. *)
Example C15_arrives_witness :
  exists n, nt_run (firstn 6 ex_net) (nt_new 4 4 16) = Ok n /\
    ~ was_reset (n_souts n) /\ ~ In SnNoRoom (n_sops n) /\ ~ stopped (n_rops n) /\
    written (n_sops n) (n_souts n) = [1; 2; 3; 4] /\ frame_lost (n_sops n) (n_souts n) 0.
Proof.
  eexists. split; [vm_compute; reflexivity|]. cbn [n_souts n_sops n_rops].
  split. { intros (r & h). cbn in h. intuition discriminate. }
  split. { intros h. cbn in h. intuition discriminate. }
  split. { intros [h|(op & h & r)]; cbn in h; intuition; subst; try discriminate; contradiction. }
  split; [reflexivity|].
  exists [SnWrite [1; 2; 3; 4; 5; 6] 9 true; SnEmit 2; SnEmit 2; SnAck 1], []. split; [reflexivity|cbn; lia].
Qed.

(** Finding, end to end: the sending application shuts the stream down with two
    of four bytes unsent; the RESET_STREAM frame is late, and the receiving
    application reads two bytes and a clean end of stream. *)
Theorem C15_truncated_stream_ends_cleanly_refuted :
  exists ops n, Forall nt_op_ok ops /\ nt_run ops (nt_new 100 100 100) = Ok n /\
    ~ fin_written (n_sops n) (n_souts n) /\ In (ORead (Ok ([1; 2], true))) (n_routs n) /\
    written (n_sops n) (n_souts n) = [1; 2; 3; 4].
Proof.
  exists [NtSender (SnWrite [1; 2; 3; 4] 9 false); NtSender (SnEmit 2); NtSender SnShutdown;
          NtSender (SnEmit 9); NtDeliver 0; NtDeliver 1; NtReceiver (RvRead 9)].
  eexists. split; [repeat (apply Forall_cons; [cbn; auto; lia|]); apply Forall_nil|].
  split; [vm_compute; reflexivity|]. cbn [n_souts n_sops n_routs]. split.
  - intros (op & o & h & k). cbn in h.
    repeat (destruct h as [h|h]; [inversion h; subst; cbn in k; discriminate || contradiction|]). exact h.
  - split; [cbn; auto|]. reflexivity.
Qed.
Print Assumptions C15_truncated_stream_ends_cleanly_refuted.
