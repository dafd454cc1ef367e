(** C10-C14: the send side of a stream.  A history is any list of writes (each
    offered an arbitrary connection-level capacity), turns to send, losses,
    acknowledgements, MAX_STREAM_DATA and STOP_SENDING frames, shutdowns and
    collections, started on a fresh stream with any peer limit. *)
Require Import Verif.Base Verif.Errors Verif.SendBufModel Verif.SendSpec Verif.SendProofs
  Verif.SendProofs3 Verif.SendBufProofs3 Verif.SendProofs5 Verif.SendProofs6.

(** C10: every STREAM frame ever sent carries exactly the bytes the application
    wrote at those offsets. *)
Theorem C10_frames_carry_written_bytes :
  forall md ops outs st f,
    0 <= md <= max_varint -> Forall sn_op_ok ops -> sn_run ops (sn_new md) = Ok (outs, st) ->
    In f (frames outs) ->
    0 <= sf_off f /\ frame_end f <= zlen (written ops outs) /\
    sf_bytes f = slice (sf_off f) (frame_end f) (written ops outs).
Proof. intros md ops outs st f h1 h2 h3. exact (send_frames md h1 ops outs st h2 h3 f). Qed.
Print Assumptions C10_frames_carry_written_bytes.

Theorem C10_send_never_panics :
  forall md ops, 0 <= md <= max_varint -> Forall sn_op_ok ops ->
    exists outs st, sn_run ops (sn_new md) = Ok (outs, st).
Proof. intros md ops h1 h2. destruct (hist_run md ops h1 h2) as (o & s & k & _). eauto. Qed.
Print Assumptions C10_send_never_panics.

(** C11: nothing is accepted or sent beyond the largest limit the peer gave. *)
Theorem C11_never_beyond_limit :
  forall md ops outs st,
    0 <= md <= max_varint -> Forall sn_op_ok ops -> sn_run ops (sn_new md) = Ok (outs, st) ->
    zlen (written ops outs) <= limit md ops /\
    forall f, In f (frames outs) -> frame_end f <= limit md ops.
Proof. intros md ops outs st h1 h2 h3. exact (send_limit md h1 ops outs st h2 h3). Qed.
Print Assumptions C11_never_beyond_limit.

(** C11: on an open stream a write accepts exactly what fits in the offered
    capacity and the stream limit; Done when that is nothing. *)
Theorem C11_write_accepts_what_fits :
  forall md ops outs st op data cap fin,
    0 <= md <= max_varint -> Forall sn_op_ok ops -> sn_run ops (sn_new md) = Ok (outs, st) ->
    op = SnWrite data cap fin \/ op = SnWriteZc data cap fin -> 0 <= cap ->
    ~ was_reset outs -> ~ fin_written ops outs ->
    let n := Z.min (Z.min (zlen data) cap) (limit md ops - zlen (written ops outs)) in
    exists st', sn_step op st =
      Ok (SoWrite (if (n =? 0) && (0 <? zlen data) then Err Done else Ok n), st').
Proof. intros md ops outs st op data cap fin h1 h2 h3. exact (send_write md h1 ops outs st h2 h3 op data cap fin). Qed.
Print Assumptions C11_write_accepts_what_fits.

(** Writes, a limit raised in between, losses and acknowledgements. *)
Definition ex_send : list sn_op :=
  [SnWrite [1; 2; 3; 4; 5] 10 true; SnEmit 2; SnEmit 9; SnMaxData 6; SnWriteZc [4; 5] 10 true;
   SnLost 0; SnEmit 1; SnEmit 9; SnEmit 9; SnAck 2; SnLost 1].
Example C10_C11_witness :
  Forall sn_op_ok ex_send /\
  exists st, sn_run ex_send (sn_new 3) =
    Ok ([SoWrite (Ok 3); SoFrame (Some (mkFrame 0 [1; 2] false)); SoFrame (Some (mkFrame 2 [3] false));
         SoNone; SoWrite (Ok 2); SoNone; SoFrame (Some (mkFrame 0 [1] false));
         SoFrame (Some (mkFrame 1 [2] false)); SoFrame (Some (mkFrame 3 [4; 5] true));
         SoNone; SoNone], st).
Proof.
  split; [repeat (apply Forall_cons; [cbn; unfold max_varint; auto; lia|]); apply Forall_nil|].
  eexists. vm_compute. reflexivity.
Qed.

(** C12: the FIN marks exactly the end of what was written. *)
Theorem C12_fin_only_at_the_end :
  forall md ops outs st f,
    0 <= md <= max_varint -> Forall sn_op_ok ops -> sn_run ops (sn_new md) = Ok (outs, st) ->
    In f (frames outs) -> sf_fin f = true -> ~ was_reset outs ->
    fin_written ops outs /\ frame_end f = zlen (written ops outs).
Proof. intros md ops outs st f h1 h2 h3. exact (send_fin_end md h1 ops outs st h2 h3 f). Qed.
Print Assumptions C12_fin_only_at_the_end.

(** C12: nothing is accepted after the FIN was written or the stream was reset. *)
Theorem C12_no_bytes_after_fin_or_reset :
  forall md ops outs st op o st',
    0 <= md <= max_varint -> Forall sn_op_ok ops -> sn_run ops (sn_new md) = Ok (outs, st) ->
    sn_op_ok op -> fin_written ops outs \/ was_reset outs ->
    sn_step op st = Ok (o, st') -> accepted op o = [].
Proof. intros md ops outs st op o st' h1 h2 h3. exact (send_nothing_after md h1 ops outs st h2 h3 op o st'). Qed.
Print Assumptions C12_no_bytes_after_fin_or_reset.

(** C12: the peer sees one final size: FIN frames and RESET_STREAM frames agree
    and no frame goes beyond it. *)
Theorem C12_one_final_size_sent :
  forall md ops outs st,
    0 <= md <= max_varint -> Forall sn_op_ok ops -> sn_run ops (sn_new md) = Ok (outs, st) ->
    (forall f1 f2, In f1 (frames outs) -> In f2 (frames outs) -> sf_fin f1 = true ->
       frame_end f2 <= frame_end f1) /\
    (forall final u f, In (SoReset (Some (final, u))) outs -> In f (frames outs) ->
       frame_end f <= final /\ (sf_fin f = true -> frame_end f = final)) /\
    (forall final1 u1 final2 u2, In (SoReset (Some (final1, u1))) outs ->
       In (SoReset (Some (final2, u2))) outs -> final1 = final2).
Proof. intros md ops outs st h1 h2 h3. exact (send_one_final_size md h1 ops outs st h2 h3). Qed.
Print Assumptions C12_one_final_size_sent.

(** C12: a reset announces the highest offset sent, and gives back the rest. *)
Theorem C12_reset_final_size :
  forall md ops outs st op final unsent st',
    0 <= md <= max_varint -> Forall sn_op_ok ops -> sn_run ops (sn_new md) = Ok (outs, st) ->
    sn_op_ok op -> sn_step op st = Ok (SoReset (Some (final, unsent)), st') ->
    (forall f, In f (frames outs) -> frame_end f <= final) /\
    (final = 0 \/ exists f, In f (frames outs) /\ frame_end f = final) /\
    (~ was_reset outs -> unsent = zlen (written ops outs) - final).
Proof. intros md ops outs st op final unsent st' h1 h2 h3.
  exact (send_reset_size md h1 ops outs st h2 h3 op final unsent st'). Qed.
Print Assumptions C12_reset_final_size.

(** C12: without losses (and before the stream is collected) the FIN is sent:
    after enough turns with room for a byte some frame carried it. *)
Theorem C12_fin_is_sent_partial :
  forall md ops outs st ns,
    0 <= md <= max_varint -> Forall sn_op_ok ops -> sn_run ops (sn_new md) = Ok (outs, st) ->
    ~ was_reset outs -> Forall no_loss ops -> fin_written ops outs ->
    Forall (fun n => 1 <= n) ns -> zlen (written ops outs) < zlen ns ->
    exists outs2 st', sn_run (map SnEmit ns) st = Ok (outs2, st') /\
      exists f, In f (frames (outs ++ outs2)) /\ sf_fin f = true /\
                frame_end f = zlen (written ops outs).
Proof. intros md ops outs st ns h1 h2 h3. exact (send_fin_reaches md h1 ops outs st h2 h3 ns). Qed.
Print Assumptions C12_fin_is_sent_partial.

(** C12: a FIN written together with data rides on the last byte: every frame
    that carries that byte carries the FIN, so it is as reliable as the data
    (C13). *)
Theorem C12_fin_rides_on_last_byte :
  forall md ops outs st f,
    0 <= md <= max_varint -> Forall sn_op_ok ops -> sn_run ops (sn_new md) = Ok (outs, st) ->
    ~ was_reset outs -> fin_written_with_data ops outs ->
    In f (frames outs) -> in_frame f (zlen (written ops outs) - 1) -> sf_fin f = true.
Proof. intros md ops outs st f h1 h2 h3. exact (send_last_byte md h1 ops outs st h2 h3 f). Qed.
Print Assumptions C12_fin_rides_on_last_byte.

Example C12_witness :
  let ops := [SnWrite [1; 2] 10 false; SnWrite [3] 10 true; SnEmit 2; SnEmit 9] in
  Forall no_loss ops /\
  exists outs st, sn_run ops (sn_new 10) = Ok (outs, st) /\
    fin_written_with_data ops outs /\ fin_written ops outs /\ ~ was_reset outs /\
    frames outs = [mkFrame 0 [1; 2] false; mkFrame 2 [3] true].
Proof.
  cbv zeta. split; [repeat constructor|]. eexists _, _. split; [vm_compute; reflexivity|].
  split. { exists (SnWrite [3] 10 true), (SoWrite (Ok 1)). cbn. intuition discriminate. }
  split. { exists (SnWrite [3] 10 true), (SoWrite (Ok 1)). cbn. auto. }
  split; [|reflexivity]. intros (r & h). cbn in h. intuition discriminate.
Qed.

(** Finding: the FIN may never be sent.  The application wrote data that was
    sent and acknowledged, then finishes the stream with an empty write; the
    stream counts as complete at once, and reading the peer's FIN collects it
    before the FIN frame is built.  No later event sends any frame. *)
Theorem C12_fin_never_sent_refuted :
  exists ops outs st,
    Forall sn_op_ok ops /\ sn_run ops (sn_new 100) = Ok (outs, st) /\
    fin_written ops outs /\ ~ was_reset outs /\
    (forall i, ~ In (SnLost i) ops) /\ ~ In SnNoRoom ops /\
    ~ fin_sent outs /\
    forall ops2 outs2 st', sn_run ops2 st = Ok (outs2, st') -> ~ fin_sent (outs ++ outs2).
Proof.
  exists [SnWrite [1; 2] 10 false; SnEmit 9; SnAck 0; SnWrite [] 10 true; SnCollect].
  eexists _, _. split; [repeat constructor; cbn; lia|]. split; [vm_compute; reflexivity|].
  split. { exists (SnWrite [] 10 true), (SoWrite (Ok 0)). cbn. auto 12. }
  split. { intros (r & h). cbn in h. intuition discriminate. }
  split. { intros i h. cbn in h. intuition discriminate. }
  split. { intros h. cbn in h. intuition discriminate. }
  split. { intros (f & h & k). cbn in h. destruct h as [<-|[]]. discriminate. }
  intros ops2 outs2 st' hr (f & h & k). rewrite frames_app in h.
  apply gone_no_frames in hr; [|reflexivity]. rewrite hr in h. cbn in h. destruct h as [<-|[]]. discriminate.
Qed.
Print Assumptions C12_fin_never_sent_refuted.

(** Finding: also without collecting the stream.  The first of two frames is
    lost; an empty write finishes the stream while that frame waits to be sent
    again.  Sending it empties the queue: no frame ever carries the FIN. *)
Theorem C12_fin_after_loss_never_sent_refuted :
  exists ops outs st,
    Forall sn_op_ok ops /\ sn_run ops (sn_new 100) = Ok (outs, st) /\
    fin_written ops outs /\ ~ was_reset outs /\ ~ In SnNoRoom ops /\ ~ In SnCollect ops /\
    forall ns, exists outs2 st', sn_run (map SnEmit ns) st = Ok (outs2, st') /\
      ~ fin_sent (outs ++ outs2).
Proof.
  exists [SnWrite [1; 2; 3; 4] 10 false; SnEmit 2; SnEmit 2; SnLost 0; SnWrite [] 10 true; SnEmit 9].
  eexists _, _. split; [repeat constructor; cbn; lia|]. split; [vm_compute; reflexivity|].
  split. { exists (SnWrite [] 10 true), (SoWrite (Ok 0)). cbn. auto 12. }
  split. { intros (r & h). cbn in h. intuition discriminate. }
  split. { intros h. cbn in h. intuition discriminate. }
  split. { intros h. cbn in h. intuition discriminate. }
  intros ns. eexists _, _. split; [apply idle_emits; reflexivity|].
  intros (f & h & k). rewrite frames_app, frames_none in h. cbn in h.
  intuition; subst; discriminate.
Qed.
Print Assumptions C12_fin_after_loss_never_sent_refuted.

(** Finding: shutting the write side down while data waits sends RESET_STREAM
    and then, from the stale queue entry, a FIN frame at the offset reached:
    the peer may take the truncated data for the whole stream. *)
Theorem C12_fin_after_reset_refuted :
  exists ops outs st f,
    Forall sn_op_ok ops /\ sn_run ops (sn_new 100) = Ok (outs, st) /\ ~ fin_written ops outs /\
    In f (frames outs) /\ sf_fin f = true /\ frame_end f < zlen (written ops outs).
Proof.
  exists [SnWrite [1; 2; 3; 4] 10 false; SnEmit 2; SnShutdown; SnEmit 9].
  eexists _, _, (mkFrame 2 [] true). split; [repeat constructor; cbn; lia|]. split; [vm_compute; reflexivity|].
  split. { intros (op & o & h & k). cbn in h.
    repeat (destruct h as [h|h]; [inversion h; subst; cbn in k; discriminate || (destruct k; discriminate) || contradiction|]). exact h. }
  split; [cbn; auto|]. split; [reflexivity|]. vm_compute. reflexivity.
Qed.
Print Assumptions C12_fin_after_reset_refuted.

(** C13: a byte whose every frame was lost and none acknowledged is sent again
    once the stream gets enough turns with room for at least one byte. *)
Theorem C13_lost_data_is_resent :
  forall md ops outs st x ns,
    0 <= md <= max_varint -> Forall sn_op_ok ops -> sn_run ops (sn_new md) = Ok (outs, st) ->
    ~ was_reset outs -> ~ In SnNoRoom ops ->
    0 <= x < zlen (written ops outs) -> ~ byte_acked ops outs x -> ~ byte_in_flight ops outs x ->
    Forall (fun n => 1 <= n) ns -> zlen (written ops outs) <= zlen ns ->
    exists outs2 st', sn_run (map SnEmit ns) st = Ok (outs2, st') /\
      exists f, In f (frames outs2) /\ in_frame f x.
Proof. intros md ops outs st x ns h1 h2 h3. exact (send_resent md h1 ops outs st h2 h3 x ns). Qed.
Print Assumptions C13_lost_data_is_resent.

Lemma acked_inv ops outs i : frame_acked ops outs i -> In (SnAck i) ops.
Proof. intros (pre & post & -> & _). apply in_app_iff. right. left. reflexivity. Qed.

Example C13_witness :
  let ops := [SnWrite [1; 2; 3; 4] 10 false; SnEmit 2; SnEmit 2; SnAck 1; SnLost 0] in
  exists outs st, sn_run ops (sn_new 100) = Ok (outs, st) /\ ~ was_reset outs /\
    ~ byte_acked ops outs 1 /\ ~ byte_in_flight ops outs 1.
Proof.
  cbv zeta. eexists _, _. split; [vm_compute; reflexivity|].
  split. { intros (r & h). cbn in h. intuition discriminate. }
  split.
  - intros (i & f & h1 & h2 & h3). apply acked_inv in h3. cbn in h3. intuition try discriminate.
    injection H0 as <-. cbn in h1. injection h1 as <-. unfold in_frame in h2. cbn in h2. lia.
  - intros (i & f & h1 & h2 & h3). destruct i as [|[|i]]; cbn in h1.
    + apply h3. exists [SnWrite [1; 2; 3; 4] 10 false; SnEmit 2; SnEmit 2; SnAck 1], [].
      split; [reflexivity|]. cbn. lia.
    + injection h1 as <-. unfold in_frame in h2. cbn in h2. lia.
    + destruct i; discriminate.
Qed.

(** Finding: a turn in which the frame header does not fit takes the stream out
    of the queue although it has data to send (the reserve of 12 bytes is less
    than the largest STREAM header), and nothing puts it back. *)
Theorem C13_no_room_stalls_stream_refuted :
  exists ops outs st,
    Forall sn_op_ok ops /\ sn_run ops (sn_new 100) = Ok (outs, st) /\ ~ was_reset outs /\
    written ops outs = [1; 2; 3] /\ frames outs = [] /\
    forall ns, exists outs2 st', sn_run (SnWrite [3] 10 true :: map SnEmit ns) st = Ok (outs2, st') /\
      frames outs2 = [].
Proof.
  exists [SnWrite [1; 2; 3] 10 false; SnNoRoom]. eexists _, _.
  split; [repeat constructor; cbn; lia|]. split; [vm_compute; reflexivity|].
  split. { intros (r & h). cbn in h. intuition discriminate. }
  split; [reflexivity|]. split; [reflexivity|].
  intros ns. cbn [sn_run].
  match goal with |- context [sn_step ?o ?s] => let v := eval vm_compute in (sn_step o s) in
    change (sn_step o s) with v end. cbn [bind].
  eexists _, _. rewrite idle_emits by reflexivity. cbn [bind]. split; [reflexivity|].
  cbn [frames]. apply frames_none.
Qed.
Print Assumptions C13_no_room_stalls_stream_refuted.

(** C14: a collected stream was finished and every byte was acknowledged. *)
Theorem C14_collected_means_all_acked :
  forall md ops outs st,
    0 <= md <= max_varint -> Forall sn_op_ok ops -> sn_run ops (sn_new md) = Ok (outs, st) ->
    ~ was_reset outs -> ss_gone st = true ->
    fin_written ops outs /\ forall x, 0 <= x < zlen (written ops outs) -> byte_acked ops outs x.
Proof. intros md ops outs st h1 h2 h3. exact (send_gone md h1 ops outs st h2 h3). Qed.
Print Assumptions C14_collected_means_all_acked.

(** C14: exactly when the send side can be collected. *)
Theorem C14_collectable_iff_all_acked :
  forall md ops outs st,
    0 <= md <= max_varint -> Forall sn_op_ok ops -> sn_run ops (sn_new md) = Ok (outs, st) ->
    ~ was_reset outs ->
    exists st', sn_step SnCollect st = Ok (SoNone, st') /\
      (ss_gone st' = true <->
       fin_written ops outs /\
       (forall x, 0 <= x < zlen (written ops outs) -> byte_acked ops outs x) /\
       (written ops outs = [] -> exists i, frame_acked ops outs i)).
Proof. intros md ops outs st h1 h2 h3. exact (send_collect md h1 ops outs st h2 h3). Qed.
Print Assumptions C14_collectable_iff_all_acked.

(** C14: after a history of any kind, the send side is found complete exactly
    when it was cut short (by the application or by the peer), or was ended and
    every byte was acknowledged. *)
Theorem C14_complete_exactly_when :
  forall md ops outs st,
    0 <= md <= max_varint -> Forall sn_op_ok ops -> sn_run ops (sn_new md) = Ok (outs, st) ->
    exists st', sn_step SnCollect st = Ok (SoNone, st') /\
      (ss_gone st' = true <->
       was_reset outs \/
       (fin_written ops outs /\
        (forall x, 0 <= x < zlen (written ops outs) -> byte_acked ops outs x) /\
        (written ops outs = [] -> exists i, frame_acked ops outs i))).
Proof.
  intros md ops outs st h1 h2 h3.
  assert (d : was_reset outs \/ ~ was_reset outs).
  { pose proof (h_reset _ _ _ _ (hist_of _ _ _ _ h1 h2 h3)). destruct (is_reset_dec (ss_buf st)); tauto. }
  destruct d as [d|d].
  - eexists. split; [reflexivity|]. cbn [ss_gone]. rewrite (done_run _ _ h1 h2 _ _ h3 d), orb_true_r. tauto.
  - destruct (send_collect md h1 ops outs st h2 h3 d) as (st' & e & k). exists st'. split; auto. rewrite k. tauto.
Qed.
Print Assumptions C14_complete_exactly_when.

Example C14_reset_witness :
  let ops := [SnWrite [1; 2; 3; 4] 10 false; SnEmit 2; SnShutdown] in
  exists outs st, Forall sn_op_ok ops /\ sn_run ops (sn_new 100) = Ok (outs, st) /\ was_reset outs /\
    ~ byte_acked ops outs 0 /\ ss_gone st = false.
Proof.
  cbv zeta. eexists _, _. split; [repeat constructor; cbn; lia|]. split; [vm_compute; reflexivity|].
  split; [eexists; cbn; eauto 10|]. split; [|reflexivity].
  intros (j & f & _ & _ & q). apply acked_inv in q. cbn in q. intuition discriminate.
Qed.

Example C14_witness :
  let ops := [SnWrite [1; 2; 3; 4] 10 true; SnEmit 2; SnEmit 2; SnAck 1; SnAck 0; SnCollect] in
  exists outs st, sn_run ops (sn_new 100) = Ok (outs, st) /\ ~ was_reset outs /\ ss_gone st = true.
Proof.
  cbv zeta. eexists _, _. split; [vm_compute; reflexivity|].
  split; [|reflexivity]. intros (r & h). cbn in h. intuition discriminate.
Qed.

(** Finding: completion does not wait for the acknowledgement of the FIN.  The
    only frame with the FIN is lost after the stream was collected: the peer
    never learns the end of the stream, and nothing is sent any more. *)
Theorem C14_collected_before_fin_acked_refuted :
  exists ops outs st,
    Forall sn_op_ok ops /\ sn_run ops (sn_new 100) = Ok (outs, st) /\ ~ was_reset outs /\
    ss_gone st = true /\
    (forall i f, nth_error (frames outs) i = Some f -> sf_fin f = true ->
       In (SnLost i) ops /\ ~ frame_acked ops outs i) /\
    forall ops2 outs2 st', sn_run ops2 st = Ok (outs2, st') -> frames outs2 = [].
Proof.
  exists [SnWrite [1; 2] 10 false; SnEmit 9; SnWrite [] 10 true; SnEmit 9; SnAck 0; SnCollect; SnLost 1].
  eexists _, _. split; [repeat constructor; cbn; lia|]. split; [vm_compute; reflexivity|].
  split. { intros (r & h). cbn in h. intuition discriminate. }
  split; [reflexivity|]. split.
  - intros [|[|[|i]]] f h k; cbn in h; try discriminate.
    + injection h as <-. discriminate.
    + split; [cbn; auto 10|]. intros q. apply acked_inv in q. cbn in q. intuition discriminate.
  - intros ops2 outs2 st' hr. apply gone_no_frames in hr; [exact hr|reflexivity].
Qed.
Print Assumptions C14_collected_before_fin_acked_refuted.

(** Finding: a lost FIN is not sent again when its frame also carried bytes that
    were acknowledged through another frame. *)
Theorem C13_lost_fin_not_resent_refuted :
  exists ops outs st,
    Forall sn_op_ok ops /\ sn_run ops (sn_new 100) = Ok (outs, st) /\ ~ was_reset outs /\
    fin_written ops outs /\ ~ In SnCollect ops /\ ~ In SnNoRoom ops /\
    (forall i f, nth_error (frames outs) i = Some f -> sf_fin f = true -> In (SnLost i) ops) /\
    forall ns, exists outs2 st', sn_run (map SnEmit ns) st = Ok (outs2, st') /\ frames outs2 = [].
Proof.
  exists [SnWrite [1; 2] 10 false; SnEmit 9; SnLost 0; SnWrite [] 10 true; SnEmit 9; SnAck 0; SnLost 1].
  eexists _, _. split; [repeat constructor; cbn; lia|]. split; [vm_compute; reflexivity|].
  split. { intros (r & h). cbn in h. intuition discriminate. }
  split. { exists (SnWrite [] 10 true), (SoWrite (Ok 0)). cbn. auto 12. }
  split. { intros h. cbn in h. intuition discriminate. }
  split. { intros h. cbn in h. intuition discriminate. }
  split.
  - intros [|[|[|i]]] f h k; cbn in h; try discriminate.
    + injection h as <-. discriminate.
    + cbn; auto 10.
  - intros ns. eexists _, _. split; [apply idle_emits; reflexivity|]. apply frames_none.
Qed.
Print Assumptions C13_lost_fin_not_resent_refuted.
