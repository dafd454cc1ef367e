(** C31, C32, C33, C68: connection ids. *)
Require Import Verif.Base Verif.Errors Verif.TpModel Verif.CidModel Verif.CidSpec Verif.CidProofs Verif.CidProofs2 Verif.CidProofs3 Verif.CidProofs4 Verif.CidProofs5 Verif.CidProofs6 Verif.CidProofs7 Verif.CidProofs8.

(** ** Our own ids *)

(** C31: numbers are given one after the other; a number stands for one id and
    one token for ever. *)
Theorem C31_numbers dl sc st dc dt ops h x : cid_trace dl sc st dc dt ops h x ->
  counts_up 1 (given h) <> None /\
  forall n c t c' t', In (n, c, t) ((0, sc, st) :: issued h) -> In (n, c', t') ((0, sc, st) :: issued h) -> c = c' /\ t = t'.
Proof.
  intros ht. apply trace_reach, sinv_reach in ht. split; [rewrite (si_count _ _ _ _ ht); discriminate|exact (si_fun _ _ _ _ ht)].
Qed.
Print Assumptions C31_numbers.

(** C31: giving an active id again with its token returns its number, and
    changes nothing; with another token it fails. *)
Theorem C31_again dl sc st dc dt ops h x c t e : cid_trace dl sc st dc dt ops h x ->
  In e (s_ids x) -> e_cid e = c -> zlen (s_ids x) < c_lim (x_ids x) -> sc <> [] ->
  cid_step (NewScid c t false) x = (match e_tok e with Some t' => if t' =? t then OSeq (e_seq e) else OFail InvalidState | None => OFail InvalidState end, x).
Proof. exact (again_same dl sc st dc dt ops h x c t e). Qed.
Print Assumptions C31_again.

(** C31: active ids have different numbers and are different, and each was
    given that number. *)
Theorem C31_active dl sc st dc dt ops h x : cid_trace dl sc st dc dt ops h x ->
  NoDup (map e_seq (s_ids x)) /\ NoDup (map e_cid (s_ids x)) /\
  forall e, In e (s_ids x) -> In (e_seq e, e_cid e, e_tok e) ((0, sc, st) :: issued h).
Proof.
  intros ht. apply trace_reach, sinv_reach in ht. ands; [exact (si_nds _ _ _ _ ht)|exact (si_ndc _ _ _ _ ht)|exact (si_iss _ _ _ _ ht)].
Qed.
Print Assumptions C31_active.

(** C31: the peer's limit, unless the application asked to go over it; then at
    most as many again are waiting to be retired. *)
Theorem C31_limit dl sc st dc dt ops h x : cid_trace dl sc st dc dt ops h x ->
  (never_forced h -> zlen (s_ids x) <= peer_limit h) /\
  zlen (filter (fun e => c_rpt (x_ids x) <=? e_seq e) (s_ids x)) <= peer_limit h /\
  zlen (s_ids x) <= 2 * peer_limit h - 1.
Proof.
  intros ht. apply trace_reach, sinv_reach in ht. pose proof (si_use _ _ _ _ ht) as hu. ands; auto.
  - intros hn. rewrite filter_all in hu; [exact hu|]. pose proof (si_forced _ _ _ _ ht hn) as hf. rewrite Forall_forall in hf.
    intros e he. apply Z.leb_le. auto.
  - pose proof (si_len _ _ _ _ ht). rewrite (si_cap _ _ _ _ ht) in H. exact H.
Qed.
Print Assumptions C31_limit.

(** C31: as the peer counts.  When a NEW_CONNECTION_ID frame is sent, the ids the
    peer can have active after it (not below the frame's retire_prior_to, announced
    to it, and not retired by it) are within its limit. *)
Theorem C31_peer_limit dl sc st dc dt ops h x n r c t A : cid_trace dl sc st dc dt ops h x ->
  fst (cid_step SendNewCid x) = OFrame n r c t -> NoDup A ->
  (forall m, In m A -> r <= m /\ (m = 0 \/ m = n \/ announced h m) /\ ~ retired_by_peer h m) ->
  zlen A <= peer_limit h.
Proof. intros ht. apply trace_reach, sinv_reach in ht. exact (peer_limit_frame _ _ _ _ n r c t A ht). Qed.
Print Assumptions C31_peer_limit.

(** C31: what a NEW_CONNECTION_ID frame carries. *)
Theorem C31_frame dl sc st dc dt ops h x n r c t : cid_trace dl sc st dc dt ops h x ->
  fst (cid_step SendNewCid x) = OFrame n r c t ->
  In (n, c, Some t) ((0, sc, st) :: issued h) /\ active_s x n /\ (never_forced h -> r <= n).
Proof. intros ht. apply trace_reach, sinv_reach in ht. exact (frame_legal _ _ _ _ n r c t ht). Qed.
Print Assumptions C31_frame.

(** C31 fails: after ids were forced out, frames with retire_prior_to above
    their own number are sent, which RFC 9000 19.15 makes the peer close the
    connection for (the last line: the same code at the peer). *)
Theorem C31_frame_refuted : exists h x, cid_trace 2 [1] None [9] None
    [SetLimit 3; NewScid [2] 20 false; NewScid [3] 30 false; NewScid [4] 40 true; NewScid [5] 50 true; SendNewCid] h x /\
  In (SendNewCid, OFrame 1 2 [2] 20) h /\
  fst (cid_step (GotNewCid [2] 1 20 2) (x_init (cids_new 3 [9] None [1] None))) = OFail InvalidFrame.
Proof.
  eexists; eexists; split; [exists [OUnit; OSeq 1; OSeq 2; OSeq 3; OSeq 4; OFrame 1 2 [2] 20]; split; [vm_compute; reflexivity|reflexivity]|].
  split; [right; right; right; right; right; left; reflexivity|reflexivity].
Qed.
Print Assumptions C31_frame_refuted.

(** C31: every number given is announced, or waits to be. *)
Theorem C31_announced dl sc st dc dt ops h x n : cid_trace dl sc st dc dt ops h x -> In n (given h) -> 1 <= n ->
  announced h n \/ In n (c_adv (x_ids x)).
Proof. exact (given_announced dl sc st dc dt ops h x n). Qed.
Print Assumptions C31_announced.

(** C31: as long as what waits to be announced is active, sending announces it all. *)
Theorem C31_announce_all dl sc st dc dt ops h x : cid_trace dl sc st dc dt ops h x ->
  (forall n, In n (c_adv (x_ids x)) -> exists e, In e (s_ids x) /\ e_seq e = n /\ e_tok e <> None) ->
  exists outs x', cid_run (repeat SendNewCid (length (c_adv (x_ids x)))) x = (outs, x') /\ c_adv (x_ids x') = [] /\
    Forall2 (fun n o => exists e t, In e (s_ids x) /\ e_seq e = n /\ e_tok e = Some t /\ o = OFrame n (c_rpt (x_ids x)) (e_cid e) t) (c_adv (x_ids x)) outs.
Proof. exact (announce_all dl sc st dc dt ops h x). Qed.
Print Assumptions C31_announce_all.

(** C31 fails otherwise: if the frame that announced an id is declared lost after
    the peer retired the id, sending NEW_CONNECTION_ID fails from then on, and with
    it every packet. *)
Theorem C31_announce_all_refuted : exists h x, cid_trace 2 [1] None [9] None
    [NewScid [2] 20 false; SendNewCid; GotRetire 1 [1]; LostNewCid 1] h x /\
  map snd h = [OSeq 1; OFrame 1 0 [2] 20; OUnit; OUnit] /\
  cid_step SendNewCid x = (OFail InvalidState, x).
Proof.
  eexists; eexists; split; [exists [OSeq 1; OFrame 1 0 [2] 20; OUnit; OUnit]; split; [vm_compute; reflexivity|reflexivity]|]. split; reflexivity.
Qed.
Print Assumptions C31_announce_all_refuted.

(** C31: exactly when RETIRE_CONNECTION_ID is accepted, and what it does. *)
Theorem C31_retire_exact dl sc st dc dt ops h x n d : cid_trace dl sc st dc dt ops h x -> sc <> [] ->
  let '(o, x') := cid_step (GotRetire n d) x in
  (o = OUnit <->
     n < c_next (x_ids x) /\ 2 <= zlen (s_ids x) /\
     forall e, In e (s_ids x) -> e_seq e = n ->
       e_cid e <> d /\ exists e', In e' (s_ids x) /\ e_seq e' <> n /\ c_rpt (x_ids x) <= e_seq e') /\
  (o = OUnit -> forall m, active_s x' m <-> active_s x m /\ m <> n).
Proof. exact (retire_exact' dl sc st dc dt ops h x n d). Qed.
Print Assumptions C31_retire_exact.

(** C31 fails for a frame that arrives twice: with one id left, the second
    RETIRE_CONNECTION_ID for an id already retired closes the connection. *)
Theorem C31_retire_again_refuted : exists h x, cid_trace 2 [1] None [9] None
    [NewScid [2] 20 false; GotRetire 0 [2]; GotRetire 0 [2]] h x /\
  map snd h = [OSeq 1; OUnit; OFail OutOfIdentifiers].
Proof. eexists; eexists; split; [exists [OSeq 1; OUnit; OFail OutOfIdentifiers]; split; [vm_compute; reflexivity|reflexivity]|reflexivity]. Qed.
Print Assumptions C31_retire_again_refuted.

(** C31: the ids told to the application to be retired are ids that were given,
    each told once, and only after the peer retired them; all of those are told. *)
Theorem C31_told dl sc st dc dt ops h x : cid_trace dl sc st dc dt ops h x ->
  exists rs, NoDup rs /\
    Forall2 (fun n c => exists t, In (n, c, t) ((0, sc, st) :: issued h)) rs (told h ++ c_retired (x_ids x)) /\
    Forall (fun n => ~ active_s x n /\ retired_by_peer h n) rs /\
    ((forall n d, ~ In (GotRetire n d, OFail InvalidState) h) ->
     forall n, n = 0 \/ In n (given h) -> ~ active_s x n -> In n rs).
Proof. exact (told_once dl sc st dc dt ops h x). Qed.
Print Assumptions C31_told.

(** C31 fails: a call that fails still retires an id of ours, so that a later
    frame asks the peer to retire it. *)
Theorem C31_failed_call_refuted : exists h x, cid_trace 2 [1] None [9] None
    [NewScid [2] 20 false; NewScid [3] 30 true; NewScid [4] 40 true; SendNewCid] h x /\
  map snd h = [OSeq 1; OSeq 2; OFail IdLimit; OFrame 1 2 [2] 20].
Proof. eexists; eexists; split; [exists [OSeq 1; OSeq 2; OFail IdLimit; OFrame 1 2 [2] 20]; split; [vm_compute; reflexivity|reflexivity]|reflexivity]. Qed.
Print Assumptions C31_failed_call_refuted.

(** ** The peer's ids *)

(** C32: active ids have different numbers and are different, each came in a
    NEW_CONNECTION_ID frame or is the first, and there are at most as many as our limit. *)
Theorem C32_active dl sc st dc dt ops h x : cid_trace dl sc st dc dt ops h x ->
  NoDup (map e_seq (d_ids x)) /\ NoDup (map e_cid (d_ids x)) /\ zlen (d_ids x) <= Z.max dl 2 /\
  forall e, In e (d_ids x) -> (e_seq e, e_cid e, e_tok e) = (0, dc, dt) \/
    exists t r o, e_tok e = Some t /\ In (GotNewCid (e_cid e) (e_seq e) t r, o) h.
Proof.
  intros ht. apply trace_reach, dinv_reach in ht. pose proof (di_len _ _ _ _ _ ht) as hl. rewrite (di_cap _ _ _ _ _ ht) in hl.
  ands; [exact (di_nds _ _ _ _ _ ht)|exact (di_ndc _ _ _ _ _ ht)|exact (proj2 hl)|exact (di_known _ _ _ _ _ ht)].
Qed.
Print Assumptions C32_active.

(** C32: every accepted id is active, queued for retirement, or RETIRE_CONNECTION_ID was sent. *)
Theorem C32_accounted dl sc st dc dt ops h x n : cid_trace dl sc st dc dt ops h x -> d_clean h -> n = 0 \/ accepted h n ->
  active_d x n \/ retire_queued x n \/ retire_sent h n.
Proof. intros ht hc. apply trace_reach, dinv_reach in ht. exact (di_acc _ _ _ _ _ ht hc n). Qed.
Print Assumptions C32_accounted.

(** C32: only numbers the peer offered are retired. *)
Theorem C32_only_offered dl sc st dc dt ops h x n : cid_trace dl sc st dc dt ops h x -> lost_sent [] h ->
  retire_queued x n \/ retire_sent h n -> n = 0 \/ In n (offered h).
Proof. intros ht hl. apply trace_reach, dinv_reach in ht. exact (di_src _ _ _ _ _ ht hl n). Qed.
Print Assumptions C32_only_offered.

(** C32: what was retired is not used again, if no frame arrives twice. *)
Theorem C32_retired_not_used dl sc st dc dt ops h x n : cid_trace dl sc st dc dt ops h x -> lost_sent [] h -> NoDup (0 :: offered h) ->
  retire_queued x n \/ retire_sent h n -> ~ active_d x n.
Proof.
  intros ht hl hn hr ha. apply trace_reach, dinv_reach in ht. destruct (di_disj _ _ _ _ _ ht hl hn n ha) as [h1 h2]. unfold retire_queued in hr. tauto.
Qed.
Print Assumptions C32_retired_not_used.

(** C32 fails if one does: an id retired by the application, and whose retirement
    was sent, is active again after its NEW_CONNECTION_ID frame arrives again, and
    the next path uses it. *)
Theorem C32_retired_not_used_refuted : exists h x, cid_trace 2 [1] None [9] None
    [GotNewCid [8] 1 80 0; RetireDcid 1 true; SendRetire 0 1; GotNewCid [8] 1 80 0; NewPath true] h x /\
  map snd h = [OUnit; OUnit; OSeq 1; OUnit; OUnit] /\
  retire_sent h 1 /\ active_d x 1 /\ send_dcid 1 x = Ok [8].
Proof.
  eexists; eexists; split; [exists [OUnit; OUnit; OSeq 1; OUnit; OUnit]; split; [vm_compute; reflexivity|reflexivity]|].
  split; [reflexivity|]. split; [exists 0; right; right; left; reflexivity|]. split; [right; left; reflexivity|reflexivity].
Qed.
Print Assumptions C32_retired_not_used_refuted.

(** C32: no active id is below an accepted retire_prior_to, if no frame arrives twice. *)
Theorem C32_retire_prior_to dl sc st dc dt ops h x c n t r m : cid_trace dl sc st dc dt ops h x -> NoDup (0 :: offered h) ->
  In (GotNewCid c n t r, OUnit) h -> active_d x m -> r <= m.
Proof.
  intros ht hn hi ha. apply trace_reach, dinv_reach in ht. pose proof (di_rpt _ _ _ _ _ ht hn _ _ _ _ hi).
  pose proof (di_lrpt _ _ _ _ _ ht) as hl. rewrite Forall_forall in hl. unfold active_d in ha. apply in_map_iff in ha.
  destruct ha as (e & <- & he). specialize (hl e he). cbn in hl. lia.
Qed.
Print Assumptions C32_retire_prior_to.

(** C32 fails if one does: RFC 9000 19.15 lets the peer send an id again with a
    larger retire_prior_to, which is then ignored. *)
Theorem C32_retire_prior_to_refuted : exists h x, cid_trace 3 [1] None [9] None
    [GotNewCid [8] 1 80 0; GotNewCid [8] 1 80 1; AfterRecv] h x /\
  map snd h = [OUnit; OUnit; OUnit] /\ active_d x 0 /\ ~ retire_queued x 0 /\ send_dcid 0 x = Ok [9].
Proof.
  eexists; eexists; split; [exists [OUnit; OUnit; OUnit]; split; [vm_compute; reflexivity|reflexivity]|].
  split; [reflexivity|]. split; [left; reflexivity|]. split; [intros []|reflexivity].
Qed.
Print Assumptions C32_retire_prior_to_refuted.

(** C32: an active number with another id or token, or an active id with
    another number, is rejected, and nothing changes. *)
Theorem C32_conflict_rejected dl sc st dc dt ops h x c n t r e : cid_trace dl sc st dc dt ops h x -> dc <> [] ->
  In e (d_ids x) -> e_cid e = c \/ e_seq e = n -> (e_seq e, e_cid e, e_tok e) <> (n, c, Some t) ->
  cid_step (GotNewCid c n t r) x = (OFail InvalidFrame, x).
Proof. exact (conflict_rejected dl sc st dc dt ops h x c n t r e). Qed.
Print Assumptions C32_conflict_rejected.

(** C32: a new id above what was retired: malformed frames and those over the
    limit are rejected; the others are accepted as long as the queue of
    retirements is not full, and what is active afterwards is the new id and the
    old ones not below retire_prior_to. *)
Theorem C32_new dl sc st dc dt ops h x c n t r : cid_trace dl sc st dc dt ops h x -> dc <> [] ->
  ~ In c (map e_cid (d_ids x)) -> ~ active_d x n -> c_lrpt (x_ids x) <= n ->
  let kept := filter (fun e => Z.max r (c_lrpt (x_ids x)) <=? e_seq e) (d_ids x) in
  let '(o, x') := cid_step (GotNewCid c n t r) x in
  (n < r -> o = OFail InvalidFrame /\ x' = x) /\
  (r <= n -> Z.max dl 2 <= zlen kept -> o = OFail IdLimit) /\
  (r <= n -> zlen kept < Z.max dl 2 -> zlen (c_ret (x_ids x)) + zlen (d_ids x) <= 3 * Z.max dl 2 ->
     o = OUnit /\ forall m, active_d x' m <-> m = n \/ In m (map e_seq kept)).
Proof. exact (new_frame dl sc st dc dt ops h x c n t r). Qed.
Print Assumptions C32_new.

(** ** Both *)

(** C33: there is always an id in each direction, and nothing panics. *)
Theorem C33_never_empty dl sc st dc dt ops h x : cid_trace dl sc st dc dt ops h x ->
  (exists e, oldest (s_ids x) = Ok e) /\ (exists e, oldest (d_ids x) = Ok e) /\ forall op, ~ In (op, OPanic) h.
Proof. exact (never_empty dl sc st dc dt ops h x). Qed.
Print Assumptions C33_never_empty.

(** ** Paths *)

(** C68: a path with an id has one that is active.  Two paths never have the same,
    unless the peer uses an empty one. *)
Theorem C68_paths_have_ids dl sc st dc dt ops h x pid q : cid_trace dl sc st dc dt ops h x ->
  no_reuse h -> no_id_limit h -> path_seq x pid = Some q ->
  active_d x q /\ (exists e, In e (d_ids x) /\ e_seq e = q /\ send_dcid pid x = Ok (e_cid e)) /\
  (dc <> [] -> forall pid' q', path_seq x pid' = Some q' -> pid <> pid' -> q <> q' /\ send_dcid pid x <> send_dcid pid' x).
Proof. exact (paths_have_ids dl sc st dc dt ops h x pid q). Qed.
Print Assumptions C68_paths_have_ids.

(** C68: RETIRE_CONNECTION_ID is not sent with the id it retires. *)
Theorem C68_retire_with_other dl sc st dc dt ops h x pid q : cid_trace dl sc st dc dt ops h x ->
  no_reuse h -> no_id_limit h -> fst (cid_step (SendRetire pid q) x) = OSeq q ->
  exists e, In e (d_ids x) /\ send_dcid pid x = Ok (e_cid e) /\ e_seq e <> q.
Proof. exact (retire_with_other dl sc st dc dt ops h x pid q). Qed.
Print Assumptions C68_retire_with_other.

(** C68: after a packet is processed, every path has an id, or no id is free. *)
Theorem C68_filled x pid : known_pid pid x = true ->
  let x' := snd (cid_step AfterRecv x) in
  path_seq x' pid <> None \/ forall e, In e (d_ids x') -> e_pid e <> None.
Proof. exact (filled x pid). Qed.
Print Assumptions C68_filled.

(** C68: the application cannot retire the last usable id of the active path. *)
Theorem C68_retire_keeps_active dl sc st dc dt ops h x q x' : cid_trace dl sc st dc dt ops h x -> no_reuse h -> no_id_limit h ->
  cid_step (RetireDcid q false) x = (OUnit, x') ->
  x_active x' = x_active x /\ (exists c, send_dcid (x_active x') x' = Ok c) /\ ~ active_d x' q /\ retire_queued x' q.
Proof. exact (retire_keeps_active dl sc st dc dt ops h x q x'). Qed.
Print Assumptions C68_retire_keeps_active.

(** C68 fails when the peer migrates to a path without an id, and reuse is
    allowed, as it is by default: the id is shared, and when the peer retires it, the
    active path keeps it although it is gone, and nothing can be sent any more. *)
Theorem C68_reuse_refuted : exists h x, cid_trace 2 [1] None [9] None
    [NewPath false; PeerMigrated 1 false; GotNewCid [8] 1 80 1; AfterRecv] h x /\
  Forall (fun p => snd p = OUnit) h /\ x_active x = 1 /\ send_dcid 1 x = Err InvalidState /\
  d_ids x <> [] /\ ~ active_d x 0.
Proof.
  eexists; eexists; split; [exists [OUnit; OUnit; OUnit; OUnit]; split; [vm_compute; reflexivity|reflexivity]|].
  split; [repeat constructor|]. split; [reflexivity|]. split; [reflexivity|]. split; [discriminate|]. intros [hx|[]]. discriminate hx.
Qed.
Print Assumptions C68_reuse_refuted.

(** C68 fails after an application's retirement that did not fit in the queue of
    retirements: the id is gone, but its path still has it. *)
Theorem C68_id_limit_refuted : exists ops h x, cid_trace 2 [1] None [9] None ops h x /\ no_reuse h /\
  In (RetireDcid 6 true, OFail IdLimit) h /\ send_dcid 0 x = Err InvalidState.
Proof.
  exists [GotNewCid [11] 1 1 1; GotNewCid [12] 2 1 2; GotNewCid [13] 3 1 3; GotNewCid [14] 4 1 4; GotNewCid [15] 5 1 5; GotNewCid [16] 6 1 6;
          GotNewCid [17] 7 1 6; AfterRecv; RetireDcid 6 true].
  eexists; eexists; split; [exists [OUnit; OUnit; OUnit; OUnit; OUnit; OUnit; OUnit; OUnit; OFail IdLimit]; split; [vm_compute; reflexivity|reflexivity]|].
  split; [|split; [do 8 right; left; reflexivity|reflexivity]].
  intros pid o hi. repeat (destruct hi as [hi|hi]; [discriminate hi|]). destruct hi.
Qed.
Print Assumptions C68_id_limit_refuted.

(** ** Witnesses *)

(** A history with issued, announced, retired and told ids on our side. *)
Definition ops1 : list cid_op :=
  [SetLimit 3; NewScid [2] 20 false; NewScid [3] 30 false; NewScid [4] 40 false; SendNewCid; SendNewCid; LostNewCid 1; SendNewCid;
   GotRetire 0 [2]; PopRetired; NewScid [5] 50 false; SendNewCid; SetLimit 4; NewScid [3] 30 false].
Definition h1 := Eval vm_compute in combine ops1 (fst (cid_run ops1 (x_init (cids_new 2 [1] None [9] None)))).
Definition x1 := Eval vm_compute in snd (cid_run ops1 (x_init (cids_new 2 [1] None [9] None))).
Example C31_witness_trace : cid_trace 2 [1] None [9] None ops1 h1 x1 /\ never_forced h1 /\
  map snd h1 = [OUnit; OSeq 1; OSeq 2; OFail IdLimit; OFrame 1 0 [2] 20; OFrame 2 0 [3] 30; OUnit; OFrame 1 0 [2] 20;
                OUnit; ORetired (Some [1]); OSeq 3; OFrame 3 1 [5] 50; OUnit; OSeq 2] /\
  given h1 = [1; 2; 3; 2] /\ told h1 = [[1]] /\ peer_limit h1 = 4 /\ retired_by_peer h1 0 /\ announced h1 3.
Proof.
  split; [exists (fst (cid_run ops1 (x_init (cids_new 2 [1] None [9] None)))); split; vm_compute; reflexivity|].
  split; [intros c t o hi; repeat (destruct hi as [hi|hi]; [discriminate hi|]); destruct hi|].
  split; [vm_compute; reflexivity|]. split; [vm_compute; reflexivity|]. split; [vm_compute; reflexivity|]. split; [vm_compute; reflexivity|].
  split; [exists [2], OUnit; do 8 right; left; reflexivity|exists 1, [5], 50; do 11 right; left; reflexivity].
Qed.
Example C31_witness_again : (exists e, In e (s_ids x1) /\ e_cid e = [3] /\ e_tok e = Some 30 /\ e_seq e = 2) /\ zlen (s_ids x1) < c_lim (x_ids x1).
Proof. split; [|vm_compute; reflexivity]. vm_compute. eexists. split; [right; left; reflexivity|auto]. Qed.
Definition ops3 : list cid_op := [SetLimit 3; NewScid [2] 20 false; SendNewCid; NewScid [3] 30 false].
Definition h3 := Eval vm_compute in combine ops3 (fst (cid_run ops3 (x_init (cids_new 2 [1] None [9] None)))).
Definition x3 := Eval vm_compute in snd (cid_run ops3 (x_init (cids_new 2 [1] None [9] None))).
Example C31_witness_peer_limit : cid_trace 2 [1] None [9] None ops3 h3 x3 /\
  fst (cid_step SendNewCid x3) = OFrame 2 0 [3] 30 /\
  (forall m, In m [0; 1; 2] -> 0 <= m /\ (m = 0 \/ m = 2 \/ announced h3 m) /\ ~ retired_by_peer h3 m) /\ peer_limit h3 = 3.
Proof.
  split; [exists (fst (cid_run ops3 (x_init (cids_new 2 [1] None [9] None)))); split; vm_compute; reflexivity|].
  split; [vm_compute; reflexivity|]. split; [|vm_compute; reflexivity]. intros m hm.
  split; [|split].
  - repeat (destruct hm as [<-|hm]; [lia|]). destruct hm.
  - destruct hm as [<-|[<-|[<-|[]]]]; auto. right; right. exists 0, [2], 20. right; right; left. reflexivity.
  - intros (d & o & hi). unfold h3 in hi. repeat (destruct hi as [hi|hi]; [discriminate hi|]). destruct hi.
Qed.
Example C31_witness_announce_all :
  let x := snd (cid_run [SetLimit 3; NewScid [2] 20 false; NewScid [3] 30 false] (x_init (cids_new 2 [1] None [9] None))) in
  c_adv (x_ids x) = [1; 2] /\ forall n, In n (c_adv (x_ids x)) -> exists e, In e (s_ids x) /\ e_seq e = n /\ e_tok e <> None.
Proof.
  split; [vm_compute; reflexivity|]. vm_compute. intros n [<-|[<-|[]]].
  - eexists. split; [right; left; reflexivity|]. split; [reflexivity|discriminate].
  - eexists. split; [right; right; left; reflexivity|]. split; [reflexivity|discriminate].
Qed.

(** A history with ids accepted, retired by frame and by call, lost retirements, and two paths. *)
Definition ops2 : list cid_op :=
  [GotNewCid [8] 1 80 0; NewPath true; GotNewCid [7] 2 70 0; GotNewCid [6] 3 60 2; AfterRecv; SendRetire 0 0; LostRetire 0; SendRetire 0 0;
   SendRetire 1 1; GotNewCid [5] 4 50 2; RetireDcid 2 false; NewPath false; PeerMigrated 2 true; Migrate 1].
Definition h2 := Eval vm_compute in combine ops2 (fst (cid_run ops2 (x_init (cids_new 3 [1] None [9] None)))).
Definition x2 := Eval vm_compute in snd (cid_run ops2 (x_init (cids_new 3 [1] None [9] None))).
Example C32_witness_trace : cid_trace 3 [1] None [9] None ops2 h2 x2 /\ d_clean h2 /\ lost_sent [] h2 /\ NoDup (0 :: offered h2) /\
  map snd h2 = [OUnit; OUnit; OUnit; OUnit; OUnit; OSeq 0; OUnit; OSeq 0; OSeq 1; OUnit; OUnit; OUnit; OUnit; OSeq 3] /\
  map e_seq (d_ids x2) = [3; 4] /\ retire_queued x2 2 /\ retire_sent h2 0 /\ accepted h2 4.
Proof.
  split; [exists (fst (cid_run ops2 (x_init (cids_new 3 [1] None [9] None)))); split; vm_compute; reflexivity|].
  split; [vm_compute; repeat (apply Forall_cons; [try reflexivity; try exact I; try (intros hx; discriminate hx)|]); apply Forall_nil|].
  split; [vm_compute; repeat split; exists 0; do 5 right; left; reflexivity|].
  split; [vm_compute; repeat (constructor; [intros hi; repeat (destruct hi as [hi|hi]; [discriminate hi|]); exact hi|]); constructor|].
  split; [vm_compute; reflexivity|]. split; [vm_compute; reflexivity|]. split; [vm_compute; left; reflexivity|].
  split; [exists 0; do 5 right; left; reflexivity|]. exists [5], 50, 2. vm_compute. do 9 right. left. reflexivity.
Qed.
Example C68_witness : no_reuse h2 /\ no_id_limit h2 /\ path_seq x2 0 = Some 4 /\ path_seq x2 1 = Some 3 /\ path_seq x2 2 = None /\ x_active x2 = 1 /\
  send_dcid 0 x2 = Ok [5] /\ send_dcid 1 x2 = Ok [6].
Proof.
  split; [intros pid o hi; repeat (destruct hi as [hi|hi]; [discriminate hi|]); destruct hi|].
  split; [intros pid o hi; repeat (destruct hi as [hi|hi]; [discriminate hi|]); destruct hi|].
  vm_compute. repeat split; reflexivity.
Qed.
Example C32_witness_new : ~ In [4] (map e_cid (d_ids x2)) /\ ~ active_d x2 5 /\ c_lrpt (x_ids x2) <= 5 /\
  cid_step (GotNewCid [6] 5 60 0) x2 = (OFail InvalidFrame, x2) /\
  fst (cid_step (GotNewCid [4] 5 40 2) x2) = OUnit /\
  fst (cid_step (GotNewCid [4] 5 40 6) x2) = OFail InvalidFrame /\
  fst (cid_step (GotNewCid [3] 6 30 2) (snd (cid_step (GotNewCid [4] 5 40 2) x2))) = OFail IdLimit.
Proof.
  split; [vm_compute; intros hi; repeat (destruct hi as [hi|hi]; [discriminate hi|]); exact hi|].
  split; [vm_compute; intros hi; repeat (destruct hi as [hi|hi]; [discriminate hi|]); exact hi|].
  split; [vm_compute; discriminate|]. vm_compute. repeat split; reflexivity.
Qed.
Example C68_witness_retire : 
  let ops := [GotNewCid [8] 1 80 0] in
  let x := snd (cid_run ops (x_init (cids_new 3 [1] None [9] None))) in
  fst (cid_step (RetireDcid 0 false) x) = OUnit /\
  fst (cid_step (SendRetire 0 0) (snd (cid_step (RetireDcid 0 false) x))) = OSeq 0 /\
  send_dcid 0 (snd (cid_step (RetireDcid 0 false) x)) = Ok [8].
Proof. vm_compute. repeat split; reflexivity. Qed.
