(** C56, C57, C58, C63, C76: HTTP/3 connections. *)
Require Import Verif.Base Verif.Errors Verif.OctetsModel Verif.OctetsSpec Verif.OctetsProofs Verif.StreamsModel Verif.QpackModel Verif.H3FrameModel Verif.H3FrameSpec Verif.H3ConnModel Verif.H3ConnSpec Verif.H3ConnSpec2 Verif.H3ConnProofs Verif.H3ConnProofs2 Verif.H3ConnProofs6 Verif.H3ConnProofs7 Verif.H3ConnProofs8 Verif.H3ConnProofs9 Verif.H3ConnFacts.

Definition limit_ok (mfss : option Z) : Prop := match mfss with Some n => 0 <= n | None => True end.
(** The transport has nothing to read on stream [k] *)
Definition all_read (u : run_st) (k : Z) : Prop := data_of (c_q (u_conn u)) k = [].
(** The connection was not closed because of an error *)
Definition no_error (u : run_st) : Prop := q_err (c_q (u_conn u)) = None.

(** ** C56: how the bytes of a request stream are cut into pieces does not matter *)
(** Whatever happened, the application got a prefix of what the bytes say. *)
Theorem C56_prefix server mfss maxp dgram bidi ops k : limit_ok mfss -> Forall hop_ok ops -> is_bidi k = true ->
  let u := h_run (h_init server mfss maxp dgram bidi) ops in
  exists x, says_all (cfg_of server mfss k) (u_all u k) = u_got u k ++ x.
Proof. intros. apply got_prefix; auto. Qed.
Print Assumptions C56_prefix.

(** Once all bytes were read, unless the stream was reset or a call failed, it got all of
    it; what may be missing is only that the bytes are malformed. *)
Theorem C56_complete server mfss maxp dgram bidi ops k : limit_ok mfss -> Forall hop_ok ops -> is_bidi k = true ->
  let u := h_run (h_init server mfss maxp dgram bidi) ops in
  u_reset u k = false -> u_bad u = false -> all_read u k ->
  says_all (cfg_of server mfss k) (u_all u k) = u_got u k \/ exists e, says_all (cfg_of server mfss k) (u_all u k) = u_got u k ++ [KFail e].
Proof.
  intros hm ho hb u h1 h2 h3. destruct (got_complete server mfss hm maxp dgram bidi ops k ho hb h1 h2 h3) as (x & hx & [-> |(e & ->)]); [left|right; exists e; exact hx]. rewrite app_nil_r in hx. exact hx.
Qed.
Print Assumptions C56_complete.

(** Two connections that received the same bytes on the stream, in whatever pieces and
    with whatever else going on, gave the application the same. *)
Theorem C56_same server mfss maxp maxp' dgram dgram' bidi bidi' ops ops' k : limit_ok mfss -> Forall hop_ok ops -> Forall hop_ok ops' -> is_bidi k = true ->
  let u := h_run (h_init server mfss maxp dgram bidi) ops in
  let u' := h_run (h_init server mfss maxp' dgram' bidi') ops' in
  u_reset u k = false -> u_bad u = false -> all_read u k ->
  u_reset u' k = false -> u_bad u' = false -> all_read u' k ->
  u_all u k = u_all u' k -> u_got u k = u_got u' k.
Proof.
  intros hm ho ho' hb u u' h1 h2 h3 h4 h5 h6 he.
  destruct (got_complete server mfss hm maxp dgram bidi ops k ho hb h1 h2 h3) as (x & hx & qx).
  destruct (got_complete server mfss hm maxp' dgram' bidi' ops' k ho' hb h4 h5 h6) as (y & hy & qy). fold u in hx. fold u' in hy.
  assert (hu : existsb is_fail (u_got u k) = false) by (apply got_clean; reflexivity). assert (hu' : existsb is_fail (u_got u' k) = false) by (apply got_clean; reflexivity).
  apply (clean_quiet_inj _ _ x y hu hu' qx qy). rewrite <- hx, <- hy, he. reflexivity.
Qed.
Print Assumptions C56_same.

(** ** C57: the order of frames *)
(** From a stream the peer opened the application gets header sections, then the body,
    then trailers, and nothing else. *)
Theorem C57_order server mfss maxp dgram bidi ops k : limit_ok mfss -> Forall hop_ok ops -> is_bidi k = true -> is_local k server = false ->
  in_order 0 (u_got (h_run (h_init server mfss maxp dgram bidi) ops) k) = true.
Proof.
  intros hm ho hb hl. destruct (got_prefix server mfss hm maxp dgram bidi ops k ho hb) as (x & hx). apply in_order_prefix with x. rewrite <- hx. apply says_order. exact hl.
Qed.
Print Assumptions C57_order.

(** A server gets two header sections from a stream at most. *)
Theorem C57_sections mfss maxp dgram bidi ops k : limit_ok mfss -> Forall hop_ok ops -> is_bidi k = true ->
  headers_in (u_got (h_run (h_init true mfss maxp dgram bidi) ops) k) <= 2.
Proof.
  intros hm ho hb. destruct (got_prefix true mfss hm maxp dgram bidi ops k ho hb) as (x & hx). pose proof (says_count (cfg_of true mfss k) (u_all (h_run (h_init true mfss maxp dgram bidi) ops) k) eq_refl) as P.
  rewrite hx, headers_app in P. assert (0 <= headers_in x) by (unfold headers_in; apply zlen_nonneg). lia.
Qed.
Print Assumptions C57_sections.

(** If a stream the peer opened carries whole frames and no failure is reported for them,
    they are HEADERS, then DATA, then at most one HEADERS, with unknown frames anywhere
    and no frame of the control stream. *)
Theorem C57_sequence server mfss k fs : is_local k server = false -> Forall on_wire fs ->
  existsb is_fail (says_all (cfg_of server mfss k) (concat (map w_bs fs))) = false ->
  in_sequence 0 (map w_ty fs) = true /\ forallb (fun ty => negb (control_type ty)) (map w_ty fs) = true.
Proof. intros hl. apply says_sequence. exact hl. Qed.
Print Assumptions C57_sequence.

Lemma run_app u a b : h_run u (a ++ b) = h_run (h_run u a) b.
Proof. unfold h_run. apply fold_left_app. Qed.
Lemma run_down server mfss maxp dgram bidi ops : limit_ok mfss -> Forall hop_ok ops -> q_down (c_q (u_conn (h_run (h_init server mfss maxp dgram bidi) ops))) = false.
Proof. intros hm ho. apply (run_inv_all server mfss hm maxp dgram bidi ops ho). Qed.

(** The peer's SETTINGS are read once: they never change as long as the connection has no error. *)
Theorem C57_settings_once server mfss maxp dgram bidi ops ops' : limit_ok mfss -> Forall hop_ok ops -> Forall hop_ok ops' ->
  let u := h_run (h_init server mfss maxp dgram bidi) ops in
  let u' := h_run (h_init server mfss maxp dgram bidi) (ops ++ ops') in
  s_raw (c_peer (u_conn u)) <> None -> no_error u' -> c_peer (u_conn u') = c_peer (u_conn u).
Proof.
  intros hm ho ho' u u' h he. destruct (run_K ops' u (run_ctl server mfss maxp dgram bidi ops)) as (_ & [k1 _ _ _ _]). unfold u' in *. rewrite run_app in *. fold u in he |- *. apply k1; auto.
  split; auto. unfold u. rewrite <- run_app. apply run_down; auto. apply Forall_app; auto.
Qed.
Print Assumptions C57_settings_once.

(** SETTINGS come first: no other frame of the control stream has an effect before them. *)
Theorem C57_settings_first server mfss maxp dgram bidi ops ids i ev c' : limit_ok mfss -> Forall hop_ok ops ->
  let u := h_run (h_init server mfss maxp dgram bidi) ops in
  u_bad u = false -> poll ids (u_conn u) = (Ok (i, ev), c') -> ev = EvGoAway \/ ev = EvPriority -> s_raw (c_peer c') <> None.
Proof.
  intros hm ho u hb hp hev. destruct (poll_rok ids (u_conn u)) as (_ & P). specialize (P (run_ctl server mfss maxp dgram bidi ops)). rewrite hp in P. cbn [fst snd] in P.
  destruct (poll_inv server mfss hm ids (u_conn u) _ _ _ _ _ c' (run_inv_all server mfss hm maxp dgram bidi ops ho) hp) as (_ & (g & _)). fold u in g.
  assert (hu : up c').
  { split; [|apply g]. destruct (q_err (c_q c')) eqn:Q; auto. rewrite hb in g. assert (false || @is_bad (Z * hevent) (Ok (i, ev)) = true) by (apply g; congruence). discriminate. }
  specialize (P hu). destruct hev as [-> | ->]; [apply P|exact P].
Qed.
Print Assumptions C57_settings_first.

(** ** C58: how much is buffered *)
(** No more than was received, whatever lengths were announced; the allocation is
    proportional. *)
Theorem C58_received server mfss maxp dgram bidi ops k s : limit_ok mfss -> Forall hop_ok ops ->
  let u := h_run (h_init server mfss maxp dgram bidi) ops in
  c_str (u_conn u) k = Some s -> zlen (h_buf s) <= zlen (u_all u k) /\ h_cap s <= 8192 + 2 * zlen (u_all u k).
Proof.
  intros hm ho u hs. destruct (run_inv_all server mfss hm maxp dgram bidi ops ho) as (g & _). destruct (g_buf _ _ _ _ _ g k s hs) as (h1 & h2). split; auto. fold u in h1. pose proof (zlen_nonneg (data_of (c_q (u_conn u)) k)). lia.
Qed.
Print Assumptions C58_received.

(** No more than the frame being read may take. *)
Theorem C58_limit server mfss maxp dgram bidi ops k s : limit_ok mfss -> Forall hop_ok ops ->
  let u := h_run (h_init server mfss maxp dgram bidi) ops in
  no_error u -> c_str (u_conn u) k = Some s -> zlen (h_buf s) <= buffer_limit mfss s.
Proof.
  intros hm ho u hn hs. destruct (run_inv_all server mfss hm maxp dgram bidi ops ho) as (g & _). destruct (g_str _ _ _ _ _ g k s hs) as [(loc & wc & wp)|(h & _)]; [|exfalso; apply h; exact hn].
  unfold wf_pos in wp. unfold buffer_limit.
  assert (VP : vpos s -> zlen (h_buf s) <= 8).
  { intros (h1 & h2 & h3 & h4). destruct h4 as [(h4 & h5)|(x & tl & h4 & h5)]; [lia|]. assert (h6 : h_len s <= 8); [|lia]. unfold varint_parse_len in h5. destruct (Z.shiftr x 6) as [|p|p]; try discriminate h5; [injection h5 as h5; lia|]. destruct p as [p|p|]; try destruct p; try discriminate h5; injection h5 as h5; lia. }
  assert (mfss0 : 0 <= section_limit mfss) by (unfold section_limit; destruct mfss; cbn in hm; lia).
  assert (Z0 : zlen (@nil Z) = 0) by reflexivity.
  destruct (h_st s); try (apply VP; tauto); try (destruct wp as (_ & wp & _); rewrite wp, Z0; lia); try (destruct wp as (_ & wp); rewrite wp, Z0; lia); try (rewrite wp, Z0; lia); try tauto.
  destruct wp as (_ & w1 & w2 & w3 & w4 & ty & w5 & w6 & w7). rewrite w5. unfold payload_plan, T_DATA, T_HEADERS, T_CANCEL_PUSH, T_GOAWAY, T_MAX_PUSH, T_SETTINGS, T_PUSH_PROMISE, MAX_SETTINGS_SIZE in w7. rewrite (wc_max _ _ _ _ _ wc) in w7. unfold max_block, cfgl in w7; cbn [r_mfss] in w7. fold (section_limit mfss) in w7.
  unfold part in w3. unfold MAX_STATE_BUF in w4. destruct (ty =? 0) eqn:T0; [discriminate w7|]. destruct (ty =? 1) eqn:T1.
  - destruct (Z.min u64_max (section_limit mfss) <? h_len s) eqn:L; [discriminate w7|]. lia.
  - destruct (ty =? 5) eqn:T5.
    + replace ((ty =? 3) || (ty =? 7) || (ty =? 13)) with false in w7 by lia. replace (ty =? 4) with false in w7 by lia. destruct (h_len s =? 0); [discriminate w7|]. destruct (Z.min u64_max (Z.min u64_max (section_limit mfss) + 8) <? h_len s) eqn:L; [discriminate w7|]. lia.
    + destruct ((ty =? 3) || (ty =? 7) || (ty =? 13)); [destruct ((1 <=? h_len s) && (h_len s <=? 8)) eqn:L; [|discriminate w7]; lia|].
      destruct (ty =? 4); [destruct (256 <? h_len s) eqn:L; [discriminate w7|]; lia|]. unfold T_PRIO_REQUEST, T_PRIO_PUSH in w7.
      destruct ((ty =? 984832) || (ty =? 984833)); [|destruct (MAX_STATE_BUF <? h_len s); discriminate w7]. destruct (h_len s =? 0); [discriminate w7|]. destruct (h_maxp s <? h_len s) eqn:L; [discriminate w7|]. lia.
Qed.
Print Assumptions C58_limit.

(** ** C63: GOAWAY *)
(** The id the peer announced never goes up and is never forgotten. *)
Theorem C63_received server mfss maxp dgram bidi ops ops' :
  let u := h_run (h_init server mfss maxp dgram bidi) ops in
  let u' := h_run (h_init server mfss maxp dgram bidi) (ops ++ ops') in
  forall i, c_goaway (u_conn u) = Some i -> exists j, c_goaway (u_conn u') = Some j /\ j <= i.
Proof.
  intros u u' i h. destruct (run_K ops' u (run_ctl server mfss maxp dgram bidi ops)) as (_ & [_ k2 _ _ _]). unfold u'. rewrite run_app. fold u. unfold goaway_le in k2. rewrite h in k2. destruct (c_goaway (u_conn (h_run u ops'))) as [j|]; [exists j; auto|destruct k2].
Qed.
Print Assumptions C63_received.

(** The event reports that id; a client accepts only ids of requests. *)
Theorem C63_event server mfss maxp dgram bidi ops ids i c' : limit_ok mfss -> Forall hop_ok ops ->
  let u := h_run (h_init server mfss maxp dgram bidi) ops in
  u_bad u = false -> poll ids (u_conn u) = (Ok (i, EvGoAway), c') ->
  c_goaway c' = Some i /\ (forall o, c_goaway (u_conn u) = Some o -> i <= o) /\ (server = false -> i mod 4 = 0).
Proof.
  intros hm ho u hb hp. pose proof (run_ctl server mfss maxp dgram bidi ops) as hc. destruct (poll_rok ids (u_conn u)) as (PK & P). specialize (P hc). destruct (PK hc) as (_ & [_ k2 _ _ _]). rewrite hp in P, k2. cbn [fst snd] in P, k2.
  destruct (poll_inv server mfss hm ids (u_conn u) _ _ _ _ _ c' (run_inv_all server mfss hm maxp dgram bidi ops ho) hp) as (_ & (g & _)). fold u in g.
  assert (hu : up c').
  { split; [|apply g]. destruct (q_err (c_q c')) eqn:Q; auto. rewrite hb in g. assert (false || @is_bad (Z * hevent) (Ok (i, EvGoAway)) = true) by (apply g; congruence). discriminate. }
  destruct (P hu) as (_ & P2). split; auto. split.
  - intros o h. unfold goaway_le in k2. rewrite h, P2 in k2. auto.
  - intros ->. destruct (run_K (ops ++ [OPoll ids]) _ (ctl_init false mfss maxp dgram bidi)) as (_ & [_ _ k3 _ _]). rewrite run_app in k3. fold u in k3. cbn [h_run fold_left h_step] in k3. rewrite hp in k3. cbn [u_conn] in k3.
    destruct (k3 eq_refl) as [h|(j & h & hj)]; [rewrite P2 in h; discriminate h|]. congruence.
Qed.
Print Assumptions C63_event.

(** After a GOAWAY no request is started. *)
Theorem C63_no_request server mfss maxp dgram bidi ops ops' id :
  let u := h_run (h_init server mfss maxp dgram bidi) ops in
  let u' := h_run (h_init server mfss maxp dgram bidi) (ops ++ ops') in
  c_goaway (u_conn u) <> None -> may_request (u_conn u') = Err HFrameUnexpected /\ h_step u' (ORequest id) = u'.
Proof.
  intros u u' h. assert (hm : may_request (u_conn u') = Err HFrameUnexpected).
  { destruct (c_goaway (u_conn u)) as [i|] eqn:E; [|congruence]. destruct (C63_received server mfss maxp dgram bidi ops ops' i E) as (j & hj & _). unfold may_request. fold u' in hj. rewrite hj. auto. }
  split; auto. cbn [h_step]. rewrite hm. auto.
Qed.
Print Assumptions C63_no_request.

(** ** C76: polling and reading always return *)
Theorem C76_poll server mfss maxp dgram bidi ops ids : limit_ok mfss -> Forall hop_ok ops ->
  fst (poll ids (u_conn (h_run (h_init server mfss maxp dgram bidi) ops))) <> Panic.
Proof.
  intros hm ho. destruct (poll ids _) as [r c'] eqn:P. eapply (poll_inv server mfss hm) in P; [|apply run_inv_all; auto]. apply P.
Qed.
Print Assumptions C76_poll.
Theorem C76_body server mfss maxp dgram bidi ops id room : limit_ok mfss -> Forall hop_ok ops ->
  let u := h_run (h_init server mfss maxp dgram bidi) ops in
  exists_in (c_q (u_conn u)) id = true -> fst (recv_body id room (u_conn u)) <> Panic.
Proof.
  intros hm ho u hx. destruct (recv_body id room _) as [r c'] eqn:P. eapply (body_poll_inv server mfss hm) in P; eauto; [|apply run_inv_all; auto]. apply P.
Qed.
Print Assumptions C76_body.

(** ** Witnesses *)
Definition srv : run_st := h_init true None 1024 true 100.
Definition cli : run_st := h_init false None 1024 true 100.
Definition get : list header := [([58; 109; 101; 116; 104; 111; 100], [71; 69; 84])].
(** HEADERS with ":method: GET" and DATA with three bytes *)
Definition message : list Z := [1; 3; 0; 0; 209; 0; 3; 65; 66; 67].
Definition at_once : list hop := [ODeliver 0 message true false; OPoll [0]; OPoll [0]; OBody 0 100].
Definition bytewise : list hop := flat_map (fun x => [ODeliver 0 [x] false false; OPoll [0]; OBody 0 1]) message ++ [ODeliver 0 [] true true; OPoll [0]].
Ltac bytes := repeat (constructor; cbn [hop_ok]; try (exact I); try (unfold bytes_ok; repeat (constructor; [unfold is_byte; lia|]); constructor)).
Lemma bytewise_ok : Forall hop_ok bytewise.
Proof. unfold bytewise, message. cbn [flat_map app]. bytes. Qed.
Example C56_witness : let u := h_run srv at_once in let u' := h_run srv bytewise in
  u_got u 0 = [KHeaders get; KByte 65; KByte 66; KByte 67] /\ u_got u' 0 = u_got u 0 /\ u_bad u' = false /\ all_read u 0 /\ all_read u' 0 /\ u_all u' 0 = u_all u 0.
Proof. vm_compute. repeat split. Qed.
(** The control stream of a server with SETTINGS and two GOAWAY frames *)
Definition going : list hop := [ORequest 0; ODeliver 3 [0; 4; 0; 7; 1; 8; 7; 1; 4] false false; OPoll [3]; OPoll [3]].
Example C63_witness : c_goaway (u_conn (h_run cli (firstn 3 going))) = Some 8 /\ c_goaway (u_conn (h_run cli going)) = Some 4 /\ u_bad (h_run cli going) = false /\
  s_raw (c_peer (u_conn (h_run cli going))) <> None /\ no_error (h_run cli going) /\ fst (poll [3] (u_conn (h_run cli (firstn 3 going)))) = Ok (4, EvGoAway).
Proof. vm_compute. repeat split. discriminate. Qed.
Example C63_going_up : fst (poll [3] (u_conn (h_run cli [ODeliver 3 [0; 4; 0; 7; 1; 4; 7; 1; 8] false false; OPoll [3]]))) = Err HIdError.
Proof. reflexivity. Qed.
Example C57_second_settings : fst (poll [3] (u_conn (h_run cli [ODeliver 3 [0; 4; 0; 4; 0] false false]))) = Err HFrameUnexpected.
Proof. reflexivity. Qed.
Example C57_no_settings : fst (poll [3] (u_conn (h_run cli [ODeliver 3 [0; 7; 1; 4] false false]))) = Err HMissingSettings.
Proof. reflexivity. Qed.
Example C57_data_first : says_all (cfg_of true None 0) [0; 1; 65] = [KFail HFrameUnexpected]. Proof. reflexivity. Qed.
Example C57_frames : Forall on_wire [mkWf 1 [1; 3; 0; 0; 209] [0; 0; 209]; mkWf 33 [33; 0] []; mkWf 0 [0; 1; 65] [65]] /\
  says_all (cfg_of true None 0) [1; 3; 0; 0; 209; 33; 0; 0; 1; 65] = [KHeaders get; KByte 65].
Proof.
  split; [|reflexivity]. assert (V : forall v, 0 <= v < 64 -> qvarint [v] v).
  { intros v hv. split; [constructor; [unfold is_byte; lia|constructor]|]. exists 0. cbn. repeat split; lia. }
  constructor; [|constructor; [|constructor; [|constructor]]]; unfold on_wire, h3_wire; cbn [w_ty w_bs w_pay].
  - exists [1], [3]. split; [apply V; lia|]. split; [exact (V 3 ltac:(lia))|reflexivity].
  - exists [33], [0]. split; [apply V; lia|]. split; [exact (V 0 ltac:(lia))|reflexivity].
  - exists [0], [1]. split; [apply V; lia|]. split; [exact (V 1 ltac:(lia))|reflexivity].
Qed.
(** A HEADERS frame announced with 49152 bytes, of which two came, and one too long *)
Example C58_witness : match c_str (u_conn (h_run srv [ODeliver 0 [1; 128; 0; 192; 0; 7; 8] false false; OPoll [0]])) 0 with
  | Some s => (h_buf s, buffer_limit None s, h_cap s) = ([7; 8], 49152, 4096)
  | None => False
  end.
Proof. vm_compute. reflexivity. Qed.
Example C58_too_long : fst (poll [0] (u_conn (h_run srv [ODeliver 0 [1; 128; 0; 192; 1] false false]))) = Err HExcessiveLoad.
Proof. reflexivity. Qed.
Example C76_witness : exists_in (c_q (u_conn (h_run srv at_once))) 0 = true. Proof. reflexivity. Qed.

(** ** Findings *)
(** An application that reads the body when it is told that there is some, until there is
    no more, misses bytes of it: after an empty DATA frame followed by another, reading
    returns Done, and so does every poll from then on, although the second frame is there. *)
Theorem C56_data_event_refuted : ~ (forall ops, Forall hop_ok ops -> let u := h_run srv ops in
  fst (recv_body 0 100 (u_conn u)) = Err HDone -> fst (poll [0] (u_conn u)) = Err HDone -> fst (poll [0] (u_conn (h_step u (OPoll [0])))) = Err HDone ->
  data_of (c_q (u_conn (h_run u [OPoll [0]; OPoll [0]]))) 0 = []).
Proof.
  intros h. specialize (h [ODeliver 0 [1; 3; 0; 0; 209; 0; 0; 0; 3; 65; 66; 67] false false; OPoll [0]; OPoll [0]; OBody 0 100] ltac:(bytes) eq_refl eq_refl eq_refl). vm_compute in h. discriminate h.
Qed.
Print Assumptions C56_data_event_refuted.
(** The end of a stream is reported twice if the request and the end of the stream are
    there before the first poll and the application answers in between. *)
Theorem C56_finished_once_refuted : ~ (forall ops, Forall hop_ok ops -> let u := h_run srv ops in
  fst (poll [0] (u_conn u)) = Ok (0, EvFinished) -> fst (poll [0] (u_conn (h_step u (OPoll [0])))) <> Ok (0, EvFinished)).
Proof. intros h. apply (h [ODeliver 0 [1; 3; 0; 0; 209] false false; ODeliver 0 [] true true; OPoll [0]; OFin 0] ltac:(bytes) eq_refl). reflexivity. Qed.
Print Assumptions C56_finished_once_refuted.
(** Bytes of the body that were already copied are lost to the application when the frame
    after them is malformed: the call fails and does not say how many there are. *)
Theorem C56_body_lost_refuted : ~ (forall ops k, Forall hop_ok ops -> let u := h_run srv ops in u_reset u k = false -> all_read u k ->
  says_all (cfg_of true None k) (u_all u k) = u_got u k \/ exists e, says_all (cfg_of true None k) (u_all u k) = u_got u k ++ [KFail e]).
Proof.
  intros h. specialize (h [ODeliver 0 (message ++ [4]) false false; OPoll [0]; OPoll [0]; OBody 0 100] 0 ltac:(unfold message; cbn [app]; bytes) eq_refl eq_refl). vm_compute in h. destruct h as [h|(e & h)]; discriminate h.
Qed.
Print Assumptions C56_body_lost_refuted.
(** RFC 9114 section 7.1: a stream that ends inside a frame is an error of type
    H3_FRAME_ERROR.  The end is reported as if the message were complete. *)
Theorem C57_truncated_refuted : ~ (forall ops, Forall hop_ok ops -> let u := h_run srv ops in
  fst (poll [0] (u_conn u)) = Ok (0, EvFinished) -> exists fs, Forall on_wire fs /\ u_all u 0 = concat (map w_bs fs)).
Proof.
  intros h. destruct (h [ODeliver 0 [1; 3; 0] true true] ltac:(bytes) eq_refl) as (fs & hf & hc). change (u_all _ 0) with [1; 3; 0] in hc.
  assert (V : forall t v, qvarint t v -> 1 <= zlen t). { intros t v (_ & k & hk & hl & _). rewrite hl. assert (k = 0 \/ k = 1 \/ k = 2 \/ k = 3) as [-> |[-> |[-> | ->]]] by lia; cbn; lia. }
  destruct fs as [|f fs]; [discriminate hc|]. apply Forall_inv in hf as hx. destruct hx as (t & n & h1 & h2 & h3). cbn [map concat] in hc. rewrite h3 in hc. rewrite <- !app_assoc in hc.
  pose proof (rd_varint_app _ _ (n ++ w_pay f ++ concat (map w_bs fs)) h1) as r1. rewrite <- hc in r1. cbn in r1. injection r1 as r1 r2.
  pose proof (rd_varint_app _ _ (w_pay f ++ concat (map w_bs fs)) h2) as r3. rewrite <- r2 in r3. cbn in r3. injection r3 as r3 r4. apply (f_equal zlen) in r4. rewrite zlen_app in r4. change (zlen [0]) with 1 in r4. pose proof (zlen_nonneg (concat (map w_bs fs))). lia.
Qed.
Print Assumptions C57_truncated_refuted.
(** RFC 9114 section 6.2: a unidirectional stream closed before its type was received must
    be tolerated.  Poll fails with an error of the transport. *)
Theorem C57_untyped_stream_refuted : ~ (forall ops id, Forall hop_ok ops -> let u := h_run srv ops in fst (poll [id] (u_conn u)) <> Err (HTransport (InvalidStreamState id))).
Proof. intros h. apply (h [ODeliver 2 [64] true false] 2 ltac:(bytes)). reflexivity. Qed.
Print Assumptions C57_untyped_stream_refuted.
(** A client accepts the body of a response before its header section. *)
Theorem C57_response_order_refuted : ~ (forall ops, Forall hop_ok ops -> let u := h_run cli ops in u_bad u = false -> in_order 0 (u_got u 0) = true).
Proof. intros h. specialize (h [ORequest 0; ODeliver 0 [0; 1; 65] false false; OPoll [0]; OBody 0 100] ltac:(bytes) eq_refl). vm_compute in h. discriminate h. Qed.
Print Assumptions C57_response_order_refuted.
(** RFC 9114 section 4.1: a request is one header section, then the body.  A server accepts
    two header sections before the body. *)
Theorem C57_one_section_refuted : ~ (forall ops, Forall hop_ok ops -> let u := h_run srv ops in u_bad u = false -> forall a b x l, u_got u 0 <> KHeaders a :: KHeaders b :: KByte x :: l).
Proof. intros h. apply (h [ODeliver 0 [1; 3; 0; 0; 209; 1; 3; 0; 0; 209; 0; 1; 65] false false; OPoll [0]; OPoll [0]; OPoll [0]; OBody 0 100] ltac:(bytes) eq_refl get get 65 []). vm_compute. reflexivity. Qed.
Print Assumptions C57_one_section_refuted.
(** RFC 9114 section 6.1: a client must treat a bidirectional stream opened by the server as
    an error of type H3_STREAM_CREATION_ERROR.  It reads a message from it. *)
Theorem C57_server_bidi_refuted : ~ (forall ops, Forall hop_ok ops -> let u := h_run cli ops in u_bad u = false -> u_got u 1 = []).
Proof. intros h. specialize (h [ODeliver 1 message false false; OPoll [1]; OPoll [1]; OBody 1 100] ltac:(bytes) eq_refl). vm_compute in h. discriminate h. Qed.
Print Assumptions C57_server_bidi_refuted.
(** RFC 9114 section 7.2.8: the frame types 2, 6, 8 and 9 of HTTP/2 must be treated as an
    error of type H3_FRAME_UNEXPECTED.  They are skipped. *)
Theorem C57_http2_frames_refuted : ~ (forall ty, In ty [2; 6; 8; 9] -> existsb is_fail (says_all (cfg_of true None 0) [ty; 1; 0]) = true).
Proof. intros h. specialize (h 2 ltac:(left; reflexivity)). vm_compute in h. discriminate h. Qed.
Print Assumptions C57_http2_frames_refuted.
(** RFC 9114 section 7.2.5: a client must treat a push promise with an id above what it
    allowed, and it never allows any, as an error of type H3_ID_ERROR.  It is ignored. *)
Theorem C57_push_promise_refuted : ~ (forall ops, Forall hop_ok ops -> u_all (h_run cli ops) 0 = [5; 4; 0; 0; 0; 209] -> data_of (c_q (u_conn (h_run cli ops))) 0 = [] -> u_bad (h_run cli ops) = true).
Proof. intros h. specialize (h [ORequest 0; ODeliver 0 [5; 4; 0; 0; 0; 209] false false; OPoll [0]] ltac:(bytes) eq_refl eq_refl). vm_compute in h. discriminate h. Qed.
Print Assumptions C57_push_promise_refuted.
(** RFC 9218 section 7.1: a PRIORITY_UPDATE for a stream beyond the limit must be treated as
    an error of type H3_ID_ERROR.  With a limit of one stream, the update for the second,
    stream 4, is accepted. *)
Theorem C57_priority_id_refuted : ~ (forall ops bidi id, Forall hop_ok ops -> fst (poll [2] (u_conn (h_run (h_init true None 1024 true bidi) ops))) = Ok (id, EvPriority) -> id < 4 * bidi).
Proof. intros h. specialize (h [ODeliver 2 [0; 4; 0; 128; 15; 7; 0; 2; 4; 117] false false] 1 4 ltac:(bytes) eq_refl). lia. Qed.
Print Assumptions C57_priority_id_refuted.
(** A client that gets a GOAWAY for a stream that is no request tells the application
    H3_ID_ERROR and the peer H3_FRAME_UNEXPECTED. *)
Theorem C63_code_refuted : ~ (forall ops ids e, Forall hop_ok ops -> fst (poll ids (u_conn (h_run cli ops))) = Err e -> forall code, q_err (c_q (snd (poll ids (u_conn (h_run cli ops))))) = Some code -> code = to_wire e).
Proof. intros h. specialize (h [ODeliver 3 [0; 4; 0; 7; 1; 1] false false] [3] HIdError ltac:(bytes) eq_refl 261 eq_refl). vm_compute in h. discriminate h. Qed.
Print Assumptions C63_code_refuted.
Definition early : run_st := h_run srv [ODeliver 2 [0; 4; 0; 128; 15; 7; 0; 2; 4; 117] false false; OPoll [2]].
Definition touched : run_st := mkRun (snd (recv_body 4 10 (u_conn early))) (u_got early) (u_all early) (u_reset early) (u_bad early).
(** Reading the body of a stream that is known only from a PRIORITY_UPDATE makes the
    connection believe that the stream is finished: it reports its end, and the request
    that arrives on it later is never read. *)
Theorem C76_early_body_refuted : ~ (forall ops, Forall hop_ok ops -> let u := h_run touched ops in fst (poll [4] (u_conn u)) = Err HDone -> stream_readable (c_q (u_conn u)) 4 = false).
Proof. intros h. specialize (h [OPoll [4]; ODeliver 4 message false false; OPoll [4]] ltac:(unfold message; bytes) eq_refl). vm_compute in h. discriminate h. Qed.
Print Assumptions C76_early_body_refuted.
Example C76_early_end : fst (poll [4] (u_conn touched)) = Ok (4, EvFinished). Proof. reflexivity. Qed.
Definition down : conn := let q := mkQ (fun _ => None) (fun _ => false) None true true true 100 in h3_new true (Some 16777216) 1024 (deliver 0 [1; 129; 0; 0; 0; 7] false false q).
(** On a connection that the peer has closed, poll can loop forever: the limit on field
    sections allows a HEADERS frame of 2^24 bytes, the stream does not, and the error is
    swallowed because the connection cannot be closed any more.  A turn of the loop leaves
    everything as it was and goes round again. *)
Theorem C76_draining_refuted : ~ (forall c, c = snd (poll [0] down) -> fst (poll [0] c) <> Panic).
Proof. intros h. apply (h _ eq_refl). vm_compute. reflexivity. Qed.
Print Assumptions C76_draining_refuted.
Example C76_draining_loop : let c := snd (poll [0] down) in
  match c_str c 0 with Some s => let '(t, c') := H3ConnModel.step true 0 s c in t = Again /\ c_str c' 0 = Some s /\ q_str (c_q c') 0 = q_str (c_q c) 0 | None => False end.
Proof. vm_compute. repeat split. Qed.
