(** C63, C77: sending over HTTP/3. *)
Require Import Verif.Base Verif.Errors Verif.OctetsModel Verif.OctetsSpec Verif.OctetsProofs Verif.StreamsModel Verif.QpackModel Verif.QpackSpec Verif.H3FrameModel Verif.H3FrameSpec Verif.H3ConnModel Verif.H3ConnSpec Verif.H3ConnSpec2 Verif.H3ConnProofs Verif.H3SendModel Verif.H3SendSpec Verif.H3SendProofs Verif.H3SendProofs2 Verif.H3SendProofs3 Verif.PropH3Conn.

Lemma started_inv server grease st cap ops : started server grease st cap -> Forall (sop_ok server) ops ->
  exists f, frame_ok f /\ carries (w_ty f) (w_pay f) (as_read (HSettings st)) /\ sinv server (0 :: w_bs f) (s_run (s_init server grease st cap) ops).
Proof. intros (h1 & h2 & h3) ho. destruct (init_inv server grease st cap h1 h2 h3) as (f & f1 & f2 & f3). exists f. split; [auto|]. split; [auto|]. apply (run_inv server _ ops _ ho f3). Qed.

(** ** C77: what is sent is whole frames in order, and arrives as sent *)
(** The bytes of a request stream are whole frames, which carry exactly what calls said
    they put there, with frames to be ignored in between. *)
Theorem C77_frames server grease st cap ops k : started server grease st cap -> Forall (sop_ok server) ops -> is_bidi k = true ->
  let u := s_run (s_init server grease st cap) ops in
  exists fs, Forall on_wire fs /\ written u k = concat (map w_bs fs) /\ carried fs (v_log u k).
Proof.
  intros hs ho hb u. destruct (started_inv server grease st cap ops hs ho) as (f & _ & _ & I). pose proof (i_req _ _ _ I k hb) as h. fold u in h. unfold written. destruct (s_w (v_conn u) k) as [w|].
  - destruct h as (_ & (fs & h1 & h2 & h3) & _). exists fs. split; [|auto]. apply Forall_impl with (2 := h1). intros x hx. apply hx.
  - destruct h as (-> & _). exists []. repeat split; constructor.
Qed.
Print Assumptions C77_frames.

(** A header section comes first, then the body, then trailers; only a server sends more
    header sections. *)
Theorem C77_order server grease st cap ops k : started server grease st cap -> Forall (sop_ok server) ops -> is_bidi k = true ->
  proper server 0 (v_log (s_run (s_init server grease st cap) ops) k) = true.
Proof.
  intros hs ho hb. destruct (started_inv server grease st cap ops hs ho) as (f & _ & _ & I). pose proof (i_req _ _ _ I k hb) as h. destruct (s_w (v_conn (s_run _ ops)) k) as [w|]; [tauto|]. destruct h as (-> & _). auto.
Qed.
Print Assumptions C77_order.

(** The end of a stream is sent exactly when a call that asked for it took everything. *)
Theorem C77_end server grease st cap ops k : started server grease st cap -> Forall (sop_ok server) ops -> is_bidi k = true ->
  let u := s_run (s_init server grease st cap) ops in end_written u k = v_end u k.
Proof. intros hs ho hb u. destruct (started_inv server grease st cap ops hs ho) as (f & _ & _ & I). exact (i_end _ _ _ I k hb). Qed.
Print Assumptions C77_end.

(** Bytes are only ever added, and none after the end or once the peer stopped the stream. *)
Theorem C77_closed server grease st cap ops ops' k : started server grease st cap -> Forall (sop_ok server) ops -> Forall (sop_ok server) ops' ->
  let u := s_run (s_init server grease st cap) ops in let u' := s_run u ops' in
  (exists x, written u' k = written u k ++ x) /\ (closed_to u k -> written u' k = written u k /\ closed_to u' k).
Proof.
  intros hs ho ho' u u'. destruct (started_inv server grease st cap ops hs ho) as (f & _ & _ & I). destruct (run_inv server _ ops' _ ho' I) as (_ & G). fold u in G. fold u' in G. unfold written, closed_to. destruct (s_w (v_conn u) k) as [w|] eqn:W.
  - destruct (G k w W) as (w' & x & e & o & d & _). rewrite e. split; [eauto|]. intros hd. destruct (d hd) as (-> & d'). rewrite app_nil_r in o. auto.
  - split; [eexists; reflexivity|intros []].
Qed.
Print Assumptions C77_closed.

(** The other endpoint, reading what arrived of the stream so far in whatever pieces, gives
    its application a prefix of what was sent.  Its limit must allow the header sections. *)
Theorem C77_received server grease st cap ops k mfss maxp dgram bidi rops : started server grease st cap -> Forall (sop_ok server) ops -> k mod 4 = 0 -> limit_ok mfss -> Forall hop_ok rops ->
  let u := s_run (s_init server grease st cap) ops in
  let r := h_run (h_init (negb server) mfss maxp dgram bidi) rops in
  Forall (item_fits mfss) (v_log u k) -> (exists rest, written u k = u_all r k ++ rest) ->
  exists x, flat_map item_toks (v_log u k) = u_got r k ++ x.
Proof.
  intros hs ho k4 hm hr u r hf (rest & hw). pose proof (bidi_four k k4) as hb. destruct (started_inv server grease st cap ops hs ho) as (f & _ & _ & I). pose proof (i_req _ _ _ I k hb) as h. fold u in h.
  destruct (C56_prefix (negb server) mfss maxp dgram bidi rops k hm hr hb) as (y & hy). fold r in hy.
  assert (S : says_all (cfg_of (negb server) mfss k) (written u k) = flat_map item_toks (v_log u k) /\ bytes_ok (written u k)).
  { unfold written. destruct (s_w (v_conn u) k) as [w|]; [|destruct h as (-> & _); split; [reflexivity|constructor]]. destruct h as (_ & (fs & h1 & h2 & h3) & h4 & _). rewrite h2. split; [apply says_sent; auto|]. clear -h1. induction h1 as [|x l hx hl IH]; [constructor|]. cbn. apply bytes_ok_app. split; [apply hx|auto]. }
  destruct S as (S & B). rewrite hw in S, B. apply bytes_ok_app in B as (B & _). destruct (says_prefix (cfg_of (negb server) mfss k) _ rest B) as (x & hx). exists (y ++ x). rewrite <- S, hx, hy, app_assoc. reflexivity.
Qed.
Print Assumptions C77_received.

(** Once everything arrived and was read, unless a call failed, it got all of it. *)
Theorem C77_complete server grease st cap ops k mfss maxp dgram bidi rops : started server grease st cap -> Forall (sop_ok server) ops -> k mod 4 = 0 -> limit_ok mfss -> Forall hop_ok rops ->
  let u := s_run (s_init server grease st cap) ops in
  let r := h_run (h_init (negb server) mfss maxp dgram bidi) rops in
  Forall (item_fits mfss) (v_log u k) -> u_all r k = written u k -> u_reset r k = false -> u_bad r = false -> all_read r k ->
  u_got r k = flat_map item_toks (v_log u k).
Proof.
  intros hs ho k4 hm hr u r hf hw n1 n2 n3. pose proof (bidi_four k k4) as hb. destruct (started_inv server grease st cap ops hs ho) as (f & _ & _ & I). pose proof (i_req _ _ _ I k hb) as h. fold u in h.
  assert (S : says_all (cfg_of (negb server) mfss k) (written u k) = flat_map item_toks (v_log u k)).
  { unfold written. destruct (s_w (v_conn u) k) as [w|]; [|destruct h as (-> & _); reflexivity]. destruct h as (_ & (fs & h1 & h2 & h3) & h4 & _). rewrite h2. apply says_sent; auto. }
  destruct (C56_complete (negb server) mfss maxp dgram bidi rops k hm hr hb n1 n2 n3) as [E|(e & E)]; fold r in E; rewrite hw, S in E; [auto|].
  exfalso. assert (K : In (KFail e) (flat_map item_toks (v_log u k))) by (rewrite E; apply in_or_app; right; left; auto). apply in_flat_map in K as (i & _ & K). destruct i as [l|l|bs]; cbn in K; [destruct K as [K|[]]; discriminate K|destruct K as [K|[]]; discriminate K|]. apply in_map_iff in K as (x & K & _). discriminate K.
Qed.
Print Assumptions C77_complete.

(** No call panics, whatever happened before. *)
Theorem C77_no_panic server grease st cap ops o : started server grease st cap -> Forall (sop_ok server) ops -> sop_ok server o ->
  no_panic o (v_conn (s_run (s_init server grease st cap) ops)).
Proof. intros hs ho h. destruct (started_inv server grease st cap ops hs ho) as (f & _ & _ & I). apply (step_inv server _ _ o h I). Qed.
Print Assumptions C77_no_panic.

(** ** C63: GOAWAY *)
(** The control stream is its type, a SETTINGS frame with the settings of the application,
    and a frame for every GOAWAY and priority update that was sent. *)
Theorem C63_sent_frames server grease st cap ops : started server grease st cap -> Forall (sop_ok server) ops ->
  let u := s_run (s_init server grease st cap) ops in
  exists f fs, Forall on_wire (f :: fs) /\ written u (if server then 3 else 2) = 0 :: concat (map w_bs (f :: fs)) /\ carries (w_ty f) (w_pay f) (as_read (HSettings st)) /\ Forall2 cshows fs (v_ctl u).
Proof.
  intros hs ho u. destruct (started_inv server grease st cap ops hs ho) as (f & f1 & f2 & I). destruct (i_out _ _ _ I) as (w & fs & h1 & h2 & h3 & h4 & h5). fold u in h1, h5. exists f, fs. split; [constructor; [apply f1|apply Forall_impl with (2 := h4); intros x hx; apply hx]|]. unfold written. fold (ctl_of server). rewrite h1. auto.
Qed.
Print Assumptions C63_sent_frames.
(** The ids of the GOAWAY frames sent never increase, and name requests. *)
Theorem C63_sent server grease st cap ops : started server grease st cap -> Forall (sop_ok server) ops ->
  let u := s_run (s_init server grease st cap) ops in falling (goaways (v_ctl u)) /\ Forall (fun id => id mod 4 = 0) (goaways (v_ctl u)).
Proof.
  intros hs ho u. destruct (started_inv server grease st cap ops hs ho) as (f & f1 & f2 & I). split; [exact (i_fall _ _ _ I)|]. unfold u. assert (G : forall l v, Forall (fun id => id mod 4 = 0) (goaways (v_ctl v)) -> Forall (fun id => id mod 4 = 0) (goaways (v_ctl (s_run v l)))).
  { induction l as [|o l IH]; intros v h; auto. apply IH, goaway_four, h. } apply G. constructor.
Qed.
Print Assumptions C63_sent.
(** Once the peer sent GOAWAY no request is sent: the call fails and writes nothing. *)
Theorem C63_refused server grease st cap ops ops' hs fin g1 g2 : let u := s_run (s_init server grease st cap) (ops ++ ERefuse :: ops') in
  send_request hs fin g1 g2 (v_conn u) = (Err HFrameUnexpected, v_conn u).
Proof.
  cbn zeta. unfold s_run. rewrite fold_left_app. cbn [fold_left]. set (v := s_step _ ERefuse). assert (h : s_refuse (v_conn v) = true) by reflexivity. pose proof (refuse_run ops' v h) as q. unfold s_run in q. unfold send_request. rewrite q. reflexivity.
Qed.
Print Assumptions C63_refused.

(** ** Witnesses *)
Definition plain : settings := mkSettings (Some 4096) None None None None None None None.
Lemma plain_started server : started server true plain 1000.
Proof.
  split; [|split; [lia|destruct server; vm_compute; reflexivity]]. cbn [writable_frame plain s_max_field s_capacity s_blocked s_connect s_dgram]. split; [intros v h; injection h as <-; unfold small, max_varint; lia|]. split; [intros v h; discriminate h|]. split; [intros v h; discriminate h|]. split; [intros v h; discriminate h|]. split; [intros v h; discriminate h|]. split; [constructor|vm_compute; reflexivity].
Qed.
Definition sum_field : list header := [([83; 117; 109], [49; 50])].
(** A client sends a request with a body, for which there is not enough room at first, and
    trailers with the end; then it tries to send more *)
Definition upload : list sop := [SRequest get false 33 64; SBody 0 [65; 66; 67] false; SPriority 0 3 true; ERoom 0 4; SBody 0 [68; 69; 70; 71] true; ERoom 0 100; SBody 0 [70; 71] false; SAdditional 0 sum_field true true 33 33; SBody 0 [72] false; SGoAway 0; SGoAway 4].
Lemma g33 : grease_ok 33. Proof. exists 0. lia. Qed.
Lemma g64 : grease_ok 64. Proof. exists 1. lia. Qed.
Ltac fields := split; [repeat (constructor; [split; unfold bytes_ok; repeat (constructor; [unfold is_byte; lia|]); constructor|]); constructor|vm_compute; reflexivity].
Lemma upload_ok : Forall (sop_ok false) upload.
Proof.
  unfold upload. repeat (constructor; [cbn [sop_ok]; repeat match goal with |- _ /\ _ => split end; auto using g33, g64; try fields; try (unfold bytes_ok; repeat (constructor; [unfold is_byte; lia|]); constructor); try (vm_compute; reflexivity); try lia|]). constructor.
Qed.
Definition uploaded : sent_st := s_run (s_init false true plain 1000) upload.
Example C77_witness : v_log uploaded 0 = [IHeaders get; IBody [65; 66; 67]; IBody [68; 69]; IBody [70; 71]; ITrailers sum_field] /\ v_end uploaded 0 = true /\ v_end (s_run (s_init false true plain 1000) (firstn 5 upload)) 0 = false /\
  goaways (v_ctl uploaded) = [0; 0].
Proof. vm_compute. repeat split. Qed.
(** The server gets it byte by byte *)
Definition download (u : sent_st) : list hop := flat_map (fun x => [ODeliver 0 [x] false false; OPoll [0]; OBody 0 1]) (written u 0) ++ [ODeliver 0 [] true true; OPoll [0]].
Example C77_witness_received : let r := h_run srv (download uploaded) in
  u_all r 0 = written uploaded 0 /\ u_bad r = false /\ u_reset r 0 = false /\ all_read r 0 /\
  u_got r 0 = [KHeaders get; KByte 65; KByte 66; KByte 67; KByte 68; KByte 69; KByte 70; KByte 71; KHeaders [([115; 117; 109], [49; 50])]].
Proof. vm_compute. repeat split. Qed.
Example C77_witness_fits : Forall (item_fits None) (v_log uploaded 0).
Proof. replace (v_log uploaded 0) with [IHeaders get; IBody [65; 66; 67]; IBody [68; 69]; IBody [70; 71]; ITrailers sum_field] by (vm_compute; reflexivity). repeat constructor; vm_compute; discriminate. Qed.
(** A server answers, with an interim response first *)
Definition answer : list sop := [EPeer 0 200; SResponse 0 get false 33 33; SAdditional 0 get false false 33 33; SBody 0 [88] true; SGoAway 8; SGoAway 4; SGoAway 8; SGoAway 3].
Example C77_answer : let u := s_run (s_init true false plain 1000) answer in
  v_log u 0 = [IHeaders get; IHeaders get; IBody [88]] /\ end_written u 0 = true /\ goaways (v_ctl u) = [8; 4].
Proof. vm_compute. repeat split. Qed.

(** ** Findings *)
Definition serving (ops : list sop) : sconn := v_conn (s_run (s_init true false plain 1000) ops).
(** A server that announces a GOAWAY id of 2^62 panics (the id is a u64 and is a multiple of
    four); a client that sends a PRIORITY_UPDATE for such a stream does too. *)
Theorem C63_large_id_refuted : ~ (forall id, 0 <= id <= u64_max -> fst (send_goaway id (serving [])) <> Panic).
Proof. intros h. apply (h (2 ^ 62)); [unfold u64_max; lia|]. vm_compute. reflexivity. Qed.
Print Assumptions C63_large_id_refuted.
Example C63_large_priority : fst (send_priority (2 ^ 62) 3 false (v_conn (s_init false false plain 1000))) = Panic. Proof. vm_compute. reflexivity. Qed.
(** If the peer lets the control stream take only a few bytes, a connection is created all
    the same, and of its SETTINGS frame a part is sent: the rest never is. *)
Theorem C77_settings_cut_refuted : ~ (forall cap, 1 < cap -> let o := send_settings plain (s_start false false (Ok cap)) in fst o = Ok tt ->
  exists fs, Forall on_wire fs /\ written (mkSent (snd o) (fun _ => []) (fun _ => false) []) 2 = 0 :: concat (map w_bs fs)).
Proof.
  intros h. specialize (h 3 ltac:(lia)). cbn zeta in h. assert (E : fst (send_settings plain (s_start false false (Ok 3))) = Ok tt) by (vm_compute; reflexivity). destruct (h E) as (fs & hf & hc).
  assert (W : written (mkSent (snd (send_settings plain (s_start false false (Ok 3)))) (fun _ => []) (fun _ => false) []) 2 = [0; 4; 3]) by (vm_compute; reflexivity). rewrite W in hc. clear W E h. injection hc as hc.
  destruct fs as [|f fs]; [discriminate hc|]. apply Forall_inv in hf as hx. destruct hx as (t & n & h1 & h2 & h3). cbn [map concat] in hc. rewrite h3 in hc. rewrite <- !app_assoc in hc.
  pose proof (rd_varint_app _ _ (n ++ w_pay f ++ concat (map w_bs fs)) h1) as r1. rewrite <- hc in r1. cbn in r1. injection r1 as r1 r2.
  pose proof (rd_varint_app _ _ (w_pay f ++ concat (map w_bs fs)) h2) as r3. rewrite <- r2 in r3. cbn in r3. injection r3 as r3 r4. destruct (w_pay f); [discriminate r3|discriminate r4].
Qed.
Print Assumptions C77_settings_cut_refuted.
(** The documentation of send_additional_headers says that a server that has begun to send
    the body can send trailers only.  It can send another header section, which a client
    takes for trailers. *)
Theorem C77_late_headers_refuted : ~ (forall ops, Forall (sop_ok true) ops -> forall a bs b, v_log (s_run (s_init true false plain 1000) ops) 0 <> [IHeaders a; IBody bs; IHeaders b]).
Proof.
  intros h. apply (h [EPeer 0 200; SResponse 0 get false 33 33; SBody 0 [88] false; SAdditional 0 get false false 33 33]) with get [88] get; [|vm_compute; reflexivity].
  repeat (constructor; [cbn [sop_ok]; repeat match goal with |- _ /\ _ => split end; auto using g33; try fields; try (unfold bytes_ok; repeat (constructor; [unfold is_byte; lia|]); constructor); try (vm_compute; reflexivity); try lia|]). constructor.
Qed.
Print Assumptions C77_late_headers_refuted.
(** A call that fails with StreamBlocked can have written to the stream: the frames to be
    ignored are sent before the room for the header section is checked. *)
Theorem C77_blocked_silent_refuted : ~ (forall ops o, Forall (sop_ok true) ops -> sop_ok true o -> let u := s_run (s_init true true plain 1000) ops in
  v_log (s_step u o) 0 = v_log u 0 -> written (s_step u o) 0 = written u 0).
Proof.
  intros h. specialize (h [EPeer 0 25] (SResponse 0 get false 33 33) ltac:(repeat constructor) ltac:(split; [auto|]; split; [fields|]; auto using g33) eq_refl). vm_compute in h. discriminate h.
Qed.
Print Assumptions C77_blocked_silent_refuted.
Example C77_blocked : fst (send_response 0 get false 33 33 (v_conn (s_run (s_init true true plain 1000) [EPeer 0 25]))) = Err HStreamBlocked. Proof. vm_compute. reflexivity. Qed.
(** A request without fields fails with an internal error. *)
Theorem C77_empty_request_refuted : ~ (forall hs, fields_ok hs -> fst (send_request hs false 33 33 (v_conn (s_init false false plain 1000))) <> Err HInternalError).
Proof. intros h. apply (h []); [split; [constructor|vm_compute; reflexivity]|]. vm_compute. reflexivity. Qed.
Print Assumptions C77_empty_request_refuted.
