(** What the peer makes of what was sent. *)
Require Import Verif.Base Verif.Errors Verif.OctetsModel Verif.OctetsSpec Verif.OctetsProofs Verif.StreamsModel Verif.HuffmanModel Verif.HuffmanSpec Verif.QpackModel Verif.QpackSpec Verif.QpackProofs Verif.QpackProofs2 Verif.H3FrameModel Verif.H3FrameSpec Verif.H3FrameProofs Verif.H3ConnModel Verif.H3ConnSpec Verif.H3ConnSpec2 Verif.H3ConnProofs Verif.H3ConnFacts Verif.H3SendModel Verif.H3SendSpec Verif.H3SendProofs Verif.H3SendProofs2 Verif.PropQpack.

Lemma sent_size l : list_size (map sent_as l) = list_size l.
Proof. induction l as [|h l IH]; auto. cbn [map]. rewrite !list_size_cons, IH. f_equal. unfold field_size, sent_as. cbn [fst snd]. unfold lowercase, zlen. rewrite map_length. auto. Qed.

(** ** Whole frames *)
Lemma pay_bytes f : frame_ok f -> bytes_ok (w_pay f).
Proof. intros ((t & n & _ & _ & e) & h). rewrite e in h. apply bytes_ok_app in h as (_ & h). apply bytes_ok_app in h as (_ & h). auto. Qed.
Lemma grease_type ty : 33 <= ty -> (ty - 33) mod 31 = 0 -> control_type ty = false /\ (ty =? 0) = false /\ (ty =? 1) = false /\ (ty =? 5) = false.
Proof.
  intros h1 h2. split; [|lia]. unfold control_type. cbn [existsb]. destruct (Z.eqb_spec ty 984832) as [-> |]; [discriminate h2|]. destruct (Z.eqb_spec ty 984833) as [-> |]; [discriminate h2|]. lia.
Qed.
Section Say.
Context (server : bool) (mfss : option Z) (k : Z) (k4 : k mod 4 = 0).
Notation g := (cfg_of (negb server) mfss k).
Lemma local_is : r_local g = server.
Proof. cbn. destruct server; cbn [negb]; [apply local_four, k4|]. pose proof (local_four k k4) as h. unfold is_local in *. cbn [Z.b2z] in *. apply Z.eqb_eq in h. rewrite h. auto. Qed.
Notation fits := (item_fits mfss).
Definition ready (p : phase) (st : Z) : Prop :=
  server = true \/ (st = 0 /\ p_start p = false /\ p_trail p = false /\ p_count p = 0) \/ (st = 1 /\ p_start p = true /\ p_trail p = false /\ p_count p = 1) \/ st = 2.
Lemma one_frame p f rest p1 : frame_ok f -> next_phase g p (w_ty f) = Some p1 -> length_error g (w_ty f) (zlen (w_pay f)) = None ->
  parsed g p (w_bs f ++ rest) =
    if w_ty f =? 0 then map KByte (w_pay f) ++ parsed g p1 rest
    else if w_ty f =? 1 then match read_section g p1 (w_pay f) with inl l => KHeaders l :: parsed g (counted p1) rest | inr e => [KFail e] end
    else if w_ty f =? 5 then match read_promise g (w_pay f) with Some e => [KFail e] | None => parsed g p1 rest end
    else parsed g p1 rest.
Proof.
  intros ((t & n & q1 & q2 & ->) & _) hn hl. rewrite parsed_eq. unfold on_type. rewrite <- !app_assoc, (rd_varint_app t _ _ q1), hn. unfold on_len. rewrite (rd_varint_app n _ _ q2), hl.
  destruct (drop_frame (w_pay f) rest) as (d1 & d2 & d3). destruct (w_ty f =? 0) eqn:T0; [unfold on_data, on_skip; rewrite d1, d2, d3; auto|]. destruct (w_ty f =? 1) eqn:T1; cbn [orb]; [unfold on_payload; rewrite T1, d1, d2, d3; auto|].
  destruct (w_ty f =? 5); [unfold on_payload; rewrite T1, d1, d2, d3; auto|]. unfold on_skip. rewrite d1, d3. auto.
Qed.
Lemma section_read p f l : frame_ok f -> w_ty f = 1 -> section int64 (w_pay f) (map sent_as l) -> zlen (w_pay f) <= list_size l -> fits_in mfss l -> (server = true \/ p_count p <> 2) ->
  length_error g (w_ty f) (zlen (w_pay f)) = None /\ read_section g p (w_pay f) = inl (map sent_as l).
Proof.
  intros (hw & hb) ht hs hz (h1 & h2) hc. pose proof (list_size_nonneg l). split.
  - unfold length_error. rewrite ht. cbn [Z.eqb Pos.eqb]. unfold max_block. cbn [r_mfss cfg_of]. cbv zeta. destruct mfss as [m|]; match goal with |- (if ?x then _ else _) = _ => destruct x eqn:E end; auto; unfold u64_max in E; lia.
  - unfold read_section. cbn [r_server r_mfss cfg_of]. replace (negb server && (p_count p =? 2)) with false by (destruct hc as [-> |hc]; [auto|]; destruct (Z.eqb_spec (p_count p) 2); [contradiction|rewrite andb_false_r; auto]).
    rewrite (C61_decode (w_pay f) (map sent_as l)); auto.
    + apply (pay_bytes f). split; auto.
    + rewrite sent_size. destruct mfss; unfold u64_max; lia.
Qed.

Lemma frames_say : forall fs is, carried fs is -> forall st p, Forall frame_ok fs -> Forall fits is -> proper server st is = true -> ready p st ->
  parsed g p (concat (map w_bs fs)) = flat_map item_toks is.
Proof.
  induction 1 as [|f i fs is hsh hc IH|f fs is hg hc IH]; intros st p hf hz hp hr; cbn [map concat flat_map].
  - reflexivity.
  - inversion hf as [|? ? f1 f2]; subst. inversion hz as [|? ? z1 z2]; subst. assert (HN : forall q, control_type (w_ty f) = false -> server = true -> next_phase g q (w_ty f) = Some q).
    { intros q h1 h2. unfold next_phase. rewrite h1, local_is, h2. auto. }
    destruct i as [l|l|bs]; cbn [shows item_fits item_toks proper] in *.
    + destruct hsh as (t1 & s1 & s2). apply andb_true_iff in hp as (hp1 & hp2). assert (P : exists p1, next_phase g p (w_ty f) = Some p1 /\ ready (counted p1) 1 /\ (server = true \/ p_count p1 <> 2)).
      { destruct (Bool.bool_dec server true) as [SV|SV]; [|apply Bool.not_true_is_false in SV; try rewrite SV in hp1; cbn [andb orb] in hp1]. - exists p. rewrite HN; auto; [|rewrite t1; auto]. split; [auto|]. split; [left; auto|auto]. - unfold next_phase. rewrite t1, local_is, SV. cbn [control_type existsb Z.eqb Pos.eqb orb]. assert (st = 0) by lia. subst st. destruct hr as [hr|[(_ & r1 & r2 & r3)|[(hr & _)|hr]]]; try congruence. rewrite r1. cbn [negb]. eexists. split; [reflexivity|]. unfold ready, counted. cbn [p_start p_trail p_count]. rewrite r3. split; [|right; lia]. right. right. left. split; [auto|]. split; [auto|]. split; [auto|]. reflexivity. }
      destruct P as (p1 & P1 & P2 & P3). destruct (section_read p1 f l f1 t1 s1 s2 z1 P3) as (L & R). rewrite (one_frame p f _ p1 f1 P1 L), t1, R. cbn [Z.eqb Pos.eqb app]. f_equal. eapply IH; eauto.
    + destruct hsh as (t1 & s1 & s2). apply andb_true_iff in hp as (hp1 & hp2). assert (P : exists p1, next_phase g p (w_ty f) = Some p1 /\ (server = true \/ p_count p1 <> 2)).
      { destruct (Bool.bool_dec server true) as [SV|SV]; [|apply Bool.not_true_is_false in SV; try rewrite SV in hp1; cbn [andb orb] in hp1]. - exists p. rewrite HN; auto. rewrite t1; auto. - unfold next_phase. rewrite t1, local_is, SV. cbn [control_type existsb Z.eqb Pos.eqb orb]. assert (st = 1) by lia. subst st. destruct hr as [hr|[(hr & _)|[(_ & r1 & r2 & r3)|hr]]]; try congruence. rewrite r1, r2. cbn [negb]. destruct (p_body p); eexists; (split; [reflexivity|]); right; cbn; lia. }
      destruct P as (p1 & P1 & P3). destruct (section_read p1 f l f1 t1 s1 s2 z1 P3) as (L & R). rewrite (one_frame p f _ p1 f1 P1 L), t1, R. cbn [Z.eqb Pos.eqb app]. f_equal. eapply IH; eauto. right. right. right. auto.
    + destruct hsh as (t1 & <-). apply andb_true_iff in hp as (hp1 & hp2). assert (P : exists p1, next_phase g p (w_ty f) = Some p1 /\ ready p1 1).
      { destruct (Bool.bool_dec server true) as [SV|SV]; [|apply Bool.not_true_is_false in SV; try rewrite SV in hp1; cbn [andb orb] in hp1]. - exists p. rewrite HN; auto; [|rewrite t1; auto]. split; [auto|left; auto]. - unfold next_phase. rewrite t1, local_is, SV. cbn [control_type existsb Z.eqb Pos.eqb orb]. assert (st = 1) by lia. subst st. destruct hr as [hr|[(hr & _)|[(_ & r1 & r2 & r3)|hr]]]; try congruence. rewrite r1, r2. cbn [negb orb]. eexists. split; [reflexivity|]. right. right. left. auto. }
      destruct P as (p1 & P1 & P2). rewrite (one_frame p f _ p1 f1 P1) by (unfold length_error; rewrite t1; auto). rewrite t1. cbn [Z.eqb Pos.eqb]. f_equal. eapply IH; eauto.
  - inversion hf as [|? ? f1 f2]; subst. destruct hg as (g1 & g2 & g3). destruct (grease_type _ g1 g2) as (c1 & c2 & c3 & c4).
    rewrite (one_frame p f _ p f1); [rewrite c2, c3, c4; eapply IH; eauto| |].
    + unfold next_phase. rewrite c1, c2, c3. destruct (r_local g); auto.
    + unfold length_error. rewrite c2, c3, c4. destruct (Z.ltb_spec 16777215 (zlen (w_pay f))); auto. lia.
Qed.
Lemma says_sent fs is : carried fs is -> Forall frame_ok fs -> Forall fits is -> proper server 0 is = true -> says_all g (concat (map w_bs fs)) = flat_map item_toks is.
Proof. intros h1 h2 h3 h4. apply (frames_say fs is h1 0 phase_new); auto. right. left. auto. Qed.
End Say.

(** ** A part of the bytes says a part of it *)
Lemma parsed_prefix g : forall n a, (length a <= n)%nat -> bytes_ok a -> forall p b, exists x, parsed g p (a ++ b) = parsed g p a ++ x.
Proof.
  induction n as [|n IH]; intros a hn hb p b.
  - destruct a; [|cbn in hn; lia]. exists (parsed g p b). reflexivity.
  - rewrite !parsed_eq. unfold on_type. destruct (rd_varint a) as [[ty a1]|] eqn:R1; [|eexists; cbn [app]; reflexivity].
    destruct (rd_varint_inv _ _ _ hb R1) as (l1 & e1 & q1). pose proof (rd_varint_short _ _ _ R1) as s1. rewrite e1 in hb. apply bytes_ok_app in hb as (_ & hb). rewrite e1, <- app_assoc, (rd_varint_app _ _ _ q1).
    destruct (next_phase g p ty) as [p1|]; [|exists []; rewrite app_nil_r; auto]. unfold on_len. destruct (rd_varint a1) as [[len a2]|] eqn:R2; [|eexists; cbn [app]; reflexivity].
    destruct (rd_varint_inv _ _ _ hb R2) as (l2 & e2 & q2). pose proof (rd_varint_short _ _ _ R2) as s2. rewrite e2 in hb. apply bytes_ok_app in hb as (_ & hb). rewrite e2, <- app_assoc, (rd_varint_app _ _ _ q2).
    destruct (length_error g ty len); [exists []; rewrite app_nil_r; auto|]. assert (len0 : 0 <= len) by (destruct (qvarint_pos _ _ q2) as (_ & h & _); apply h).
    assert (SK : forall p, exists x, parsed g p (drop len (a2 ++ b)) = parsed g p (drop len a2) ++ x \/ zlen a2 < len).
    { intros p2. destruct (Z_lt_le_dec (zlen a2) len) as [h|h]; [exists []; auto|]. assert (hd : drop len (a2 ++ b) = drop len a2 ++ b). { unfold drop, zlen in *. rewrite skipn_app. replace (Z.to_nat len - length a2)%nat with O by lia. auto. }
      rewrite hd. destruct (IH (drop len a2)) with (p := p2) (b := b) as (x & hx); [|apply bytes_ok_drop; auto|exists x; auto]. unfold drop, zlen in *. rewrite skipn_length. lia. }
    assert (LT : forall x y : list tok, (zlen a2 <? len) = true -> exists z, (if zlen (a2 ++ b) <? len then [] else x) = (if zlen a2 <? len then [] else y) ++ z). { intros x y ->. eexists. cbn [app]. reflexivity. }
    assert (GE : (zlen a2 <? len) = false -> (zlen (a2 ++ b) <? len) = false) by (rewrite zlen_app; pose proof (zlen_nonneg b); lia).
    assert (TK : (zlen a2 <? len) = false -> take len (a2 ++ b) = take len a2). { intros h. unfold take, zlen in *. rewrite firstn_app. replace (Z.to_nat len - length a2)%nat with O by lia. cbn. apply app_nil_r. }
    destruct (ty =? 0); [|destruct ((ty =? 1) || (ty =? 5))].
    + unfold on_data, on_skip. destruct (zlen a2 <? len) eqn:L.
      * rewrite (take_all len a2) by lia. unfold take at 1. rewrite firstn_app, map_app, app_nil_r. rewrite (firstn_all2 a2) by (unfold zlen in L; lia). rewrite <- app_assoc. eauto.
      * rewrite (GE eq_refl), (TK eq_refl). destruct (SK p1) as (x & [hx|hx]); [|lia]. rewrite hx. exists x. apply app_assoc.
    + unfold on_payload. destruct (zlen a2 <? len) eqn:L; [eexists; cbn [app]; reflexivity|]. rewrite (GE eq_refl), (TK eq_refl). destruct (ty =? 1).
      * destruct (read_section g p1 (take len a2)); [|exists []; rewrite app_nil_r; auto]. destruct (SK (counted p1)) as (x & [hx|hx]); [|lia]. rewrite hx. exists x. auto.
      * destruct (read_promise g (take len a2)); [exists []; rewrite app_nil_r; auto|]. destruct (SK p1) as (x & [hx|hx]); [|lia]. rewrite hx. exists x. auto.
    + unfold on_skip. destruct (zlen a2 <? len) eqn:L; [eexists; cbn [app]; reflexivity|]. rewrite (GE eq_refl). destruct (SK p1) as (x & [hx|hx]); [|lia]. rewrite hx. exists x. auto.
Qed.
Lemma says_prefix g a b : bytes_ok a -> exists x, says_all g (a ++ b) = says_all g a ++ x.
Proof. intros h. apply (parsed_prefix g (length a) a); auto. Qed.

(** ** What no call changes *)
Lemma refuse_send c id bs fin : s_refuse (snd (stream_send c id bs fin)) = s_refuse c.
Proof. unfold stream_send. destruct (match s_w c id with Some w => Ok w | None => _ end); auto. destruct (write_to id a bs fin). reflexivity. Qed.
Lemma refuse_sends id l : forall c, s_refuse (snd (sends id l c)) = s_refuse c.
Proof. induction l as [|(bs & fin) l IH]; intros c; auto. cbn [sends]. pose proof (refuse_send c id bs fin) as h. destruct (stream_send c id bs fin) as [[n|e|] c1]; cbn [snd] in *; auto. rewrite IH. auto. Qed.
Lemma refuse_give id e c : s_refuse (snd (give_up id e c)) = s_refuse c. Proof. unfold give_up. cbn [snd]. destruct (all_in c id); auto. Qed.
Lemma refuse_grease id g1 g2 c : s_refuse (snd (send_grease id g1 g2 c)) = s_refuse c.
Proof.
  unfold send_grease. destruct (capacity c id); auto; [|pose proof (refuse_give id e c) as h; destruct (give_up id e c); auto]. destruct (H3FrameModel.h_len g1), (H3FrameModel.h_len g2); auto. destruct (_ <? _); auto. apply refuse_sends.
Qed.
Lemma refuse_block id hs fin c : s_refuse (snd (send_block id hs fin c)) = s_refuse c.
Proof.
  unfold send_block. destruct (encode_header_block hs); auto. destruct (H3FrameModel.h_len T_HEADERS), (H3FrameModel.h_len (zlen a)); auto. destruct (capacity c id); auto; [|pose proof (refuse_give id e c) as h; destruct (give_up id e c); auto]. destruct (_ <? _); auto.
  destruct (frame_head T_HEADERS (zlen a)); auto. pose proof (refuse_sends id [(a3, false); (a, fin)] c) as h. destruct (sends id _ c) as [[t|e|] c1]; auto. cbn [snd] in *. rewrite <- h. destruct fin; [unfold finish|unfold initialize]; destruct (s_str c1 id); auto.
Qed.
Lemma refuse_headers id hs fin g1 g2 c : s_refuse (snd (send_headers id hs fin g1 g2 c)) = s_refuse c.
Proof.
  unfold send_headers. destruct (_ && _); [|apply refuse_block]. pose proof (refuse_grease id g1 g2 c) as h. destruct (send_grease id g1 g2 c) as [[t|e|] c1]; auto. cbn [snd] in *. rewrite refuse_block. auto.
Qed.
Lemma refuse_step u o : s_refuse (v_conn u) = true -> s_refuse (v_conn (s_step u o)) = true.
Proof.
  intros hr. destruct o as [hs fin g1 g2|id hs fin g1 g2|id hs tr fin g1 g2|id bs fin|id|id ur i|id n|id e|id|id|id cap|id| |r]; cbn [s_step].
  - unfold send_request. rewrite hr. auto.
  - unfold send_response. destruct (s_str (v_conn u) id) as [l|]; auto. destruct (l_init l); auto. pose proof (refuse_headers id hs fin g1 g2 (v_conn u)) as h. destruct (send_headers id hs fin g1 g2 (v_conn u)) as [r c1]. cbn [snd v_conn] in *. congruence.
  - unfold send_additional. destruct (_ && _); auto. destruct (s_str (v_conn u) id) as [l|]; auto. destruct (_ || _); auto. pose proof (refuse_headers id hs fin g1 g2 (v_conn u)) as h. destruct (send_headers id hs fin g1 g2 (v_conn u)) as [[t|e|] c1]; cbn [snd v_conn] in *; try congruence. destruct tr; [|congruence]. unfold mark_trailers. destruct (s_str c1 id); cbn; congruence.
  - unfold send_body. destruct (negb _); auto. destruct (s_str (v_conn u) id) as [l|]; auto. destruct (_ || _); auto. destruct (_ && _); auto. destruct (H3FrameModel.h_len T_DATA), (H3FrameModel.h_len (zlen bs)); auto.
    destruct (capacity (v_conn u) id) as [cap|e|]; auto; [|pose proof (refuse_give id e (v_conn u)) as h; destruct (give_up id e (v_conn u)); cbn [snd v_conn] in *; congruence]. destruct (_ <? _); auto. set (m := Z.min _ _). set (f := if m =? zlen bs then fin else false). destruct ((m =? 0) && negb f); auto. destruct (frame_head T_DATA m); auto.
    pose proof (refuse_sends id [(a1, false)] (v_conn u)) as h. destruct (sends id _ (v_conn u)) as [[t|e|] c1]; cbn [snd v_conn] in *; try congruence. pose proof (refuse_send c1 id (take m bs) f) as h2. destruct (stream_send c1 id (take m bs) f) as [[t2|e|] c2]; cbn [snd v_conn] in *; try congruence.
    destruct (negb (t2 =? m)); cbn [v_conn]; [congruence|]. destruct (f && _); [|congruence]. unfold finish. destruct (s_str c2 id); cbn; congruence.
  - unfold send_goaway. set (i := if s_server (v_conn u) then id else 0). destruct (_ && _); auto. destruct (match s_goaway (v_conn u) with Some sent => sent <? i | None => false end); auto. destruct (s_ctl (v_conn u)) as [ctl|]; auto. destruct (h3_to_bytes _ _) as [w|e|]; auto. destruct (capacity (v_conn u) ctl) as [cap|e|]; auto. destruct (_ <? _); auto.
    pose proof (refuse_sends ctl [(wr_out w, false)] (v_conn u)) as h. destruct (sends ctl _ (v_conn u)) as [[t|e|] c1]; cbn [snd v_conn set_sent s_refuse] in *; congruence.
  - unfold send_priority. destruct (s_server (v_conn u)); auto. destruct (negb _); auto. destruct (s_ctl (v_conn u)) as [ctl|]; auto. destruct (H3FrameModel.h_len T_PRIO_REQUEST), (H3FrameModel.h_len id); auto. destruct (H3FrameModel.h_len (_ + _)); auto. destruct (capacity (v_conn u) ctl) as [cap|e|]; auto. destruct (_ <? _); auto.
    destruct (bind _ _) as [head|e|]; auto. pose proof (refuse_sends ctl [(head, false); (priority_value ur i, false)] (v_conn u)) as h. destruct (sends ctl _ (v_conn u)) as [t c1]. cbn [snd v_conn] in *. congruence.
  - cbn. unfold e_room, change. destruct (s_w (v_conn u) id); auto.
  - cbn. unfold e_stop, change. destruct (s_w (v_conn u) id); auto.
  - cbn. unfold e_gone, change. destruct (s_w (v_conn u) id); auto.
  - cbn. unfold e_read, change. destruct (s_w (v_conn u) id); auto.
  - cbn. unfold e_peer. destruct (_ && _); auto. set (c1 := match s_w (v_conn u) id with Some _ => v_conn u | None => _ end). assert (h : s_refuse c1 = true) by (unfold c1; destruct (s_w (v_conn u) id); auto). destruct (s_str c1 id); auto.
  - cbn. unfold e_drop. destruct (s_str (v_conn u) id) as [l|]; auto. destruct (l_done l); auto.
  - reflexivity.
  - auto.
Qed.
Lemma refuse_run ops : forall u, s_refuse (v_conn u) = true -> s_refuse (v_conn (s_run u ops)) = true.
Proof. induction ops as [|o ops IH]; intros u h; auto. apply IH, refuse_step, h. Qed.
(** Only send_goaway adds a GOAWAY *)
Lemma goaway_four u o : Forall (fun i => i mod 4 = 0) (goaways (v_ctl u)) -> Forall (fun i => i mod 4 = 0) (goaways (v_ctl (s_step u o))).
Proof.
  intros hr. destruct o as [hs fin g1 g2|id hs fin g1 g2|id hs tr fin g1 g2|id bs fin|id|id ur i|id n|id e|id|id|id cap|id| |r]; cbn [s_step]; auto.
  - destruct (send_request hs fin g1 g2 (v_conn u)); auto.
  - destruct (send_response id hs fin g1 g2 (v_conn u)); auto.
  - destruct (send_additional id hs tr fin g1 g2 (v_conn u)); auto.
  - destruct (send_body id bs fin (v_conn u)); auto.
  - destruct (send_goaway id (v_conn u)) as [r c'] eqn:R. cbn [v_ctl]. destruct (ok_of r) eqn:K; auto. unfold goaways. rewrite flat_map_app. apply Forall_app. split; [exact hr|]. cbn [flat_map app]. constructor; auto. unfold send_goaway in R. set (i := if s_server (v_conn u) then id else 0) in *.
    destruct (s_server (v_conn u) && negb (i mod 4 =? 0)) eqn:M; [injection R as <- <-; discriminate K|].
    assert (E : s_server c' = s_server (v_conn u)).
    { destruct (match s_goaway (v_conn u) with Some sent => sent <? i | None => false end); [injection R as <- <-; auto|]. destruct (s_ctl (v_conn u)) as [ctl|]; [|injection R as <- <-; auto]. destruct (h3_to_bytes _ _) as [w|e|]; [|injection R as <- <-; auto..]. destruct (capacity (v_conn u) ctl) as [cap|e|]; [|injection R as <- <-; auto..]. destruct (_ <? _); [injection R as <- <-; auto|].
      cbn [sends] in R. unfold stream_send in R. destruct (match s_w (v_conn u) ctl with Some w => Ok w | None => _ end) as [w0|e|]; [|injection R as <- <-; auto..]. destruct (write_to ctl w0 (wr_out w) false) as [[n|e|] w1]; injection R as <- <-; auto. }
    rewrite E. unfold i in M. destruct (s_server (v_conn u)); auto. cbn [andb] in M. apply negb_false_iff in M. lia.
  - destruct (send_priority id ur i (v_conn u)) as [r c']. cbn [v_ctl]. destruct (ok_of r); auto. unfold goaways. rewrite flat_map_app. cbn. rewrite app_nil_r. exact hr.
Qed.
