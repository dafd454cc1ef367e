(** What the application gets is in order; frame sequences. *)
Require Import Verif.Base Verif.Errors Verif.OctetsModel Verif.OctetsSpec Verif.OctetsProofs Verif.StreamsModel Verif.QpackModel Verif.H3FrameModel Verif.H3FrameSpec Verif.H3FrameProofs Verif.H3ConnModel Verif.H3ConnSpec Verif.H3ConnSpec2 Verif.H3ConnProofs Verif.H3ConnProofs2 Verif.H3ConnProofs5 Verif.H3ConnProofs6 Verif.H3ConnProofs7 Verif.H3ConnProofs8.

(** ** The application never gets a failure as a token *)
Lemma got_step_clean u o k : existsb is_fail (u_got u k) = false -> existsb is_fail (u_got (h_step u o) k) = false.
Proof.
  intros h. unfold h_step. destruct o as [id bs fin mark|id code|id|ids|id room|id|id|id]; cbn [u_got]; auto.
  - destruct (accepts id (u_conn u)); auto.
  - destruct (poll ids (u_conn u)) as [r c]. cbn [u_got]. unfold got_event, add_to. destruct r as [[i []]|e|]; auto. destruct (k =? i); auto. rewrite existsb_app, h. auto.
  - destruct (exists_in _ id); auto. destruct (recv_body id room (u_conn u)) as [r c]. cbn [u_got]. unfold got_body, add_to. destruct r as [bs|e|]; auto. destruct (k =? id); auto. rewrite existsb_app, h. cbn. induction bs; auto.
  - destruct (is_some _); auto.
  - destruct (may_request _); auto. destruct (_ && _); auto.
Qed.
Lemma got_clean ops : forall u k, existsb is_fail (u_got u k) = false -> existsb is_fail (u_got (h_run u ops) k) = false.
Proof. induction ops as [|o ops IH]; intros u k h; auto. cbn. apply IH. apply got_step_clean. auto. Qed.
Lemma clean_quiet_inj a b x y : existsb is_fail a = false -> existsb is_fail b = false -> quiet x -> quiet y -> a ++ x = b ++ y -> a = b.
Proof.
  revert b. induction a as [|t a IH]; intros b ha hb hx hy h.
  - destruct b as [|t b]; auto. cbn in h. destruct hx as [-> |(e & ->)]; [discriminate h|]. injection h as <- _. cbn in hb. discriminate hb.
  - destruct b as [|t' b].
    + cbn in h. destruct hy as [-> |(e & ->)]; [discriminate h|]. injection h as -> _. cbn in ha. discriminate ha.
    + cbn in h. injection h as <- h. f_equal. cbn in ha, hb. apply orb_false_iff in ha as (_ & ha). apply orb_false_iff in hb as (_ & hb). eapply IH; eauto.
Qed.

Section Run.
Context (server : bool) (mfss : option Z) (mfss_ok : match mfss with Some n => 0 <= n | None => True end).
Notation run maxp dgram bidi ops := (h_run (h_init server mfss maxp dgram bidi) ops).
Theorem got_prefix maxp dgram bidi ops k : Forall hop_ok ops -> is_bidi k = true ->
  exists x, says_all (cfg_of server mfss k) (u_all (run maxp dgram bidi ops) k) = u_got (run maxp dgram bidi ops) k ++ x.
Proof.
  intros ho hb. destruct (run_inv_all server mfss mfss_ok maxp dgram bidi ops ho) as (g & hs).
  destruct (hs k hb) as [((h1 & h2) & -> & ->)|[(s & seen & h1 & h2 & -> & h3)|[(_ & _ & x & h & _)|(h1 & (s & h2 & h3) & h4)]]].
  - eexists. reflexivity.
  - rewrite <- h3. eexists. reflexivity.
  - eauto.
  - destruct (h4 []) as (x & hx). rewrite app_nil_r in hx. eauto.
Qed.
Theorem got_complete maxp dgram bidi ops k : let u := run maxp dgram bidi ops in Forall hop_ok ops -> is_bidi k = true ->
  u_reset u k = false -> u_bad u = false -> data_of (c_q (u_conn u)) k = [] -> exists x, says_all (cfg_of server mfss k) (u_all u k) = u_got u k ++ x /\ quiet x.
Proof.
  intros u ho hb hr hbad hd. destruct (run_inv_all server mfss mfss_ok maxp dgram bidi ops ho) as (g & hs). fold u in g, hs.
  destruct (hs k hb) as [((h1 & h2) & -> & ->)|[(s & seen & h1 & h2 & -> & h3)|[(_ & _ & x & h & hq)|(h1 & _)]]].
  - rewrite hd. exists []. split; auto. left. auto.
  - rewrite hd. rewrite <- h3. eexists. split; [reflexivity|]. eapply (wf_quiet server mfss (is_local k server)); eauto.
  - exists x. rewrite hr, hbad in hq. auto.
  - rewrite (g_bad _ _ _ _ _ g h1) in hbad. discriminate hbad.
Qed.
End Run.

(** ** The order of what the application gets from a stream the peer opened *)
Definition stage (p : phase) (st : Z) : Prop :=
  (st = 0 /\ p_start p = false /\ p_trail p = false) \/ (p_start p = true /\ p_trail p = false /\ (st = 1 \/ (st = 2 /\ p_body p = true))) \/ (p_start p = true /\ p_trail p = true /\ (st = 1 \/ st = 3)).
Lemma in_order_prefix a b : forall st, in_order st (a ++ b) = true -> in_order st a = true.
Proof.
  induction a as [|t a IH]; intros st h; auto. destruct t as [l|x|e]; cbn [app in_order] in *.
  - destruct (st =? 2); auto. destruct (st =? 3); auto.
  - apply andb_true_iff in h as (h1 & h2). rewrite h1. cbn. auto.
  - destruct a; auto; discriminate h.
Qed.
Lemma bytes_order l r st : in_order 2 r = true -> (st = 1 \/ st = 2) -> (l = [] -> in_order st r = true) -> in_order st (map KByte l ++ r) = true.
Proof.
  revert st. induction l as [|x l IH]; intros st h hst h0; cbn; auto. destruct hst as [-> | ->]; cbn; apply IH; auto.
Qed.
Lemma parse_order g : r_local g = false -> forall fuel p b st, stage p st -> in_order st (parse_frames fuel g p b) = true.
Proof.
  intros hl. induction fuel as [|fuel IH]; intros p b st hs; cbn [parse_frames]; auto. unfold on_type. destruct (rd_varint b) as [[ty b1]|]; auto.
  destruct (next_phase g p ty) as [p1|] eqn:NP; auto. unfold on_len. destruct (rd_varint b1) as [[len b2]|]; auto. destruct (length_error g ty len); auto.
  unfold next_phase in NP. destruct (control_type ty); [discriminate NP|]. rewrite hl in NP.
  destruct (ty =? 0) eqn:T0; [|destruct ((ty =? 1) || (ty =? 5)) eqn:T1].
  - replace (ty =? 1) with false in NP by lia. destruct (negb (p_start p) || p_trail p) eqn:PS; [discriminate NP|]. apply orb_false_iff in PS as (PS & PT). apply negb_false_iff in PS. injection NP as <-.
    assert (S2 : stage (mkPhase true true (p_trail p) (p_count p)) 2) by (right; left; cbn; auto).
    assert (hst : st = 1 \/ st = 2) by (destruct hs as [(h & h1 & _)|[(_ & _ & [h|(h & _)])|(_ & h & _)]]; auto; congruence).
    unfold on_data, on_skip. apply bytes_order; auto.
    + destruct (zlen b2 <? len); auto.
    + intros _. destruct (zlen b2 <? len); auto. apply IH. right. left. cbn. split; auto. split; auto. destruct hst; auto.
  - unfold on_payload. destruct (zlen b2 <? len); auto. destruct (ty =? 1) eqn:T2.
    + destruct (read_section g p1 _) as [l|e]; auto. cbn [in_order].
      destruct (negb (p_start p)) eqn:PS.
      * apply negb_true_iff in PS. injection NP as <-. assert (st = 0 /\ p_trail p = false) as (-> & hpt) by (destruct hs as [(h & _ & h1)|[(h & _)|(h & _)]]; auto; congruence). cbn. apply IH. right. left. cbn. auto.
      * apply negb_false_iff in PS. destruct (p_trail p) eqn:PT; [discriminate NP|]. assert (hst : st = 1 \/ (st = 2 /\ p_body p = true)) by (destruct hs as [(_ & h & _)|[(_ & _ & h)|(_ & h & _)]]; auto; congruence).
        destruct (p_body p) eqn:PB; injection NP as <-.
        -- destruct hst as [-> |(-> & _)]; cbn; apply IH; right; right; cbn; auto.
        -- destruct hst as [-> |(_ & h)]; [|discriminate h]. cbn. apply IH. right. left. cbn. auto.
    + injection NP as <-. destruct (read_promise g _); auto.
  - replace (ty =? 1) with false in NP by lia. injection NP as <-. unfold on_skip. destruct (zlen b2 <? len); auto.
Qed.
Lemma says_order g b : r_local g = false -> in_order 0 (says_all g b) = true.
Proof. intros h. apply parse_order; auto. left. auto. Qed.
Lemma headers_app a b : headers_in (a ++ b) = headers_in a + headers_in b.
Proof. unfold headers_in. rewrite filter_app, zlen_app. auto. Qed.
Lemma headers_bytes l : headers_in (map KByte l) = 0.
Proof. induction l; auto. Qed.
Lemma parse_count g : r_server g = true -> forall fuel p b, 0 <= p_count p <= 2 -> headers_in (parse_frames fuel g p b) <= 2 - p_count p.
Proof.
  intros hsv. induction fuel as [|fuel IH]; intros p b hp; cbn [parse_frames]; [change (headers_in []) with 0; lia|].
  assert (HN : headers_in [] <= 2 - p_count p) by (change (headers_in []) with 0; lia). assert (HE : forall e, headers_in [KFail e] <= 2 - p_count p) by (intros; change (headers_in [KFail e]) with 0; lia).
  unfold on_type. destruct (rd_varint b) as [[ty b1]|]; auto. destruct (next_phase g p ty) as [p1|] eqn:NP; auto. unfold on_len. destruct (rd_varint b1) as [[len b2]|]; auto. destruct (length_error g ty len); auto.
  assert (hc : p_count p1 = p_count p).
  { unfold next_phase in NP. repeat (match type of NP with (if ?x then _ else _) = _ => destruct x end); try discriminate NP; injection NP as <-; auto. }
  rewrite <- hc in *. destruct (ty =? 0) eqn:T0; [|destruct ((ty =? 1) || (ty =? 5)) eqn:T1].
  - unfold on_data, on_skip. rewrite headers_app, headers_bytes. destruct (zlen b2 <? len); [lia|]. specialize (IH p1 (drop len b2) hp). lia.
  - unfold on_payload. destruct (zlen b2 <? len); auto. destruct (ty =? 1).
    + unfold read_section. rewrite hsv. cbn [andb]. destruct (p_count p1 =? 2) eqn:PC; auto. destruct (qpack_decode _ _) as [l|e|]; auto.
      * change (KHeaders l :: ?r) with ([KHeaders l] ++ r). rewrite headers_app. change (headers_in [KHeaders l]) with 1. assert (h : 0 <= p_count (counted p1) <= 2) by (unfold counted, u64_max; cbn; lia). specialize (IH (counted p1) (drop len b2) h).
        unfold counted, u64_max in IH; cbn [p_count] in IH. unfold counted, u64_max; cbn [p_count]. lia.
      * destruct e; auto.
    + destruct (read_promise g _); auto.
  - unfold on_skip. destruct (zlen b2 <? len); auto.
Qed.
Lemma says_count g b : r_server g = true -> headers_in (says_all g b) <= 2.
Proof. intros h. pose proof (parse_count g h (S (length b)) phase_new b ltac:(cbn; lia)) as P. unfold says_all. cbn [p_count phase_new] in P. lia. Qed.

(** ** Whole frames *)
Definition at_stage (p : phase) : Z := if negb (p_start p) then 0 else if p_trail p then 3 else if p_body p then 2 else 1.
Lemma drop_frame p (r : list Z) : drop (zlen p) (p ++ r) = r /\ take (zlen p) (p ++ r) = p /\ (zlen (p ++ r) <? zlen p) = false.
Proof.
  unfold drop, take, zlen. rewrite Nat2Z.id. split; [|split].
  - rewrite skipn_app, skipn_all, Nat.sub_diag. auto.
  - rewrite firstn_app, firstn_all, Nat.sub_diag. cbn. apply app_nil_r.
  - rewrite app_length. lia.
Qed.
Lemma frames_sequence g : r_local g = false -> forall fs p, Forall on_wire fs -> (p_trail p = true -> p_start p = true /\ p_body p = true) -> (p_body p = true -> p_start p = true) ->
  existsb is_fail (parsed g p (concat (map w_bs fs))) = false ->
  in_sequence (at_stage p) (map w_ty fs) = true /\ forallb (fun ty => negb (control_type ty)) (map w_ty fs) = true.
Proof.
  intros hl. induction fs as [|[ty bs pay] fs IH]; intros p hw i1 i2 h; cbn [map in_sequence forallb]; auto. cbn [w_ty].
  apply Forall_inv in hw as h1. apply Forall_inv_tail in hw as h2. destruct h1 as (t & n & q1 & q2 & hbs). cbn [w_bs w_ty w_pay] in hbs, q1, q2. cbn [map concat w_bs] in h. subst bs.
  rewrite parsed_eq in h. unfold on_type in h. rewrite <- !app_assoc in h. rewrite (rd_varint_app t ty _ q1) in h.
  destruct (next_phase g p ty) as [p1|] eqn:NP; [|discriminate h]. unfold on_len in h. rewrite (rd_varint_app n _ _ q2) in h. destruct (length_error g ty (zlen pay)); [discriminate h|].
  destruct (drop_frame pay (concat (map w_bs fs))) as (d1 & d2 & d3).
  assert (hp : exists p2, existsb is_fail (parsed g p2 (concat (map w_bs fs))) = false /\ at_stage p2 = at_stage p1 /\ p_start p2 = p_start p1 /\ p_body p2 = p_body p1 /\ p_trail p2 = p_trail p1).
  { destruct (ty =? 0); [|destruct ((ty =? 1) || (ty =? 5))].
    - unfold on_data, on_skip in h. rewrite d3, d1 in h. rewrite existsb_app in h. apply orb_false_iff in h as (_ & h). exists p1. auto.
    - unfold on_payload in h. rewrite d3, d1, d2 in h. destruct (ty =? 1).
      + destruct (read_section g p1 pay); [|discriminate h]. exists (counted p1). auto.
      + destruct (read_promise g pay); [discriminate h|]. exists p1. auto.
    - unfold on_skip in h. rewrite d3, d1 in h. exists p1. auto. }
  destruct hp as (p2 & hp & es & e1 & e2 & e3). unfold next_phase in NP. destruct (control_type ty) eqn:CT; [discriminate NP|]. cbn [negb andb]. rewrite hl in NP.
  assert (X : (p_trail p1 = true -> p_start p1 = true /\ p_body p1 = true) -> (p_body p1 = true -> p_start p1 = true) -> in_sequence (at_stage p1) (map w_ty fs) = true /\ forallb (fun ty => negb (control_type ty)) (map w_ty fs) = true).
  { intros g1 g2. rewrite <- es. apply IH; auto; rewrite ?e1, ?e2, ?e3; auto. }
  destruct (ty =? 1) eqn:T1; [|destruct (ty =? 0) eqn:T0].
  - destruct (negb (p_start p)) eqn:PS.
    + injection NP as <-. apply negb_true_iff in PS. assert (PB : p_body p = false) by (destruct (p_body p); auto; rewrite i2 in PS; auto). assert (PT : p_trail p = false) by (destruct (p_trail p); auto; destruct (i1 eq_refl); congruence).
      unfold at_stage in *. rewrite PS. cbn [negb Z.eqb]. cbn [p_start p_trail p_body negb] in X. rewrite PB, PT in X. apply X; discriminate.
    + apply negb_false_iff in PS. destruct (p_trail p) eqn:PT; [discriminate NP|]. unfold at_stage in *. rewrite PS, PT. cbn [negb]. destruct (p_body p) eqn:PB; injection NP as <-.
      * cbn [Z.eqb]. cbn in X. apply X; auto.
      * cbn [Z.eqb]. rewrite PS, PT, PB in X. cbn in X. apply X; discriminate.
  - destruct (negb (p_start p) || p_trail p) eqn:PS; [discriminate NP|]. apply orb_false_iff in PS as (PS & PT). apply negb_false_iff in PS. injection NP as <-.
    unfold at_stage in *. rewrite PS, PT in *. cbn [negb p_start p_trail p_body] in *. cbn in X. destruct (p_body p); cbn; apply X; auto; discriminate.
  - injection NP as <-. apply X; auto.
Qed.
Lemma says_sequence g fs : r_local g = false -> Forall on_wire fs -> existsb is_fail (says_all g (concat (map w_bs fs))) = false ->
  in_sequence 0 (map w_ty fs) = true /\ forallb (fun ty => negb (control_type ty)) (map w_ty fs) = true.
Proof. intros hl hw h. apply (frames_sequence g hl fs phase_new hw); try discriminate. exact h. Qed.
