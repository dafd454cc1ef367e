(** The control stream: SETTINGS first and once; GOAWAY never goes up. *)
Require Import Verif.Base Verif.Errors Verif.OctetsModel Verif.StreamsModel Verif.QpackModel Verif.H3FrameModel Verif.H3FrameProofs Verif.H3ConnModel Verif.H3ConnSpec Verif.H3ConnProofs Verif.H3ConnProofs2 Verif.H3ConnProofs3 Verif.H3ConnProofs4 Verif.H3ConnProofs5 Verif.H3ConnProofs6 Verif.H3ConnProofs7 Verif.H3ConnProofs8.

Definition same_core (s s' : hs) : Prop := h_ty s' = h_ty s /\ h_rinit s' = h_rinit s /\ h_fty s' = h_fty s /\ h_st s' = h_st s.
Lemma core_refl s : same_core s s.
Proof. repeat split. Qed.
Lemma core_trans a b c : same_core a b -> same_core b c -> same_core a c.
Proof. intros (h1 & h2 & h3 & h4) (g1 & g2 & g3 & g4). repeat split; congruence. Qed.
Lemma core_trig s t : same_core s (set_trig s t).
Proof. repeat split. Qed.
Lemma core_pos s buf cap len off : same_core s (set_pos s (h_st s) buf cap len off).
Proof. repeat split. Qed.
Lemma core_like s s' : like s s' -> same_core s s'.
Proof. intros (v & l & ->). repeat split. Qed.
Ltac core1 := first [apply core_refl|apply core_trig|apply core_pos|eapply core_trans; [apply core_pos|apply core_trig]|eapply core_trans; [apply core_pos|apply core_pos]|eapply core_trans; [eapply core_trans; [apply core_pos|apply core_pos]|apply core_trig]].
Lemma fill_loop_core id : forall fuel s q r s' q', fill_loop fuel id s q = (r, s', q') -> same_core s s'.
Proof.
  induction fuel as [|fuel IH]; intros s q r s' q' h; cbn [fill_loop] in h; [injection h as <- <- <-; apply core_refl|].
  set (cap := if h_cap s - zlen (h_buf s) <=? 0 then _ else _) in h. set (s1 := set_pos s (h_st s) (h_buf s) cap (h_len s) (h_off s)) in h.
  assert (h1 : same_core s s1) by apply core_pos. destruct (stream_recv q id _) as [[[bs fin]|e|] q1].
  - set (s2 := set_pos s1 (h_st s1) _ _ _ _) in h. assert (h2 : same_core s s2) by (eapply core_trans; [exact h1|apply core_pos]).
    destruct (critical s2 fin); [destruct (h_close _ q1); injection h as <- <- <-; auto|].
    destruct (zlen bs <? _); destruct (complete s2); [injection h as <- <- <-; auto|injection h as <- <- <-; eapply core_trans; [exact h2|apply core_trig]|injection h as <- <- <-; auto|].
    apply IH in h. eapply core_trans; eauto.
  - assert (h2 : same_core s (set_trig s1 false)) by (eapply core_trans; [exact h1|apply core_trig]).
    destruct e; try (injection h as <- <- <-; assumption). destruct (critical s1 true); [destruct (h_close _ q1)|]; injection h as <- <- <-; assumption.
  - injection h as <- <- <-. auto.
Qed.
Lemma try_fill_core id s q r s' q' : try_fill id s q = (r, s', q') -> same_core s s'.
Proof. unfold try_fill. destruct (complete s); intros h; [injection h as <- <- <-; apply core_refl|]. eapply fill_loop_core; eauto. Qed.
Lemma consume_varint_core s r s' : consume_varint s = (r, s') -> same_core s s'.
Proof.
  unfold consume_varint. intros h. destruct (h_off s =? 1).
  - destruct (h_buf s) as [|x l]; [injection h as <- <-; apply core_refl|]. destruct (varint_parse_len x); [|injection h as <- <-; apply core_refl].
    destruct (negb (complete _)); [injection h as <- <-; apply core_pos|]. destruct (rd_varint _) as [[v t]|]; injection h as <- <-; apply core_pos.
  - destruct (negb (complete s)); [injection h as <- <-; apply core_refl|]. destruct (rd_varint _) as [[v t]|]; injection h as <- <-; apply core_refl.
Qed.
Lemma read_varint_core id s c : c_str c id = Some s ->
  match read_varint id s c with
  | inl (_, c') => exists s' q', at_id id c c' s' q' /\ same_core s s'
  | inr (_, s', c') => exists q', at_id id c c' s' q' /\ same_core s s'
  end.
Proof.
  intros hs0. unfold read_varint. destruct (try_fill id s (c_q c)) as [[r s1] q1] eqn:F. apply try_fill_core in F.
  assert (hat : at_id id c (with_str c id (Some s1) q1) s1 q1) by (eapply at_with, at_refl; eauto).
  destruct r as [u|e|]; [|eauto|eauto]. destruct (consume_varint s1) as [r2 s2] eqn:C. apply consume_varint_core in C.
  assert (hat2 : at_id id c (with_str (with_str c id (Some s1) q1) id (Some s2) q1) s2 q1) by (eapply at_with; eauto).
  assert (h2 : same_core s s2) by (eapply core_trans; eauto). destruct r2; [exists q1|exists s2, q1|exists s2, q1]; auto.
Qed.

(** ** What the control stream is waiting for *)
Definition reading (s : hs) : Prop := h_st s = StLen \/ h_st s = StPayload.
Definition cstate (raw : option (list (Z * Z))) (s : hs) : Prop :=
  match raw with
  | None => (h_rinit s = false /\ h_st s = StFrame) \/ (h_rinit s = true /\ h_fty s = Some 4 /\ reading s)
  | Some _ => h_rinit s = true /\ (reading s -> h_fty s <> Some 4)
  end.
Definition raw_of (c : conn) := s_raw (c_peer c).
Record one_ok (c : conn) (k : Z) (s : hs) : Prop := mkOne {
  oo_ctl : h_ty s = Some TControl -> c_ctl c = Some k /\ cstate (raw_of c) s;
  oo_new : h_ty s = None -> h_rinit s = false;
  oo_req : h_ty s = Some TRequest -> reading s -> forall ty, h_fty s = Some ty -> never_on_request ty = false;
  oo_push : h_ty s <> Some TPush;
  oo_fr : reading s -> framed s = true;
  oo_st : h_st s = StType -> h_ty s = None;
  oo_np : h_st s <> StPush }.
Definition up (c : conn) : Prop := q_err (c_q c) = None /\ q_down (c_q c) = false.
Definition ctl_ok (c : conn) : Prop := up c -> (forall k s, c_str c k = Some s -> one_ok c k s) /\ (c_ctl c = None -> raw_of c = None).
Definition goaway_le (c c' : conn) : Prop :=
  match c_goaway c, c_goaway c' with
  | Some o, Some n => n <= o
  | Some _, None => False
  | None, _ => True
  end.
Record keep (c c' : conn) : Prop := mkKeep {
  kp_raw : up c' -> raw_of c <> None -> c_peer c' = c_peer c;
  kp_go : goaway_le c c';
  kp_id : c_server c = false -> c_goaway c' = c_goaway c \/ exists i, c_goaway c' = Some i /\ i mod 4 = 0;
  kp_srv : c_server c' = c_server c;
  kp_up : up c' -> up c }.
Definition K (c c' : conn) : Prop := ctl_ok c -> ctl_ok c' /\ keep c c'.
Lemma goaway_refl c c' : c_goaway c' = c_goaway c -> goaway_le c c'.
Proof. unfold goaway_le. intros ->. destruct (c_goaway c); auto. lia. Qed.
Lemma keep_trans c c1 c2 : keep c c1 -> keep c1 c2 -> keep c c2.
Proof.
  intros [h1 h2 h3 h4 h5] [g1 g2 g3 g4 g5]. constructor; try congruence; auto.
  - intros he h. specialize (h1 (g5 he) h). rewrite g1; auto. unfold raw_of. rewrite h1. auto.
  - unfold goaway_le in *. destruct (c_goaway c), (c_goaway c1), (c_goaway c2); auto; try lia; tauto.
  - intros h. destruct (h3 h) as [e|(i & e & hi)]; destruct (g3 ltac:(congruence)) as [e2|(j & e2 & hj)]; [left; congruence|right; eauto|right; exists i; split; congruence|right; eauto].
Qed.
Lemma K_trans c c1 c2 : K c c1 -> K c1 c2 -> K c c2.
Proof. intros h g hc. destruct (h hc) as (h1 & h2). destruct (g h1) as (g1 & g2). split; auto. eapply keep_trans; eauto. Qed.
Definition ctl_event (r : res herr (Z * hevent)) (c' : conn) : Prop :=
  up c' ->
  match r with
  | Ok (i, EvGoAway) => raw_of c' <> None /\ c_goaway c' = Some i
  | Ok (_, EvPriority) => raw_of c' <> None
  | _ => True
  end.

Lemma one_setting_raw id v s s' : one_setting id v s = Ok s' -> s_raw s' <> None.
Proof.
  unfold one_setting. intros h. repeat (match type of h with (if ?x then _ else _) = _ => destruct x end); try discriminate h; injection h as <-; cbn; discriminate.
Qed.
Lemma settings_loop_raw : forall fuel len bs s s', settings_loop fuel len bs s = Ok s' -> s_raw s <> None -> s_raw s' <> None.
Proof.
  induction fuel as [|fuel IH]; intros len bs s s' h h0; cbn [settings_loop] in h; destruct (len <=? 0); try discriminate h; try (injection h as <-; auto).
  destruct (hv bs) as [[i b1]|e|] eqn:E1; cbn [bind] in h; try discriminate h. destruct (hv b1) as [[v b2]|e|] eqn:E2; cbn [bind] in h; try discriminate h.
  destruct (one_setting i v s) as [s1|e|] eqn:E3; cbn [bind] in h; try discriminate h. apply IH in h; auto. eapply one_setting_raw; eauto.
Qed.
Definition frame_ty (f : hframe) (ty : Z) : Prop :=
  match f with HSettings p => ty = 4 /\ s_raw p <> None | HGoAway _ => ty = 7 | HPriorityRequest _ _ => ty = T_PRIO_REQUEST | _ => ty <> 4 end.
Lemma frame_of_ty ty n bs f : h3_from_bytes ty n bs = Ok f -> frame_ty f ty.
Proof.
  unfold h3_from_bytes. intros h. unfold frame_ty.
  repeat (match type of h with (if ?x then _ else _) = _ => let E := fresh "E" in destruct x eqn:E; [apply Z.eqb_eq in E|apply Z.eqb_neq in E] end);
  try (match type of h with bind ?x _ = _ => destruct x as [[? ?]|?|]; cbn [bind] in h; try discriminate h; injection h as <- end; subst; try (unfold T_DATA, T_HEADERS, T_CANCEL_PUSH, T_PUSH_PROMISE, T_GOAWAY, T_MAX_PUSH, T_PRIO_PUSH in *; auto; discriminate); auto).
  all: try (unfold T_DATA, T_HEADERS, T_CANCEL_PUSH, T_PUSH_PROMISE, T_GOAWAY, T_MAX_PUSH, T_PRIO_PUSH, T_SETTINGS in *; auto; fail).
  unfold parse_settings in h. destruct (_ <? _); try discriminate h. destruct (settings_loop _ _ _ _) as [s|e|] eqn:L; cbn [bind] in h; try discriminate h.
  injection h as <-. split; auto. apply settings_loop_raw in L; auto. cbn. discriminate.
Qed.

(** ** The transport *)
Definition tle (q q' : tr) : Prop := (q_err q' = None -> q_err q = None) /\ q_down q' = q_down q.
Lemma tle_refl q : tle q q.
Proof. split; auto. Qed.
Lemma tle_trans a b c : tle a b -> tle b c -> tle a c.
Proof. intros (h1 & h2) (g1 & g2). split; auto. congruence. Qed.
Lemma tle_put q id t : tle q (q_put q id t).
Proof. unfold q_put. repeat (match goal with |- context [if ?x then _ else _] => destruct x end); split; auto. Qed.
Lemma tle_recv q id n : tle q (snd (stream_recv q id n)).
Proof.
  unfold stream_recv. destruct (negb _ && _); [apply tle_refl|]. destruct (q_str q id) as [t|]; [|apply tle_refl]. destruct (negb (t_ready t)); [apply tle_refl|].
  destruct (t_rst t); [apply tle_put|]. repeat (match goal with |- context [if ?x then _ else _] => destruct x end); solve [apply tle_put|apply tle_refl].
Qed.
Lemma tle_stop q id : tle q (stream_stop q id).
Proof. unfold stream_stop. destruct (q_str q id) as [t|]; [|apply tle_refl]. destruct (t_drain t); split; auto. Qed.
Lemma tle_close w e q : tle q (snd (close_with w e q)).
Proof. unfold close_with. destruct (_ || _); [apply tle_refl|]. split; cbn; auto. discriminate. Qed.
Lemma close_down w e q : ~ (q_err (snd (close_with w e q)) = None /\ q_down (snd (close_with w e q)) = false).
Proof. unfold close_with. destruct (q_down q) eqn:D; cbn; [intros (_ & h); congruence|]. destruct (q_err q) eqn:Q; cbn; intros (h & _); congruence. Qed.
Lemma fill_loop_tle id : forall fuel s q r s' q', fill_loop fuel id s q = (r, s', q') -> tle q q'.
Proof.
  induction fuel as [|fuel IH]; intros s q r s' q' h; cbn [fill_loop] in h; [injection h as <- <- <-; apply tle_refl|].
  set (cap := if h_cap s - zlen (h_buf s) <=? 0 then _ else _) in h. set (s1 := set_pos s (h_st s) (h_buf s) cap (h_len s) (h_off s)) in h.
  pose proof (tle_recv q id (Z.min (h_len s - h_off s) (cap - zlen (h_buf s)))) as T. destruct (stream_recv q id _) as [[[bs fin]|e|] q1]; cbn [snd] in T.
  - set (s2 := set_pos s1 (h_st s1) _ _ _ _) in h.
    destruct (critical s2 fin); [pose proof (tle_close (to_wire HClosedCriticalStream) HClosedCriticalStream q1) as T2; unfold h_close in h; destruct (close_with _ _ q1); cbn [snd] in T2; injection h as <- <- <-; eapply tle_trans; eauto|].
    destruct (zlen bs <? _); destruct (complete s2); try (injection h as <- <- <-; assumption).
    apply IH in h. eapply tle_trans; eauto.
  - destruct e; try (injection h as <- <- <-; assumption). destruct (critical s1 true); [|injection h as <- <- <-; assumption].
    pose proof (tle_close (to_wire HClosedCriticalStream) HClosedCriticalStream q1) as T2; unfold h_close in h; destruct (close_with _ _ q1); cbn [snd] in T2; injection h as <- <- <-; eapply tle_trans; eauto.
  - injection h as <- <- <-. auto.
Qed.
Lemma try_fill_tle id s q r s' q' : try_fill id s q = (r, s', q') -> tle q q'.
Proof. unfold try_fill. destruct (complete s); intros h; [injection h as <- <- <-; apply tle_refl|]. eapply fill_loop_tle; eauto. Qed.
Lemma skip_frame_core id s q r s' q' : skip_frame id s q = (r, s', q') ->
  tle q q' /\ h_ty s' = h_ty s /\ h_rinit s' = h_rinit s /\ h_fty s' = h_fty s /\ (h_st s' = h_st s \/ h_st s' = StFrame).
Proof.
  unfold skip_frame. set (X := if complete s then _ else _).
  assert (HX : forall r1 s1 q1, X = (r1, s1, q1) -> tle q q1 /\ same_core s s1).
  { unfold X. intros r1 s1 q1. destruct (complete s); [intros h; injection h as <- <- <-; split; [apply tle_refl|apply core_refl]|].
    pose proof (tle_recv q id (h_len s - h_off s)) as T. destruct (stream_recv q id _) as [[[bs fin]|e|] q2]; cbn [snd] in T.
    - destruct (critical s fin).
      + pose proof (tle_close (to_wire HClosedCriticalStream) HClosedCriticalStream q2) as T2. unfold h_close. destruct (close_with _ _ q2) as [e2 q3]. cbn [snd] in T2. intros h; injection h as <- <- <-. split; [eapply tle_trans; eauto|apply core_refl].
      + destruct (complete _); intros h; injection h as <- <- <-; split; auto; repeat split.
    - destruct e; try (intros h; injection h as <- <- <-; split; [assumption|repeat split]; fail). destruct (critical s true); [|intros h; injection h as <- <- <-; split; auto; apply core_refl].
      pose proof (tle_close (to_wire HClosedCriticalStream) HClosedCriticalStream q2) as T2. unfold h_close. destruct (close_with _ _ q2) as [e2 q3]. cbn [snd] in T2. intros h; injection h as <- <- <-. split; [eapply tle_trans; eauto|apply core_refl].
    - intros h; injection h as <- <- <-. split; auto. apply core_refl. }
  destruct X as [[r1 s1] q1]. destruct (HX _ _ _ eq_refl) as (h1 & h2 & h3 & h4 & h5). destruct r1 as [u|e|]; intros h.
  - cbn in h. injection h as <- <- <-. split; auto.
  - injection h as <- <- <-. repeat split; auto; apply h1.
  - injection h as <- <- <-. repeat split; auto; apply h1.
Qed.

(** ** Updates of one stream *)
Definition sat (id : Z) (c c' : conn) (s : hs) : Prop := at_id id c c' s (c_q c') /\ tle (c_q c) (c_q c').
Lemma up_tle c c' : tle (c_q c) (c_q c') -> up c' -> up c.
Proof. intros (h1 & h2) (g1 & g2). split; auto. congruence. Qed.
Lemma ctl_at id c c' s : sat id c c' s -> (up c' -> one_ok c id s) -> K c c'.
Proof.
  intros ([a1 a2 a3 a4 (f1 & f2 & f3 & f4 & f5 & f6)] & T) ho hc. assert (ho' : forall k sk, one_ok c k sk -> one_ok c' k sk).
  { intros k sk [o1 o2 o3 o4 o5 o6 o7]. constructor; auto. unfold raw_of. rewrite f2, f3. auto. }
  split.
  - intros hu. destruct (hc (up_tle _ _ T hu)) as (h1 & h2). split.
    + intros k sk hk. apply ho'. destruct (Z.eq_dec k id) as [-> |hne]; [|apply h1; rewrite a2 in hk; auto]. rewrite a1 in hk. injection hk as <-. auto.
    + unfold raw_of. rewrite f2, f3. auto.
  - constructor; auto; [apply goaway_refl; auto|apply a4|apply up_tle; auto].
Qed.
Lemma one_core c id s s' : same_core s s' -> one_ok c id s -> one_ok c id s'.
Proof.
  intros (h1 & h2 & h3 & h4) [o1 o2 o3 o4 o5 o6 o7]. unfold reading, framed in *. constructor; unfold reading, framed; rewrite ?h1, ?h2, ?h3, ?h4; auto.
  intros h. destruct (o1 h) as (h5 & h6). split; auto. unfold cstate, reading in *. rewrite h2, h3, h4. auto.
Qed.
Lemma sat_core id c c' s s' : c_str c id = Some s -> sat id c c' s' -> same_core s s' -> K c c'.
Proof.
  intros hs hat hco hc. eapply ctl_at; eauto. intros hu. eapply one_core; eauto. apply (hc (up_tle _ _ (proj2 hat) hu)). auto.
Qed.
Lemma K_down c c' : ~ up c' -> c_goaway c' = c_goaway c -> c_server c' = c_server c -> K c c'.
Proof. intros h h1 h2 _. split; [intros g; tauto|]. constructor; try tauto. apply goaway_refl; auto. Qed.
Lemma fail_down w e c : ~ up (snd (fail_as w e c)).
Proof. unfold fail_as. pose proof (close_down w e (c_q c)) as D. destruct (close_with w e (c_q c)) as [e' q']. exact D. Qed.
Lemma fail_fields w e c : c_goaway (snd (fail_as w e c)) = c_goaway c /\ c_server (snd (fail_as w e c)) = c_server c.
Proof. unfold fail_as. destruct (close_with w e (c_q c)) as [e' q']. auto. Qed.
Lemma fail_not_ok w e c ev : fst (fail_as w e c) <> Ok ev.
Proof. unfold fail_as. destruct (close_with w e (c_q c)) as [e' q']. discriminate. Qed.
Lemma K_fail c w e c1 : c_goaway c1 = c_goaway c -> c_server c1 = c_server c -> K c (snd (fail_as w e c1)).
Proof. intros h1 h2. destruct (fail_fields w e c1) as (f1 & f2). apply K_down; [apply fail_down|congruence|congruence]. Qed.
Lemma read_varint_K id s c : c_str c id = Some s ->
  match read_varint id s c with
  | inl (o, c') => K c c' /\ match o with Stop (Ok _) => False | _ => True end
  | inr (_, s', c') => sat id c c' s' /\ same_core s s'
  end.
Proof.
  intros hs0. unfold read_varint. destruct (try_fill id s (c_q c)) as [[r s1] q1] eqn:F. pose proof (try_fill_tle _ _ _ _ _ _ F) as T. apply try_fill_core in F.
  assert (hat : sat id c (with_str c id (Some s1) q1) s1) by (split; [eapply at_with, at_refl; eauto|exact T]).
  destruct r as [u|e|]; [|split; auto; eapply sat_core; eauto|split; auto; eapply sat_core; eauto]. destruct (consume_varint s1) as [r2 s2] eqn:C. apply consume_varint_core in C.
  assert (hat2 : sat id c (with_str (with_str c id (Some s1) q1) id (Some s2) q1) s2) by (split; [eapply at_with; eapply at_with, at_refl; eauto|exact T]).
  assert (h2 : same_core s s2) by (eapply core_trans; eauto). destruct r2; [auto| |]; (split; [eapply sat_core; eauto|auto]).
Qed.
Definition step_ok (c : conn) (o : turn * conn) : Prop :=
  K c (snd o) /\ (ctl_ok c -> match fst o with Stop r => ctl_event r (snd o) | Again => True end).
Lemma step_ok_stop c o c' : K c c' -> match o with Stop (Ok _) => False | _ => True end -> step_ok c (o, c').
Proof. intros h1 h2. split; auto. destruct o as [|[]]; cbn; auto; [tauto|intros _ _; auto|intros _ _; auto]. Qed.
Lemma advance_ok id c c1 s1 r s2 : sat id c c1 s1 -> r <> Panic -> (r = Ok tt -> up c1 -> ctl_ok c -> one_ok c id s2) -> step_ok c (advance id (r, s2) c1).
Proof.
  intros (hat & T) hp h. unfold advance. destruct r as [[]|e|].
  - apply step_ok_stop; auto. intros hc. eapply (ctl_at id _ _ s2); auto. split; [eapply at_with; eauto|exact T].
  - unfold fail. pose proof (K_fail c (to_wire e) e (with_str c1 id (Some s2) (c_q c1)) ltac:(apply (at_rest _ _ _ _ _ hat)) ltac:(apply (at_cfg _ _ _ _ _ hat))) as P.
    pose proof (fail_not_ok (to_wire e) e (with_str c1 id (Some s2) (c_q c1))) as N. destruct (fail_as _ _ _) as [r c']. apply step_ok_stop; auto. destruct r; auto. exact (N _ eq_refl).
  - congruence.
Qed.

Lemma frame_type_ok c id s v s2 : one_ok c id s -> h_st s = StFrame -> set_frame_type s v = (Ok tt, s2) -> one_ok c id s2.
Proof.
  intros [o1 o2 o3 o4 o5 o6 o7] hst h. unfold set_frame_type, allow_frame in h. destruct (h_ty s) as [[]|] eqn:TY; try discriminate h.
  - destruct (o1 eq_refl) as (c1 & c2). destruct (h_rinit s) eqn:RI; cbn [negb] in h.
    + destruct ((v =? T_SETTINGS) || (v =? T_DATA) || (v =? T_HEADERS) || (v =? T_PUSH_PROMISE)) eqn:EV; [discriminate h|]. cbn in h. injection h as <-.
      apply orb_false_iff in EV as (EV & _). apply orb_false_iff in EV as (EV & _). apply orb_false_iff in EV as (EV & _). unfold T_SETTINGS in EV.
      constructor; unfold framed; cbn; rewrite ?TY; auto; try discriminate. intros _. split; auto. unfold cstate, reading in *. cbn. destruct (raw_of c).
      * split; [auto|]. intros _ hh. injection hh as ->. discriminate EV.
      * destruct c2 as [(c2 & _)|(_ & _ & [c2|c2])]; congruence.
    + destruct (v =? T_SETTINGS) eqn:EV; [|discriminate h]. cbn in h. injection h as <-. unfold T_SETTINGS in EV. assert (v = 4) by lia. subst v.
      constructor; unfold framed; cbn; rewrite ?TY; auto; try discriminate. intros _. split; auto. unfold cstate, reading in *. cbn. destruct (raw_of c); [destruct c2; congruence|].
      right. auto.
  - destruct (request_frame s v) as [[[]|e|] s1] eqn:RF; try discriminate h. cbn in h. injection h as <-.
    assert (never_on_request v = false /\ h_ty s1 = h_ty s) as (hn & ht).
    { unfold request_frame in RF. destruct (never_on_request v); [discriminate RF|]. split; auto. repeat (match type of RF with context [if ?x then _ else _] => destruct x end); try discriminate RF; injection RF as <-; auto. }
    constructor; unfold framed; cbn; rewrite ?ht, ?TY; auto; try discriminate. intros _ _ ty hty. injection hty as <-. auto.
  - exfalso. apply o4. auto.
Qed.
Lemma frame_type_np s v : fst (set_frame_type s v) <> Panic.
Proof.
  unfold set_frame_type. assert (fst (allow_frame s v) <> Panic) as h.
  { unfold allow_frame, request_frame. destruct (h_ty s) as [[]|]; repeat (match goal with |- context [if ?x then _ else _] => destruct x end); cbn; discriminate. }
  destruct (allow_frame s v) as [[[]|e|] s1]; cbn in *; congruence.
Qed.
Lemma payload_len_ok c id s v s2 : one_ok c id s -> h_st s = StLen -> set_payload_len s v = (Ok tt, s2) -> one_ok c id s2.
Proof.
  intros [o1 o2 o3 o4 o5 o6 o7] hst h. unfold set_payload_len in h. destruct (negb (framed s)) eqn:FR; [discriminate h|]. unfold framed in FR.
  assert (G : forall st len b, goto s st len b = (Ok tt, s2) -> (st = StPayload \/ (st = StData \/ st = StSkip) /\ h_fty s <> Some 4) -> one_ok c id s2).
  { intros st len bb hg hcase. unfold goto in hg. destruct (bb && _); [discriminate hg|]. injection hg as <-. constructor; unfold framed; cbn; auto.
    - intros ht. destruct (o1 ht) as (c1 & c2). split; auto. unfold cstate, reading in *. cbn. rewrite hst in *. destruct (raw_of c).
      + destruct c2 as (c2 & c3). split; auto.
      + destruct c2 as [(_ & c2)|(c2 & c3 & _)]; [discriminate c2|]. right. destruct hcase as [-> |(_ & h4)]; auto. congruence.
    - intros ht hr ty hf. apply o3; auto. left. auto.
    - intros _. destruct (h_ty s) as [[]|]; auto; discriminate FR.
    - intros hh. destruct hcase as [-> |([-> | ->] & _)]; discriminate hh.
    - intros hh. destruct hcase as [-> |([-> | ->] & _)]; discriminate hh. }
  destruct (h_fty s) as [ty|] eqn:FT.
  - destruct (payload_plan s ty v) as [[st bb]|e|] eqn:PP; try discriminate h. eapply G; eauto. clear G. unfold payload_plan, T_SETTINGS, T_DATA in PP.
    repeat (match type of PP with (if ?x then _ else _) = _ => let E := fresh "E" in destruct x eqn:E end); try discriminate PP; injection PP as <- <-; auto; right; (split; [auto|]); intros hh; injection hh as ->; try discriminate.
  - destruct (MAX_STATE_BUF <? v); [discriminate h|]. eapply G; eauto. right. split; auto. discriminate.
Qed.
Lemma payload_len_np s v : fst (set_payload_len s v) <> Panic.
Proof.
  unfold set_payload_len. assert (G : forall st len bb, fst (goto s st len bb) <> Panic) by (intros; unfold goto; destruct (bb && _); discriminate).
  destruct (negb (framed s)); [discriminate|]. destruct (h_fty s) as [ty|].
  - destruct (payload_plan s ty v) as [[st bb]|e|] eqn:PP; auto; [discriminate|]. exfalso. unfold payload_plan in PP.
    repeat (match type of PP with (if ?x then _ else _) = _ => destruct x end); discriminate PP.
  - destruct (MAX_STATE_BUF <? v); auto. discriminate.
Qed.

(** ** Frames *)
Lemma one_of c id s : up c -> ctl_ok c -> c_str c id = Some s -> one_ok c id s.
Proof. intros hu hc hs. apply (hc hu). auto. Qed.
Lemma new_ok c k local : one_ok c k (new_stream c k local).
Proof. unfold new_stream, hs_new, reading. destruct (is_bidi k); constructor; unfold reading; cbn; try discriminate; auto; try (intros _ [h|h]; discriminate h); intros [h|h]; discriminate h. Qed.
Lemma one_like c k s s' : like s s' -> one_ok c k s -> one_ok c k s'.
Proof. intros h. apply one_core. apply core_like. auto. Qed.
Definition is_ctl (f : hframe) : bool := match f with HSettings _ | HGoAway _ | HPriorityRequest _ _ => true | _ => false end.
(** [s0] before the frame was consumed, [s] after *)
Lemma process_ok id f c c1 s0 s ty : c_str c id = Some s0 -> sat id c c1 s -> h_st s0 = StPayload -> h_fty s0 = Some ty -> frame_ty f ty ->
  h_ty s = h_ty s0 -> h_rinit s = h_rinit s0 -> h_fty s = h_fty s0 -> h_st s = StFrame -> step_ok c (let '(r, c2) := process_frame id f c1 in (Stop r, c2)).
Proof.
  intros hs0 hsat hst hfty hf e1 e2 e3 e4. pose proof hsat as (hat & T). pose proof (at_rest _ _ _ _ _ hat) as (f1 & f2 & f3 & f4 & f5 & f6). pose proof (at_cfg _ _ _ _ _ hat) as (f7 & _). pose proof (at_self _ _ _ _ _ hat) as hs1.
  assert (HF : forall w e c2, c_goaway c2 = c_goaway c -> c_server c2 = c_server c -> step_ok c (let '(r, c3) := fail_as w e c2 in (Stop r, c3))).
  { intros w e c2 g1 g2. pose proof (K_fail c w e c2 g1 g2) as P. pose proof (fail_not_ok w e c2) as N. destruct (fail_as w e c2) as [r c3]. apply step_ok_stop; auto. destruct r; auto. exact (N _ eq_refl). }
  assert (NC : is_ctl f = false -> up c1 -> ctl_ok c -> one_ok c id s).
  { intros hn hu hc. pose proof (one_of c id s0 (up_tle _ _ T hu) hc hs0) as [o1 o2 o3 o4 o5 o6 o7]. constructor; rewrite ?e1, ?e2; auto.
    - intros ht. destruct (o1 ht) as (c2 & c3). split; auto. unfold cstate, reading in *. rewrite e2, e4, hst in *. destruct (raw_of c).
      + destruct c3 as (c3 & _). split; auto. intros [h|h]; discriminate h.
      + destruct c3 as [(_ & c3)|(_ & c3 & _)]; [discriminate c3|]. rewrite hfty in c3. injection c3 as ->. destruct f; try discriminate hn; cbn in hf; congruence.
    - intros _ [h|h]; congruence.
    - intros [h|h]; congruence.
    - rewrite e4; discriminate.
    - rewrite e4; discriminate. }
  assert (KN : is_ctl f = false -> forall c2, at_id id c c2 s (c_q c2) -> c_q c2 = c_q c1 -> K c c2).
  { intros hn c2 h1 h2 hc. eapply (ctl_at id _ _ s); auto.
    - split; auto. rewrite h2. auto.
    - intros hu. apply NC; auto. unfold up in *. rewrite h2 in hu. auto. }
  (* a control frame is on the control stream *)
  assert (CT : is_ctl f = true -> up c1 -> ctl_ok c -> h_ty s0 = Some TControl /\ c_ctl c = Some id /\ h_rinit s0 = true /\ (match f with HSettings _ => raw_of c = None | _ => raw_of c <> None end)).
  { intros hn hu hc. pose proof (one_of c id s0 (up_tle _ _ T hu) hc hs0) as [o1 o2 o3 o4 o5 o6 o7]. pose proof (o5 (or_intror hst)) as hfr. unfold framed in hfr. destruct (h_ty s0) as [[]|] eqn:TY; try discriminate hfr; try (exfalso; apply o4; reflexivity).
    - destruct (o1 eq_refl) as (c2 & c3). unfold cstate, reading in c3. rewrite hst in c3. destruct (raw_of c) eqn:RW.
      + destruct c3 as (c3 & c4). specialize (c4 (or_intror eq_refl)). repeat split; auto; destruct f; try discriminate hn; try discriminate. cbn in hf. destruct hf as (-> & _). congruence.
      + destruct c3 as [(_ & c3)|(c4 & c3 & _)]; [discriminate c3|]. rewrite hfty in c3. injection c3 as ->. repeat split; auto; destruct f; try discriminate hn; auto; cbn in hf; discriminate hf.
    - exfalso. specialize (o3 eq_refl (or_intror hst) ty hfty). destruct f; try discriminate hn; cbn in hf; unfold never_on_request in o3.
      + destruct hf as (-> & _). discriminate o3.
      + subst ty. discriminate o3.
      + subst ty. discriminate o3. }
  destruct f as [p|block|p|st|pid block|gid|p|pid v|pid v|t p]; cbn [process_frame].
  - apply step_ok_stop; [apply KN; auto|auto].
  - rewrite hs1. destruct (c_server c1 && (h_count s =? 2)); [apply HF; auto|].
    assert (KH : K c (with_str c1 id (Some (set_count s (Z.min u64_max (h_count s + 1)))) (c_q c1))).
    { intros hc. eapply (ctl_at id _ _ (set_count s _)); auto; [split; [eapply at_with; eauto|exact T]|]. intros hu. eapply one_core; [|apply NC; auto]. repeat split. }
    destruct (qpack_decode _ _) as [l|[]|]; try (apply HF; auto).
    + split; [exact KH|]. cbn. intros _ _. exact I.
    + apply step_ok_stop; auto.
  - apply step_ok_stop; [apply KN; auto|auto].
  - assert (KS : K c (with_peer c1 st)).
    { intros hc. split.
      - intros hu. destruct (CT eq_refl hu hc) as (t1 & t2 & t3 & t4). destruct (hc (up_tle _ _ T hu)) as (h1 & h2). split; [|cbn; rewrite f3, t2; discriminate].
        cbn in hf. destruct hf as (-> & hraw). intros k sk hk. cbn [with_peer c_str] in hk. destruct (Z.eq_dec k id) as [-> |hne].
        + rewrite hs1 in hk. injection hk as <-. constructor; rewrite ?e1, ?e2, ?t1; try discriminate; try (intros [hh|hh]; congruence); try (rewrite e4; discriminate). intros _. cbn [with_peer c_ctl]. rewrite f3. split; auto. unfold cstate, reading, raw_of. cbn [with_peer c_peer]. rewrite e2, e4.
          destruct (s_raw st); [|congruence]. split; auto. intros [h|h]; discriminate h.
        + rewrite (at_other _ _ _ _ _ hat k hne) in hk. destruct (h1 k sk hk) as [o1 o2 o3 o4 o5 o6 o7]. constructor; auto. intros ht. destruct (o1 ht). congruence.
      - constructor; auto; [|apply goaway_refl; auto|apply up_tle; auto]. intros hu hraw. destruct (CT eq_refl hu hc) as (_ & _ & _ & h). congruence. }
    destruct (s_dgram st) as [[|[]|]|]; try (apply step_ok_stop; auto; fail).
    destruct (q_dgram (c_q (with_peer c1 st))); [apply step_ok_stop; auto|]. apply HF; auto.
  - destruct (c_server c1) eqn:SV; [apply HF; congruence|]. destruct (negb (id mod 4 =? 0)); [apply HF; congruence|]. apply step_ok_stop; [apply KN; auto|auto].
  - destruct (negb (c_server c1) && negb (gid mod 4 =? 0)) eqn:E4; [apply HF; auto|]. destruct (match c_goaway c1 with Some r => r <? gid | None => false end) eqn:EG; [apply HF; auto|].
    assert (KG : ctl_ok c -> up c1 -> ctl_ok (with_goaway c1 gid)).
    { intros hc hu _. destruct (CT eq_refl hu hc) as (t1 & t2 & t3 & t4). destruct (hc (up_tle _ _ T hu)) as (h1 & h2). split; [|cbn; rewrite f3, t2; discriminate].
      intros k sk hk. cbn [with_goaway c_str] in hk. destruct (Z.eq_dec k id) as [-> |hne].
      + rewrite hs1 in hk. injection hk as <-. constructor; rewrite ?e1, ?e2, ?t1; try discriminate; try (intros [hh|hh]; congruence); try (rewrite e4; discriminate). intros _. cbn [with_goaway c_ctl]. rewrite f3. split; auto. unfold cstate, reading, raw_of in *. cbn [with_goaway c_peer]. rewrite f2, e2, e4.
        destruct (s_raw (c_peer c)); [|congruence]. split; auto. intros [h|h]; discriminate h.
      + rewrite (at_other _ _ _ _ _ hat k hne) in hk. destruct (h1 k sk hk) as [o1 o2 o3 o4 o5 o6 o7]. constructor; auto. unfold raw_of. cbn [with_goaway c_ctl c_peer]. rewrite f2, f3. auto. }
    split.
    + intros hc. cbn [snd]. split; [intros hu; apply KG; auto|]. constructor; auto; [| |apply up_tle; auto].
      * unfold goaway_le. cbn [with_goaway c_goaway]. rewrite f6 in EG. destruct (c_goaway c); auto. lia.
      * intros hsv. right. exists gid. split; auto. rewrite f7, hsv in E4. cbn [negb andb] in E4. destruct (gid mod 4 =? 0) eqn:EM; [lia|discriminate E4].
    + cbn [fst snd]. intros hc hu. destruct (CT eq_refl hu hc) as (_ & _ & _ & h). split; [|reflexivity]. unfold raw_of in *. cbn. congruence.
  - destruct (negb (c_server c1)); [apply HF; auto|]. destruct (p <? c_push c1); [apply HF; auto|]. apply step_ok_stop; [apply KN; auto; destruct hat; constructor; auto|auto].
  - destruct (negb (c_server c1)); [apply HF; auto|]. destruct (negb (pid mod 4 =? 0)) eqn:E4; [apply HF; auto|]. destruct (_ <? pid); [apply HF; auto|].
    assert (K1 : K c c1).
    { intros hc. split.
      - intros hu. destruct (CT eq_refl hu hc) as (t1 & t2 & t3 & t4). destruct (hc (up_tle _ _ T hu)) as (h1 & h2). split; [|rewrite f3, t2; discriminate].
        intros k sk hk. destruct (Z.eq_dec k id) as [-> |hne].
        + rewrite hs1 in hk. injection hk as <-. constructor; rewrite ?e1, ?e2, ?t1; try discriminate; try (intros [hh|hh]; congruence); try (rewrite e4; discriminate). intros _. rewrite f3. split; auto. unfold cstate, reading, raw_of in *. rewrite f2, e2, e4.
          destruct (s_raw (c_peer c)); [|congruence]. split; auto. intros [h|h]; discriminate h.
        + rewrite (at_other _ _ _ _ _ hat k hne) in hk. destruct (h1 k sk hk) as [o1 o2 o3 o4 o5 o6 o7]. constructor; auto. unfold raw_of. rewrite f2, f3. auto.
      - constructor; auto; [apply goaway_refl; auto|apply up_tle; auto]. }
    destruct (stream_closed (c_q c1) pid); [apply step_ok_stop; auto|].
    set (sp := match c_str c1 pid with Some s => s | None => new_stream c1 pid false end).
    assert (K2 : K c1 (with_str c1 pid (Some (set_prio sp (Some v))) (c_q c1))).
    { intros hc. split.
      - intros hu. destruct (hc hu) as (h1 & h2). split; auto. intros k sk hk. cbn [with_str c_str] in hk. assert (O : one_ok c1 k sk -> one_ok (with_str c1 pid (Some (set_prio sp (Some v))) (c_q c1)) k sk) by (intros []; constructor; auto).
        apply O. unfold upd in hk. destruct (k =? pid) eqn:J; auto. assert (k = pid) by lia. subst k. injection hk as <-. eapply one_like; [apply like_prio|]. unfold sp. destruct (c_str c1 pid) eqn:SP; auto. apply new_ok.
      - constructor; auto. apply goaway_refl; auto. }
    assert (K3 := K_trans _ _ _ K1 K2).
    destruct (is_some (h_prio sp)); [apply step_ok_stop; auto|]. split; [exact K3|]. cbn [fst snd]. intros hc hu. destruct (CT eq_refl hu hc) as (_ & _ & _ & h). unfold raw_of in *. cbn. congruence.
  - destruct (negb (c_server c1)); [apply HF; auto|]. destruct (negb (pid mod 3 =? 0)); [apply HF; auto|]. apply step_ok_stop; [apply KN; auto|auto].
  - apply step_ok_stop; [apply KN; auto|auto].
Qed.
Lemma K_frame c c' : c_peer c' = c_peer c -> c_ctl c' = c_ctl c -> c_goaway c' = c_goaway c -> c_server c' = c_server c -> tle (c_q c) (c_q c') ->
  (forall k s', c_str c' k = Some s' -> (forall k s, c_str c k = Some s -> one_ok c k s) -> one_ok c k s') -> K c c'.
Proof.
  intros h1 h2 h3 h4 T h5 hc. split.
  - intros hu. destruct (hc (up_tle _ _ T hu)) as (g1 & g2). unfold raw_of. rewrite h1, h2. split; auto. intros k s hk. destruct (h5 k s hk g1) as [o1 o2 o3 o4 o5 o6 o7]. constructor; auto. unfold raw_of. rewrite h1, h2. auto.
  - constructor; auto; [apply goaway_refl; auto|apply up_tle; auto].
Qed.
Lemma K_q c q : tle (c_q c) q -> K c (with_q c q).
Proof. intros T. apply K_frame; auto. Qed.
Lemma K_refl c : K c c.
Proof. apply K_frame; auto. apply tle_refl. Qed.
Lemma K_set c id s' q : tle (c_q c) q -> (forall s, c_str c id = Some s -> one_ok c id s -> one_ok c id s') -> (c_str c id = None -> one_ok c id s') -> K c (with_str c id (Some s') q).
Proof.
  intros T h1 h2. apply K_frame; auto. cbn [with_str c_str]. intros k sk hk hall. unfold upd in hk. destruct (k =? id) eqn:J; auto. assert (k = id) by lia. subst k. injection hk as <-.
  destruct (c_str c id) as [s|] eqn:E; [apply (h1 s); auto|auto].
Qed.
Lemma K_none c id q : tle (c_q c) q -> K c (with_str c id None q).
Proof. intros T. apply K_frame; auto. cbn [with_str c_str]. intros k sk hk hall. unfold upd in hk. destruct (k =? id) eqn:J; auto. discriminate hk. Qed.

Lemma open_peer_ok id ty c c1 s s1 : c_str c id = Some s -> sat id c c1 s1 -> h_st s = StType -> h_rinit s1 = h_rinit s ->
  step_ok c (match advance id (set_ty s1 ty) c1 with
             | (Again, c) => match open_peer id ty c with (Ok _, c) => (Again, c) | (Err e, c) => (Stop (Err e), c) | (Panic, c) => (Stop Panic, c) end
             | o => o end).
Proof.
  intros hs0 hsat hst hri. pose proof hsat as (hat & T). pose proof (at_rest _ _ _ _ _ hat) as (f1 & f2 & f3 & f4 & f5 & f6). pose proof (at_cfg _ _ _ _ _ hat) as (f7 & _).
  assert (HR : forall e c2, c_goaway c2 = c_goaway c -> c_server c2 = c_server c -> step_ok c (let '(e', q) := h_close e (c_q c2) in (Stop (Err e'), with_q c2 q))).
  { intros e c2 g1 g2. unfold h_close. pose proof (close_down (to_wire e) e (c_q c2)) as D. destruct (close_with _ _ (c_q c2)) as [e' q']. apply step_ok_stop; auto. apply K_down; auto. }
  set (X := fun c2 : conn => c2).
  assert (HS : set_ty s1 ty = (Ok tt, snd (set_ty s1 ty)) /\ h_ty (snd (set_ty s1 ty)) = Some ty /\ (ty = TControl -> h_st (snd (set_ty s1 ty)) = StFrame /\ h_rinit (snd (set_ty s1 ty)) = h_rinit s1) /\ ~ reading (snd (set_ty s1 ty)) /\ h_st (snd (set_ty s1 ty)) <> StType /\ (ty <> TPush -> h_st (snd (set_ty s1 ty)) <> StPush)).
  { unfold set_ty, reading. destruct ty; cbn; repeat split; try discriminate; auto; intros [h|h]; discriminate h. }
  destruct HS as (HS & t1 & t2 & t3 & t4 & t5). set (s2 := snd (set_ty s1 ty)) in *. rewrite HS. cbn [advance]. set (c2 := with_str c1 id (Some s2) (c_q c1)).
  assert (OK : forall c3, c_str c3 = c_str c2 -> c_peer c3 = c_peer c2 -> c_goaway c3 = c_goaway c2 -> c_server c3 = c_server c2 -> c_q c3 = c_q c2 -> ty <> TPush ->
     (ty = TControl -> c_ctl c = None /\ c_ctl c3 = Some id) -> (ty <> TControl -> c_ctl c3 = c_ctl c2) -> step_ok c (Again, c3)).
  { intros c3 g1 g2 g3 g4 g5 g6 g7 g8. apply step_ok_stop; auto. assert (T3 : tle (c_q c) (c_q c3)) by (rewrite g5; exact T). intros hc. split.
    - intros hu. destruct (hc (up_tle _ _ T3 hu)) as (h1 & h2). assert (hraw : raw_of c3 = raw_of c) by (unfold raw_of; rewrite g2; cbn; congruence).
      assert (hctl : forall k, c_ctl c = Some k -> c_ctl c3 = Some k).
      { intros k hk. destruct ty; try (rewrite g8 by discriminate; cbn; congruence). destruct (g7 eq_refl). congruence. }
      split.
      + intros k sk hk. rewrite g1 in hk. cbn [c2 with_str c_str] in hk. destruct (Z.eq_dec k id) as [-> |hne].
        * rewrite upd_same in hk. injection hk as <-. constructor; try (rewrite t1; congruence); try tauto. rewrite t1. intros h. injection h as ->. destruct (g7 eq_refl) as (g9 & g10). split; auto. rewrite hraw, (h2 g9).
          left. destruct (t2 eq_refl) as (t6 & t7). rewrite t7, hri. split; auto. apply (h1 id s hs0). apply (h1 id s hs0). auto.
        * rewrite upd_other in hk by auto. rewrite (at_other _ _ _ _ _ hat k hne) in hk. destruct (h1 k sk hk) as [o1 o2 o3 o4 o5 o6 o7]. constructor; auto. intros h. destruct (o1 h). rewrite hraw. auto.
      + rewrite hraw. intros hn. apply h2. destruct (c_ctl c) as [k|] eqn:CC; auto. rewrite (hctl k eq_refl) in hn. discriminate hn.
    - constructor; [intros _ _; rewrite g2; exact f2|apply goaway_refl; rewrite g3; exact f6|intros _; left; rewrite g3; exact f6|rewrite g4; exact f7|apply up_tle; auto]. }
  unfold open_peer. destruct ty.
  - cbn [c2 with_str c_ctl]. rewrite f3. destruct (c_ctl c) as [k|] eqn:CC; cbn [is_some].
    + specialize (HR HStreamCreationError c2 f6 f7). change (c_q c2) with (c_q c1) in *. cbn [with_str c_q]. destruct (h_close HStreamCreationError (c_q c1)) as [e q]. exact HR.
    + destruct (stream_finished (c_q c2) id).
      * specialize (HR HClosedCriticalStream c2 f6 f7). change (c_q c2) with (c_q c1) in *. destruct (h_close HClosedCriticalStream (c_q c1)) as [e q]. exact HR.
      * apply OK; auto; try discriminate. congruence.
  - apply step_ok_stop; auto. destruct (OK c2) as (O & _); auto; try discriminate.
  - specialize (HR HStreamCreationError c2 f6 f7). change (c_q c2) with (c_q c1) in *. cbn [with_str c_q]. destruct (h_close HStreamCreationError (c_q c1)) as [e q]. exact HR.
  - destruct (is_some (c_enc c2)).
    + specialize (HR HStreamCreationError c2 f6 f7). change (c_q c2) with (c_q c1) in *. destruct (h_close HStreamCreationError (c_q c1)) as [e q]. exact HR.
    + destruct (stream_finished (c_q c2) id).
      * specialize (HR HClosedCriticalStream c2 f6 f7). change (c_q c2) with (c_q c1) in *. destruct (h_close HClosedCriticalStream (c_q c1)) as [e q]. exact HR.
      * apply OK; auto; try discriminate.
  - destruct (is_some (c_dec c2)).
    + specialize (HR HStreamCreationError c2 f6 f7). change (c_q c2) with (c_q c1) in *. destruct (h_close HStreamCreationError (c_q c1)) as [e q]. exact HR.
    + destruct (stream_finished (c_q c2) id).
      * specialize (HR HClosedCriticalStream c2 f6 f7). change (c_q c2) with (c_q c1) in *. destruct (h_close HClosedCriticalStream (c_q c1)) as [e q]. exact HR.
      * apply OK; auto; try discriminate.
  - apply OK; auto; discriminate.
Qed.
Lemma instr_K id ty : forall fuel c r c', instr_loop fuel id ty c = (r, c') -> K c c' /\ forall ev, r <> Ok ev.
Proof.
  induction fuel as [|fuel IH]; intros c r c' h; cbn [instr_loop] in h; [injection h as <- <-; split; [apply K_refl|discriminate]|].
  pose proof (tle_recv (c_q c) id 4096) as T. destruct (stream_recv (c_q c) id 4096) as [[[bs fin]|e|] q]; cbn [snd] in T; [|injection h as <- <-; split; [apply K_q; auto|discriminate]|injection h as <- <-; split; [apply K_q; auto|discriminate]].
  assert (G : forall c1, c_str c1 = c_str c -> c_q c1 = q -> c_peer c1 = c_peer c -> c_ctl c1 = c_ctl c -> c_goaway c1 = c_goaway c -> c_server c1 = c_server c -> (if fin then fail HClosedCriticalStream c1 else instr_loop fuel id ty c1) = (r, c') -> K c c' /\ forall ev, r <> Ok ev).
  { intros c1 g1 g2 g3 g4 g5 g6 hh. assert (K1 : K c c1) by (apply K_frame; auto; [rewrite g2; auto|rewrite g1; auto]). destruct fin.
    - unfold fail in hh. pose proof (K_fail c (to_wire HClosedCriticalStream) HClosedCriticalStream c1 g5 g6) as P. pose proof (fail_not_ok (to_wire HClosedCriticalStream) HClosedCriticalStream c1) as N. rewrite hh in P, N. auto.
    - destruct (IH _ _ _ hh) as (i1 & i2). split; auto. eapply K_trans; eauto. }
  destruct ty as [[]|]; try (injection h as <- <-; split; [apply K_q; auto|discriminate]); (eapply G; [ | | | | | |exact h]; reflexivity).
Qed.
Theorem step_ctl polling id s c : c_str c id = Some s -> step_ok c (step polling id s c).
Proof.
  intros hs0. unfold step. pose proof (read_varint_K id s c hs0) as RV. destruct (h_st s) eqn:ST.
  - destruct (read_varint id s c) as [[o c1]|[[v s1] c1]]; [apply step_ok_stop; apply RV|]. destruct RV as (hsat & (c1' & c2' & c3' & c4')). eapply open_peer_ok; eauto.
  - destruct (read_varint id s c) as [[o c1]|[[v s1] c1]]; [apply step_ok_stop; apply RV|]. destruct RV as (hsat & hco). destruct (set_frame_type s1 v) as [r s2] eqn:F. eapply advance_ok; eauto.
    + pose proof (frame_type_np s1 v) as N. rewrite F in N. auto.
    + intros -> hu hc. eapply frame_type_ok; [|destruct hco as (_ & _ & _ & ->); exact ST|exact F]. eapply one_core; eauto. apply one_of; auto. eapply up_tle; eauto. apply hsat.
  - destruct (read_varint id s c) as [[o c1]|[[v s1] c1]]; [apply step_ok_stop; apply RV|]. destruct RV as (hsat & hco). destruct (set_payload_len s1 v) as [r s2] eqn:F. eapply advance_ok; eauto.
    + pose proof (payload_len_np s1 v) as N. rewrite F in N. auto.
    + intros -> hu hc. eapply payload_len_ok; [|destruct hco as (_ & _ & _ & ->); exact ST|exact F]. eapply one_core; eauto. apply one_of; auto. eapply up_tle; eauto. apply hsat.
  - clear RV. destruct (negb polling); [apply step_ok_stop; auto; apply K_refl|]. destruct (try_fill id s (c_q c)) as [[r s1] q1] eqn:F. pose proof (try_fill_tle _ _ _ _ _ _ F) as T. apply try_fill_core in F.
    assert (K1 : K c (with_str c id (Some s1) q1)) by (eapply sat_core; eauto; split; [eapply at_with, at_refl; eauto|exact T]).
    destruct r as [u|e|]; [|apply step_ok_stop; auto|apply step_ok_stop; auto].
    assert (KT : K c (with_str (with_str c id (Some s1) q1) id (Some (set_trig s1 false)) q1)).
    { eapply (sat_core id _ _ s (set_trig s1 false)); [auto|split; [eapply at_with; eapply at_with, at_refl; eauto|exact T]|]. eapply core_trans; [exact F|apply core_trig]. }
    unfold consume_frame. change (h_fty (set_trig s1 false)) with (h_fty s1). destruct (h_fty s1) as [ty|] eqn:FT; [|apply step_ok_stop; auto].
    destruct (h3_from_bytes ty _ _) as [f|e|] eqn:FB; [| |apply step_ok_stop; auto].
    + change (goto (set_trig s1 false) StFrame 1 true) with (@Ok herr unit tt, set_pos (set_trig s1 false) StFrame [] (reserve (h_cap s1) 0 1) 1 0). cbv iota beta. set (s2 := set_pos (set_trig s1 false) _ _ _ _ _). set (c2 := with_str (with_str c id (Some s1) q1) id (Some s2) q1).
      destruct F as (F1 & F2 & F3 & F4). assert (hsat : sat id c c2 s2) by (split; [eapply at_with; eapply at_with, at_refl; eauto|exact T]).
      pose proof (process_ok id f c c2 s s2 ty hs0 hsat ST ltac:(congruence) (frame_of_ty _ _ _ _ FB) F1 F2 F3 eq_refl) as P.
      destruct (process_frame id f c2) as [r c3]. destruct r as [ev|e|]; auto. destruct e; auto. destruct (stream_finished (c_q c3) id); auto. apply step_ok_stop; auto. apply P.
    + assert (HF : step_ok c (let '(r, c') := fail e (with_str (with_str c id (Some s1) q1) id (Some (set_trig s1 false)) q1) in (Stop r, c'))).
      { unfold fail. set (cx := with_str _ _ _ _). pose proof (K_fail c (to_wire e) e cx eq_refl eq_refl) as P. pose proof (fail_not_ok (to_wire e) e cx) as N. destruct (fail_as (to_wire e) e cx) as [r c3]. apply step_ok_stop; auto. destruct r; auto. exact (N _ eq_refl). }
      destruct e; try exact HF. apply step_ok_stop; auto.
  - clear RV. destruct (negb polling); [apply step_ok_stop; auto; apply K_refl|]. destruct (h_trig s); [apply step_ok_stop; auto; apply K_refl|]. split.
    + cbn [snd]. eapply (sat_core id _ _ s (set_trig s true)); [auto|split; [eapply at_with, at_refl; eauto|apply tle_refl]|apply core_trig].
    + cbn. intros _ _. auto.
  - destruct (read_varint id s c) as [[o c1]|[[v s1] c1]]; [apply step_ok_stop; apply RV|]. destruct RV as (hsat & hco). eapply advance_ok; eauto; [discriminate|].
    intros _ hu hc. exfalso. apply (oo_np _ _ _ (one_of c id s ltac:(eapply up_tle; [apply hsat|auto]) hc hs0)). auto.
  - destruct (instr_loop _ id (h_ty s) c) as [r c1] eqn:I. destruct (instr_K _ _ _ _ _ _ I) as (i1 & i2). apply step_ok_stop; auto. destruct r; auto. eapply i2; eauto.
  - destruct (skip_frame id s (c_q c)) as [[r s1] q1] eqn:F. apply skip_frame_core in F as (T & F1 & F2 & F3 & F4).
    assert (K1 : K c (with_str c id (Some s1) q1)).
    { intros hc. eapply (ctl_at id _ _ s1); auto; [split; [eapply at_with, at_refl; eauto|exact T]|]. intros hu. destruct (one_of c id s (up_tle c (with_str c id (Some s1) q1) T hu) hc hs0) as [o1 o2 o3 o4 o5 o6 o7]. rewrite ST in F4.
      assert (nr : ~ reading s1) by (intros [h|h]; destruct F4; congruence). constructor; rewrite ?F1, ?F2; auto; try tauto; try (destruct F4; congruence). intros ht. destruct (o1 ht) as (g1 & g2). split; auto. unfold cstate in *. rewrite F2. destruct (raw_of c).
      - destruct g2. split; tauto.
      - destruct g2 as [(_ & g2)|(_ & _ & [g2|g2])]; congruence. }
    destruct r as [u|e|]; [destruct (stream_finished q1 id)| |]; apply step_ok_stop; auto.
  - apply step_ok_stop; auto. apply K_q. apply tle_stop.
  - apply step_ok_stop; auto. apply K_refl.
Qed.

(** ** Everything above one turn *)
Definition ropen {A} (c : conn) (o : res herr A * conn) : Prop := K c (snd o).
Definition rok (c : conn) (o : res herr (Z * hevent) * conn) : Prop := K c (snd o) /\ (ctl_ok c -> ctl_event (fst o) (snd o)).
Lemma rok_trans c c1 o : K c c1 -> rok c1 o -> rok c o.
Proof. intros h (h1 & h2). split; [eapply K_trans; eauto|]. intros hc. apply h2. apply h. auto. Qed.
Lemma rok_plain c r c' : K c c' -> match r with Ok (_, EvGoAway) | Ok (_, EvPriority) => False | _ => True end -> rok c (r, c').
Proof. intros h1 h2. split; auto. cbn. intros _ _. destruct r as [[i []]|e|]; auto; tauto. Qed.
Lemma rok_fail c c1 e : K c c1 -> rok c (fail e c1).
Proof.
  intros h. eapply rok_trans; eauto. unfold fail. pose proof (K_fail c1 (to_wire e) e c1 eq_refl eq_refl) as P. pose proof (fail_not_ok (to_wire e) e c1) as N. destruct (fail_as (to_wire e) e c1) as [r c2]. apply rok_plain; auto.
  destruct r as [[i []]|e0|]; auto; exact (N _ eq_refl).
Qed.
Lemma turns_rok polling id : forall fuel c, rok c (turns fuel polling id c).
Proof.
  induction fuel as [|fuel IH]; intros c; cbn [turns]; [apply rok_plain; auto; apply K_refl|]. destruct (c_str c id) as [s|] eqn:E; [|apply rok_plain; auto; apply K_refl].
  pose proof (step_ctl polling id s c E) as (P & Q). destruct (step polling id s c) as [[|r] c1]; cbn [fst snd] in *; [eapply rok_trans; eauto|split; auto].
Qed.
Lemma readable_rok polling id c : rok c (process_readable polling id c).
Proof.
  unfold process_readable. eapply rok_trans; [|apply turns_rok]. destruct (c_str c id) eqn:E; [apply K_refl|]. apply K_set; [apply tle_refl|congruence|]. intros _. apply new_ok.
Qed.
Lemma control_rok id c : rok c (process_control id c).
Proof.
  unfold process_control, if_finished. destruct (stream_finished (c_q c) id); [apply rok_fail; apply K_refl|]. destruct (negb (stream_readable (c_q c) id)); [apply rok_plain; auto; apply K_refl|].
  pose proof (readable_rok true id c) as P. destruct (process_readable true id c) as [r c1]. destruct r as [ev|e|]; auto. destruct e; auto. destruct (stream_finished (c_q c1) id); auto. apply rok_fail. apply P.
Qed.
Lemma finished_K id c : K c (process_finished id c).
Proof.
  unfold process_finished. destruct (c_str c id) as [s|] eqn:E; [|apply K_refl].
  assert (HD : h_ty s = Some TRequest \/ h_ty s = Some TPush -> K c (with_fin (with_str c id (Some (snd (goto s StDone 0 false))) (c_q c)) (c_fin c ++ [id]))).
  { intros ht. eapply (K_trans _ (with_str c id (Some (snd (goto s StDone 0 false))) (c_q c))); [|apply K_frame; auto; apply tle_refl].
    apply K_set; [apply tle_refl| |congruence]. intros s0 hs0 [o1 o2 o3 o4 o5 o6 o7]. assert (s0 = s) by congruence. subst s0. constructor; cbn; auto; try (intros; destruct ht; congruence); try discriminate.
    - intros _ [h|h]; discriminate h.
    - intros [h|h]; discriminate h. }
  assert (HN : K c (with_str c id None (c_q c))) by (apply K_none; apply tle_refl).
  destruct (h_st s); try apply K_refl; destruct (h_ty s) as [[]|]; auto; apply K_refl.
Qed.
Lemma remove_K id c : K c (remove_finished id c).
Proof. unfold remove_finished. destruct (c_str c id) as [s|]; [|apply K_refl]. destruct (h_lfin s); [|apply K_refl]. apply K_none. apply tle_refl. Qed.
Lemma popped_rok c : rok c (popped c).
Proof.
  unfold popped, pop_finished. destruct (c_fin c) as [|id l]; [apply rok_plain; auto; apply K_refl|].
  assert (K1 : K c (remove_finished id (with_fin c l))) by (eapply K_trans; [|apply remove_K]; apply K_frame; auto; apply tle_refl).
  set (c1 := remove_finished id (with_fin c l)) in *. destruct (stream_readable (c_q c1) id); [|apply rok_plain; auto]. pose proof (tle_recv (c_q c1) id 0) as T. destruct (stream_recv (c_q c1) id 0) as [r q]; cbn [snd] in T.
  assert (K2 : K c (with_q c1 q)) by (eapply K_trans; [exact K1|apply K_q; auto]).
  destruct r as [|e|]; try (apply rok_plain; auto; fail). destruct e; apply rok_plain; auto.
Qed.
Lemma streams_rok : forall ids c, rok c (poll_streams ids c).
Proof.
  induction ids as [|id ids IH]; intros c; cbn [poll_streams]; [apply rok_plain; auto; apply K_refl|]. pose proof (readable_rok true id c) as P. destruct (process_readable true id c) as [r c1].
  assert (KF : K c1 (if stream_finished (c_q c1) id then process_finished id c1 else c1)) by (destruct (stream_finished (c_q c1) id); [apply finished_K|apply K_refl]).
  assert (PF : forall c2 c3, c_peer (process_finished c2 c3) = c_peer c3 /\ c_goaway (process_finished c2 c3) = c_goaway c3 /\ c_q (process_finished c2 c3) = c_q c3).
  { intros i c3. unfold process_finished. destruct (c_str c3 i) as [s|]; auto. destruct (h_st s); auto; destruct (h_ty s) as [[]|]; auto. }
  destruct r as [ev|e|]; auto.
  - destruct P as (P1 & P2). split; [eapply K_trans; eauto|]. cbn [fst snd] in *. intros hc. specialize (P2 hc). destruct (stream_finished (c_q c1) id); auto. destruct (PF id c1) as (e1 & e2 & e3). unfold ctl_event, up, raw_of in *. rewrite e1, e2, e3. auto.
  - destruct e; auto.
    + eapply rok_trans; [|apply IH]. eapply K_trans; [apply P|auto].
    + destruct e; auto. apply rok_plain; auto. eapply K_trans; [apply P|apply remove_K].
Qed.
Lemma or_else_rok c o k : rok c o -> (forall c1, rok c1 (k c1)) -> rok c (or_else o k).
Proof. destruct o as [r c1]. unfold or_else. intros h hk. destruct r as [ev|e|]; auto. destruct e; auto. eapply rok_trans; [apply h|auto]. Qed.
Theorem poll_rok ids c : rok c (poll ids c).
Proof.
  unfold poll. destruct (is_some (q_err (c_q c))); [apply rok_plain; auto; apply K_refl|].
  assert (HC : forall o c, rok c (control_of o c)) by (intros [i|] c0; [apply control_rok|apply rok_plain; auto; apply K_refl]).
  apply or_else_rok; auto. intros c1. apply or_else_rok; auto. intros c2. apply or_else_rok; auto. intros c3. apply or_else_rok; [apply popped_rok|]. intros c4. apply or_else_rok; [apply streams_rok|]. apply popped_rok.
Qed.
Lemma consume_data_core id s q n r s' q' : consume_data id s q n = (r, s', q') -> h_st s = StData -> tle q q' /\ h_ty s' = h_ty s /\ h_rinit s' = h_rinit s /\ (h_st s' = StData \/ h_st s' = StFrame).
Proof.
  unfold consume_data. intros h hst. pose proof (tle_recv q id (Z.min n (h_len s - h_off s))) as T. destruct (stream_recv q id _) as [[[bs fin]|e|] q1]; cbn [snd] in T.
  - destruct (stream_readable q1 id); destruct (complete _); injection h as <- <- <-; cbn; auto.
  - destruct e; injection h as <- <- <-; cbn; auto.
  - injection h as <- <- <-; auto.
Qed.
Lemma body_K id : forall fuel room acc c, K c (snd (body_loop fuel id room acc c)).
Proof.
  induction fuel as [|fuel IH]; intros room acc c; cbn [body_loop]; destruct (room <=? 0); try apply K_refl. destruct (c_str c id) as [s|] eqn:E; [|apply K_refl].
  destruct (h_st s) eqn:ST; try apply K_refl. destruct (consume_data id s (c_q c) room) as [[r s1] q1] eqn:C. destruct (consume_data_core _ _ _ _ _ _ _ C ST) as (T & h1 & h2 & h3).
  set (c1 := with_str c id (Some s1) q1).
  assert (K1 : K c c1).
  { apply K_set; [exact T| |congruence]. intros s0 hs0 [o1 o2 o3 o4 o5 o6 o7]. assert (s0 = s) by congruence. subst s0. assert (nr : ~ reading s1) by (intros [h|h]; destruct h3; congruence).
    constructor; rewrite ?h1, ?h2; auto; try tauto.
    - intros ht. destruct (o1 ht) as (g1 & g2). split; auto. unfold cstate in *. rewrite h2. destruct (raw_of c); [destruct g2; split; tauto|]. destruct g2 as [(_ & g2)|(_ & _ & [g2|g2])]; congruence.
    - destruct h3; congruence.
    - destruct h3; congruence. }
  destruct r as [[bs fin]|e|]; [|destruct e; exact K1|exact K1]. destruct (is_nil bs || fin); [exact K1|]. pose proof (readable_rok false id c1) as (P & _). destruct (process_readable false id c1) as [r2 c2]. cbn [snd] in P. assert (K2 := K_trans _ _ _ K1 P).
  destruct r2 as [ev|e|]; auto. destruct e; auto. destruct (stream_finished (c_q c2) id); auto. eapply K_trans; [exact K2|apply IH].
Qed.
Theorem recv_body_K id room c : K c (snd (recv_body id room c)).
Proof.
  unfold recv_body. set (fuel := S _). pose proof (body_K id fuel room [] c) as P. destruct (body_loop fuel id room [] c) as [r c1]; cbn [snd] in P. destruct r as [acc|e|]; auto. cbn [snd]. destruct (stream_finished (c_q c1) id); auto. eapply K_trans; [exact P|apply finished_K].
Qed.
Lemma tle_mk q a b1 c d e : tle q (mkQ a b1 (q_err q) (q_down q) c d e).
Proof. split; auto. Qed.
Theorem step_K u o : K (u_conn u) (u_conn (h_step u o)).
Proof.
  unfold h_step. set (c := u_conn u). destruct o as [id bs fin mark|id code|id|ids|id room|id|id|id].
  - destruct (accepts id c); [|apply K_refl]. cbn [u_conn]. apply K_q. unfold deliver. destruct (q_gone (c_q c) id); [apply tle_refl|]. destruct (_ || _); [apply tle_refl|]. apply tle_mk.
  - cbn [u_conn]. apply K_q. unfold peer_reset. destruct (q_str (c_q c) id) as [t|]; [|apply tle_refl]. destruct (is_some (t_rst t)); [apply tle_refl|]. apply tle_mk.
  - cbn [u_conn]. apply K_q. unfold sent_all. destruct (q_str (c_q c) id) as [t|]; [|apply tle_refl]. destruct (t_ready _); [apply tle_mk|apply tle_put].
  - pose proof (poll_rok ids c) as (P & _). destruct (poll ids c) as [r c1]. exact P.
  - destruct (exists_in (c_q c) id); [|apply K_refl]. pose proof (recv_body_K id room c) as P. destruct (recv_body id room c) as [r c1]. exact P.
  - destruct (is_some (q_str (c_q c) id)); [|apply K_refl]. cbn [u_conn].
    assert (K1 : K c (with_q c (sent_fin id (c_q c)))) by (apply K_q; unfold sent_fin; destruct (q_str (c_q c) id); [apply tle_mk|apply tle_refl]).
    eapply K_trans; [exact K1|]. set (c1 := with_q c _). unfold finish_local. destruct (c_str c1 id) as [s|] eqn:E; [|apply K_refl]. destruct (stream_finished (c_q c1) id); [apply K_none; apply tle_refl|].
    apply K_set; [apply tle_refl| |congruence]. intros s0 hs0 ho. assert (s0 = s) by congruence. subst s0. eapply one_like; [apply like_lfin|auto].
  - destruct (may_request c); try apply K_refl. destruct (_ && _); [|apply K_refl]. cbn [u_conn]. eapply K_trans; [apply (K_q c (with_new (c_q c) id)); apply tle_mk|]. set (c1 := with_q c _).
    unfold open_request. apply K_set; [apply tle_refl| |]; intros; apply new_ok.
  - cbn [u_conn]. unfold take_priority. destruct (c_str c id) as [s|] eqn:E; [|apply K_refl]. cbn [snd]. apply K_set; [apply tle_refl| |congruence]. intros s0 hs0 ho. assert (s0 = s) by congruence. subst s0. eapply one_like; [apply like_prio|auto].
Qed.
Theorem run_K ops : forall u, K (u_conn u) (u_conn (h_run u ops)).
Proof. induction ops as [|o ops IH]; intros u; [apply K_refl|]. cbn [h_run fold_left]. eapply K_trans; [apply step_K|apply IH]. Qed.
Lemma ctl_init server mfss maxp dgram bidi : ctl_ok (u_conn (h_init server mfss maxp dgram bidi)).
Proof. intros _. split; [discriminate|]. reflexivity. Qed.
Theorem run_ctl server mfss maxp dgram bidi ops : ctl_ok (u_conn (h_run (h_init server mfss maxp dgram bidi) ops)).
Proof. apply run_K. apply ctl_init. Qed.
