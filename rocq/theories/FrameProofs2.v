(** Soundness and totality of the decoder, and the encoder. *)
Require Import Verif.Base Verif.Errors Verif.RangesModel Verif.RangesProofs Verif.RangesProofs2.
Require Import Verif.OctetsModel Verif.OctetsSpec Verif.OctetsProofs Verif.OctetsProofs2 Verif.FrameModel Verif.FrameSpec Verif.FrameProofs.

Definition parsed (ty : Z) (b : list Z) (r : res error (frame * list Z)) : Prop :=
  match r with
  | Ok (f, rest) => exists l, b = l ++ rest /\ frame_body ty l rest f /\ bytes_ok rest
  | Err _ => True
  | Panic => False
  end.

(** Read the next field of the goal, with what is known about it. *)
Tactic Notation "rdv" ident(l) ident(v) ident(b) ident(q) ident(hb) :=
  match goal with
  | hb0 : bytes_ok ?b0 |- context [bind (get_v ?b0) _] =>
      let E := fresh "E" in
      destruct (get_v b0) as [[v b]|?|] eqn:E; cbn [bind]; [|exact I|destruct (get_v_np _ E)];
      destruct (get_v_ok _ _ _ hb0 E) as (l & -> & q & hb)
  end.
Tactic Notation "rdn" ident(d) ident(b) ident(ed) ident(hd) ident(hb) :=
  match goal with
  | hb0 : bytes_ok ?b0 |- context [bind (get_n ?n ?b0) _] =>
      let E := fresh "E" in
      destruct (get_n n b0) as [[d b]|?|] eqn:E; cbn [bind]; [|exact I|destruct (get_n_np _ _ E)];
      let H := fresh in
      assert (H : bind (get_n n b0) (fun x => Ok x) = Ok (d, b)) by (rewrite E; reflexivity);
      apply get_n_bind in H; [|try lia|exact hb0];
      let d' := fresh in let b' := fresh in let e := fresh in
      destruct H as (d' & b' & -> & ed & hd & hb & e); injection e as -> ->
  end.
Tactic Notation "rdl" ident(l) ident(d) ident(b) ident(q) ident(hb) :=
  match goal with
  | hb0 : bytes_ok ?b0 |- context [bind (get_lv ?b0) _] =>
      let E := fresh "E" in
      destruct (get_lv b0) as [[d b]|?|] eqn:E; cbn [bind]; [|exact I|destruct (get_lv_np _ E)];
      let H := fresh in
      assert (H : bind (get_lv b0) (fun x => Ok x) = Ok (d, b)) by (rewrite E; reflexivity);
      apply get_lv_bind in H; [|exact hb0];
      let d' := fresh in let b' := fresh in let e := fresh in
      destruct H as (l & d' & b' & -> & q & hb & e); injection e as -> ->
  end.

Lemma get_n_all b : get_n (zlen b) b = Ok (b, []).
Proof. pose proof (get_n_app (zlen b) b [] eq_refl) as h. rewrite app_nil_r in h. exact h. Qed.

Lemma parse_stream_sound ty b : bytes_ok b -> 8 <= ty <= 15 -> parsed ty b (parse_stream_frame ty b).
Proof.
  intros hb ht. unfold parse_stream_frame.
  assert (et : exists o l f : bool, ty = 8 + (if o then 4 else 0) + (if l then 2 else 0) + (if f then 1 else 0)).
  { exists (Z.testbit ty 2), (Z.testbit ty 1), (Z.odd ty).
    assert (ty = 8 \/ ty = 9 \/ ty = 10 \/ ty = 11 \/ ty = 12 \/ ty = 13 \/ ty = 14 \/ ty = 15) as [-> |[-> |[-> |[-> |[-> |[-> |[-> | ->]]]]]]] by lia; reflexivity. }
  destruct et as (o & hl & f & ->). destruct (testbit_cases o hl f) as (_ & t1 & t2 & t3). cbv zeta in *. rewrite t1, t2, t3. clear t1 t2 t3 ht.
  rdv lid id b1 q1 hb1.
  assert (ho : exists loff off b2, (if o then get_v b1 else Ok (0, b1)) = Ok (off, b2) /\ b1 = loff ++ b2 /\ bytes_ok b2 /\ 0 <= off /\
     (if o then qvarint loff off else loff = [] /\ off = 0) \/ exists e, (if o then get_v b1 else Ok (0, b1)) = Err e).
  { destruct o.
    - destruct (get_v b1) as [[off b2]|e|] eqn:E1; [|exists [], 0, []; right; eauto|destruct (get_v_np _ E1)].
      destruct (get_v_ok _ _ _ hb1 E1) as (loff & -> & q2 & hb2). exists loff, off, b2. left. pose proof (qvarint_bound _ _ q2). ands; auto. lia.
    - exists [], 0, b1. left. ands; auto. lia. }
  destruct ho as (loff & off & b2 & [(e1 & -> & hb2 & hoff & ho)|(e & e1)]); rewrite e1; cbn [bind]; [|exact I].
  unfold MAX_STREAM_SIZE. destruct hl.
  - rdv ln len b3 q3 hb3. destruct (2 ^ 62 <=? off + len) eqn:E2; [exact I|].
    pose proof (qvarint_bound _ _ q3). rdn d b4 ed hd hb4. cbn [parsed].
    exists (lid ++ loff ++ (ln ++ d)). split; [rewrite <- !app_assoc; reflexivity|]. split; auto.
    apply (BStream o true f); auto; [exists ln; rewrite ed; auto|lia].
  - cbn [bind]. destruct (2 ^ 62 <=? off + zlen b2) eqn:E2; [exact I|].
    rewrite get_n_all. cbn [bind parsed].
    exists (lid ++ loff ++ b2). split; [rewrite <- !app_assoc, app_nil_r; reflexivity|]. split; [|constructor].
    apply (BStream o false f); auto. lia.
Qed.

Lemma parse_datagram_sound ty b : bytes_ok b -> (ty = 48 \/ ty = 49) -> parsed ty b (parse_datagram_frame ty b).
Proof.
  intros hb ht. unfold parse_datagram_frame. destruct ht as [-> | ->]; cbn [Z.odd].
  - cbn [bind]. rewrite get_n_all. cbn [bind parsed].
    exists b. split; [rewrite app_nil_r; auto|]. split; [|constructor]. apply (BDatagram false). auto.
  - rdv ln len b1 q hb1. pose proof (qvarint_bound _ _ q). rdn d b2 ed hd hb2. cbn [parsed].
    exists (ln ++ d). split; [rewrite <- app_assoc; auto|]. split; auto. apply (BDatagram true). exists ln. rewrite ed. auto.
Qed.

Lemma parse_frame_sound ty b : bytes_ok b -> parsed ty b (parse_frame ty b).
Proof.
  intros hb. unfold parse_frame. cbv zeta.
  destruct (ty =? 0) eqn:T; [apply Z.eqb_eq in T; subst ty|clear T].
  { destruct (pad_loop b 1) as [n rest] eqn:E. destruct (pad_loop_inv _ _ _ _ E) as (k & -> & h1 & ->). cbn [parsed].
    exists (repeat 0 k). split; auto. apply bytes_ok_app in hb as (_ & hb). split; auto. apply BPadding. auto. }
  destruct (ty =? 1) eqn:T; [apply Z.eqb_eq in T; subst ty|clear T].
  { exists []. split; auto. split; auto. constructor. }
  destruct ((ty =? 2) || (ty =? 3)) eqn:T; [|clear T].
  { apply parse_ack_sound; auto. apply orb_true_iff in T. lia. }
  destruct (ty =? 4) eqn:T; [apply Z.eqb_eq in T; subst ty|clear T].
  { rdv l1 x b1 q1 hb1. rdv l2 y b2 q2 hb2. rdv l3 z b3 q3 hb3. exists (l1 ++ l2 ++ l3). rewrite <- !app_assoc. ands; auto. constructor; auto. }
  destruct (ty =? 5) eqn:T; [apply Z.eqb_eq in T; subst ty|clear T].
  { rdv l1 x b1 q1 hb1. rdv l2 y b2 q2 hb2. exists (l1 ++ l2). rewrite <- !app_assoc. ands; auto. constructor; auto. }
  destruct (ty =? 6) eqn:T; [apply Z.eqb_eq in T; subst ty|clear T].
  { rdv l1 x b1 q1 hb1. rdl l2 d b2 q2 hb2. exists (l1 ++ l2). rewrite <- !app_assoc. ands; auto. constructor; auto. }
  destruct (ty =? 7) eqn:T; [apply Z.eqb_eq in T; subst ty|clear T].
  { rdv l1 n b1 q1 hb1. destruct (n =? 0) eqn:En; [exact I|]. pose proof (qvarint_bound _ _ q1). rdn d b2 ed hd hb2.
    exists (l1 ++ d). rewrite <- !app_assoc. ands; auto. constructor; [exists l1; rewrite ed; auto|].
    intros ->. change (zlen (@nil Z)) with 0 in ed. lia. }
  destruct ((8 <=? ty) && (ty <=? 15)) eqn:T; [|clear T].
  { apply parse_stream_sound; auto. apply andb_true_iff in T. lia. }
  destruct (ty =? 16) eqn:T; [apply Z.eqb_eq in T; subst ty|clear T].
  { rdv l1 x b1 q1 hb1. exists l1. ands; auto. constructor; auto. }
  destruct (ty =? 17) eqn:T; [apply Z.eqb_eq in T; subst ty|clear T].
  { rdv l1 x b1 q1 hb1. rdv l2 y b2 q2 hb2. exists (l1 ++ l2). rewrite <- !app_assoc. ands; auto. constructor; auto. }
  destruct (ty =? 18) eqn:T; [apply Z.eqb_eq in T; subst ty|clear T].
  { rdv l1 x b1 q1 hb1. exists l1. ands; auto. constructor; auto. }
  destruct (ty =? 19) eqn:T; [apply Z.eqb_eq in T; subst ty|clear T].
  { rdv l1 x b1 q1 hb1. exists l1. ands; auto. constructor; auto. }
  destruct (ty =? 20) eqn:T; [apply Z.eqb_eq in T; subst ty|clear T].
  { rdv l1 x b1 q1 hb1. exists l1. ands; auto. constructor; auto. }
  destruct (ty =? 21) eqn:T; [apply Z.eqb_eq in T; subst ty|clear T].
  { rdv l1 x b1 q1 hb1. rdv l2 y b2 q2 hb2. exists (l1 ++ l2). rewrite <- !app_assoc. ands; auto. constructor; auto. }
  destruct (ty =? 22) eqn:T; [apply Z.eqb_eq in T; subst ty|clear T].
  { rdv l1 x b1 q1 hb1. exists l1. ands; auto. constructor; auto. }
  destruct (ty =? 23) eqn:T; [apply Z.eqb_eq in T; subst ty|clear T].
  { rdv l1 x b1 q1 hb1. exists l1. ands; auto. constructor; auto. }
  destruct (ty =? 24) eqn:T; [apply Z.eqb_eq in T; subst ty|clear T].
  { rdv l1 x b1 q1 hb1. rdv l2 y b2 q2 hb2. destruct (rd_u 1 b2) as [[n b3]|] eqn:En; cbn [rd bind]; [|exact I].
    destruct (rd_u_inv _ _ _ _ En) as (ln & -> & e1 & e2). apply bytes_ok_app in hb2 as (hb2 & hb3).
    destruct (negb ((1 <=? n) && (n <=? 20))) eqn:Ecl; [exact I|]. rdn cid b4 e4 h4 hb4. rdn token b5 e5 h5 hb5.
    destruct ln as [|z [|z' ln]]; try (rewrite ?zlen_cons in e1; change (zlen (@nil Z)) with 0 in e1; pose proof (zlen_nonneg ln); lia); [discriminate|].
    assert (z = zlen cid). { rewrite e4, e2. cbn [be_value]. change (zlen (@nil Z)) with 0. lia. } subst z.
    exists (l1 ++ l2 ++ [zlen cid] ++ cid ++ token). rewrite <- !app_assoc. ands; auto. constructor; auto. rewrite e4. lia. }
  destruct (ty =? 25) eqn:T; [apply Z.eqb_eq in T; subst ty|clear T].
  { rdv l1 x b1 q1 hb1. exists l1. ands; auto. constructor; auto. }
  destruct (ty =? 26) eqn:T; [apply Z.eqb_eq in T; subst ty|clear T].
  { rdn d b1 ed hd hb1. exists d. ands; auto. constructor; auto. }
  destruct (ty =? 27) eqn:T; [apply Z.eqb_eq in T; subst ty|clear T].
  { rdn d b1 ed hd hb1. exists d. ands; auto. constructor; auto. }
  destruct (ty =? 28) eqn:T; [apply Z.eqb_eq in T; subst ty|clear T].
  { rdv l1 x b1 q1 hb1. rdv l2 y b2 q2 hb2. rdl l3 d b3 q3 hb3. exists (l1 ++ l2 ++ l3). rewrite <- !app_assoc. ands; auto. constructor; auto. }
  destruct (ty =? 29) eqn:T; [apply Z.eqb_eq in T; subst ty|clear T].
  { rdv l1 x b1 q1 hb1. rdl l2 d b2 q2 hb2. exists (l1 ++ l2). rewrite <- !app_assoc. ands; auto. constructor; auto. }
  destruct (ty =? 30) eqn:T; [apply Z.eqb_eq in T; subst ty|clear T].
  { exists []. split; auto. split; auto. constructor. }
  destruct ((ty =? 48) || (ty =? 49)) eqn:T; [|exact I].
  apply parse_datagram_sound; auto. apply orb_true_iff in T. lia.
Qed.

(** ** from_bytes *)
Theorem frame_decode_iff b pkt f rest : bytes_ok b ->
  (frame_from_bytes b pkt = Ok (f, rest) <->
   exists l, b = l ++ rest /\ frame_wire l rest f /\ frame_allowed pkt f = true).
Proof.
  intros hb. unfold frame_from_bytes. split.
  - intros h. destruct (get_v_bind _ _ _ hb h) as (lt & ty & b1 & -> & q & hb1 & h1). clear h.
    pose proof (parse_frame_sound ty b1 hb1) as hp. destruct (parse_frame ty b1) as [[f' b']|e|]; cbn [bind] in h1; try discriminate.
    destruct (frame_allowed pkt f') eqn:Ea; [|discriminate]. injection h1 as -> ->. destruct hp as (l & -> & hf & _).
    exists (lt ++ l). rewrite <- app_assoc. ands; auto. exists lt, ty, l. auto.
  - intros (l & -> & (lt & ty & body & -> & q & hf) & ha). rewrite <- app_assoc, (get_v_app _ _ _ q). cbn [bind].
    rewrite (parse_frame_complete _ _ _ _ hf). cbn [bind]. rewrite ha. reflexivity.
Qed.

Theorem frame_decode_total b pkt : bytes_ok b -> frame_from_bytes b pkt <> Panic.
Proof.
  intros hb. unfold frame_from_bytes. apply bind_np; [apply get_v_np|]. intros [ty b1] e.
  destruct (get_v_ok _ _ _ hb e) as (l & -> & q & hb1). apply bind_np.
  - pose proof (parse_frame_sound ty b1 hb1) as hp. destruct (parse_frame ty b1); [discriminate|discriminate|destruct hp].
  - intros [f b2] _. destruct (frame_allowed pkt f); discriminate.
Qed.

Lemma frame_wire_nonempty l rest f : frame_wire l rest f -> 1 <= zlen l.
Proof. intros (lt & ty & body & -> & q & _). rewrite zlen_app. pose proof (qvarint_len _ _ q). pose proof (zlen_nonneg body). lia. Qed.

(** ** Whole payloads *)
Lemma allowed_iff pkt f : has_frames pkt -> (frame_allowed pkt f = true <-> accepted_in pkt f).
Proof.
  unfold accepted_in. intros [<-|[<-|[<-|[<-|[]]]]]; destruct f; cbn; split; intros h;
    try discriminate h; try reflexivity;
    try (split; [tauto|intros (k & k'); first [discriminate k|contradiction]]);
    destruct h as (h & h'); exfalso; try (apply h'; split; [reflexivity|exact I]);
    repeat (destruct h as [h|h]; [discriminate h|]); contradiction.
Qed.

Inductive frames_wire0 : list Z -> pkt_type -> list frame -> Prop :=
| FwNil0 pkt : frames_wire0 [] pkt []
| FwCons0 l rest pkt f fs : frame_wire l rest f -> frame_allowed pkt f = true -> frames_wire0 rest pkt fs ->
    frames_wire0 (l ++ rest) pkt (f :: fs).

Lemma frames_wire0_iff b pkt fs : has_frames pkt -> (frames_wire0 b pkt fs <-> frames_wire b pkt fs).
Proof.
  intros hp. split; induction 1; constructor; auto; apply allowed_iff; auto.
Qed.

Lemma payload_loop_spec fuel : forall b pkt, bytes_ok b -> (length b <= fuel)%nat ->
  payload_loop fuel b pkt <> Panic /\ forall fs, payload_loop fuel b pkt = Ok fs <-> frames_wire0 b pkt fs.
Proof.
  induction fuel as [|fuel IH]; intros b pkt hb hl.
  - destruct b; cbn in hl; [|lia]. cbn. split; [discriminate|]. intros fs. split; [intros e; injection e as <-; constructor|].
    intros h. inversion h; auto. subst. exfalso. match goal with hw : frame_wire _ _ _ |- _ => apply frame_wire_nonempty in hw end.
    destruct l; [change (zlen (@nil Z)) with 0 in *; lia|discriminate].
  - destruct b as [|x b0] eqn:Eb.
    { cbn. split; [discriminate|]. intros fs. split; [intros e; injection e as <-; constructor|].
      intros h. inversion h; auto. subst. exfalso. match goal with hw : frame_wire _ _ _ |- _ => apply frame_wire_nonempty in hw end.
      destruct l; [change (zlen (@nil Z)) with 0 in *; lia|discriminate]. }
    rewrite <- Eb in *. assert (e0 : payload_loop (S fuel) b pkt =
      let* '(f, b) := frame_from_bytes b pkt in let* fs := payload_loop fuel b pkt in Ok (f :: fs)) by (rewrite Eb; reflexivity).
    rewrite e0. clear e0.
    destruct (frame_from_bytes b pkt) as [[f b1]|e|] eqn:E; [| |destruct (frame_decode_total _ _ hb E)].
    + apply (frame_decode_iff _ _ _ _ hb) in E as (l & e1 & hw & ha). cbn [bind].
      pose proof (frame_wire_nonempty _ _ _ hw) as hn.
      assert (hb1 : bytes_ok b1) by (rewrite e1 in hb; apply bytes_ok_app in hb; tauto).
      destruct (IH b1 pkt hb1) as (i1 & i2). { rewrite e1, app_length in hl. unfold zlen in hn. lia. }
      split. { apply bind_np; auto. discriminate. }
      intros fs. split.
      * intros h. destruct (payload_loop fuel b1 pkt) as [fs1|?|]; cbn [bind] in h; try discriminate. injection h as <-.
        rewrite e1. constructor; auto. apply i2. reflexivity.
      * intros h. inversion h as [pkt' e2|l2 rest2 pkt' f2 fs2 hw2 ha2 hf2 e2]; subst; [discriminate|].
        assert (e3 : Ok (f2, rest2) = Ok (f, b1) :> res error _).
        { transitivity (frame_from_bytes (l2 ++ rest2) pkt); [symmetry|]; apply frame_decode_iff; auto; rewrite ?e2; eauto. }
        injection e3 as -> ->. apply i2 in hf2. rewrite hf2. reflexivity.
    + cbn [bind]. split; [discriminate|]. intros fs. split; [discriminate|]. intros h.
      inversion h as [pkt' e2|l2 rest2 pkt' f2 fs2 hw2 ha2 hf2 e2]; subst; [discriminate|].
      enough (frame_from_bytes (x :: b0) pkt = Ok (f2, rest2)) by congruence. apply frame_decode_iff; auto. eauto.
Qed.

Theorem payload_total b pkt : bytes_ok b -> payload_frames b pkt <> Panic.
Proof. intros hb. destruct b as [|x b]; [discriminate|]. apply (payload_loop_spec (length (x :: b)) (x :: b) pkt hb). lia. Qed.

Theorem payload_iff b pkt fs : bytes_ok b -> has_frames pkt ->
  (payload_frames b pkt = Ok fs <-> b <> [] /\ frames_wire b pkt fs).
Proof.
  intros hb hp. destruct b as [|x b]; [split; [discriminate|intros (h & _); congruence]|].
  unfold payload_frames. destruct (payload_loop_spec (length (x :: b)) (x :: b) pkt hb ltac:(lia)) as (_ & h).
  rewrite h, frames_wire0_iff by auto. split; [split; [discriminate|]; auto|intros (_ & k); auto].
Qed.

(** A frame the packet type does not take is InvalidPacket. *)
Theorem frame_not_permitted l rest pkt f : has_frames pkt -> frame_wire l rest f ->
  ~ In pkt (table3 f) -> frame_from_bytes (l ++ rest) pkt = Err InvalidPacket.
Proof.
  intros hp (lt & ty & body & -> & q & hf) hn. unfold frame_from_bytes.
  rewrite <- app_assoc, (get_v_app _ _ _ q). cbn [bind]. rewrite (parse_frame_complete _ _ _ _ hf). cbn [bind].
  destruct (frame_allowed pkt f) eqn:E; auto. apply allowed_iff in E; auto. destruct E. contradiction.
Qed.

(** The frame as decoded, in the packets that take it. *)
Theorem frame_decode_table b pkt f rest : bytes_ok b -> has_frames pkt ->
  (frame_from_bytes b pkt = Ok (f, rest) <->
   exists l, b = l ++ rest /\ frame_wire l rest f /\ accepted_in pkt f).
Proof.
  intros hb hp. rewrite frame_decode_iff by auto. split; intros (l & h1 & h2 & h3); exists l; ands; auto; apply allowed_iff; auto.
Qed.
