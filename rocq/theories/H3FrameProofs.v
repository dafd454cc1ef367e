(** The HTTP/3 frame parser and serializer against the grammar. *)
Require Import Verif.Base Verif.OctetsModel Verif.OctetsSpec Verif.OctetsProofs Verif.PktNumProofs Verif.HuffmanModel
  Verif.H3FrameModel Verif.H3FrameSpec.

Lemma qvarint_pos l v : qvarint l v -> 1 <= zlen l <= 8 /\ small v /\ bytes_ok l.
Proof.
  intros (hb & k & hk & hl & hv & _). destruct (pow_split k hk). unfold small, max_varint. split; [lia|]. split; [|exact hb].
  assert (k = 0 \/ k = 1 \/ k = 2 \/ k = 3) as [-> |[-> |[-> | ->]]] by lia; cbn in hv; lia.
Qed.

(** ** SETTINGS *)
Lemma last_value_snoc ids l id v :
  last_value ids (l ++ [(id, v)]) = if existsb (Z.eqb id) ids then Some v else last_value ids l.
Proof.
  induction l as [|[i x] l IH]; cbn [app last_value]; [reflexivity|]. rewrite IH.
  destruct (existsb (Z.eqb id) ids); reflexivity.
Qed.
Lemma none_if_empty_snoc {A} (l : list A) x :
  Some ((match none_if_empty l with Some r => r | None => [] end) ++ [x]) = none_if_empty (l ++ [x]).
Proof. destruct l; reflexivity. Qed.

Lemma one_setting_says id v l : one_setting id v (says l) = if forbidden (id, v) then Err HSettingsError else Ok (says (l ++ [(id, v)])).
Proof.
  unfold one_setting, says, forbidden, S_QPACK_CAPACITY, S_MAX_FIELD_SECTION, S_QPACK_BLOCKED, S_CONNECT, S_DATAGRAM_OLD, S_DATAGRAM.
  rewrite !last_value_snoc, filter_app. cbn [existsb fst snd s_max_field s_capacity s_blocked s_connect s_dgram s_grease s_more s_raw filter is_known].
  unfold is_known; cbn [existsb fst].
  assert (hk : forall k, id = k \/ id <> k) by (intros; lia).
  destruct (hk 1) as [-> |n1]; [cbn; rewrite app_nil_r; reflexivity|].
  destruct (hk 6) as [-> |n6]; [cbn; rewrite app_nil_r; reflexivity|].
  destruct (hk 7) as [-> |n7]; [cbn; rewrite app_nil_r; reflexivity|].
  destruct (hk 8) as [-> |n8]; [cbn; rewrite app_nil_r; destruct (1 <? v); reflexivity|].
  destruct (hk 630) as [-> |n630]; [cbn; rewrite app_nil_r; destruct (1 <? v); reflexivity|].
  destruct (hk 51) as [-> |n51]; [cbn; rewrite app_nil_r; destruct (1 <? v); reflexivity|].
  rewrite (proj2 (Z.eqb_neq id 1)), (proj2 (Z.eqb_neq id 6)), (proj2 (Z.eqb_neq id 7)), (proj2 (Z.eqb_neq id 8)), (proj2 (Z.eqb_neq id 630)), (proj2 (Z.eqb_neq id 51)) by assumption.
  cbn [orb andb negb]. rewrite !orb_false_r, !orb_assoc.
  destruct ((id =? 0) || (id =? 2) || (id =? 3) || (id =? 4) || (id =? 5)); [reflexivity|]. rewrite <- none_if_empty_snoc. reflexivity.
Qed.

Lemma settings_loop_exact : forall p l, setting_list p l -> forall fuel l0, (length p < fuel)%nat ->
  settings_loop fuel (zlen p) p (says l0) = if existsb forbidden l then Err HSettingsError else Ok (says (l0 ++ l)).
Proof.
  induction 1 as [|a id b v p l ha hb hp IH]; intros fuel l0 hf.
  - destruct fuel; cbn; rewrite app_nil_r; reflexivity.
  - destruct (qvarint_pos a id ha) as (la & _). destruct (qvarint_pos b v hb) as (lb & _).
    rewrite !app_length in hf. unfold zlen in la, lb. destruct fuel as [|fuel]; [lia|].
    cbn [settings_loop]. rewrite !zlen_app. pose proof (zlen_nonneg p). destruct (Z.leb_spec (zlen a + (zlen b + zlen p)) 0); [unfold zlen in *; lia|].
    unfold hv. rewrite (rd_varint_app a id _ ha). cbn [bind]. rewrite (rd_varint_app b v _ hb). cbn [bind].
    rewrite one_setting_says. cbn [existsb]. destruct (forbidden (id, v)); cbn [orb bind]; [reflexivity|].
    rewrite ?zlen_app. replace (zlen a + (zlen b + zlen p) - (zlen a + (zlen b + zlen p) - zlen p)) with (zlen p) by lia.
    rewrite IH by lia. rewrite <- app_assoc. reflexivity.
Qed.

Lemma settings_loop_sound fuel : forall p s s', bytes_ok p -> settings_loop fuel (zlen p) p s = Ok s' -> exists l, setting_list p l.
Proof.
  induction fuel as [|fuel IH]; intros p s s' hb h; cbn [settings_loop] in h; pose proof (zlen_nonneg p) as hp.
  - destruct (Z.leb_spec (zlen p) 0); [|discriminate h]. destruct p; [exists []; constructor|rewrite zlen_cons in *; pose proof (zlen_nonneg p); lia].
  - destruct (Z.leb_spec (zlen p) 0) as [e|e]. { destruct p; [exists []; constructor|rewrite zlen_cons in *; pose proof (zlen_nonneg p); lia]. }
    unfold hv in h. destruct (rd_varint p) as [[id b1]|] eqn:e1; [|discriminate h]. cbn [bind] in h.
    destruct (rd_varint b1) as [[v b2]|] eqn:e2; [|discriminate h]. cbn [bind] in h.
    destruct (rd_varint_inv p id b1 hb e1) as (a & -> & q1). apply bytes_ok_app in hb as (hb1 & hb2).
    destruct (rd_varint_inv b1 v b2 hb2 e2) as (b & -> & q2). apply bytes_ok_app in hb2 as (hb3 & hb4).
    destruct (one_setting id v s) as [s1| |] eqn:e3; [|discriminate h|discriminate h]. cbn [bind] in h.
    rewrite !zlen_app in h. replace (zlen a + (zlen b + zlen b2) - (zlen a + (zlen b + zlen b2) - zlen b2)) with (zlen b2) in h by lia.
    destruct (IH b2 s1 s' hb4 h) as (l & hl). exists ((id, v) :: l). constructor; assumption.
Qed.

Lemma settings_loop_total fuel : forall p s, bytes_ok p -> (length p < fuel)%nat -> settings_loop fuel (zlen p) p s <> Panic.
Proof.
  induction fuel as [|fuel IH]; intros p s hb hf; [lia|]. cbn [settings_loop].
  destruct (Z.leb_spec (zlen p) 0) as [e|e]; [discriminate|].
  unfold hv. destruct (rd_varint p) as [[id b1]|] eqn:e1; [|discriminate]. cbn [bind].
  destruct (rd_varint b1) as [[v b2]|] eqn:e2; [|discriminate]. cbn [bind].
  destruct (rd_varint_inv p id b1 hb e1) as (a & -> & q1). apply bytes_ok_app in hb as (hb1 & hb2).
  destruct (rd_varint_inv b1 v b2 hb2 e2) as (b & -> & q2). apply bytes_ok_app in hb2 as (hb3 & hb4).
  assert (hn : one_setting id v s <> Panic) by (unfold one_setting; repeat destr_if; discriminate).
  destruct (one_setting id v s) as [s1| |]; [|discriminate|congruence]. cbn [bind].
  rewrite !zlen_app. replace (zlen a + (zlen b + zlen b2) - (zlen a + (zlen b + zlen b2) - zlen b2)) with (zlen b2) by lia.
  apply IH; [exact hb4|]. destruct (qvarint_pos a id q1) as (la & _). rewrite !app_length in hf. unfold zlen in la. lia.
Qed.

(** ** Frames *)
Lemma hn_all p : hn (zlen p) p = Ok (p, []).
Proof. unfold hn. pose proof (rd_bytes_app p []) as h. rewrite app_nil_r in h. rewrite h. reflexivity. Qed.
Lemma hv_app a v rest : qvarint a v -> hv (a ++ rest) = Ok (v, rest).
Proof. intros h. unfold hv. rewrite (rd_varint_app a v rest h). reflexivity. Qed.
Lemma hv_inv p v rest : bytes_ok p -> hv p = Ok (v, rest) -> exists a, p = a ++ rest /\ qvarint a v.
Proof. intros hb h. unfold hv in h. destruct (rd_varint p) as [[x y]|] eqn:e; [|discriminate h]. injection h as -> ->. exact (rd_varint_inv p v rest hb e). Qed.
Lemma rest_exact p v d : int_rest p v d -> parse_varint_rest (zlen p) p = Ok (v, d).
Proof.
  intros (a & ha & ->). unfold parse_varint_rest. rewrite (hv_app a v d ha). cbn [bind]. rewrite zlen_app. pose proof (zlen_nonneg d). destruct (qvarint_pos a v ha) as (la & _).
  destruct (Z.ltb_spec (zlen a + zlen d) (zlen a + zlen d - zlen d)); [lia|]. replace (zlen a + zlen d - (zlen a + zlen d - zlen d)) with (zlen d) by lia. rewrite hn_all. reflexivity.
Qed.
Lemma rest_sound p v d : bytes_ok p -> parse_varint_rest (zlen p) p = Ok (v, d) -> int_rest p v d.
Proof.
  intros hb h. unfold parse_varint_rest in h. destruct (hv p) as [[x b1]| |] eqn:e; [|discriminate h|discriminate h]. cbn [bind] in h.
  destruct (hv_inv p x b1 hb e) as (a & -> & qa). rewrite zlen_app in h. destruct (zlen a + zlen b1 <? zlen a + zlen b1 - zlen b1); [discriminate h|].
  replace (zlen a + zlen b1 - (zlen a + zlen b1 - zlen b1)) with (zlen b1) in h by lia. rewrite hn_all in h. injection h as <- <-. exists a. split; [exact qa|reflexivity].
Qed.
Lemma rest_total p : bytes_ok p -> parse_varint_rest (zlen p) p <> Panic.
Proof.
  intros hb. unfold parse_varint_rest. destruct (hv p) as [[x b1]| |] eqn:e; [|discriminate|unfold hv in e; destruct (rd_varint p); discriminate e]. cbn [bind].
  destruct (hv_inv p x b1 hb e) as (a & -> & qa). rewrite zlen_app. pose proof (zlen_nonneg b1). destruct (Z.ltb_spec (zlen a + zlen b1) (zlen a + zlen b1 - zlen b1)); [destruct (qvarint_pos a x qa); lia|].
  replace (zlen a + zlen b1 - (zlen a + zlen b1 - zlen b1)) with (zlen b1) by lia. rewrite hn_all. discriminate.
Qed.
Lemma hv_one p v : qvarint p v -> hv p = Ok (v, []).
Proof. intros h. pose proof (hv_app p v [] h) as e. rewrite app_nil_r in e. exact e. Qed.
Lemma init_says : mkSettings None None None None None None None (Some []) = says [].
Proof. reflexivity. Qed.

Lemma settings_frame_exact p l : setting_list p l -> zlen p <= 256 ->
  parse_settings (zlen p) p = if existsb forbidden l then Err HSettingsError else Ok (HSettings (says l)).
Proof.
  intros h hp. unfold parse_settings, MAX_SETTINGS_SIZE. destruct (Z.ltb_spec 256 (zlen p)); [lia|].
  rewrite init_says, (settings_loop_exact p l h) by lia. destruct (existsb forbidden l); reflexivity.
Qed.

Ltac tynum := unfold h3_from_bytes, T_DATA, T_HEADERS, T_CANCEL_PUSH, T_SETTINGS, T_PUSH_PROMISE, T_GOAWAY, T_MAX_PUSH, T_PRIO_REQUEST, T_PRIO_PUSH.
Lemma from_bytes_exact ty p f : carries ty p f -> (ty = 4 -> zlen p <= 256) -> h3_from_bytes ty (zlen p) p = Ok f.
Proof.
  intros h hs. destruct f as [d|d|v|s|v d|v|v|v d|v d|t d]; cbn [carries] in h.
  - destruct h as (-> & ->). tynum. cbn. rewrite hn_all. reflexivity.
  - destruct h as (-> & ->). tynum. cbn. rewrite hn_all. reflexivity.
  - destruct h as (-> & h). tynum. cbn. rewrite (hv_one p v h). reflexivity.
  - destruct h as (-> & l & hl & hf & ->). tynum. cbn [Z.eqb Pos.eqb]. rewrite (settings_frame_exact p l hl (hs eq_refl)), hf. reflexivity.
  - destruct h as (-> & h). tynum. cbn. rewrite (rest_exact p v d h). reflexivity.
  - destruct h as (-> & h). tynum. cbn. rewrite (hv_one p v h). reflexivity.
  - destruct h as (-> & h). tynum. cbn. rewrite (hv_one p v h). reflexivity.
  - destruct h as (-> & h). tynum. cbn. rewrite (rest_exact p v d h). reflexivity.
  - destruct h as (-> & h). tynum. cbn. rewrite (rest_exact p v d h). reflexivity.
  - destruct h as (-> & h & ->). tynum. unfold known_type in h. cbn [In] in h.
    repeat match goal with |- context[t =? ?k] => rewrite (proj2 (Z.eqb_neq t k)) by (intros ->; apply h; cbn; tauto) end.
    rewrite hn_all. reflexivity.
Qed.

Lemma from_bytes_sound ty p f : bytes_ok p -> h3_from_bytes ty (zlen p) p = Ok f ->
  exists q junk, p = q ++ junk /\ carries ty q f /\ (junk = [] \/ In ty [3; 7; 13]) /\ (ty = 4 -> zlen p <= 256).
Proof.
  intros hb h. revert h. tynum. intros h.
  assert (hd : forall q, q = p -> p = q ++ []) by (intros q ->; symmetry; apply app_nil_r).
  assert (hk : forall k, ty = k \/ ty <> k) by (intros; lia).
  destruct (hk 0) as [-> |n0]. { cbn in h. rewrite hn_all in h. injection h as <-. exists p, []. split; [auto|]. cbn. split; [auto|]. split; [auto|lia]. }
  destruct (hk 1) as [-> |n1]. { cbn in h. rewrite hn_all in h. injection h as <-. exists p, []. split; [auto|]. cbn. split; [auto|]. split; [auto|lia]. }
  destruct (hk 3) as [-> |n3]. { cbn in h. destruct (hv p) as [[v r]| |] eqn:e; [|discriminate h|discriminate h]. injection h as <-. destruct (hv_inv p v r hb e) as (a & -> & ha). exists a, r. split; [reflexivity|]. cbn. split; [auto|]. split; [auto|lia]. }
  destruct (hk 4) as [-> |n4]. { cbn [Z.eqb Pos.eqb] in h. unfold parse_settings in h. destruct (Z.ltb_spec MAX_SETTINGS_SIZE (zlen p)) as [g|g]; [discriminate h|].
    destruct (settings_loop (S (length p)) (zlen p) p (mkSettings None None None None None None None (Some []))) as [s| |] eqn:e; [|discriminate h|discriminate h]. injection h as <-.
    destruct (settings_loop_sound _ _ _ _ hb e) as (l & hl). rewrite init_says, (settings_loop_exact p l hl) in e by lia.
    exists p, []. split; [auto|]. split; [|split; [auto|unfold MAX_SETTINGS_SIZE in g; lia]]. cbn [carries]. split; [reflexivity|]. exists l. split; [exact hl|]. destruct (existsb forbidden l); [discriminate e|]. injection e as <-. auto. }
  destruct (hk 5) as [-> |n5]. { cbn in h. destruct (parse_varint_rest (zlen p) p) as [[v r]| |] eqn:e; [|discriminate h|discriminate h]. injection h as <-. exists p, []. split; [auto|]. cbn. split; [split; [reflexivity|apply rest_sound; assumption]|]. split; [auto|lia]. }
  destruct (hk 7) as [-> |n7]. { cbn in h. destruct (hv p) as [[v r]| |] eqn:e; [|discriminate h|discriminate h]. injection h as <-. destruct (hv_inv p v r hb e) as (a & -> & ha). exists a, r. split; [reflexivity|]. cbn. split; [auto|]. split; [auto|lia]. }
  destruct (hk 13) as [-> |n13]. { cbn in h. destruct (hv p) as [[v r]| |] eqn:e; [|discriminate h|discriminate h]. injection h as <-. destruct (hv_inv p v r hb e) as (a & -> & ha). exists a, r. split; [reflexivity|]. cbn. split; [auto|]. split; [auto|lia]. }
  destruct (hk 984832) as [-> |nr]. { cbn in h. destruct (parse_varint_rest (zlen p) p) as [[v r]| |] eqn:e; [|discriminate h|discriminate h]. injection h as <-. exists p, []. split; [auto|]. cbn. split; [split; [reflexivity|apply rest_sound; assumption]|]. split; [auto|lia]. }
  destruct (hk 984833) as [-> |np]. { cbn in h. destruct (parse_varint_rest (zlen p) p) as [[v r]| |] eqn:e; [|discriminate h|discriminate h]. injection h as <-. exists p, []. split; [auto|]. cbn. split; [split; [reflexivity|apply rest_sound; assumption]|]. split; [auto|lia]. }
  repeat match type of h with context[ty =? ?k] => rewrite (proj2 (Z.eqb_neq ty k)) in h by assumption end.
  rewrite hn_all in h. injection h as <-. exists p, []. split; [auto|]. cbn [carries]. split; [|split; [auto|lia]]. split; [reflexivity|]. split; [|reflexivity]. unfold known_type. cbn [In]. intuition congruence.
Qed.

Lemma from_bytes_total ty p : bytes_ok p -> h3_from_bytes ty (zlen p) p <> Panic.
Proof.
  intros hb. tynum. rewrite hn_all. pose proof (rest_total p hb) as h1.
  assert (h2 : hv p <> Panic) by (unfold hv; destruct (rd_varint p); discriminate).
  assert (h3 : parse_settings (zlen p) p <> Panic).
  { unfold parse_settings. destruct (MAX_SETTINGS_SIZE <? zlen p); [discriminate|].
    pose proof (settings_loop_total (S (length p)) p (mkSettings None None None None None None None (Some [])) hb ltac:(lia)) as h.
    destruct (settings_loop (S (length p)) (zlen p) p (mkSettings None None None None None None None (Some []))); [discriminate|discriminate|congruence]. }
  destruct (hv p) as [[v r]| |]; destruct (parse_varint_rest (zlen p) p) as [[v' r']| |]; try congruence; cbn [bind];
    repeat match goal with |- context[ty =? ?k] => destruct (ty =? k) end; congruence.
Qed.

(** ** Writing *)
Definition hwrites (f : wr -> res herr wr) (bs : list Z) : Prop :=
  forall w, 0 <= wr_left w -> f w = if wr_left w <? zlen bs then Err HBufferTooShort else Ok (mkWr (wr_left w - zlen bs) (wr_out w ++ bs)).
Lemma hwrites_put bs : hwrites (h_put bs) bs.
Proof. intros w hw. unfold h_put, put. destruct (wr_left w <? zlen bs); reflexivity. Qed.
Lemma hwrites_seq f g a b : hwrites f a -> hwrites g b -> hwrites (fun w => let* w := f w in g w) (a ++ b).
Proof.
  intros hf hg w hw. rewrite hf by exact hw. rewrite zlen_app. pose proof (zlen_nonneg a). pose proof (zlen_nonneg b). destruct (Z.ltb_spec (wr_left w) (zlen a)); cbn [bind].
  - destruct (Z.ltb_spec (wr_left w) (zlen a + zlen b)); [reflexivity|lia].
  - rewrite hg by (cbn [wr_left]; lia). cbn [wr_left wr_out].
    destruct (Z.ltb_spec (wr_left w - zlen a) (zlen b)), (Z.ltb_spec (wr_left w) (zlen a + zlen b)); try lia; [reflexivity|]. rewrite <- app_assoc. replace (wr_left w - zlen a - zlen b) with (wr_left w - (zlen a + zlen b)) by lia. reflexivity.
Qed.
Lemma hwrites_varint v : small v -> hwrites (h_varint v) (wr_varint_bytes v).
Proof. intros h w hw. unfold h_varint. destruct (Z.ltb_spec max_varint v); [unfold small in h; lia|]. apply hwrites_put, hw. Qed.
Lemma h_len_ok v : small v -> h_len v = Ok (zlen (wr_varint_bytes v)).
Proof. intros h. unfold h_len. rewrite (varint_len_spec v h). destruct (wr_varint_ok v h) as (_ & ->). reflexivity. Qed.
Lemma wr_varint_q v : small v -> qvarint (wr_varint_bytes v) v.
Proof. intros h. apply (wr_varint_ok v h). Qed.
Lemma hwrites_nil : hwrites (fun w => Ok w) [].
Proof. intros w hw. cbn. destruct (Z.ltb_spec (wr_left w) 0); [lia|]. rewrite app_nil_r, Z.sub_0_r. destruct w; reflexivity. Qed.
Lemma hwrites_ext f g bs : hwrites f bs -> (forall w, g w = f w) -> hwrites g bs.
Proof. intros h e w hw. rewrite e. apply h, hw. Qed.

Definition pair_bytes (l : list (Z * Z)) : list Z := flat_map (fun s => wr_varint_bytes (fst s) ++ wr_varint_bytes (snd s)) l.
Definition pair_small (s : Z * Z) : Prop := small (fst s) /\ small (snd s).
Lemma pairs_list l : Forall pair_small l -> setting_list (pair_bytes l) l.
Proof. induction 1 as [|[id v] l (h1 & h2) hl IH]; [constructor|]. cbn [pair_bytes flat_map fst snd] in *. rewrite <- app_assoc. constructor; [apply wr_varint_q, h1|apply wr_varint_q, h2|exact IH]. Qed.
Lemma pairs_len l : Forall pair_small l -> settings_len l = Ok (zlen (pair_bytes l)).
Proof. induction 1 as [|[id v] l (h1 & h2) hl IH]; [reflexivity|]. cbn [settings_len pair_bytes flat_map fst snd] in *. rewrite (h_len_ok id h1), (h_len_ok v h2), IH. cbn [bind]. rewrite !zlen_app. reflexivity. Qed.
Lemma pairs_put l : Forall pair_small l -> hwrites (put_settings l) (pair_bytes l).
Proof.
  induction 1 as [|[id v] l (h1 & h2) hl IH]; [apply hwrites_nil|]. cbn [put_settings pair_bytes flat_map fst snd] in *. rewrite <- app_assoc.
  apply (hwrites_seq (h_varint id)); [apply hwrites_varint, h1|]. apply (hwrites_seq (h_varint v)); [apply hwrites_varint, h2|exact IH].
Qed.
Lemma pairs_len_bound l : Forall pair_small l -> zlen (pair_bytes l) <= 16 * zlen l.
Proof.
  induction 1 as [|[id v] l (h1 & h2) hl IH]; [cbn; lia|]. cbn [pair_bytes flat_map fst snd] in *. rewrite !zlen_app, zlen_cons.
  destruct (qvarint_pos _ _ (wr_varint_q id h1)) as (q1 & _). destruct (qvarint_pos _ _ (wr_varint_q v h2)) as (q2 & _). unfold pair_bytes in IH. lia.
Qed.

Lemma put_b_ok ty p : small ty -> small (zlen p) -> exists bs, hwrites (put_b ty p) bs /\ h3_wire bs ty p.
Proof.
  intros h1 h2. exists (wr_varint_bytes ty ++ wr_varint_bytes (zlen p) ++ p). split.
  - apply (hwrites_seq (h_varint ty)); [apply hwrites_varint, h1|]. apply (hwrites_seq (h_varint (zlen p))); [apply hwrites_varint, h2|apply hwrites_put].
  - exists (wr_varint_bytes ty), (wr_varint_bytes (zlen p)). split; [apply wr_varint_q, h1|]. split; [apply wr_varint_q, h2|reflexivity].
Qed.
Lemma put_v_ok ty v : small ty -> small v -> exists bs, hwrites (put_v ty v) bs /\ h3_wire bs ty (wr_varint_bytes v).
Proof.
  intros h1 h2. pose proof (wr_varint_q v h2) as q. destruct (qvarint_pos _ _ q) as (q1 & _).
  assert (hs : small (zlen (wr_varint_bytes v))) by (unfold small, max_varint; lia).
  exists (wr_varint_bytes ty ++ wr_varint_bytes (zlen (wr_varint_bytes v)) ++ wr_varint_bytes v). split.
  - apply (hwrites_ext (fun w => let* w := h_varint ty w in let* w := h_varint (zlen (wr_varint_bytes v)) w in h_varint v w)).
    + apply (hwrites_seq (h_varint ty)); [apply hwrites_varint, h1|]. apply (hwrites_seq (h_varint (zlen _))); [apply hwrites_varint, hs|apply hwrites_varint, h2].
    + intros w. unfold put_v. rewrite (h_len_ok v h2). reflexivity.
  - exists (wr_varint_bytes ty), (wr_varint_bytes (zlen (wr_varint_bytes v))). split; [apply wr_varint_q, h1|]. split; [apply wr_varint_q, hs|reflexivity].
Qed.
Lemma put_vb_ok ty v p : small ty -> small v -> zlen p + 8 <= max_varint -> exists bs, hwrites (put_vb ty v p) bs /\ h3_wire bs ty (wr_varint_bytes v ++ p).
Proof.
  intros h1 h2 h3. pose proof (wr_varint_q v h2) as q. destruct (qvarint_pos _ _ q) as (q1 & _). pose proof (zlen_nonneg p).
  assert (hs : small (zlen (wr_varint_bytes v) + zlen p)) by (unfold small; lia).
  exists (wr_varint_bytes ty ++ wr_varint_bytes (zlen (wr_varint_bytes v) + zlen p) ++ wr_varint_bytes v ++ p). split.
  - apply (hwrites_ext (fun w => let* w := h_varint ty w in let* w := h_varint (zlen (wr_varint_bytes v) + zlen p) w in let* w := h_varint v w in h_put p w)).
    + apply (hwrites_seq (h_varint ty)); [apply hwrites_varint, h1|]. apply (hwrites_seq (h_varint (zlen (wr_varint_bytes v) + zlen p))); [apply hwrites_varint, hs|]. apply (hwrites_seq (h_varint v)); [apply hwrites_varint, h2|apply hwrites_put].
    + intros w. unfold put_vb. rewrite (h_len_ok v h2). reflexivity.
  - exists (wr_varint_bytes ty), (wr_varint_bytes (zlen (wr_varint_bytes v) + zlen p)). split; [apply wr_varint_q, h1|]. rewrite zlen_app. split; [apply wr_varint_q, hs|reflexivity].
Qed.

Lemma sent_is_out s : settings_out s = sent_settings s.
Proof. reflexivity. Qed.
Lemma last_value_app ids a b : last_value ids (a ++ b) = match last_value ids b with Some x => Some x | None => last_value ids a end.
Proof. induction a as [|[i v] a IH]; cbn [app last_value]; [destruct (last_value ids b); reflexivity|]. rewrite IH. destruct (last_value ids b); reflexivity. Qed.
Lemma last_value_none ids l : (forall s, In s l -> existsb (Z.eqb (fst s)) ids = false) -> last_value ids l = None.
Proof. induction l as [|[i v] l IH]; cbn [last_value]; intros h; [reflexivity|]. rewrite IH by (intros; apply h; right; assumption). specialize (h (i, v) ltac:(left; reflexivity)). cbn [fst] in h. rewrite h. reflexivity. Qed.
Lemma filter_all {A} (g : A -> bool) l : (forall x, In x l -> g x = true) -> filter g l = l.
Proof. induction l as [|x l IH]; cbn; intros h; [reflexivity|]. rewrite (h x) by auto. f_equal. apply IH. intros; apply h; auto. Qed.
Lemma filter_opt id o : is_known (id, 0) = true -> filter (fun s : Z * Z => negb (is_known s)) (match o with Some v => [(id, v)] | None => [] end) = [].
Proof. intros h. destruct o; [|reflexivity]. cbn [filter]. replace (is_known (id, z)) with (is_known (id, 0)) by reflexivity. rewrite h. reflexivity. Qed.

Lemma says_sent s : Forall extra_ok (extras s) -> HSettings (says (sent_settings s)) = as_read (HSettings s).
Proof.
  intros h. cbn [as_read]. f_equal. unfold says.
  assert (hx : forall ids, (forall k, In k ids -> In k [1; 6; 7; 8; 51; 630]) -> last_value ids (extras s) = None).
  { intros ids hi. apply last_value_none. intros e he. rewrite Forall_forall in h. destruct (h e he) as (_ & _ & _ & hk). unfold is_known in hk.
    destruct (existsb (Z.eqb (fst e)) ids) eqn:e1; [|reflexivity]. apply existsb_exists in e1 as (k & k1 & k2). apply Z.eqb_eq in k2.
    assert (existsb (Z.eqb (fst e)) [1; 6; 7; 8; 51; 630] = true) by (apply existsb_exists; exists k; split; [apply hi, k1|lia]). congruence. }
  assert (hf : filter (fun e => negb (is_known e)) (sent_settings s) = extras s).
  { unfold sent_settings. rewrite !filter_app. rewrite !filter_opt by reflexivity. cbn [app]. apply filter_all. intros e he. rewrite Forall_forall in h. destruct (h e he) as (_ & _ & _ & hk). rewrite hk. reflexivity. }
  rewrite hf. unfold sent_settings. rewrite !last_value_app. rewrite !hx by (cbn [In]; intuition lia).
  destruct (s_max_field s), (s_capacity s), (s_blocked s), (s_connect s), (s_dgram s); reflexivity.
Qed.
Lemma forbidden_sent s : oflag (s_connect s) -> oflag (s_dgram s) -> Forall extra_ok (extras s) -> existsb forbidden (sent_settings s) = false.
Proof.
  intros h1 h2 h. unfold sent_settings. rewrite !existsb_app.
  assert (hx : existsb forbidden (extras s) = false).
  { destruct (existsb forbidden (extras s)) eqn:e; [|reflexivity]. apply existsb_exists in e as (x & x1 & x2). rewrite Forall_forall in h. destruct (h x x1) as (_ & _ & hf & _). congruence. }
  rewrite hx. assert (hc : forall id o, In id [8; 51; 630] -> oflag o -> existsb forbidden (match o with Some v => [(id, v)] | None => [] end) = false).
  { intros id o hi ho. destruct o as [v|]; [|reflexivity]. specialize (ho v eq_refl). cbn [In] in hi. destruct hi as [<-|[<-|[<-|[]]]], ho as [-> | ->]; reflexivity. }
  rewrite (hc 8 (s_connect s)), (hc 630 (s_dgram s)), (hc 51 (s_dgram s)) by (cbn [In]; auto). destruct (s_max_field s), (s_capacity s), (s_blocked s); reflexivity.
Qed.
Lemma small_sent s : writable_frame (HSettings s) -> Forall pair_small (sent_settings s).
Proof.
  intros (h1 & h2 & h3 & h4 & h5 & h6 & _). unfold sent_settings.
  assert (ho : forall id o, small id -> osmall o -> Forall pair_small (match o with Some v => [(id, v)] | None => [] end)).
  { intros id o hi ho. destruct o as [v|]; [|constructor]. constructor; [|constructor]. split; [exact hi|]. apply ho. reflexivity. }
  assert (hf : forall o, oflag o -> osmall o) by (intros o g v e; destruct (g v e) as [-> | ->]; unfold small, max_varint; lia).
  rewrite !Forall_app. unfold max_varint, small in *.
  repeat match goal with |- _ /\ _ => split end; try (apply ho; [unfold max_varint; lia|auto]).
  eapply Forall_impl; [|exact h6]. intros e (e1 & e2 & _). split; assumption.
Qed.

Lemma to_bytes_ok f : writable_frame f -> exists bs ty p, hwrites (h3_to_bytes f) bs /\ h3_wire bs ty p /\ carries ty p (as_read f).
Proof.
  intros h. assert (hs : forall k, 0 <= k <= 1000000 -> small k) by (intros; unfold small, max_varint; lia).
  destruct f as [d|d|v|s|v d|v|v|v d|v d|t d]; cbn [h3_to_bytes as_read carries]; unfold T_DATA, T_HEADERS, T_CANCEL_PUSH, T_SETTINGS, T_PUSH_PROMISE, T_GOAWAY, T_MAX_PUSH, T_PRIO_REQUEST, T_PRIO_PUSH.
  - destruct h as (h1 & h2). destruct (put_b_ok 0 d (hs 0 ltac:(lia)) h2) as (bs & w & q). exists bs, 0, d. auto.
  - destruct h as (h1 & h2). destruct (put_b_ok 1 d (hs 1 ltac:(lia)) h2) as (bs & w & q). exists bs, 1, d. auto.
  - destruct (put_v_ok 3 v (hs 3 ltac:(lia)) h) as (bs & w & q). exists bs, 3, (wr_varint_bytes v). split; [exact w|]. split; [exact q|]. split; [reflexivity|apply wr_varint_q, h].
  - pose proof (small_sent s h) as hp. pose proof (pairs_len_bound _ hp) as hl. pose proof (zlen_nonneg (pair_bytes (sent_settings s))).
    assert (hz : zlen (sent_settings s) <= 6 + zlen (extras s)).
    { unfold sent_settings. rewrite !zlen_app. destruct (s_max_field s), (s_capacity s), (s_blocked s), (s_connect s), (s_dgram s); cbn [zlen]; rewrite ?zlen_cons; unfold zlen; cbn [length]; lia. }
    destruct h as (h1 & h2 & h3 & h4 & h5 & h6 & h7).
    assert (hn : small (zlen (pair_bytes (sent_settings s)))) by (unfold small, max_varint; lia).
    exists (wr_varint_bytes 4 ++ wr_varint_bytes (zlen (pair_bytes (sent_settings s))) ++ pair_bytes (sent_settings s)), 4, (pair_bytes (sent_settings s)). split; [|split].
    + apply (hwrites_ext (fun w => let* w := h_varint 4 w in let* w := h_varint (zlen (pair_bytes (sent_settings s))) w in put_settings (sent_settings s) w)).
      * apply (hwrites_seq (h_varint 4)); [apply hwrites_varint, hs; lia|]. apply (hwrites_seq (h_varint (zlen _))); [apply hwrites_varint, hn|]. apply pairs_put, hp.
      * intros w. cbn [h3_to_bytes]. change (settings_out s) with (sent_settings s). rewrite (pairs_len _ hp). reflexivity.
    + exists (wr_varint_bytes 4), (wr_varint_bytes (zlen (pair_bytes (sent_settings s)))). split; [apply wr_varint_q, hs; lia|]. split; [apply wr_varint_q, hn|reflexivity].
    + split; [reflexivity|]. exists (sent_settings s). split; [apply pairs_list, hp|]. split; [apply forbidden_sent; assumption|]. pose proof (says_sent s h6) as e. cbn [as_read] in e. assert (g : forall a b, HSettings a = HSettings b -> b = a) by (intros ? ? q; injection q; auto). apply g. exact e.
  - destruct h as (h1 & h2 & h3). destruct (put_vb_ok 5 v d (hs 5 ltac:(lia)) h1 h3) as (bs & w & q). exists bs, 5, (wr_varint_bytes v ++ d). split; [exact w|]. split; [exact q|]. split; [reflexivity|]. exists (wr_varint_bytes v). split; [apply wr_varint_q, h1|reflexivity].
  - destruct (put_v_ok 7 v (hs 7 ltac:(lia)) h) as (bs & w & q). exists bs, 7, (wr_varint_bytes v). split; [exact w|]. split; [exact q|]. split; [reflexivity|apply wr_varint_q, h].
  - destruct (put_v_ok 13 v (hs 13 ltac:(lia)) h) as (bs & w & q). exists bs, 13, (wr_varint_bytes v). split; [exact w|]. split; [exact q|]. split; [reflexivity|apply wr_varint_q, h].
  - destruct h as (h1 & h2 & h3). destruct (put_vb_ok 984832 v d (hs 984832 ltac:(lia)) h1 h3) as (bs & w & q). exists bs, 984832, (wr_varint_bytes v ++ d). split; [exact w|]. split; [exact q|]. split; [reflexivity|]. exists (wr_varint_bytes v). split; [apply wr_varint_q, h1|reflexivity].
  - destruct h as (h1 & h2 & h3). destruct (put_vb_ok 984833 v d (hs 984833 ltac:(lia)) h1 h3) as (bs & w & q). exists bs, 984833, (wr_varint_bytes v ++ d). split; [exact w|]. split; [exact q|]. split; [reflexivity|]. exists (wr_varint_bytes v). split; [apply wr_varint_q, h1|reflexivity].
  - destruct h as (h1 & h2 & h3 & h4). destruct (put_b_ok t d h1 h4) as (bs & w & q). exists bs, t, d. auto 6.
Qed.
