(** Headers. *)
Require Import Verif.Base Verif.Errors Verif.RangesModel Verif.RangesProofs Verif.RangesProofs2.
Require Import Verif.OctetsModel Verif.OctetsSpec Verif.OctetsProofs Verif.OctetsProofs2.
Require Import Verif.FrameModel Verif.FrameSpec Verif.FrameProofs Verif.FrameProofs2 Verif.FrameProofs3.
Require Import Verif.PktNumModel Verif.PacketModel Verif.PacketSpec.

(** ** Facts about all bytes, by computation *)
Lemma byte_all (P : Z -> bool) : forallb P (map Z.of_nat (seq 0 256)) = true -> forall b, 0 <= b < 256 -> P b = true.
Proof.
  intros h b hb. rewrite forallb_forall in h. apply h. apply in_map_iff. exists (Z.to_nat b). split; [lia|].
  apply in_seq. lia.
Qed.

Lemma is_long_iff b : 0 <= b < 256 -> is_long b = (128 <=? b).
Proof. intros h. apply Bool.eqb_prop. apply (byte_all (fun b => Bool.eqb (is_long b) (128 <=? b))); [vm_compute; reflexivity|auto]. Qed.

Lemma ty_bits b : 0 <= b < 256 -> Z.shiftr (Z.land b TYPE_MASK) 4 = (b / 16) mod 4.
Proof. intros h. apply Z.eqb_eq. apply (byte_all (fun b => Z.shiftr (Z.land b TYPE_MASK) 4 =? (b / 16) mod 4)); [vm_compute; reflexivity|auto]. Qed.

(** ** Reading *)
Lemma rd_u_np n b : rd (rd_u n b) <> Panic.
Proof. unfold rd. destruct (rd_u n b); discriminate. Qed.

Lemma rd_u_ok n b v b' : bytes_ok b -> rd (rd_u n b) = Ok (v, b') ->
  exists l, b = l ++ b' /\ zlen l = Z.of_nat n /\ v = be_value l /\ bytes_ok l /\ bytes_ok b'.
Proof.
  intros hb h. unfold rd in h. destruct (rd_u n b) as [[v' b1]|] eqn:E; [|discriminate]. injection h as -> ->.
  destruct (rd_u_inv _ _ _ _ E) as (l & -> & e1 & e2). apply bytes_ok_app in hb as (h1 & h2). exists l. auto.
Qed.

Lemma rd_u1_ok b v b' : bytes_ok b -> rd (rd_u 1 b) = Ok (v, b') -> b = v :: b' /\ 0 <= v < 256 /\ bytes_ok b'.
Proof.
  intros hb h. destruct (rd_u_ok _ _ _ _ hb h) as (l & -> & e1 & e2 & h1 & h2).
  destruct l as [|x [|y l]]; [discriminate| |rewrite !zlen_cons in e1; pose proof (zlen_nonneg l); lia].
  inversion h1 as [|? ? hx]; subst. cbn [be_value] in *. change (zlen (@nil Z)) with 0. unfold is_byte in hx. split; [|split; [lia|auto]].
  cbn [app]. f_equal. lia.
Qed.

Lemma rd_u1_app x rest : rd (rd_u 1 ([x] ++ rest)) = Ok (x, rest).
Proof. rewrite (rd_u_app 1 [x] rest) by reflexivity. cbn [rd be_value]. change (zlen (@nil Z)) with 0. do 2 f_equal. lia. Qed.

Lemma rd_u_app' n l rest : zlen l = Z.of_nat n -> rd (rd_u n (l ++ rest)) = Ok (be_value l, rest).
Proof. intros h. rewrite (rd_u_app n l rest h). reflexivity. Qed.

Lemma zlen_concat4 vs : Forall (fun v : list Z => zlen v = 4) vs -> zlen (concat vs) = 4 * zlen vs.
Proof. induction 1 as [|v vs h1 h2 IH]; [reflexivity|]. cbn [concat]. rewrite zlen_app, zlen_cons, IH, h1. lia. Qed.

Lemma versions_loop_complete vs : Forall (fun v => zlen v = 4) vs -> forall fuel acc, (length (concat vs) < fuel)%nat ->
  versions_loop fuel (concat vs) acc = Ok (acc ++ map be_value vs, []).
Proof.
  induction 1 as [|v vs h1 h2 IH]; intros fuel acc hf; cbn [concat map].
  - rewrite app_nil_r. destruct fuel; reflexivity.
  - destruct fuel as [|fuel]; [cbn in hf; lia|]. cbn [concat] in hf. rewrite app_length in hf.
    destruct v as [|x v]; [discriminate|]. cbn [app versions_loop].
    change (x :: v ++ concat vs) with ((x :: v) ++ concat vs). rewrite rd_u_app' by auto. cbn [bind].
    rewrite IH by (cbn in hf; lia). rewrite <- app_assoc. reflexivity.
Qed.

Lemma versions_loop_sound fuel : forall b acc, bytes_ok b -> (length b < fuel)%nat ->
  match versions_loop fuel b acc with
  | Ok (l, rest) => exists vs, b = concat vs /\ Forall (fun v => zlen v = 4) vs /\ rest = [] /\ l = acc ++ map be_value vs
  | Err _ => True
  | Panic => False
  end.
Proof.
  induction fuel as [|fuel IH]; intros b acc hb hl; [lia|].
  destruct b as [|x b0] eqn:Eb.
  - cbn. exists []. rewrite app_nil_r. auto.
  - cbn [versions_loop]. rewrite <- Eb in *. destruct (rd (rd_u 4 b)) as [[v b']|e|] eqn:E; cbn [bind]; [|exact I|destruct (rd_u_np _ _ E)].
    destruct (rd_u_ok _ _ _ _ hb E) as (l & e1 & e2 & -> & hb1 & hb2).
    assert (hl' : (length b' < fuel)%nat). { rewrite e1, app_length in hl. unfold zlen in e2. lia. }
    specialize (IH b' (acc ++ [be_value l]) hb2 hl'). destruct (versions_loop fuel b' (acc ++ [be_value l])) as [[l' rest]|?|]; auto.
    destruct IH as (vs & -> & h2 & h3 & h4). exists (l :: vs). ands; auto.
    rewrite h4, <- app_assoc. reflexivity.
Qed.

(** ** Decoding *)
Lemma hdr_decode_complete n l rest h : 0 <= n -> header_wire n l rest h -> hdr_from_bytes (l ++ rest) n = Ok (h, rest).
Proof.
  intros hn hw. destruct hw as [first dcid rest h1 h2|first vb dcid scid l token versions rest h1 h2 h3 h4 h5 h6].
  - rewrite <- app_assoc. unfold hdr_from_bytes. rewrite rd_u1_app. cbn [bind].
    rewrite is_long_iff by lia. replace (128 <=? first) with false by lia. cbn [negb]. rewrite get_n_app by auto. reflexivity.
  - rewrite <- !app_assoc. unfold hdr_from_bytes. rewrite rd_u1_app. cbn [bind].
    rewrite is_long_iff by lia. replace (128 <=? first) with true by lia. cbn [negb]. rewrite rd_u_app' by (rewrite h2; reflexivity). cbn [bind].
    set (version := be_value vb) in *.
    assert (et : (if version =? 0 then Ok PVersionNegotiation
      else match Z.shiftr (Z.land first TYPE_MASK) 4 with 0 => Ok PInitial | 1 => Ok PZeroRTT | 2 => Ok PHandshake | 3 => Ok PRetry | _ => Err InvalidPacket end)
      = Ok (long_type first version) :> res error _).
    { unfold long_type. destruct (version =? 0); auto. rewrite ty_bits by lia.
      pose proof (Z.mod_pos_bound (first / 16) 4 ltac:(lia)).
      assert (hc : (first / 16) mod 4 = 0 \/ (first / 16) mod 4 = 1 \/ (first / 16) mod 4 = 2 \/ (first / 16) mod 4 = 3) by lia.
      destruct hc as [-> |[-> |[-> | ->]]]; reflexivity. }
    rewrite et. cbn [bind]. clear et. rewrite rd_u1_app. cbn [bind].
    unfold version_is_supported, PROTOCOL_VERSION_V1, MAX_CID_LEN.
    replace ((version =? 1) && (20 <? zlen dcid)) with false by (destruct (version =? 1) eqn:E; cbn; lia).
    rewrite get_n_app by auto. cbn [bind]. rewrite rd_u1_app. cbn [bind].
    replace ((version =? 1) && (20 <? zlen scid)) with false by (destruct (version =? 1) eqn:E; cbn; lia).
    rewrite get_n_app by auto. cbn [bind]. cbv zeta.
    destruct (long_type first version) eqn:Et; cbn [type_fields] in h6.
    + destruct h6 as (t & h6 & -> & ->). rewrite (get_lv_app _ _ _ h6). reflexivity.
    + destruct h6 as (-> & -> & h6). rewrite zlen_app, h6. unfold TAG_LEN. pose proof (zlen_nonneg l).
      replace (zlen l + 16 <? 16) with false by lia. replace (zlen l + 16 - 16) with (zlen l) by lia. rewrite get_n_app by auto. reflexivity.
    + destruct h6 as (-> & -> & ->). reflexivity.
    + destruct h6 as (-> & -> & ->). reflexivity.
    + destruct h6 as (vs & -> & h6 & -> & -> & ->). rewrite app_nil_r. rewrite (versions_loop_complete vs h6) by lia. reflexivity.
    + destruct h6 as (-> & -> & ->). reflexivity.
Qed.

Definition hdr_parsed n (b : list Z) (r : res error (header * list Z)) : Prop :=
  match r with
  | Ok (h, rest) => exists l, b = l ++ rest /\ header_wire n l rest h /\ bytes_ok rest
  | Err _ => True
  | Panic => False
  end.

Tactic Notation "rdb" ident(v) ident(b) ident(hv) ident(hb) :=
  match goal with
  | hb0 : bytes_ok ?b0 |- context [bind (rd (rd_u 1 ?b0)) _] =>
      let E := fresh "E" in
      destruct (rd (rd_u 1 b0)) as [[v b]|?|] eqn:E; cbn [bind]; [|exact I|destruct (rd_u_np _ _ E)];
      destruct (rd_u1_ok _ _ _ hb0 E) as (-> & hv & hb)
  end.

Lemma hdr_decode_sound n b : 0 <= n -> bytes_ok b -> hdr_parsed n b (hdr_from_bytes b n).
Proof.
  intros hn hb. unfold hdr_from_bytes. rdb first b1 hf hb1.
  rewrite is_long_iff by lia. destruct (128 <=? first) eqn:Ef; cbn [negb].
  - destruct (rd (rd_u 4 b1)) as [[version b2]|e|] eqn:E4; cbn [bind]; [|exact I|destruct (rd_u_np _ _ E4)].
    destruct (rd_u_ok _ _ _ _ hb1 E4) as (vb & -> & e1 & -> & hvb & hb2).
    set (version := be_value vb) in *.
    assert (et : (if version =? 0 then Ok PVersionNegotiation
      else match Z.shiftr (Z.land first TYPE_MASK) 4 with 0 => Ok PInitial | 1 => Ok PZeroRTT | 2 => Ok PHandshake | 3 => Ok PRetry | _ => Err InvalidPacket end)
      = Ok (long_type first version) :> res error _).
    { unfold long_type. destruct (version =? 0); auto. rewrite ty_bits by lia.
      pose proof (Z.mod_pos_bound (first / 16) 4 ltac:(lia)).
      assert (hc : (first / 16) mod 4 = 0 \/ (first / 16) mod 4 = 1 \/ (first / 16) mod 4 = 2 \/ (first / 16) mod 4 = 3) by lia.
      destruct hc as [-> |[-> |[-> | ->]]]; reflexivity. }
    rewrite et. cbn [bind]. clear et. rdb dl b3 hd hb3.
    unfold version_is_supported, PROTOCOL_VERSION_V1, MAX_CID_LEN.
    destruct ((version =? 1) && (20 <? dl)) eqn:E5; [exact I|]. rdn dcid b4 ed hdc hb4. rdb sl b5 hs hb5.
    destruct ((version =? 1) && (20 <? sl)) eqn:E6; [exact I|]. rdn scid b6 es hsc hb6. cbv zeta.
    assert (h5 : version = 1 -> zlen dcid <= 20 /\ zlen scid <= 20).
    { intros ev. rewrite ev in E5, E6. cbn in E5, E6. lia. }
    assert (main : forall l token versions rest, b6 = l ++ rest -> bytes_ok rest ->
      type_fields (long_type first version) l rest token versions ->
      hdr_parsed n (first :: vb ++ dl :: dcid ++ sl :: scid ++ b6)
        (Ok (mkHdr (long_type first version) version dcid scid 0 0 token versions false, rest))).
    { intros l token versions rest -> hr ht. exists ([first] ++ vb ++ [zlen dcid] ++ dcid ++ [zlen scid] ++ scid ++ l). ands; auto.
      - rewrite ed, es. rewrite <- !app_assoc. reflexivity.
      - apply HwLong; auto; try lia. }
    destruct (long_type first version) eqn:Et.
    + rdl lt t b7 q hb7. apply (main lt); auto. exists t. auto.
    + destruct (zlen b6 <? TAG_LEN) eqn:E7; [exact I|]. unfold TAG_LEN in *. rdn t b7 e7 ht hb7. rewrite zlen_app in *.
      apply (main t); auto. cbn. ands; auto. lia.
    + apply (main []); auto. cbn. auto.
    + apply (main []); auto. cbn. auto.
    + pose proof (versions_loop_sound (S (length b6)) b6 [] hb6 ltac:(lia)) as hv.
      destruct (versions_loop (S (length b6)) b6 []) as [[lv rest]|?|]; cbn [bind]; auto.
      destruct hv as (vs & e7 & h7 & -> & ->). apply (main b6); [rewrite app_nil_r; auto|constructor|]. exists vs. auto.
    + apply (main []); auto. cbn. auto.
  - rdn dcid b2 ed hdc hb2. exists ([first] ++ dcid). ands; auto. apply HwShort; auto. lia.
Qed.

Theorem hdr_decode_iff n b h rest : 0 <= n -> bytes_ok b ->
  (hdr_from_bytes b n = Ok (h, rest) <-> exists l, b = l ++ rest /\ header_wire n l rest h).
Proof.
  intros hn hb. split.
  - intros e. pose proof (hdr_decode_sound n b hn hb) as hs. rewrite e in hs. destruct hs as (l & h1 & h2 & _). eauto.
  - intros (l & -> & hw). apply hdr_decode_complete; auto.
Qed.

Theorem hdr_decode_total n b : 0 <= n -> bytes_ok b -> hdr_from_bytes b n <> Panic.
Proof. intros hn hb e. pose proof (hdr_decode_sound n b hn hb) as hs. rewrite e in hs. exact hs. Qed.

(** ** Encoding *)
Definition first_byte (h : header) : Z :=
  match h_ty h with
  | PShort => 64 + (if h_key_phase h then 4 else 0) + Z.max 0 (h_pkt_num_len h - 1)
  | ty => 192 + 16 * (match ty with PInitial => 0 | PZeroRTT => 1 | PHandshake => 2 | _ => 3 end) + Z.max 0 (h_pkt_num_len h - 1)
  end.

Lemma short_first n (kp : bool) : 0 <= n <= 4 ->
  (let first := Z.lor (Z.land (Z.max 0 (n - 1) mod 256) (Z.lnot FORM_BIT)) FIXED_BIT in
   if kp then Z.lor first KEY_PHASE_BIT else Z.land first (Z.lnot KEY_PHASE_BIT)) = 64 + (if kp then 4 else 0) + Z.max 0 (n - 1).
Proof.
  intros h. assert (hc : n = 0 \/ n = 1 \/ n = 2 \/ n = 3 \/ n = 4) by lia.
  destruct kp; destruct hc as [-> |[-> |[-> |[-> | ->]]]]; reflexivity.
Qed.

Lemma long_first n t : 0 <= n <= 4 -> 0 <= t <= 3 ->
  Z.lor (Z.max 0 (n - 1) mod 256) (Z.lor (Z.lor FORM_BIT FIXED_BIT) (Z.shiftl t 4)) = 192 + 16 * t + Z.max 0 (n - 1).
Proof.
  intros h ht. assert (hc : n = 0 \/ n = 1 \/ n = 2 \/ n = 3 \/ n = 4) by lia. assert (htc : t = 0 \/ t = 1 \/ t = 2 \/ t = 3) by lia.
  destruct hc as [-> |[-> |[-> |[-> | ->]]]]; destruct htc as [-> |[-> |[-> | ->]]]; reflexivity.
Qed.

(** What must follow a header: the tag of a Retry packet. *)
Definition hdr_follows (h : header) (rest : list Z) : Prop :=
  match h_ty h with PRetry => zlen rest = 16 | _ => True end.

Lemma enc_u8 x : 0 <= x < 256 -> put_enc (PutU8 x) = [x].
Proof. intros h. cbn. rewrite Z.div_1_r, Z.mod_small by lia. reflexivity. Qed.

Lemma be4_value v : 0 <= v < 2 ^ 32 -> be_value (be_enc 4 v) = v.
Proof. intros h. rewrite be_enc_value. apply Z.mod_small. cbn. lia. Qed.

Lemma long_type_first v n t : 0 < v -> 0 <= n <= 4 -> 0 <= t <= 3 ->
  long_type (192 + 16 * t + Z.max 0 (n - 1)) v = match t with 0 => PInitial | 1 => PZeroRTT | 2 => PHandshake | _ => PRetry end.
Proof.
  intros hv h ht. unfold long_type. replace (v =? 0) with false by lia.
  assert (hc : n = 0 \/ n = 1 \/ n = 2 \/ n = 3 \/ n = 4) by lia. assert (htc : t = 0 \/ t = 1 \/ t = 2 \/ t = 3) by lia.
  destruct hc as [-> |[-> |[-> |[-> | ->]]]]; destruct htc as [-> |[-> |[-> | ->]]]; reflexivity.
Qed.

Lemma hdr_encodes h : hdr_legal h -> exists ps, hdr_puts h = Ok ps /\ Forall put_ok ps /\
  hd 0 (puts_enc ps) = first_byte h /\
  forall rest, hdr_follows h rest -> header_wire (zlen (h_dcid h)) (puts_enc ps) rest (seen h).
Proof.
  destruct h as [ty version dcid scid pn pn_len token versions kp]. unfold hdr_legal, hdr_puts, first_byte, hdr_follows, seen.
  cbn [h_ty h_version h_dcid h_scid h_pkt_num_len h_token h_key_phase].
  intros (h1 & h2 & h3 & h4 & h5 & h6 & h7 & h8).
  pose proof (zlen_nonneg dcid). pose proof (zlen_nonneg scid).
  assert (long : forall t, 0 <= t <= 3 -> forall tok l ps,
    ty = match t with 0 => PInitial | 1 => PZeroRTT | 2 => PHandshake | _ => PRetry end ->
    Forall put_ok ps -> l = puts_enc ps ->
    (forall rest, hdr_follows (mkHdr ty version dcid scid pn pn_len token versions kp) rest -> type_fields ty l rest tok None) ->
    exists ps', Ok ([PutU8 (Z.lor (Z.max 0 (pn_len - 1) mod 256) (Z.lor (Z.lor FORM_BIT FIXED_BIT) (Z.shiftl t 4)));
        PutB (be_enc 4 version); PutU8 (zlen dcid mod 256); PutB dcid; PutU8 (zlen scid mod 256); PutB scid] ++ ps) = Ok ps' :> res error _ /\
      Forall put_ok ps' /\ hd 0 (puts_enc ps') = 192 + 16 * t + Z.max 0 (pn_len - 1) /\
      forall rest, hdr_follows (mkHdr ty version dcid scid pn pn_len token versions kp) rest ->
        header_wire (zlen dcid) (puts_enc ps') rest (mkHdr ty version dcid scid 0 0 tok None false)).
  { intros t ht tok l ps ety hps -> hf. rewrite long_first by auto. rewrite !(Z.mod_small (zlen _)) by lia.
    eexists. split; [reflexivity|]. split.
    { cbn [app]. repeat (apply Forall_cons; [cbn [put_ok]; first [assumption|apply be_enc_bytes|lia]|]). auto. }
    assert (e : puts_enc ([PutU8 (192 + 16 * t + Z.max 0 (pn_len - 1)); PutB (be_enc 4 version); PutU8 (zlen dcid); PutB dcid; PutU8 (zlen scid); PutB scid] ++ ps)
      = [192 + 16 * t + Z.max 0 (pn_len - 1)] ++ be_enc 4 version ++ [zlen dcid] ++ dcid ++ [zlen scid] ++ scid ++ puts_enc ps).
    { unfold puts_enc. cbn [flat_map app]. rewrite !enc_u8 by lia. reflexivity. }
    rewrite e. split; [reflexivity|]. intros rest hr. specialize (hf rest hr).
    assert (et : long_type (192 + 16 * t + Z.max 0 (pn_len - 1)) (be_value (be_enc 4 version)) = ty).
    { rewrite be4_value by lia. rewrite ety. apply long_type_first; lia. }
    assert (hw : header_wire (zlen dcid) ([192 + 16 * t + Z.max 0 (pn_len - 1)] ++ be_enc 4 version ++ [zlen dcid] ++ dcid ++ [zlen scid] ++ scid ++ puts_enc ps) rest
      (mkHdr (long_type (192 + 16 * t + Z.max 0 (pn_len - 1)) (be_value (be_enc 4 version))) (be_value (be_enc 4 version)) dcid scid 0 0 tok None false)).
    { apply HwLong; try lia; auto; try (rewrite et; auto). }
    rewrite et, be4_value in hw by lia. exact hw. }
  destruct ty.
  - destruct token as [t|].
    + apply (long 0 ltac:(lia) (Some t) (puts_enc [PutV (zlen t); PutB t]) [PutV (zlen t); PutB t]); auto.
      * destruct h7 as (h7 & h7'). pose proof (zlen_nonneg t). repeat (apply Forall_cons; [cbn [put_ok]; first [assumption|unfold is_v; lia]|]). constructor.
      * intros rest _. exists t. ands; auto. apply enc_with_len. destruct h7. pose proof (zlen_nonneg t). unfold is_v. lia.
    + apply (long 0 ltac:(lia) (Some []) (puts_enc [PutV 0]) [PutV 0]); auto.
      * repeat (apply Forall_cons; [cbn [put_ok]; unfold is_v; lia|]). constructor.
      * intros rest _. exists []. ands; auto. apply (enc_with_len []). change (zlen (@nil Z)) with 0. unfold is_v. lia.
  - destruct token as [t|]; [|congruence]. apply (long 3 ltac:(lia) (Some t) t [PutB t]); auto.
    + destruct h7. repeat (apply Forall_cons; [cbn [put_ok]; auto|]). constructor.
    + cbn. rewrite app_nil_r. reflexivity.
    + intros rest hr. cbn. auto.
  - destruct (long 2 ltac:(lia) None [] [] eq_refl ltac:(constructor) eq_refl ltac:(cbn; auto)) as (ps' & e & k). rewrite app_nil_r in e. exists ps'. auto.
  - destruct (long 1 ltac:(lia) None [] [] eq_refl ltac:(constructor) eq_refl ltac:(cbn; auto)) as (ps' & e & k). rewrite app_nil_r in e. exists ps'. auto.
  - congruence.
  - cbv zeta. pose proof (short_first pn_len kp h6) as sf. cbv zeta in sf. rewrite sf. clear sf. eexists. split; [reflexivity|].
    assert (hr : 0 <= 64 + (if kp then 4 else 0) + Z.max 0 (pn_len - 1) < 128) by (destruct kp; lia).
    split; [repeat (apply Forall_cons; [cbn [put_ok]; first [assumption|lia]|]); constructor|].
    assert (e : puts_enc [PutU8 (64 + (if kp then 4 else 0) + Z.max 0 (pn_len - 1)); PutB dcid] = [64 + (if kp then 4 else 0) + Z.max 0 (pn_len - 1)] ++ dcid).
    { unfold puts_enc. cbn [flat_map]. rewrite enc_u8, app_nil_r by lia. reflexivity. }
    rewrite e. split; [reflexivity|]. intros rest _. apply HwShort; auto.
Qed.

Lemma puts_spec ps c : cursor_ok c -> Forall put_ok ps ->
  (zlen (puts_enc ps) <= zlen (oc_buf c) - oc_off c -> puts ps c = (Ok tt, after_put (puts_enc ps) c)) /\
  (zlen (oc_buf c) - oc_off c < zlen (puts_enc ps) -> exists c', puts ps c = (Err BufferTooShort, c')).
Proof.
  intros hc hp. destruct (do_puts_spec ps c hc hp) as (h1 & h2). rewrite rest_len in h1, h2 by auto. unfold puts. split; intros h.
  - rewrite h1 by auto. reflexivity.
  - destruct (h2 h) as (c' & e). exists c'. rewrite e. reflexivity.
Qed.

Theorem hdr_round_trip h c : hdr_legal h -> cursor_ok c ->
  exists bs, bytes_ok bs /\ hd 0 bs = first_byte h /\
    (zlen bs <= zlen (oc_buf c) - oc_off c -> exists c', hdr_to_bytes h c = (Ok tt, c') /\ oc_off c' = oc_off c + zlen bs /\
       oc_buf c' = take (oc_off c) (oc_buf c) ++ bs ++ drop (oc_off c + zlen bs) (oc_buf c)) /\
    (zlen (oc_buf c) - oc_off c < zlen bs -> exists c', hdr_to_bytes h c = (Err BufferTooShort, c')) /\
    (forall rest, (h_ty h = PRetry -> zlen rest = 16) -> hdr_from_bytes (bs ++ rest) (zlen (h_dcid h)) = Ok (seen h, rest)).
Proof.
  intros hl hc. destruct (hdr_encodes h hl) as (ps & e & hp & hf & hw). exists (puts_enc ps).
  split; [apply puts_enc_bytes; auto|]. split; auto. unfold hdr_to_bytes. rewrite e.
  destruct (puts_spec ps c hc hp) as (h1 & h2). split; [|split; auto].
  - intros hr. exists (after_put (puts_enc ps) c). split; auto.
  - intros rest hr. apply hdr_decode_complete; [apply zlen_nonneg|]. apply hw. unfold hdr_follows. destruct (h_ty h); auto.
Qed.
