(** Header protection, nonces and whole packets. *)
Require Import Verif.Base Verif.Errors Verif.RangesModel Verif.RangesProofs Verif.RangesProofs2.
Require Import Verif.OctetsModel Verif.OctetsSpec Verif.OctetsProofs Verif.OctetsProofs2.
Require Import Verif.FrameModel Verif.FrameSpec Verif.FrameProofs Verif.FrameProofs2 Verif.FrameProofs3.
Require Import Verif.PktNumModel Verif.PktNumProofs Verif.PktNumProofs2 Verif.PacketModel Verif.PacketSpec Verif.PacketProofs.

(** ** Exclusive or *)
Lemma byte_all2 (P : Z -> Z -> bool) :
  forallb (fun a => forallb (P a) (map Z.of_nat (seq 0 256))) (map Z.of_nat (seq 0 256)) = true ->
  forall a b, 0 <= a < 256 -> 0 <= b < 256 -> P a b = true.
Proof. intros h a b ha hb. apply byte_all; auto. apply (byte_all (fun a => forallb (P a) (map Z.of_nat (seq 0 256)))); auto. Qed.

Lemma lxor_byte a b : 0 <= a < 256 -> 0 <= b < 256 -> 0 <= Z.lxor a b < 256.
Proof.
  intros ha hb. enough (h : (0 <=? Z.lxor a b) && (Z.lxor a b <? 256) = true) by lia.
  apply (byte_all2 (fun a b => (0 <=? Z.lxor a b) && (Z.lxor a b <? 256))); [vm_compute; reflexivity|auto|auto].
Qed.

Lemma xor_len a : forall m, zlen (xor_bytes a m) = zlen a.
Proof. induction a as [|x a IH]; intros [|y m]; cbn [xor_bytes]; auto. rewrite !zlen_cons, IH. reflexivity. Qed.

Lemma xor_twice a : forall m, xor_bytes (xor_bytes a m) m = a.
Proof.
  induction a as [|x a IH]; intros [|y m]; cbn [xor_bytes]; auto. rewrite IH. f_equal.
  rewrite Z.lxor_assoc, Z.lxor_nilpotent, Z.lxor_0_r. reflexivity.
Qed.

Lemma xor_byte a : forall m, bytes_ok a -> bytes_ok m -> bytes_ok (xor_bytes a m).
Proof.
  induction a as [|x a IH]; intros [|y m] ha hm; cbn [xor_bytes]; auto. inversion ha; inversion hm; subst. constructor; [|apply IH; auto].
  unfold is_byte in *. apply lxor_byte; auto.
Qed.

(** [a] on the right of the exclusive or is determined by the result. *)
Lemma xor_inj a : forall m m', zlen m = zlen a -> zlen m' = zlen a -> xor_bytes a m = xor_bytes a m' -> m = m'.
Proof.
  induction a as [|x a IH]; intros m m' h h' e.
  - destruct m, m'; auto; rewrite ?zlen_cons in *; change (zlen (@nil Z)) with 0 in *;
      match goal with k : _ + zlen ?l = 0 |- _ => pose proof (zlen_nonneg l); lia | k : zlen ?l + _ = 0 |- _ => pose proof (zlen_nonneg l); lia | k : 1 + zlen ?l = _ |- _ => pose proof (zlen_nonneg l); lia end.
  - destruct m as [|y m]; [rewrite zlen_cons in h; change (zlen (@nil Z)) with 0 in h; pose proof (zlen_nonneg a); lia|].
    destruct m' as [|y' m']; [rewrite zlen_cons in h'; change (zlen (@nil Z)) with 0 in h'; pose proof (zlen_nonneg a); lia|].
    rewrite !zlen_cons in *. cbn [xor_bytes] in e. injection e as e1 e2. f_equal; [|apply IH; auto; lia].
    assert (k : Z.lxor x (Z.lxor x y) = Z.lxor x (Z.lxor x y')) by congruence.
    rewrite <- !Z.lxor_assoc, Z.lxor_nilpotent, !Z.lxor_0_l in k. auto.
Qed.

(** ** Nonces *)
Lemma Ok_inj {E A} (a b : A) : @Ok E A a = Ok b -> a = b.
Proof. congruence. Qed.

Theorem nonce_injective iv a b n : zlen iv = 12 -> 0 <= a < 2 ^ 64 -> 0 <= b < 2 ^ 64 ->
  make_nonce iv a = Ok n -> make_nonce iv b = Ok n -> a = b.
Proof.
  intros h ha hb. unfold make_nonce. rewrite h. cbn [Z.eqb Pos.eqb negb]. intros e1 e2. rewrite <- e1 in e2. clear e1. apply Ok_inj in e2. apply app_inv_head in e2.
  assert (hl : zlen (drop 4 iv) = 8) by (clear -h; rewrite zlen_drop by lia; lia).
  apply xor_inj in e2; [|rewrite be_enc_len; lia..].
  apply (f_equal be_value) in e2. rewrite !be_enc_value in e2. change (256 ^ Z.of_nat 8) with (2 ^ 64) in e2. rewrite !Z.mod_small in e2 by lia. auto.
Qed.

Lemma nonce_ok iv pn : zlen iv = 12 -> exists n, make_nonce iv pn = Ok n /\ zlen n = 12.
Proof.
  intros h. unfold make_nonce. rewrite h. cbn [Z.eqb Pos.eqb negb]. eexists. split; [reflexivity|].
  rewrite zlen_app, xor_len, zlen_take, zlen_drop by lia. lia.
Qed.

(** ** Header protection *)
Lemma hp_bytes f m : 0 <= f < 256 -> 0 <= m < 256 ->
  hp_first (hp_first f m) m = f /\ 0 <= hp_first f m < 256 /\ (128 <=? hp_first f m) = (128 <=? f) /\
  (128 <= f -> hp_first f m / 16 = f / 16).
Proof.
  intros hf hm.
  assert (h : (hp_first (hp_first f m) m =? f) && (0 <=? hp_first f m) && (hp_first f m <? 256) && Bool.eqb (128 <=? hp_first f m) (128 <=? f) &&
    (negb (128 <=? f) || (hp_first f m / 16 =? f / 16)) = true).
  { apply (byte_all2 (fun f m => (hp_first (hp_first f m) m =? f) && (0 <=? hp_first f m) && (hp_first f m <? 256) && Bool.eqb (128 <=? hp_first f m) (128 <=? f) &&
    (negb (128 <=? f) || (hp_first f m / 16 =? f / 16)))); [vm_compute; reflexivity|auto|auto]. }
  apply andb_prop in h as (h & h5). apply andb_prop in h as (h & h4). apply andb_prop in h as (h & h3). apply andb_prop in h as (h1 & h2).
  apply Bool.eqb_prop in h4. ands; try lia; auto.
Qed.

Lemma hp_bits f m i : 0 <= f < 256 -> 0 <= i ->
  Z.testbit (if 128 <=? f then 15 else 31) i = false -> Z.testbit (hp_first f m) i = Z.testbit f i.
Proof.
  intros hf hi h. unfold hp_first. rewrite is_long_iff by auto.
  destruct (128 <=? f); rewrite Z.lxor_spec, Z.land_spec, h, Bool.andb_false_r, Bool.xorb_false_r; reflexivity.
Qed.

Lemma mask_split m : zlen m = 5 -> bytes_ok m -> exists m0 ms, m = m0 :: ms /\ zlen ms = 4 /\ 0 <= m0 < 256 /\ bytes_ok ms.
Proof.
  intros h hb. destruct m as [|m0 ms]; [discriminate|]. rewrite zlen_cons in h. inversion hb; subst. exists m0, ms. ands; auto; try lia; unfold is_byte in *; lia.
Qed.

Lemma slice_bytes a b l : bytes_ok l -> bytes_ok (slice a b l).
Proof. intros h. unfold slice. apply bytes_ok_take, bytes_ok_drop. auto. Qed.

Lemma zlen_slice (a b : Z) (l : list Z) : 0 <= a <= b -> b <= zlen l -> zlen (slice a b l) = b - a.
Proof. intros h1 h2. unfold slice. rewrite zlen_take, zlen_drop by lia. lia. Qed.

Lemma drop_1_cons {A} (x : A) l : drop 1 (x :: l) = l.
Proof. reflexivity. Qed.

Theorem hp_round_trip mask b pn_len payload more h : mask_ok mask -> bytes_ok b -> bytes_ok payload ->
  1 <= pn_len <= 4 -> pn_len < zlen b -> hd 0 b mod 4 = pn_len - 1 -> 20 <= pn_len + zlen payload ->
  exists b' first', encrypt_hdr mask b pn_len payload = Ok b' /\ bytes_ok b' /\ b' = first' :: slice 1 (zlen b - pn_len) b ++ drop (zlen b - pn_len) b' /\
    same_but (if 128 <=? hd 0 b then 15 else 31) pn_len b' b /\
    decrypt_hdr mask (mkOct (b' ++ payload ++ more) (zlen b - pn_len)) h =
      Ok (with_pn h (hd 0 b) (be_value (drop (zlen b - pn_len) b)) pn_len, mkOct (b ++ payload ++ more) (zlen b)).
Proof.
  intros hm hb hp hn hl hlow hpl. destruct b as [|first rest]; [change (zlen (@nil Z)) with 0 in hl; lia|]. cbn [hd] in *.
  rewrite zlen_cons in *. inversion hb as [|? ? hf hr]; subst. unfold is_byte in hf.
  set (mid := take (zlen rest - pn_len) rest). set (pnb := drop (zlen rest - pn_len) rest).
  assert (er : rest = mid ++ pnb) by (symmetry; apply take_drop).
  assert (lm : zlen mid = zlen rest - pn_len) by (unfold mid; rewrite zlen_take by lia; lia).
  assert (lp : zlen pnb = pn_len) by (unfold pnb; rewrite zlen_drop by lia; lia).
  assert (hmid : bytes_ok mid) by (apply bytes_ok_take; auto). assert (hpn : bytes_ok pnb) by (apply bytes_ok_drop; auto).
  unfold encrypt_hdr, MAX_PKT_NUM_LEN, SAMPLE_LEN. replace ((4 <? pn_len) || (zlen payload <? 16 + (4 - pn_len))) with false by lia.
  destruct (hm (slice (4 - pn_len) (16 + (4 - pn_len)) payload)) as (m & em & lm5 & bm).
  { apply slice_bytes. auto. } { rewrite zlen_slice by lia. lia. }
  rewrite em. cbn [bind]. destruct (mask_split m lm5 bm) as (m0 & ms & -> & lms & hm0 & hms). cbn [nth]. rewrite drop_1_cons.
  replace (zlen rest <? pn_len) with false by lia. fold mid pnb.
  destruct (hp_bytes first m0 hf hm0) as (i1 & i2 & i3 & i4). set (first' := hp_first first m0) in *.
  exists (first' :: mid ++ xor_bytes pnb ms), first'.
  assert (e1 : drop (1 + zlen rest - pn_len) (first' :: mid ++ xor_bytes pnb ms) = xor_bytes pnb ms).
  { change (first' :: mid ++ xor_bytes pnb ms) with ((first' :: mid) ++ xor_bytes pnb ms).
    replace (1 + zlen rest - pn_len) with (zlen (first' :: mid)) by (rewrite zlen_cons; lia). apply drop_app_exact. }
  assert (e2 : drop (1 + zlen rest - pn_len) (first :: rest) = pnb).
  { rewrite er. change (first :: mid ++ pnb) with ((first :: mid) ++ pnb).
    replace (1 + zlen (mid ++ pnb) - pn_len) with (zlen (first :: mid)) by (rewrite zlen_cons, zlen_app; lia). apply drop_app_exact. }
  assert (e3 : forall x, slice 1 (1 + zlen rest - pn_len) (x :: mid ++ xor_bytes pnb ms) = mid /\ slice 1 (1 + zlen rest - pn_len) (x :: rest) = mid).
  { intros x. unfold slice. rewrite !drop_1_cons. replace (1 + zlen rest - pn_len - 1) with (zlen mid) by lia. split; [apply take_app_exact|].
    rewrite er. apply take_app_exact. }
  split; [reflexivity|]. split.
  { constructor; [unfold is_byte; lia|]. apply bytes_ok_app. split; auto. apply xor_byte; auto. }
  split; [rewrite e1, (proj2 (e3 first)); reflexivity|]. split.
  { unfold same_but. cbn [hd]. rewrite !zlen_cons, zlen_app, xor_len. replace (zlen mid + zlen pnb) with (zlen rest) by lia.
    rewrite (proj1 (e3 first')), (proj2 (e3 first)). ands; auto. intros i hi hbit. apply hp_bits; auto. }
  unfold decrypt_hdr. cbn [oc_buf oc_off app]. unfold MAX_PKT_NUM_LEN, SAMPLE_LEN.
  assert (e4 : drop (1 + zlen rest - pn_len) (first' :: (mid ++ xor_bytes pnb ms) ++ payload ++ more) = xor_bytes pnb ms ++ payload ++ more).
  { rewrite <- app_assoc. change (first' :: mid ++ xor_bytes pnb ms ++ payload ++ more) with ((first' :: mid) ++ xor_bytes pnb ms ++ payload ++ more).
    replace (1 + zlen rest - pn_len) with (zlen (first' :: mid)) by (rewrite zlen_cons; lia). apply drop_app_exact. }
  rewrite e4. pose proof (zlen_nonneg more). pose proof (zlen_nonneg payload).
  replace (zlen (xor_bytes pnb ms ++ payload ++ more) <? 4 + 16) with false by (rewrite !zlen_app, xor_len; lia).
  assert (es : slice 4 (4 + 16) (xor_bytes pnb ms ++ payload ++ more) = slice (4 - pn_len) (16 + (4 - pn_len)) payload).
  { unfold slice. rewrite drop_app_ge by (rewrite xor_len; lia). rewrite xor_len, lp. rewrite drop_app_le by lia.
    rewrite take_app_le by (rewrite zlen_drop by lia; lia). f_equal. lia. }
  rewrite es, em. cbn [bind nth]. rewrite drop_1_cons. rewrite i1.
  assert (el : Z.land first PKT_NUM_MASK + 1 = pn_len).
  { unfold PKT_NUM_MASK. change 3 with (Z.ones 2). rewrite land_mod by lia. change (2 ^ 2) with 4. lia. }
  rewrite el.
  assert (et : take pn_len (xor_bytes pnb ms ++ payload ++ more) = xor_bytes pnb ms).
  { rewrite <- lp, <- (xor_len pnb ms). apply take_app_exact. }
  assert (ed : drop pn_len (xor_bytes pnb ms ++ payload ++ more) = payload ++ more).
  { rewrite <- lp, <- (xor_len pnb ms). apply drop_app_exact. }
  rewrite et, ed, xor_twice.
  assert (et2 : take pn_len (pnb ++ payload ++ more) = pnb) by (rewrite <- lp; apply take_app_exact).
  rewrite et2, be_dec_value.
  assert (ec : match pn_len with 1 | 2 | 3 | 4 => Ok (be_value pnb) | _ => Err InvalidPacket end = Ok (be_value pnb) :> res error _).
  { assert (hc : pn_len = 1 \/ pn_len = 2 \/ pn_len = 3 \/ pn_len = 4) by lia. clear -hc. destruct hc as [-> |[-> |[-> | ->]]]; reflexivity. }
  rewrite ec. cbn [bind].
  assert (etk : take (1 + zlen rest - pn_len) (first' :: (mid ++ xor_bytes pnb ms) ++ payload ++ more) = first' :: mid).
  { rewrite <- app_assoc. change (first' :: mid ++ xor_bytes pnb ms ++ payload ++ more) with ((first' :: mid) ++ xor_bytes pnb ms ++ payload ++ more).
    replace (1 + zlen rest - pn_len) with (zlen (first' :: mid)) by (rewrite zlen_cons; lia). apply take_app_exact. }
  rewrite etk, e2. cbn [app]. rewrite drop_1_cons. unfold with_pn. f_equal. f_equal. f_equal; [|lia].
  f_equal. rewrite er. rewrite <- app_assoc. reflexivity.
Qed.

(** ** Whole packets *)
Lemma header_wire_first n x x' l rest h : header_wire n (x :: l) rest h -> 0 <= x' < 256 ->
  (128 <=? x') = (128 <=? x) -> (128 <= x -> x' / 16 = x / 16) -> header_wire n (x' :: l) rest h.
Proof.
  intros hw hx e1 e2. inversion hw as [first dcid rest' h1 h2 e3|first vb dcid scid l' token versions rest' h1 h2 h3 h4 h5 h6 e3]; subst.
  - apply (HwShort (zlen l) x' l rest); auto. lia.
  - assert (et : long_type x' (be_value vb) = long_type x (be_value vb)) by (unfold long_type; rewrite e2 by lia; reflexivity).
    rewrite <- et. apply (HwLong n x' vb dcid scid l' token versions rest); auto; [lia|]. rewrite et. auto.
Qed.

Lemma encode_pn_ok pn len : 1 <= len <= 4 -> exists bs, encode_pkt_num pn len = Ok bs /\ zlen bs = len /\ bytes_ok bs /\ be_value bs = pn mod 256 ^ len.
Proof.
  intros h. unfold encode_pkt_num. assert (hc : len = 1 \/ len = 2 \/ len = 3 \/ len = 4) by lia.
  destruct hc as [-> |[-> |[-> | ->]]]; eexists; (split; [reflexivity|]); (split; [apply be_enc_len|]); (split; [apply be_enc_bytes|apply be_enc_value]).
Qed.

Lemma padded_len p : zlen (padded p) = Z.max 4 (zlen p).
Proof. unfold padded. rewrite zlen_app. unfold zlen at 2. rewrite repeat_length. pose proof (zlen_nonneg p). lia. Qed.

Lemma padded_bytes p : bytes_ok p -> bytes_ok (padded p).
Proof. intros h. apply bytes_ok_app. split; auto. apply Forall_forall. intros x hx. apply repeat_spec in hx. subst. unfold is_byte. lia. Qed.

Lemma first_low h : 1 <= h_pkt_num_len h <= 4 -> first_byte h mod 4 = h_pkt_num_len h - 1.
Proof.
  intros hn. unfold first_byte. set (n := h_pkt_num_len h) in *.
  assert (hc : n = 1 \/ n = 2 \/ n = 3 \/ n = 4) by lia.
  destruct (h_ty h); destruct (h_key_phase h); destruct hc as [-> |[-> |[-> | ->]]]; reflexivity.
Qed.

Lemma first_kp h : 1 <= h_pkt_num_len h <= 4 -> h_ty h = PShort -> negb (Z.land (first_byte h) KEY_PHASE_BIT =? 0) = h_key_phase h.
Proof.
  intros hn ht. unfold first_byte. rewrite ht. set (n := h_pkt_num_len h) in *.
  assert (hc : n = 1 \/ n = 2 \/ n = 3 \/ n = 4) by lia.
  destruct (h_key_phase h); destruct hc as [-> |[-> |[-> | ->]]]; reflexivity.
Qed.

(** A buffer in which the bytes [a] have been written. *)
Definition written (a out : list Z) : oct := mkOct (a ++ drop (zlen a) out) (zlen a).

Lemma written_ok a out : bytes_ok a -> bytes_ok out -> zlen a <= zlen out -> cursor_ok (written a out) /\ zlen (oc_buf (written a out)) = zlen out.
Proof.
  intros h1 h2 h3. pose proof (zlen_nonneg a). unfold written, cursor_ok. cbn [oc_buf oc_off]. rewrite zlen_app, zlen_drop by lia.
  ands; try lia. apply bytes_ok_app. split; auto. apply bytes_ok_drop. auto.
Qed.

Lemma puts_written ps a out : Forall put_ok ps -> bytes_ok a -> bytes_ok out -> zlen a <= zlen out ->
  (zlen a + zlen (puts_enc ps) <= zlen out -> puts ps (written a out) = (Ok tt, written (a ++ puts_enc ps) out)) /\
  (zlen out < zlen a + zlen (puts_enc ps) -> exists c', puts ps (written a out) = (Err BufferTooShort, c')).
Proof.
  intros hp ha ho hl. destruct (written_ok a out ha ho hl) as (w1 & w2). destruct (puts_spec ps (written a out) w1 hp) as (p1 & p2).
  rewrite w2 in p1, p2. cbn [written oc_off] in p1, p2. split; intros h; [|apply p2; lia]. rewrite p1 by lia. f_equal.
  pose proof (zlen_nonneg a). pose proof (zlen_nonneg (puts_enc ps)).
  unfold after_put, written. cbn [oc_buf oc_off]. rewrite take_app_exact, zlen_app, <- app_assoc. f_equal. f_equal. f_equal.
  rewrite drop_app_ge by lia. rewrite drop_drop by lia. f_equal. lia.
Qed.

Definition len_field (h : header) (n : Z) : list put := match h_ty h with PShort => [] | _ => [PutV2 n] end.

Theorem packet_round_trip k h pn payload out : keys_ok k -> hdr_legal h -> h_ty h <> PRetry ->
  1 <= h_pkt_num_len h <= 4 -> bytes_ok payload -> zlen payload < 2 ^ 14 - 20 -> bytes_ok out ->
  exists size, 21 <= size /\ (zlen out < size -> exists e, build_pkt k h pn payload out = Err e) /\
    (size <= zlen out -> exists out', build_pkt k h pn payload out = Ok (size, out') /\
       zlen out' = zlen out /\ drop size out' = drop size out /\
       forall rest largest, (h_ty h = PShort -> rest = []) -> bytes_ok rest ->
         decode_pkt_num largest (pn mod 256 ^ h_pkt_num_len h) (h_pkt_num_len h) = pn ->
         open_pkt k (take size out' ++ rest) (zlen (h_dcid h)) largest = Ok (opened h pn, pn, padded payload, size)).
Proof.
  intros hk hl hty hn hp hpl ho.
  destruct (hdr_encodes h hl) as (ps & eps & hps & hfirst & hw).
  assert (hw' : forall rest, header_wire (zlen (h_dcid h)) (puts_enc ps) rest (seen h)).
  { intros rest. apply hw. unfold hdr_follows. destruct (h_ty h); auto. congruence. }
  clear hw. set (hb := puts_enc ps) in *.
  assert (bhb : bytes_ok hb) by (apply puts_enc_bytes; auto).
  destruct (encode_pn_ok pn (h_pkt_num_len h) hn) as (pnb & epn & lpn & bpn & vpn).
  set (n := h_pkt_num_len h) in *. set (pl := padded payload).
  assert (lpl : 4 <= zlen pl < 2 ^ 14 - 20). { unfold pl. rewrite padded_len. lia. }
  assert (bpl : bytes_ok pl) by (apply padded_bytes; auto).
  set (ps2 := len_field h (n + zlen pl + 16) ++ [PutB pnb]).
  assert (hps2 : Forall put_ok ps2).
  { unfold ps2, len_field. destruct (h_ty h); cbn [app]; repeat (apply Forall_cons; [cbn [put_ok]; first [assumption|lia]|]); constructor. }
  set (lenb := puts_enc (len_field h (n + zlen pl + 16))).
  assert (e2 : puts_enc ps2 = lenb ++ pnb). { unfold ps2, lenb, puts_enc. rewrite flat_map_app. cbn [flat_map put_enc]. rewrite app_nil_r. reflexivity. }
  assert (hlen : zlen hb >= 1).
  { specialize (hw' []). destruct hw'; rewrite zlen_app; change (zlen [first]) with 1; match goal with |- 1 + zlen ?l >= 1 => pose proof (zlen_nonneg l) end; lia. }
  pose proof (zlen_nonneg lenb). pose proof (zlen_nonneg out).
  set (hdr := hb ++ lenb ++ pnb).
  assert (lhdr : zlen hdr = zlen hb + zlen lenb + n) by (unfold hdr; rewrite !zlen_app; lia).
  assert (blenb : bytes_ok lenb). { apply puts_enc_bytes. unfold ps2 in hps2. apply Forall_app in hps2. tauto. }
  assert (bhdr : bytes_ok hdr) by (unfold hdr; rewrite !bytes_ok_app; auto).
  exists (zlen hdr + zlen pl + 16). split; [lia|].
  destruct (puts_written ps [] out hps ltac:(constructor) ho ltac:(change (zlen (@nil Z)) with 0; lia)) as (p1 & p2).
  fold hb in p1, p2. change (zlen (@nil Z)) with 0 in p1, p2. cbn [app] in p1.
  unfold build_pkt. fold n. unfold hdr_to_bytes. rewrite eps, epn.
  change (payload ++ repeat 0 (Z.to_nat (PAYLOAD_MIN_LEN - zlen payload))) with pl. unfold TAG_LEN. cbn [bind].
  change ((match h_ty h with PShort => [] | _ => [PutV2 (n + zlen pl + 16)] end) ++ [PutB pnb]) with ps2.
  change (mkOct out 0) with (written [] out).
  assert (epl : puts_enc [PutB pl] = pl) by (cbn; apply app_nil_r).
  assert (q : zlen hb <= zlen out -> (zlen hdr <= zlen out -> puts ps2 (written hb out) = (Ok tt, written hdr out)) /\
    (zlen out < zlen hdr -> exists c', puts ps2 (written hb out) = (Err BufferTooShort, c'))).
  { intros h1. destruct (puts_written ps2 hb out hps2 bhb ho h1) as (q1 & q2). rewrite e2, zlen_app in q1, q2. fold hdr in q1. split; [intros; apply q1|intros; apply q2]; lia. }
  assert (r : zlen hdr <= zlen out -> (zlen hdr + zlen pl <= zlen out -> puts [PutB pl] (written hdr out) = (Ok tt, written (hdr ++ pl) out)) /\
    (zlen out < zlen hdr + zlen pl -> exists c', puts [PutB pl] (written hdr out) = (Err BufferTooShort, c'))).
  { intros h1. destruct (puts_written [PutB pl] hdr out ltac:(constructor; auto) bhdr ho h1) as (q1 & q2). rewrite epl in q1, q2. split; auto. }
  split.
  { intros hs. destruct (Z_lt_le_dec (zlen out) (zlen hb)) as [h1|h1]; [destruct (p2 h1) as (c' & ->); eauto|]. rewrite p1 by lia.
    destruct (q h1) as (q1 & q2). destruct (Z_lt_le_dec (zlen out) (zlen hdr)) as [h2|h2]; [destruct (q2 h2) as (c' & ->); eauto|]. rewrite q1 by lia.
    destruct (r h2) as (r1 & r2). destruct (Z_lt_le_dec (zlen out) (zlen hdr + zlen pl)) as [h3|h3]; [destruct (r2 h3) as (c' & ->); eauto|]. rewrite r1 by lia.
    exists CryptoFail. unfold encrypt_pkt, written. cbn [oc_buf oc_off]. rewrite <- app_assoc, drop_app_exact, !zlen_app, zlen_drop by (pose proof (zlen_nonneg pl); pose proof (zlen_nonneg hdr); lia).
    unfold TAG_LEN. pose proof (zlen_nonneg hdr). pose proof (zlen_nonneg pl).
    replace (zlen hdr + (zlen pl + Z.max 0 (zlen out - (zlen hdr + zlen pl))) <? zlen hdr) with false by lia.
    replace (zlen pl + Z.max 0 (zlen out - (zlen hdr + zlen pl)) <? zlen pl + 16) with true by lia. reflexivity. }
  intros hs. rewrite p1 by lia. rewrite (proj1 (q ltac:(lia))) by lia. rewrite (proj1 (r ltac:(lia))) by lia. clear p1 p2 q r.
  unfold written. cbn [oc_buf oc_off]. rewrite <- app_assoc.
  set (tail := drop (zlen (hdr ++ pl)) out).
  assert (ltail : zlen tail = zlen out - zlen hdr - zlen pl) by (unfold tail; rewrite zlen_drop, zlen_app by apply zlen_nonneg; lia).
  unfold encrypt_pkt. rewrite !zlen_app. replace (zlen hdr + (zlen pl + zlen tail) <? zlen hdr) with false by lia.
  rewrite take_app_exact, drop_app_exact, take_app_exact, zlen_app. unfold TAG_LEN.
  replace (zlen pl + zlen tail <? zlen pl + 16) with false by lia.
  destruct (nonce_ok (k_iv k) pn (ko_iv k hk)) as (nonce & enonce & _). rewrite enonce. cbn [bind].
  set (sealed := k_seal k nonce hdr pl). assert (lse : zlen sealed = zlen pl + 16) by apply (ko_len k hk).
  rewrite lse. assert (edr : drop (zlen pl + 16) (pl ++ tail) = drop 16 tail).
  { rewrite drop_app_ge by lia. f_equal. lia. }
  rewrite edr.
  assert (hhd : hd 0 hdr = first_byte h).
  { unfold hdr. destruct hb as [|x hb0]; [change (zlen (@nil Z)) with 0 in hlen; lia|]. exact hfirst. }
  assert (bse : bytes_ok sealed) by (apply (ko_bytes k hk); auto).
  assert (btail : bytes_ok (drop 16 tail)) by (apply bytes_ok_drop, bytes_ok_drop; auto).
  assert (hlow : hd 0 hdr mod 4 = n - 1). { rewrite hhd. apply first_low. auto. }
  destruct (hp_round_trip (k_mask k) hdr n (sealed ++ drop 16 tail) [] (seen h) (ko_mask k hk) bhdr ltac:(apply bytes_ok_app; auto) hn ltac:(lia) hlow
    ltac:(rewrite zlen_app; pose proof (zlen_nonneg (drop 16 tail)); lia)) as (hdr' & first' & e3 & b3 & e4 & e5 & _).
  rewrite e3. cbn [bind]. exists (hdr' ++ sealed ++ drop 16 tail).
  assert (lhdr' : zlen hdr' = zlen hdr) by apply e5.
  split; [f_equal; f_equal; lia|]. split.
  { rewrite !zlen_app, zlen_drop, ltail, lhdr', lse by lia. lia. }
  split.
  { rewrite drop_app_ge by lia. rewrite drop_app_ge by lia. rewrite drop_drop by lia. unfold tail. rewrite drop_drop by (rewrite ?zlen_app; lia).
    f_equal. rewrite zlen_app. lia. }
  intros rest largest hrest brest hdec.
  assert (etk : take (zlen hdr + zlen pl + 16) (hdr' ++ sealed ++ drop 16 tail) = hdr' ++ sealed).
  { rewrite take_app_ge by lia. rewrite lhdr'. replace (zlen hdr + zlen pl + 16 - zlen hdr) with (zlen sealed) by lia. rewrite take_app_exact. reflexivity. }
  rewrite etk. rewrite <- app_assoc.
  (* the protected header is a header *)
  destruct (hp_round_trip (k_mask k) hdr n sealed rest (seen h) (ko_mask k hk) bhdr bse hn ltac:(lia) hlow ltac:(lia)) as (hdr2 & first2 & f3 & g3 & f4 & f5 & f6).
  assert (ehdr2 : hdr2 = hdr').
  { enough (Ok hdr2 = Ok hdr' :> res error _) by congruence. rewrite <- e3, <- f3. unfold encrypt_hdr, MAX_PKT_NUM_LEN, SAMPLE_LEN.
    rewrite zlen_app. pose proof (zlen_nonneg (drop 16 tail)).
    replace ((4 <? n) || (zlen sealed <? 16 + (4 - n))) with false by lia.
    replace ((4 <? n) || (zlen sealed + zlen (drop 16 tail) <? 16 + (4 - n))) with false by lia.
    assert (es : slice (4 - n) (16 + (4 - n)) (sealed ++ drop 16 tail) = slice (4 - n) (16 + (4 - n)) sealed).
    { unfold slice. rewrite drop_app_le by lia. rewrite take_app_le by (rewrite zlen_drop by lia; lia). reflexivity. }
    rewrite es. reflexivity. }
  subst hdr2. clear e3 e4 e5.
  set (xpn := drop (zlen hdr - n) hdr') in *.
  assert (ehb : exists hb', hdr' = hb' ++ lenb ++ xpn /\ zlen hb' = zlen hb /\ forall r, header_wire (zlen (h_dcid h)) hb' r (seen h)).
  { destruct hb as [|x hb0] eqn:Ehb; [change (zlen (@nil Z)) with 0 in hlen; lia|]. exists (first2 :: hb0).
    assert (esl : slice 1 (zlen hdr - n) hdr = hb0 ++ lenb).
    { unfold hdr, slice. cbn [app]. rewrite drop_1_cons. rewrite !zlen_cons, !zlen_app.
      replace (1 + (zlen hb0 + (zlen lenb + zlen pnb)) - n - 1) with (zlen (hb0 ++ lenb)) by (rewrite zlen_app; lia).
      rewrite app_assoc. apply take_app_exact. }
    split; [rewrite f4 at 1; rewrite esl, <- app_assoc; reflexivity|]. split; [rewrite !zlen_cons; reflexivity|].
    intros r. assert (hx : 0 <= x < 256) by (inversion bhb; auto).
    assert (hx2 : hd 0 hdr' = first2) by (rewrite f4; reflexivity).
    assert (hx1 : hd 0 hdr = x) by reflexivity.
    assert (hf2 : exists m0, 0 <= m0 < 256 /\ first2 = hp_first x m0).
    { unfold encrypt_hdr, MAX_PKT_NUM_LEN, SAMPLE_LEN in f3. replace ((4 <? n) || (zlen sealed <? 16 + (4 - n))) with false in f3 by lia.
      destruct (ko_mask k hk (slice (4 - n) (16 + (4 - n)) sealed)) as (m & em & lm5 & bm). { apply slice_bytes. auto. } { rewrite zlen_slice by lia. lia. }
      rewrite em in f3. cbn [bind] in f3. destruct (mask_split m lm5 bm) as (m0 & ms & -> & lms & hm0 & hms). cbn [nth] in f3.
      unfold hdr in f3 at 1. cbn [app] in f3. exists m0. split; auto.
      destruct (zlen (hb0 ++ lenb ++ pnb) <? n); [discriminate|]. injection f3 as f3. rewrite <- f3 in hx2. cbn [hd] in hx2. auto. }
    destruct hf2 as (m0 & hm0 & ->). destruct (hp_bytes x m0 hx hm0) as (_ & i2 & i3 & i4).
    apply (header_wire_first _ x); auto. }
  destruct ehb as (hb' & ehdr' & lhb' & hw2).
  assert (lx : zlen xpn = n). { assert (k1 := lhdr'). rewrite ehdr', !zlen_app in k1. lia. }
  assert (lof : zlen (hdr' ++ sealed ++ rest) - zlen (xpn ++ sealed ++ rest) = zlen hdr - n).
  { rewrite !zlen_app, lhdr', lx. lia. }
  unfold open_pkt.
  assert (eh : hdr_from_bytes (hdr' ++ sealed ++ rest) (zlen (h_dcid h)) = Ok (seen h, lenb ++ xpn ++ sealed ++ rest)).
  { rewrite ehdr'. rewrite <- !app_assoc. apply hdr_decode_complete; [apply zlen_nonneg|]. apply hw2. }
  rewrite eh. cbn [bind].
  assert (ety : h_ty (seen h) = h_ty h) by (unfold seen; destruct (h_ty h); reflexivity). rewrite ety.
  assert (elen : match h_ty h with PShort => Ok (zlen (lenb ++ xpn ++ sealed ++ rest), lenb ++ xpn ++ sealed ++ rest)
     | _ => get_v (lenb ++ xpn ++ sealed ++ rest) end = Ok (n + zlen pl + 16, xpn ++ sealed ++ rest) :> res error _).
  { assert (long : h_ty h <> PShort -> get_v (lenb ++ xpn ++ sealed ++ rest) = Ok (n + zlen pl + 16, xpn ++ sealed ++ rest)).
    { intros hns. apply get_v_app. unfold lenb, len_field. assert (el : match h_ty h with PShort => [] | _ => [PutV2 (n + zlen pl + 16)] end = [PutV2 (n + zlen pl + 16)]) by (destruct (h_ty h); congruence).
      rewrite el. unfold puts_enc. cbn [flat_map]. rewrite app_nil_r. apply enc_v2. lia. }
    destruct (h_ty h) eqn:Et; try (apply long; discriminate).
    rewrite (hrest eq_refl). unfold lenb, len_field. rewrite Et. cbn [puts_enc flat_map app]. rewrite !zlen_app, lx, lse. change (zlen (@nil Z)) with 0. f_equal. f_equal. lia. }
  rewrite elen. cbn [bind]. replace (zlen (xpn ++ sealed ++ rest) <? n + zlen pl + 16) with false by (rewrite !zlen_app; pose proof (zlen_nonneg rest); lia).
  rewrite lof. rewrite f6. cbn [bind].
  assert (edp : drop (zlen hdr - n) hdr = pnb).
  { unfold hdr. rewrite app_assoc. replace (zlen ((hb ++ lenb) ++ pnb) - n) with (zlen (hb ++ lenb)) by (rewrite !zlen_app; lia). apply drop_app_exact. }
  rewrite edp, vpn. cbn [with_pn h_pkt_num h_pkt_num_len]. rewrite hdec.
  unfold decrypt_pkt. cbn [oc_buf oc_off]. rewrite take_app_exact, drop_app_exact. pose proof (zlen_nonneg rest).
  replace (n + zlen pl + 16 <? n) with false by lia. rewrite zlen_app. replace (zlen sealed + zlen rest <? n + zlen pl + 16 - n) with false by lia.
  unfold TAG_LEN. replace (n + zlen pl + 16 - n <? 16) with false by lia. rewrite enonce. cbn [bind].
  replace (n + zlen pl + 16 - n) with (zlen sealed) by lia. rewrite take_app_exact.
  unfold sealed. rewrite (ko_open k hk) by auto. cbn [bind]. cbn [oc_off].
  f_equal. f_equal. f_equal. f_equal. unfold opened, with_pn. rewrite ety. fold n. f_equal.
  - unfold seen; destruct (h_ty h); reflexivity.
  - rewrite hhd. destruct (h_ty h) eqn:Et; try (unfold seen; rewrite Et; reflexivity). apply first_kp; auto.
Qed.
