(** Version Negotiation and Retry packets; opening a packet never panics. *)
Require Import Verif.Base Verif.Errors Verif.RangesModel Verif.RangesProofs Verif.RangesProofs2.
Require Import Verif.OctetsModel Verif.OctetsSpec Verif.OctetsProofs Verif.OctetsProofs2.
Require Import Verif.FrameModel Verif.FrameSpec Verif.FrameProofs Verif.FrameProofs2 Verif.FrameProofs3.
Require Import Verif.PktNumModel Verif.PktNumProofs Verif.PktNumProofs2 Verif.PacketModel Verif.PacketSpec Verif.PacketProofs Verif.PacketProofs2.

Lemma lor_form r : 0 <= r < 256 -> 128 <= Z.lor r FORM_BIT < 256.
Proof.
  intros h. enough (k : (128 <=? Z.lor r FORM_BIT) && (Z.lor r FORM_BIT <? 256) = true) by lia.
  apply (byte_all (fun r => (128 <=? Z.lor r FORM_BIT) && (Z.lor r FORM_BIT <? 256))); [vm_compute; reflexivity|auto].
Qed.

Theorem version_negotiation_read rnd scid dcid out n : 0 <= rnd < 256 -> bytes_ok scid -> bytes_ok dcid -> bytes_ok out ->
  zlen scid <= 255 -> zlen dcid <= 255 -> 0 <= n ->
  let size := 11 + zlen scid + zlen dcid in
  (zlen out < size -> exists c', puts (negotiate_version_puts rnd scid dcid) (mkOct out 0) = (Err BufferTooShort, c')) /\
  (size <= zlen out -> exists c', puts (negotiate_version_puts rnd scid dcid) (mkOct out 0) = (Ok tt, c') /\ oc_off c' = size /\
     hdr_from_bytes (take size (oc_buf c')) n = Ok (mkHdr PVersionNegotiation 0 scid dcid 0 0 None (Some [1]) false, [])).
Proof.
  intros hr hs hd ho ls ld hn size. pose proof (lor_form rnd hr) as hf. pose proof (zlen_nonneg scid). pose proof (zlen_nonneg dcid). pose proof (zlen_nonneg out).
  assert (hp : Forall put_ok (negotiate_version_puts rnd scid dcid)).
  { unfold negotiate_version_puts. rewrite !Z.mod_small by lia.
    repeat (apply Forall_cons; [cbn [put_ok]; first [assumption|lia|apply be_enc_bytes]|]). constructor. }
  assert (e : puts_enc (negotiate_version_puts rnd scid dcid) =
    [Z.lor rnd FORM_BIT] ++ be_enc 4 0 ++ [zlen scid] ++ scid ++ [zlen dcid] ++ dcid ++ be_enc 4 1).
  { unfold negotiate_version_puts, puts_enc. cbn [flat_map]. rewrite !Z.mod_small by lia.
    rewrite !enc_u8 by lia. cbn [put_enc]. rewrite app_nil_r. reflexivity. }
  assert (l : zlen (puts_enc (negotiate_version_puts rnd scid dcid)) = size).
  { rewrite e. rewrite !zlen_app, !be_enc_len. change (zlen [_]) with 1. change (zlen [Z.lor rnd FORM_BIT]) with 1. change (zlen [zlen scid]) with 1. change (zlen [zlen dcid]) with 1. lia. }
  change (mkOct out 0) with (written [] out).
  destruct (puts_written _ [] out hp ltac:(constructor) ho ltac:(change (zlen (@nil Z)) with 0; lia)) as (p1 & p2).
  rewrite l in p1, p2. change (zlen (@nil Z)) with 0 in p1, p2. split; intros h; [apply p2; lia|].
  eexists. split; [apply p1; lia|]. cbn [app]. unfold written at 1. cbn [oc_off]. split; auto.
  unfold written. cbn [oc_buf]. rewrite <- l at 1. rewrite take_app_exact. rewrite e.
  rewrite <- (app_nil_r (_ ++ _)). apply hdr_decode_complete; auto.
  assert (v0 : be_value (be_enc 4 0) = 0) by (rewrite be_enc_value; reflexivity).
  pose proof (HwLong n (Z.lor rnd FORM_BIT) (be_enc 4 0) scid dcid (be_enc 4 1) None (Some [1]) []) as k.
  rewrite v0 in k. change (long_type (Z.lor rnd FORM_BIT) 0) with PVersionNegotiation in k. apply k; auto; try lia.
  exists [be_enc 4 1]. ands; auto.
Qed.

Theorem retry_read tag scid dcid new_scid token version out :
  (forall b, bytes_ok (tag b) /\ zlen (tag b) = 16) -> bytes_ok scid -> bytes_ok new_scid -> bytes_ok token -> bytes_ok out ->
  zlen scid <= 20 -> zlen new_scid <= 20 -> zlen token < 2 ^ 62 ->
  let size := 23 + zlen scid + zlen new_scid + zlen token in
  (version <> 1 -> retry tag scid dcid new_scid token version out = Err UnknownVersion) /\
  (version = 1 -> zlen out < size -> retry tag scid dcid new_scid token version out = Err BufferTooShort) /\
  (version = 1 -> size <= zlen out -> exists out' hb, retry tag scid dcid new_scid token version out = Ok (size, out') /\
     take size out' = hb ++ tag hb /\
     hdr_from_bytes (take size out') (zlen scid) = Ok (mkHdr PRetry 1 scid new_scid 0 0 (Some token) None false, tag hb)).
Proof.
  intros ht hs hn hk ho ls ln lk size. split.
  { intros hv. unfold retry, version_is_supported. replace (version =? PROTOCOL_VERSION_V1) with false by (unfold PROTOCOL_VERSION_V1; lia). reflexivity. }
  set (h := mkHdr PRetry version scid new_scid 0 0 (Some token) None false).
  pose proof (zlen_nonneg scid). pose proof (zlen_nonneg new_scid). pose proof (zlen_nonneg token). pose proof (zlen_nonneg out).
  assert (core : version = 1 -> exists ps, hdr_puts h = Ok ps /\ Forall put_ok ps /\ zlen (puts_enc ps) = size - 16 /\
    forall rest, zlen rest = 16 -> header_wire (zlen scid) (puts_enc ps) rest (mkHdr PRetry 1 scid new_scid 0 0 (Some token) None false)).
  { intros ->. assert (hl : hdr_legal h). { unfold hdr_legal, h. cbn. ands; auto; try lia; discriminate. }
    destruct (hdr_encodes h hl) as (ps & e & hp & _ & hw). exists ps. ands; auto.
    specialize (hw (repeat 0 16) eq_refl). inversion hw as [? ? ? ? ? e0|first vb d s l' tk vs rest' h1 h2 h3 h4 h5 h6 e0 e1 e2]. subst s d.
    rewrite e2 in h6. destruct h6 as (h6 & _). injection h6 as h6. subst l'.
    rewrite <- ?e0. rewrite zlen_cons, zlen_app, zlen_cons, zlen_app, zlen_cons, zlen_app. unfold size. lia. }
  assert (go : version = 1 -> exists ps, hdr_puts h = Ok ps /\ Forall put_ok ps /\ zlen (puts_enc ps) = size - 16 /\
    (forall rest, zlen rest = 16 -> header_wire (zlen scid) (puts_enc ps) rest (mkHdr PRetry 1 scid new_scid 0 0 (Some token) None false)) /\
    retry tag scid dcid new_scid token version out =
    match puts ps (written [] out) with
    | (Ok _, c) =>
        match puts [PutB (tag (take (oc_off c) (oc_buf c)))] c with
        | (Ok _, c) => Ok (oc_off c, oc_buf c)
        | (Err e, _) => Err e
        | (Panic, _) => Panic
        end
    | (Err e, _) => Err e
    | (Panic, _) => Panic
    end).
  { intros hv. destruct (core hv) as (ps & e1 & e2 & e3 & e4). exists ps. ands; auto. subst version. unfold retry.
    change (version_is_supported 1) with true. cbn [negb]. fold h. unfold hdr_to_bytes. rewrite e1. reflexivity. }
  split; intros hv hsz; destruct (go hv) as (ps & e1 & e2 & e3 & e4 & ->);
    destruct (puts_written ps [] out e2 ltac:(constructor) ho ltac:(change (zlen (@nil Z)) with 0; lia)) as (p1 & p2);
    rewrite e3 in p1, p2; change (zlen (@nil Z)) with 0 in p1, p2; cbn [app] in p1; set (hb := puts_enc ps) in *;
    assert (bhb : bytes_ok hb) by (apply puts_enc_bytes; auto).
  - destruct (Z_lt_le_dec (zlen out) (size - 16)) as [h1|h1]; [destruct (p2 h1) as (c' & ->); reflexivity|]. rewrite p1 by lia.
    destruct (puts_written [PutB (tag (take (oc_off (written hb out)) (oc_buf (written hb out))))] hb out) as (q1 & q2); auto; try lia.
    { constructor; [|constructor]. apply ht. }
    cbn [puts_enc flat_map put_enc] in q2. rewrite app_nil_r in q2. rewrite (proj2 (ht _)) in q2.
    destruct (q2 ltac:(lia)) as (c' & ->). reflexivity.
  - rewrite p1 by lia.
    destruct (puts_written [PutB (tag (take (oc_off (written hb out)) (oc_buf (written hb out))))] hb out) as (q1 & q2); auto; try lia.
    { constructor; [|constructor]. apply ht. }
    cbn [puts_enc flat_map put_enc] in q1. rewrite app_nil_r in q1. rewrite (proj2 (ht _)) in q1. rewrite q1 by lia. clear q1 q2.
    assert (et : take (oc_off (written hb out)) (oc_buf (written hb out)) = hb) by (unfold written; cbn [oc_off oc_buf]; apply take_app_exact).
    rewrite et. unfold written. cbn [oc_off oc_buf]. rewrite zlen_app, (proj2 (ht _)).
    exists ((hb ++ tag hb) ++ drop (zlen hb + 16) out), hb.
    assert (el : size = zlen (hb ++ tag hb)) by (rewrite zlen_app, (proj2 (ht _)); lia).
    split; [f_equal; f_equal; lia|]. rewrite el, take_app_exact. split; auto.
    apply hdr_decode_complete; auto. apply e4. apply ht.
Qed.

(** Whatever comes from the network, opening it does not panic.  The AEAD is asked
    only not to panic itself and the IV to have its length. *)
Theorem open_never_panics k b n largest : zlen (k_iv k) = 12 -> (forall nc ad c, k_open k nc ad c <> Panic) -> mask_ok (k_mask k) ->
  0 <= n -> bytes_ok b -> open_pkt k b n largest <> Panic.
Proof.
  intros hiv ho hm hn hb. unfold open_pkt.
  pose proof (hdr_decode_total n b hn hb) as ht. destruct (hdr_from_bytes b n) as [[h rest]|e|] eqn:E; cbn [bind]; try congruence.
  assert (hrest : exists l, b = l ++ rest /\ 0 < zlen l).
  { apply hdr_decode_iff in E; auto. destruct E as (l & -> & hw). exists l. split; auto.
    destruct hw; rewrite zlen_app; change (zlen [first]) with 1; match goal with |- 0 < 1 + zlen ?l => pose proof (zlen_nonneg l) end; lia. }
  destruct hrest as (l & -> & hl). apply bytes_ok_app in hb as (bl & br).
  assert (hlen : (match h_ty h with PShort => Ok (zlen rest, rest) | _ => get_v rest end) <> Panic /\
    forall v r, (match h_ty h with PShort => Ok (zlen rest, rest) | _ => get_v rest end) = Ok (v, r) -> exists l2, rest = l2 ++ r).
  { assert (g : get_v rest <> Panic /\ forall v r, get_v rest = Ok (v, r) -> exists l2, rest = l2 ++ r).
    { split; [apply get_v_np; auto|]. intros v r e. apply get_v_ok in e; auto. destruct e as (l2 & -> & _). eauto. }
    destruct (h_ty h); auto. split; [discriminate|]. intros v r e. injection e as _ ->. exists []. reflexivity. }
  destruct hlen as (g1 & g2). destruct (match h_ty h with PShort => Ok (zlen rest, rest) | _ => get_v rest end) as [[plen r]|e|]; cbn [bind]; try congruence.
  destruct (g2 _ _ eq_refl) as (l2 & ->). clear g1 g2. apply bytes_ok_app in br as (bl2 & br).
  destruct (zlen r <? plen); [discriminate|].
  unfold decrypt_hdr. cbn [oc_buf oc_off].
  assert (eo : zlen (l ++ l2 ++ r) - zlen r = zlen (l ++ l2)) by (rewrite !zlen_app; lia). rewrite eo.
  assert (ed : drop (zlen (l ++ l2)) (l ++ l2 ++ r) = r) by (rewrite app_assoc; apply drop_app_exact). rewrite ed.
  assert (etk : take (zlen (l ++ l2)) (l ++ l2 ++ r) = l ++ l2) by (rewrite app_assoc; apply take_app_exact). rewrite etk.
  unfold MAX_PKT_NUM_LEN, SAMPLE_LEN. destruct (l ++ l2 ++ r) as [|first tl] eqn:El.
  { exfalso. apply app_eq_nil in El as (-> & _). change (zlen (@nil Z)) with 0 in hl. lia. }
  destruct (zlen r <? 4 + 16) eqn:Er; [discriminate|].
  destruct (hm (slice 4 (4 + 16) r)) as (m & em & lm5 & bm). { apply slice_bytes. auto. } { rewrite zlen_slice by lia. lia. }
  rewrite em. cbn [bind]. destruct (mask_split m lm5 bm) as (m0 & ms & -> & lms & hm0 & hms). cbn [nth].
  set (pl := Z.land (hp_first first m0) PKT_NUM_MASK + 1).
  assert (hpl : 1 <= pl <= 4). { unfold pl, PKT_NUM_MASK. change 3 with (Z.ones 2). rewrite land_mod by lia. pose proof (Z.mod_pos_bound (hp_first first m0) (2 ^ 2) eq_refl). lia. }
  assert (hc : pl = 1 \/ pl = 2 \/ pl = 3 \/ pl = 4) by lia.
  match goal with |- context[be_dec ?v] => set (v0 := be_dec v);
    assert (ec : match pl with 1 | 2 | 3 | 4 => Ok v0 | _ => Err InvalidPacket end = Ok v0 :> res error _) by (clear -hc; destruct hc as [-> |[-> |[-> | ->]]]; reflexivity);
    rewrite ec end.
  destruct (l ++ l2) as [|x hd0] eqn:Ehd. { exfalso. apply app_eq_nil in Ehd as (-> & _). change (zlen (@nil Z)) with 0 in hl. lia. }
  cbn [bind]. unfold decrypt_pkt. cbn [oc_buf oc_off h_pkt_num_len h_pkt_num].
  destruct (plen <? pl); [discriminate|].
  match goal with |- context[if ?c then _ else _] => destruct c; [discriminate|] end.
  match goal with |- context[if ?c then _ else _] => destruct c; [discriminate|] end.
  match goal with |- context[make_nonce ?i ?p] => destruct (nonce_ok i p hiv) as (nc & -> & _) end. cbn [bind].
  match goal with |- context[k_open k ?a ?b0 ?c] => pose proof (ho a b0 c) as hk; destruct (k_open k a b0 c); cbn [bind]; congruence end.
Qed.

Theorem packet_round_trip_la k h pn la payload out : keys_ok k -> hdr_legal h -> h_ty h <> PRetry ->
  0 <= la -> 0 <= pn < 2 ^ 62 -> pn - la < 2 ^ 31 - 1 -> h_pkt_num_len h = pkt_num_len pn la ->
  bytes_ok payload -> zlen payload < 2 ^ 14 - 20 -> bytes_ok out ->
  exists size, (zlen out < size -> exists e, build_pkt k h pn payload out = Err e) /\
    (size <= zlen out -> exists out', build_pkt k h pn payload out = Ok (size, out') /\
       zlen out' = zlen out /\ drop size out' = drop size out /\
       forall rest largest, (h_ty h = PShort -> rest = []) -> bytes_ok rest ->
         la <= largest -> largest - pn < 2 ^ (8 * h_pkt_num_len h - 1) - 1 ->
         open_pkt k (take size out' ++ rest) (zlen (h_dcid h)) largest = Ok (opened h pn, pn, padded payload, size)).
Proof.
  intros hk hl ht hla hpn hd hlen hp hpl ho.
  assert (hn : 1 <= h_pkt_num_len h <= 4).
  { rewrite hlen. pose proof (pn_round_trip pn la (Z.max la pn) hla hpn ltac:(lia)) as k1. cbv zeta in k1.
    assert (hc : 0 <= h_pkt_num_len h <= 4) by apply hl. rewrite hlen in hc.
    enough (pkt_num_len pn la <> 0) by lia. unfold pkt_num_len, sat_sub. 
    pose proof (Z.log2_nonneg (Z.max 0 (pn - la) + 1)) as k2.
    intros k3. pose proof (Z.div_le_mono (8) (Z.log2 (Z.max 0 (pn - la) + 1) + 1 + 1 + 7) 8 ltac:(lia) ltac:(lia)) as k4. change (8 / 8) with 1 in k4. lia. }
  destruct (packet_round_trip k h pn payload out hk hl ht hn hp hpl ho) as (size & _ & s1 & s2). exists size. split; auto.
  intros hs. destruct (s2 hs) as (out' & o1 & o2 & o3 & o4). exists out'. ands; auto. intros rest largest hr br hle hgap.
  apply o4; auto. rewrite hlen in *. destruct (pn_round_trip pn la largest hla hpn hle hd hgap) as (bs & e1 & e2 & e3).
  destruct (encode_pn_ok pn (pkt_num_len pn la) hn) as (bs' & f1 & _ & _ & f2). assert (bs' = bs) by congruence. subst bs'. rewrite f2 in e3. auto.
Qed.

Theorem hdr_cid_limit n b h rest : 0 <= n <= 20 -> bytes_ok b -> hdr_from_bytes b n = Ok (h, rest) ->
  h_version h = 1 \/ h_ty h = PShort -> zlen (h_dcid h) <= 20 /\ zlen (h_scid h) <= 20.
Proof.
  intros hn hb e. apply hdr_decode_iff in e; auto; try lia. destruct e as (l & -> & hw). inversion hw as [? ? ? h1 h2 e0|first vb d s l' tk vs rest' h1 h2 h3 h4 h5 h6 e0 e1 e2]; subst; cbn.
  - intros _. change (zlen (@nil Z)) with 0. lia.
  - intros [hv|hs]; [auto|]. exfalso. unfold long_type in hs. destruct (be_value vb =? 0); [discriminate|].
    destruct ((first / 16) mod 4) as [|p|]; try discriminate. destruct p as [p|p|]; try discriminate; destruct p; discriminate.
Qed.

Theorem hdr_first_byte h out c' : hdr_legal h -> bytes_ok out -> hdr_to_bytes h (mkOct out 0) = (Ok tt, c') ->
  let b := hd 0 (oc_buf c') in
  b / 64 = (match h_ty h with PShort => 1 | _ => 3 end) /\
  (h_ty h <> PShort -> long_type b (h_version h) = h_ty h) /\
  (h_ty h = PShort -> (b / 4) mod 2 = if h_key_phase h then 1 else 0) /\
  b mod 4 = Z.max 0 (h_pkt_num_len h - 1).
Proof.
  intros hl ho e. assert (cok : cursor_ok (mkOct out 0)) by (split; cbn; auto; pose proof (zlen_nonneg out); lia).
  destruct (hdr_round_trip h (mkOct out 0) hl cok) as (bs & b1 & b2 & b3 & b4 & b5). cbn [oc_buf oc_off] in *.
  destruct (Z_lt_le_dec (zlen out - 0) (zlen bs)) as [k|k]; [destruct (b4 k) as (? & e1); congruence|].
  destruct (b3 k) as (c & e1 & _ & e2). assert (c = c') by congruence. subst c. clear b3 b4 b5.
  assert (hb : hd 0 (oc_buf c') = first_byte h).
  { rewrite e2. change (take 0 out) with (@nil Z). cbn [app]. destruct bs; [|exact b2].
    exfalso. cbn [hd] in b2. unfold first_byte in b2. destruct (h_ty h); destruct (h_key_phase h); lia. }
  cbv zeta. rewrite hb. unfold hdr_legal in hl. destruct hl as (_ & _ & _ & _ & hv & hn & hty & hty2).
  assert (hc : h_pkt_num_len h = 0 \/ h_pkt_num_len h = 1 \/ h_pkt_num_len h = 2 \/ h_pkt_num_len h = 3 \/ h_pkt_num_len h = 4) by lia.
  unfold first_byte, long_type. replace (h_version h =? 0) with false by lia. clear -hc hty2.
  destruct (h_ty h); try congruence; destruct (h_key_phase h); destruct hc as [-> |[-> |[-> |[-> | ->]]]]; ands; intros; try congruence; reflexivity.
Qed.
