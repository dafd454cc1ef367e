(** What calls of the sending side do to one stream. *)
Require Import Verif.Base Verif.Errors Verif.OctetsModel Verif.OctetsSpec Verif.OctetsProofs Verif.StreamsModel Verif.HuffmanModel Verif.QpackModel Verif.QpackSpec Verif.QpackProofs Verif.QpackProofs2 Verif.H3FrameModel Verif.H3FrameSpec Verif.H3FrameProofs Verif.H3ConnModel Verif.H3ConnSpec Verif.H3ConnSpec2 Verif.H3SendModel Verif.H3SendSpec Verif.PropQpack.

(** Nothing more can be written *)
Definition dead (w : wst) : Prop := w_fin w = true \/ w_stop w <> None \/ w_gone w = true.
Definition deadc (c : sconn) (id : Z) : Prop := match s_w c id with Some w => dead w | None => True end.
Definition same_cfg (c c' : sconn) : Prop :=
  s_server c' = s_server c /\ s_grease c' = s_grease c /\ s_next c' = s_next c /\ s_ctl c' = s_ctl c /\ s_goaway c' = s_goaway c /\ s_refuse c' = s_refuse c /\ s_open c' = s_open c.
(** [c'] has [bs] more on stream [id], and the end if [fin] *)
Record more_on (id : Z) (bs : list Z) (fin : bool) (c c' : sconn) : Prop := mkMore {
  mo_cfg : same_cfg c c';
  mo_w : forall k, k <> id -> s_w c' k = s_w c k;
  mo_s : forall k, k <> id -> s_str c' k = s_str c k;
  mo_id : match s_w c id with
          | Some w => exists w', s_w c' id = Some w' /\ w_out w' = w_out w ++ bs /\ (0 <= w_cap w -> 0 <= w_cap w') /\ (dead w -> bs = [] /\ dead w') /\ w_fin w' = w_fin w || fin /\ (w_fin w = true -> bs = [])
          | None => s_w c' id = None /\ bs = [] /\ fin = false
          end }.
Lemma same_refl c : same_cfg c c. Proof. repeat split. Qed.
Lemma same_trans a b c : same_cfg a b -> same_cfg b c -> same_cfg a c.
Proof. intros (h1 & h2 & h3 & h4 & h5 & h6 & h7) (g1 & g2 & g3 & g4 & g5 & g6 & g7). repeat split; congruence. Qed.
Lemma more_refl id c : more_on id [] false c c.
Proof. constructor; auto using same_refl. destruct (s_w c id) as [w|]; auto. exists w. rewrite app_nil_r, orb_false_r. repeat split; auto. Qed.
Lemma more_trans id a b fa fb c0 c1 c2 : more_on id a fa c0 c1 -> more_on id b fb c1 c2 -> more_on id (a ++ b) (fa || fb) c0 c2.
Proof.
  intros [a1 a2 a3 a4] [b1 b2 b3 b4]. constructor; eauto using same_trans.
  - intros k hk. rewrite b2, a2; auto.
  - intros k hk. rewrite b3, a3; auto.
  - destruct (s_w c0 id) as [w|].
    + destruct a4 as (w' & e & o & q & d & f & g). rewrite e in b4. destruct b4 as (w2 & e2 & o2 & q2 & d2 & f2 & g2). exists w2. rewrite o2, o, app_assoc. split; [auto|]. split; [auto|]. split; [auto|]. split; [intros h; destruct (d h) as (-> & d'); destruct (d2 d') as (-> & d3); auto|]. split; [rewrite f2, f, orb_assoc; auto|]. intros h. rewrite g, g2; auto. rewrite f, h. auto.
    + destruct a4 as (e & -> & ->). rewrite e in b4. destruct b4 as (e2 & -> & ->). auto.
Qed.
Lemma more_str id c l : more_on id [] false c (set_str c id l).
Proof. constructor; cbn; auto. - repeat split. - intros k hk. unfold upd. destruct (Z.eqb_spec k id); [contradiction|auto]. - destruct (s_w c id) as [w|]; auto. exists w. rewrite app_nil_r, orb_false_r. repeat split; auto. Qed.
Lemma str_same c id l : s_str (set_str c id l) id = l. Proof. cbn. unfold upd. rewrite Z.eqb_refl. auto. Qed.
Lemma dead_more id bs fin c c' : more_on id bs fin c c' -> deadc c id -> deadc c' id.
Proof. intros [_ _ _ h] hd. unfold deadc in *. destruct (s_w c id) as [w|]; [destruct h as (w' & -> & _ & _ & h & _); apply h, hd|destruct h as (-> & _); auto]. Qed.

(** ** Writing *)
Lemma write_step c id bs fin w : s_w c id = Some w -> ~ dead w -> zlen bs <= w_cap w ->
  let w' := mkWst (w_cap w - zlen bs) (w_out w ++ bs) fin None false (w_read w) in
  stream_send c id bs fin = (Ok (zlen bs), set_w c (upd (s_w c) id (Some w'))).
Proof.
  intros e hd hc w'. unfold stream_send. rewrite e. unfold write_to. unfold dead in hd.
  destruct (w_gone w) eqn:G; [exfalso; tauto|]. destruct (w_stop w) eqn:S; [exfalso; apply hd; right; left; discriminate|]. destruct (w_fin w) eqn:F; [exfalso; tauto|].
  cbn [andb]. pose proof (zlen_nonneg bs). rewrite Z.min_r by lia. destruct (Z.eqb_spec (zlen bs) 0), (Z.ltb_spec 0 (zlen bs)); try lia; cbn [andb]; rewrite Z.eqb_refl, andb_true_r, take_all by lia; reflexivity.
Qed.
Lemma send_more c id bs w : s_w c id = Some w -> ~ dead w -> zlen bs <= w_cap w -> forall fin c' r, stream_send c id bs fin = (r, c') ->
  r = Ok (zlen bs) /\ more_on id bs fin c c' /\ s_str c' id = s_str c id /\ s_greased c' = s_greased c /\
  exists w', s_w c' id = Some w' /\ w_cap w' = w_cap w - zlen bs /\ (fin = false -> ~ dead w') /\ (fin = true -> w_fin w' = true).
Proof.
  intros e hd hc fin c' r h. rewrite (write_step c id bs fin w e hd hc) in h. injection h as <- <-. split; [auto|]. split; [|split; [auto|]].
  - constructor; cbn [set_w s_w s_str s_server s_grease s_next s_ctl s_goaway s_refuse s_open].
    + repeat split.
    + intros k hk. unfold upd. destruct (Z.eqb_spec k id); [contradiction|auto].
    + auto.
    + rewrite e. eexists. unfold upd. rewrite Z.eqb_refl. split; [reflexivity|]. cbn. pose proof (zlen_nonneg bs). split; [auto|]. split; [lia|]. split; [tauto|]. split; [destruct (w_fin w) eqn:F; [exfalso; apply hd; left; auto|auto]|]. intros h; exfalso; apply hd; left; auto.
  - split; [auto|]. cbn [set_w s_w]. unfold upd. rewrite Z.eqb_refl. eexists. split; [reflexivity|]. cbn. split; [auto|]. split; [|auto]. intros -> [h|[h|h]]; [discriminate h|apply h; reflexivity|discriminate h].
Qed.
Lemma sends_more id fin : forall l c w, s_w c id = Some w -> ~ dead w -> zlen (concat l) <= w_cap w -> forall bs c' r,
  sends id (map (fun b => (b, false)) l ++ [(bs, fin)]) c = (r, c') -> zlen (concat l) + zlen bs <= w_cap w ->
  r = Ok tt /\ more_on id (concat l ++ bs) fin c c' /\ s_str c' id = s_str c id /\ s_greased c' = s_greased c /\
  exists w', s_w c' id = Some w' /\ w_cap w' = w_cap w - zlen (concat l ++ bs) /\ (fin = false -> ~ dead w') /\ (fin = true -> w_fin w' = true).
Proof.
  induction l as [|b l IH]; intros c w e hd hc bs c' r h hb; cbn [map app sends concat] in *.
  - destruct (stream_send c id bs fin) as [r1 c1] eqn:S. pose proof (zlen_nonneg bs). change (zlen (@nil Z)) with 0 in hb. destruct (send_more c id bs w e hd ltac:(lia) fin c1 r1 S) as (-> & h1 & h2 & h3 & h4). injection h as <- <-. auto.
  - rewrite zlen_app in hc, hb. pose proof (zlen_nonneg b). pose proof (zlen_nonneg (concat l)). pose proof (zlen_nonneg bs). destruct (stream_send c id b false) as [r1 c1] eqn:S.
    destruct (send_more c id b w e hd ltac:(lia) false c1 r1 S) as (-> & h1 & h2 & h3 & w1 & e1 & q1 & d1 & _).
    destruct (IH c1 w1 e1 (d1 eq_refl) ltac:(lia) bs c' r h ltac:(lia)) as (-> & g1 & g2 & g3 & w2 & e2 & q2 & d2 & f2). split; [auto|]. rewrite <- app_assoc. split; [exact (more_trans _ _ _ _ _ _ _ _ h1 g1)|]. split; [congruence|]. split; [congruence|]. exists w2. rewrite zlen_app. repeat split; auto. lia.
Qed.
(** A write to a finished stream *)
Lemma sends_dead id bs l c w r c' : s_w c id = Some w -> dead w -> sends id ((bs, false) :: l) c = (r, c') ->
  (exists e, r = Err e /\ e <> HStreamBlocked) /\ more_on id [] false c c' /\ s_str c' id = s_str c id /\ s_greased c' = s_greased c.
Proof.
  intros e hd h. cbn [sends] in h. unfold stream_send in h. rewrite e in h.
  assert (E : exists er, write_to id w bs false = (Err er, w)).
  { unfold write_to. destruct (w_gone w) eqn:G; [eauto|]. destruct (w_stop w) eqn:S; [eauto|]. destruct hd as [hd|[hd|hd]]; [|congruence|congruence]. rewrite hd. rewrite andb_false_r. cbn. eauto. }
  destruct E as (er & E). rewrite E in h. injection h as <- <-. split; [eexists; split; [reflexivity|destruct er; discriminate]|]. split; [|auto].
  constructor; cbn [set_w s_w s_str]; [repeat split| |auto|].
  - intros k hk. unfold upd. destruct (Z.eqb_spec k id); [contradiction|auto].
  - rewrite e. unfold upd. rewrite Z.eqb_refl. exists w. rewrite app_nil_r, orb_false_r. repeat split; auto.
Qed.

(** ** Frames *)
Lemma small_type ty : 0 <= ty <= 4611686018427387903 -> small ty. Proof. unfold small, max_varint. auto. Qed.
Lemma varint_size v : small v -> 1 <= zlen (wr_varint_bytes v) <= 8.
Proof. intros h. destruct (qvarint_pos _ _ (wr_varint_q v h)) as (q & _). auto. Qed.
Lemma frame_wire ty pay : small ty -> small (zlen pay) -> on_wire (mkWf ty (wr_varint_bytes ty ++ wr_varint_bytes (zlen pay) ++ pay) pay).
Proof. intros h1 h2. unfold on_wire, h3_wire. cbn. exists (wr_varint_bytes ty), (wr_varint_bytes (zlen pay)). auto using wr_varint_q. Qed.
Lemma head_ok ty len : 0 <= ty < 64 -> small len -> frame_head ty len = Ok (wr_varint_bytes ty ++ wr_varint_bytes len).
Proof.
  intros ht hl. assert (hs : small ty) by (unfold small, max_varint; lia). unfold frame_head. pose proof (hwrites_seq (h_varint ty) (h_varint len) _ _ (hwrites_varint ty hs) (hwrites_varint len hl) (mkWr 10 []) ltac:(cbn; lia)) as W. cbn [wr_left wr_out app] in W.
  pose proof (varint_size len hl). assert (zlen (wr_varint_bytes ty) = 1). { destruct (wr_varint_ok ty hs) as (_ & ->). unfold varint_len, varint_len_opt. destruct (Z.leb_spec ty 63); [auto|lia]. }
  rewrite zlen_app in W. destruct (Z.ltb_spec 10 (zlen (wr_varint_bytes ty) + zlen (wr_varint_bytes len))); [lia|].
  destruct (h_varint ty (mkWr 10 [])) as [w| |]; cbn [bind] in *; [|discriminate W|discriminate W]. rewrite W. reflexivity.
Qed.

(** ** GREASE *)
Lemma grease_small g : grease_ok g -> small g /\ 33 <= g /\ (g - 33) mod 31 = 0.
Proof. intros (n & hn & ->). split; [unfold small, max_varint; lia|]. split; [lia|]. replace (31 * n + 33 - 33) with (n * 31) by lia. apply Z.mod_mul. lia. Qed.
Definition kept (c c' : sconn) (id : Z) : Prop := s_str c' id = s_str c id \/ (s_str c' id = None /\ deadc c' id).
Lemma capacity_ok c id cap : capacity c id = Ok cap -> exists w, s_w c id = Some w /\ w_cap w = cap /\ w_gone w = false /\ w_stop w = None.
Proof. unfold capacity. destruct (s_w c id) as [w|]; [|discriminate]. destruct (w_gone w) eqn:G; [discriminate|]. destruct (w_stop w) eqn:S; [discriminate|]. intros h. injection h as <-. exists w. auto. Qed.
Lemma capacity_err c id e : capacity c id = Err e -> deadc c id.
Proof. unfold capacity, deadc, dead. destruct (s_w c id) as [w|]; auto. destruct (w_gone w) eqn:G; auto. destruct (w_stop w) eqn:S; [|discriminate]. intros _. right. left. discriminate. Qed.
Lemma capacity_np c id : capacity c id <> Panic.
Proof. unfold capacity. destruct (s_w c id) as [w|]; [|discriminate]. destruct (w_gone w); [discriminate|]. destruct (w_stop w); discriminate. Qed.
Lemma give_up_ok id e c e' c' : deadc c id -> give_up id e c = (e', c') -> more_on id [] false c c' /\ kept c c' id /\ e' <> HStreamBlocked /\ s_greased c' = s_greased c.
Proof.
  intros hd h. unfold give_up in h. injection h as <- <-. split; [destruct (all_in c id); [apply more_str|apply more_refl]|]. split; [|split; [destruct e; discriminate|destruct (all_in c id); reflexivity]].
  destruct (all_in c id); [right; split; [apply str_same|exact hd]|left; auto].
Qed.
Lemma grease_sends id g1 g2 c r c' : grease_ok g1 -> grease_ok g2 -> send_grease id g1 g2 c = (r, c') ->
  (r = Ok tt /\ (exists fs, Forall (fun f => on_wire f /\ bytes_ok (w_bs f)) fs /\ Forall ignorable fs /\ more_on id (concat (map w_bs fs)) false c c') /\ s_str c' id = s_str c id) \/
  (exists e, r = Err e /\ e <> HStreamBlocked /\ more_on id [] false c c' /\ kept c c' id).
Proof.
  intros hg1 hg2 h. destruct (grease_small g1 hg1) as (s1 & l1 & m1). destruct (grease_small g2 hg2) as (s2 & l2 & m2). unfold send_grease in h.
  destruct (capacity c id) as [cap|e|] eqn:C.
  - rewrite (h_len_ok g1 s1), (h_len_ok g2 s2) in h. destruct (capacity_ok c id cap C) as (w & e & hc & hg & hs).
    destruct (Z.ltb_spec cap (zlen (wr_varint_bytes g1) + 1 + zlen (wr_varint_bytes g2) + 1 + zlen grease_payload)).
    + injection h as <- <-. left. split; [auto|]. split; [|auto]. exists []. split; [constructor|]. split; [constructor|apply more_refl].
    + destruct (w_fin w) eqn:F.
      * apply (sends_dead id _ _ c w) in h; [|auto|left; auto]. destruct h as ((e1 & -> & h0) & h1 & h2 & _). right. exists e1. unfold kept. auto 6.
      * assert (hd : ~ dead w) by (intros [x|[x|x]]; congruence).
        change (zlen grease_payload) with 18 in *. change (wr_varint_bytes 0) with [0] in h. change (wr_varint_bytes 18) with [18] in h.
        pose proof (sends_more id false [wr_varint_bytes g1; [0]; wr_varint_bytes g2; [18]] c w e hd) as S. cbn [concat] in S.
        specialize (S ltac:(rewrite !zlen_app; change (zlen [0]) with 1; change (zlen [18]) with 1; change (zlen (@nil Z)) with 0; lia) grease_payload c' r h ltac:(rewrite !zlen_app; change (zlen [0]) with 1; change (zlen [18]) with 1; change (zlen grease_payload) with 18; change (zlen (@nil Z)) with 0; lia)).
        destruct S as (-> & S1 & S2 & _ & _). left. split; [auto|]. split; [|auto].
        exists [mkWf g1 (wr_varint_bytes g1 ++ [0]) []; mkWf g2 (wr_varint_bytes g2 ++ [18] ++ grease_payload) grease_payload].
        pose proof (frame_wire g1 [] s1 ltac:(unfold small, max_varint; cbn; lia)) as F1. pose proof (frame_wire g2 grease_payload s2 ltac:(unfold small, max_varint; cbn; lia)) as F2.
        change (wr_varint_bytes (zlen (@nil Z)) ++ []) with [0] in F1. change (wr_varint_bytes (zlen grease_payload)) with [18] in F2.
        assert (B1 : bytes_ok (wr_varint_bytes g1)) by apply (qvarint_pos _ _ (wr_varint_q g1 s1)). assert (B2 : bytes_ok (wr_varint_bytes g2)) by apply (qvarint_pos _ _ (wr_varint_q g2 s2)).
        split; [constructor; [split; [exact F1|cbn [w_bs]; apply bytes_ok_app; split; [exact B1|repeat constructor; unfold is_byte; lia]]|constructor; [split; [exact F2|cbn [w_bs]; apply bytes_ok_app; split; [exact B2|repeat constructor; unfold is_byte; lia]]|constructor]]|]. split; [constructor; [|constructor; [|constructor]]; unfold ignorable; cbn [w_ty w_pay]; repeat split; try lia; try (cbn; lia)|].
        cbn [map w_bs concat]. rewrite app_nil_r. rewrite <- !app_assoc in *. cbn [app] in *. exact S1.
  - destruct (give_up id e c) as [e1 c1] eqn:G. injection h as <- <-. apply give_up_ok in G; [|eapply capacity_err; eauto]. right. exists e1. tauto.
  - exfalso. apply (capacity_np c id C).
Qed.

(** ** Header sections *)
Definition frame_ok (f : wframe) : Prop := on_wire f /\ bytes_ok (w_bs f).
Lemma varint_bytes v : small v -> bytes_ok (wr_varint_bytes v).
Proof. intros h. apply (qvarint_pos _ _ (wr_varint_q v h)). Qed.
Lemma frame_made ty pay : small ty -> small (zlen pay) -> bytes_ok pay -> frame_ok (mkWf ty (wr_varint_bytes ty ++ wr_varint_bytes (zlen pay) ++ pay) pay).
Proof. intros h1 h2 h3. split; [apply frame_wire; auto|]. cbn. apply bytes_ok_app. split; [apply varint_bytes, h1|]. apply bytes_ok_app. split; [apply varint_bytes, h2|auto]. Qed.
Lemma sized_ok hs : fields_ok hs -> Forall sized hs.
Proof.
  intros (h1 & h2). rewrite Forall_forall in *. intros h hi. destruct (h1 h hi) as (b1 & b2). assert (g : zlen (fst h) + zlen (snd h) < 2 ^ 50).
  { clear h1 b1 b2. induction hs as [|x hs IH]; [destruct hi|]. rewrite list_size_cons in h2. pose proof (list_size_nonneg hs). unfold field_size in h2. pose proof (zlen_nonneg (fst x)). pose proof (zlen_nonneg (snd x)). destruct hi as [-> |hi]; [lia|]. apply IH; auto. lia. }
  pose proof (zlen_nonneg (fst h)). pose proof (zlen_nonneg (snd h)). repeat split; auto; lia.
Qed.
Lemma block_ok hs : fields_ok hs -> (exists block, encode_header_block hs = Ok block /\ section int64 block (map sent_as hs) /\ bytes_ok block /\ zlen block <= list_size hs /\ small (zlen block)) \/ (exists e, encode_header_block hs = Err e).
Proof.
  intros hf. pose proof (sized_ok hs hf) as hz. destruct (encode_writes hs hz) as (bs & h1 & h2 & h3 & h4). destruct (C61_room hs hz) as (r1 & r2). destruct hs as [|h hs]; [right; rewrite r2; eauto|].
  left. destruct r1 as (bs' & e & _); [discriminate|]. exists bs'. split; [auto|]. revert e. unfold encode_header_block. change (fold_right _ 0 (h :: hs)) with (list_size (h :: hs)). rewrite (h1 (mkWr (list_size (h :: hs)) [])) by (cbn [wr_left]; apply list_size_nonneg). cbn [wr_left].
  destruct (Z.ltb_spec (list_size (h :: hs)) (zlen bs)); [discriminate|]. cbn [bind wr_out app]. intros e. injection e as <-. destruct hf as (_ & hf). repeat split; auto; unfold max_varint; lia.
Qed.
Lemma type_small k : 0 <= k <= 1000000 -> small k. Proof. unfold small, max_varint. lia. Qed.
Lemma more_eq id a b fa fb c c' : more_on id a fa c c' -> a = b -> fa = fb -> more_on id b fb c c'. Proof. intros h <- <-. exact h. Qed.
Definition after_headers (c c' : sconn) (id : Z) : Prop :=
  deadc c' id \/ s_str c' id = match s_str c id with Some l => Some (mkLst true (l_trail l) (l_done l)) | None => None end.
Lemma finish_more id init c : more_on id [] false c (finish id init c).
Proof. unfold finish. destruct (s_str c id) as [l|]; [apply more_str|apply more_refl]. Qed.
Lemma initialize_more id c : more_on id [] false c (initialize id c).
Proof. unfold initialize. destruct (s_str c id) as [l|]; [apply more_str|apply more_refl]. Qed.
Lemma finish_w id init c : s_w (finish id init c) = s_w c. Proof. unfold finish. destruct (s_str c id); reflexivity. Qed.
Lemma initialize_w id c : s_w (initialize id c) = s_w c. Proof. unfold initialize. destruct (s_str c id); reflexivity. Qed.
Definition alive (c : sconn) (id : Z) : Prop := exists w, s_w c id = Some w /\ ~ dead w.
Lemma block_sends id hs fin c r c' : fields_ok hs -> send_block id hs fin c = (r, c') ->
  (r = Ok tt /\ alive c id /\ after_headers c c' id /\ exists f, frame_ok f /\ shows f (IHeaders hs) /\ more_on id (w_bs f) fin c c') \/
  (exists e, r = Err e /\ more_on id [] false c c' /\ kept c c' id).
Proof.
  intros hf h. unfold send_block in h. destruct (block_ok hs hf) as [(block & e & hs1 & hb & hl & hz)|(e & E)]; [rewrite e in h|rewrite E in h; injection h as <- <-; right; eexists; split; [reflexivity|split; [apply more_refl|left; auto]]].
  unfold T_HEADERS in h. rewrite (h_len_ok 1 (type_small 1 ltac:(lia))), (h_len_ok _ hz), (head_ok 1 (zlen block) ltac:(lia) hz) in h. destruct (capacity c id) as [cap|er|] eqn:C.
  - destruct (Z.ltb_spec cap (zlen (wr_varint_bytes 1) + zlen (wr_varint_bytes (zlen block)) + zlen block)); [injection h as <- <-; right; eexists; split; [reflexivity|split; [apply more_refl|left; auto]]|].
    destruct (capacity_ok c id cap C) as (w & ew & hc & hg & hst). destruct (w_fin w) eqn:F.
    + destruct (sends id _ c) as [r1 c1] eqn:S. apply (sends_dead id _ _ c w) in S; [|auto|left; auto]. destruct S as ((e1 & -> & h0) & h1 & h2 & _). injection h as <- <-. right. exists e1. unfold kept. auto.
    + assert (hd : ~ dead w) by (intros [x|[x|x]]; congruence).
      destruct (sends id _ c) as [r1 c1] eqn:S. pose proof (zlen_nonneg block). pose proof (sends_more id fin [wr_varint_bytes 1 ++ wr_varint_bytes (zlen block)] c w ew hd ltac:(cbn [concat]; rewrite !zlen_app; change (zlen (@nil Z)) with 0; lia) block c1 r1 S ltac:(cbn [concat]; rewrite !zlen_app; change (zlen (@nil Z)) with 0; lia)) as (-> & S1 & S2 & S3 & w1 & S4 & S5 & S6 & S7).
      injection h as <- <-. left. split; [auto|]. split; [exists w; auto|]. split.
      * destruct fin; [left; unfold deadc; rewrite finish_w, S4; left; auto|right]. unfold initialize. rewrite S2. destruct (s_str c id) eqn:E1; [apply str_same|congruence].
      * exists (mkWf 1 (wr_varint_bytes 1 ++ wr_varint_bytes (zlen block) ++ block) block). split; [apply frame_made; auto; apply type_small; lia|]. split; [cbn; auto|]. cbn [w_bs]. cbn [concat] in S1. rewrite app_nil_r, <- app_assoc in S1.
        eapply more_eq; [eapply more_trans; [exact S1|]; destruct fin; [apply finish_more|apply initialize_more]|apply app_nil_r|apply orb_false_r].
  - destruct (give_up id er c) as [e1 c1] eqn:G. injection h as <- <-. apply give_up_ok in G; [|eapply capacity_err; eauto]. right. exists e1. tauto.
  - exfalso. apply (capacity_np c id C).
Qed.
Lemma more_greased id c : more_on id [] false c (set_greased c).
Proof. constructor; cbn; auto. - repeat split. - destruct (s_w c id) as [w|]; auto. exists w. rewrite app_nil_r, orb_false_r. repeat split; auto. Qed.
Lemma alive_before id bs fin c c' : more_on id bs fin c c' -> alive c' id -> alive c id.
Proof. intros [_ _ _ h] (w' & e & hd). unfold alive. destruct (s_w c id) as [w|]; [|destruct h; congruence]. destruct h as (w2 & e2 & _ & _ & h & _). exists w. split; auto. intros hd'. apply hd. assert (w' = w2) by congruence. subst. apply h, hd'. Qed.
Lemma concat_ws a b : concat (map w_bs (a ++ b)) = concat (map w_bs a) ++ concat (map w_bs b).
Proof. rewrite map_app, concat_app. reflexivity. Qed.
(** The frames, the first of which may be ignored *)
Definition grease_frames (fs : list wframe) : Prop := Forall frame_ok fs /\ Forall ignorable fs.
Lemma grease_nil : grease_frames []. Proof. split; constructor. Qed.
Lemma headers_sends id hs fin g1 g2 c r c' : fields_ok hs -> grease_ok g1 -> grease_ok g2 -> send_headers id hs fin g1 g2 c = (r, c') ->
  (r = Ok tt /\ alive c id /\ after_headers c c' id /\ exists fs f, grease_frames fs /\ frame_ok f /\ shows f (IHeaders hs) /\ more_on id (concat (map w_bs (fs ++ [f]))) fin c c') \/
  (exists e fs, r = Err e /\ grease_frames fs /\ more_on id (concat (map w_bs fs)) false c c' /\ kept c c' id).
Proof.
  intros hf k1 k2 h. unfold send_headers in h. destruct (negb (s_greased c) && s_grease c).
  - destruct (send_grease id g1 g2 c) as [r1 c1] eqn:G. apply grease_sends in G; auto. destruct G as [(-> & (fs & f1 & f2 & f3) & f4)|(e & -> & _ & h1 & h2)].
    + apply block_sends in h; auto. pose proof (more_trans id _ _ _ _ _ _ _ f3 (more_greased id c1)) as M. rewrite app_nil_r in M. assert (E : s_str (set_greased c1) id = s_str c id) by exact f4. set (c2 := set_greased c1) in *. clearbody c2.
      destruct h as [(-> & a & af & f & o1 & o2 & m)|(e & -> & m & kp)].
      * left. split; [auto|]. split; [eapply alive_before; eauto|]. split; [unfold after_headers in *; rewrite E in af; exact af|]. exists fs, f. split; [exact (conj f1 f2)|]. split; [auto|]. split; [auto|]. rewrite concat_ws. cbn [map concat]. rewrite app_nil_r. exact (more_trans _ _ _ _ _ _ _ _ M m).
      * right. exists e, fs. split; [auto|]. split; [exact (conj f1 f2)|]. split; [|unfold kept in *; rewrite <- E; exact kp]. eapply more_eq; [exact (more_trans _ _ _ _ _ _ _ _ M m)|apply app_nil_r|reflexivity].
    + injection h as <- <-. right. exists e, []. auto using grease_nil.
  - apply block_sends in h; auto. destruct h as [(-> & a & af & f & o1 & o2 & m)|(e & -> & m & kp)].
    + left. split; [auto|]. split; [auto|]. split; [auto|]. exists [], f. cbn [app map concat]. rewrite app_nil_r. auto using grease_nil.
    + right. exists e, []. auto using grease_nil.
Qed.
(** ** The body *)
Lemma len_mono a x : 0 <= a <= x -> small x -> zlen (wr_varint_bytes a) <= zlen (wr_varint_bytes x).
Proof.
  intros h hx. assert (ha : small a) by (unfold small in *; lia). destruct (wr_varint_ok a ha) as (_ & e1). destruct (wr_varint_ok x hx) as (_ & e2). rewrite e1, e2. unfold varint_len, varint_len_opt.
  unfold small, max_varint in *. repeat match goal with |- context[?u <=? ?v] => destruct (Z.leb_spec u v) end; lia.
Qed.
Lemma body_sends id body fin c r c' : bytes_ok body -> zlen body < 2 ^ 62 -> match s_w c id with Some w => 0 <= w_cap w | None => True end -> send_body id body fin c = (r, c') ->
  (exists n l, r = Ok n /\ alive c id /\ id mod 4 = 0 /\ s_str c id = Some l /\ l_init l = true /\ l_trail l = false /\ 0 <= n <= zlen body /\ (deadc c' id \/ s_str c' id = s_str c id) /\
     exists f, frame_ok f /\ shows f (IBody (take n body)) /\ more_on id (w_bs f) (fin && (n =? zlen body)) c c') \/
  (exists e, r = Err e /\ more_on id [] false c c' /\ kept c c' id).
Proof.
  intros hb hl hcap h. assert (NO : forall (e : herr) (x : res herr Z), (Err e, c) = (x, c') -> exists e, x = Err e /\ more_on id [] false c c' /\ kept c c' id). { intros e x q. injection q as <- <-. exists e. split; [auto|]. split; [apply more_refl|left; auto]. }
  unfold send_body in h. pose proof (zlen_nonneg body) as hn. destruct (Z.eqb_spec (id mod 4) 0) as [Q|Q]; cbn [negb] in h; [|right; exact (NO _ _ h)]. destruct (s_str c id) as [l|] eqn:E; [|right; exact (NO _ _ h)].
  destruct (l_init l) eqn:I; [|right; exact (NO _ _ h)]. destruct (l_trail l) eqn:T; [right; exact (NO _ _ h)|]. cbn [negb orb] in h. destruct ((zlen body =? 0) && negb fin).
  { right. exact (NO _ _ h). }
  assert (hz : small (zlen body)) by (unfold small, max_varint; lia). unfold T_DATA in h. rewrite (h_len_ok 0 (type_small 0 ltac:(lia))), (h_len_ok _ hz) in h. destruct (capacity c id) as [cap|er|] eqn:C.
  - destruct (Z.ltb_spec cap (zlen (wr_varint_bytes 0) + zlen (wr_varint_bytes (zlen body)))) as [L|L]; [right; exact (NO _ _ h)|].
    set (n := Z.min (zlen body) _) in h. assert (hn2 : 0 <= n <= zlen body) by (unfold n; lia). set (fin' := if n =? zlen body then fin else false) in h. destruct ((n =? 0) && negb fin'); [right; exact (NO _ _ h)|].
    assert (hs : small n) by (unfold small in *; lia). rewrite (head_ok 0 n ltac:(lia) hs) in h. destruct (capacity_ok c id cap C) as (w & ew & hc & hg & hst).
    assert (room : zlen (wr_varint_bytes 0 ++ wr_varint_bytes n) + n <= w_cap w). { rewrite zlen_app. pose proof (len_mono n (zlen body) hn2 hz). unfold n in *. lia. }
    destruct (sends id _ c) as [r1 c1] eqn:S. destruct (w_fin w) eqn:F.
    + apply (sends_dead id _ _ c w) in S; [|auto|left; auto]. destruct S as ((e1 & -> & h0) & h1 & h2 & _). injection h as <- <-. right. exists e1. unfold kept. auto.
    + assert (hd : ~ dead w) by (intros [x|[x|x]]; congruence). cbn [sends] in S. destruct (stream_send c id _ false) as [r2 c2] eqn:S2.
      destruct (send_more c id (wr_varint_bytes 0 ++ wr_varint_bytes n) w ew hd ltac:(lia) false c2 r2 S2) as (-> & m1 & m2 & m3 & w1 & e1 & q1 & d1 & _). injection S as <- <-. destruct (stream_send c2 id (take n body) fin') as [r3 c3] eqn:S3.
      assert (hlt : zlen (take n body) = n) by (rewrite zlen_take by lia; lia).
      destruct (send_more c2 id (take n body) w1 e1 (d1 eq_refl) ltac:(lia) fin' c3 r3 S3) as (-> & n1 & n2 & n3 & w2 & e2 & q2 & d2 & f2). rewrite hlt, Z.eqb_refl in h. cbn [negb] in h. injection h as <- <-.
      left. exists n, l. split; [auto|]. split; [exists w; auto|]. split; [auto|]. split; [auto|]. split; [auto|]. split; [auto|]. split; [auto|]. split.
      * destruct fin'; cbn [andb]; [|right; congruence]. left. unfold deadc. destruct (n =? zlen body); [rewrite finish_w|]; rewrite e2; left; auto.
      * exists (mkWf 0 (wr_varint_bytes 0 ++ wr_varint_bytes (zlen (take n body)) ++ take n body) (take n body)). rewrite hlt. split; [pose proof (frame_made 0 (take n body) (type_small 0 ltac:(lia))) as FM; rewrite hlt in FM; apply FM; [auto|apply bytes_ok_take; auto]|]. split; [cbn; auto|]. cbn [w_bs].
        pose proof (more_trans id _ _ _ _ _ _ _ m1 n1) as M. rewrite <- app_assoc in M. assert (EF : fin && (n =? zlen body) = fin') by (unfold fin'; destruct (n =? zlen body); [apply andb_true_r|apply andb_false_r]). rewrite EF.
        destruct (fin' && (n =? zlen body)); [|exact M]. eapply more_eq; [eapply more_trans; [exact M|apply finish_more]|apply app_nil_r|apply orb_false_r].
  - destruct (give_up id er c) as [e1 c1] eqn:G. injection h as <- <-. apply give_up_ok in G; [|eapply capacity_err; eauto]. right. exists e1. tauto.
  - exfalso. apply (capacity_np c id C).
Qed.
