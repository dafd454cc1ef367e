(** The invariant of the sending side. *)
Require Import Verif.Base Verif.Errors Verif.OctetsModel Verif.OctetsSpec Verif.OctetsProofs Verif.StreamsModel Verif.HuffmanModel Verif.QpackModel Verif.QpackSpec Verif.QpackProofs Verif.H3FrameModel Verif.H3FrameSpec Verif.H3FrameProofs Verif.H3ConnModel Verif.H3ConnSpec Verif.H3ConnSpec2 Verif.H3SendModel Verif.H3SendSpec Verif.H3SendProofs.

(** ** The control stream *)
Lemma ctl_write ctl bs c cap : capacity c ctl = Ok cap -> zlen bs <= cap -> forall r c', sends ctl [(bs, false)] c = (r, c') ->
  (r = Ok tt /\ more_on ctl bs false c c' /\ s_str c' ctl = s_str c ctl) \/ (exists e, r = Err e /\ more_on ctl [] false c c' /\ s_str c' ctl = s_str c ctl).
Proof.
  intros C hc r c' S. destruct (capacity_ok c ctl cap C) as (w & ew & hw & hg & hst). destruct (w_fin w) eqn:F.
  - apply (sends_dead ctl _ _ c w) in S; [|auto|left; auto]. destruct S as ((e1 & -> & _) & h1 & h2 & _). right. eauto.
  - assert (hd : ~ dead w) by (intros [x|[x|x]]; congruence). cbn [sends] in S. destruct (stream_send c ctl bs false) as [r2 c2] eqn:S2. destruct (send_more c ctl bs w ew hd ltac:(lia) false c2 r2 S2) as (-> & m1 & m2 & _). injection S as <- <-. left. auto.
Qed.
Definition sent_id (c : sconn) (id : Z) : Z := if s_server c then id else 0.
Lemma goaway_sends id c ctl r c' : s_ctl c = Some ctl -> 0 <= id < 2 ^ 62 -> send_goaway id c = (r, c') ->
  (r = Ok tt /\ (forall o, s_goaway c = Some o -> sent_id c id <= o) /\ exists f c1, frame_ok f /\ cshows f (CGoAway (sent_id c id)) /\ more_on ctl (w_bs f) false c c1 /\ s_str c1 ctl = s_str c ctl /\ c' = set_sent c1 (sent_id c id)) \/
  (exists e, r = Err e /\ more_on ctl [] false c c' /\ s_str c' ctl = s_str c ctl).
Proof.
  intros hctl hid h. unfold send_goaway in h. fold (sent_id c id) in h. set (i := sent_id c id) in *. assert (hi : small i) by (unfold small, max_varint, i, sent_id; destruct (s_server c); lia).
  assert (NO : forall (e : herr) (x : res herr unit), (Err e, c) = (x, c') -> exists e, x = Err e /\ more_on ctl [] false c c' /\ s_str c' ctl = s_str c ctl). { intros e x q. injection q as <- <-. exists e. split; [auto|]. split; [apply more_refl|auto]. }
  destruct (s_server c && negb (i mod 4 =? 0)); [right; exact (NO _ _ h)|]. destruct (match s_goaway c with Some sent => sent <? i | None => false end) eqn:G; [right; exact (NO _ _ h)|].
  rewrite hctl in h. destruct (put_v_ok 7 i (type_small 7 ltac:(lia)) hi) as (bs & w & q). change (h3_to_bytes (HGoAway i)) with (put_v 7 i) in h. rewrite (w (mkWr 10 [])) in h by (cbn [wr_left]; lia). cbn [wr_left wr_out app] in h.
  assert (B : bytes_ok bs). { destruct q as (t & n & q1 & q2 & ->). apply bytes_ok_app. split; [apply (qvarint_pos _ _ q1)|]. apply bytes_ok_app. split; [apply (qvarint_pos _ _ q2)|]. apply varint_bytes, hi. }
  destruct (10 <? zlen bs); [right; exact (NO _ _ h)|]. cbn [wr_out] in h. destruct (capacity c ctl) as [cap|e|] eqn:C; [|right; exact (NO _ _ h)|exfalso; apply (capacity_np c ctl C)].
  destruct (Z.ltb_spec cap (zlen bs)) as [L|L]; [right; exact (NO _ _ h)|]. destruct (sends ctl _ c) as [r1 c1] eqn:S. apply (ctl_write ctl bs c cap C L) in S. destruct S as [(-> & m & st)|(e & -> & m & st)].
  - injection h as <- <-. left. split; [auto|]. split; [intros o ho; rewrite ho in G; apply Z.ltb_ge in G; auto|]. exists (mkWf 7 bs (wr_varint_bytes i)), c1. split; [split; [exact q|exact B]|]. split; [split; [auto|apply wr_varint_q, hi]|]. auto.
  - injection h as <- <-. right. eauto.
Qed.
Lemma value_bytes u i : bytes_ok (priority_value u i) /\ zlen (priority_value u i) <= 5.
Proof. unfold priority_value. split; [|destruct i; cbn; lia]. apply bytes_ok_app. split; [|destruct i; repeat constructor; unfold is_byte; lia]. repeat (constructor; [unfold is_byte; lia|]). constructor. Qed.
Lemma priority_sends id u i c ctl r c' : s_ctl c = Some ctl -> 0 <= id < 2 ^ 62 -> send_priority id u i c = (r, c') ->
  (r = Ok tt /\ s_server c = false /\ id mod 4 = 0 /\ exists f, frame_ok f /\ cshows f (CPriority id (priority_value u i)) /\ more_on ctl (w_bs f) false c c' /\ s_str c' ctl = s_str c ctl) \/
  (exists e, r = Err e /\ more_on ctl [] false c c' /\ s_str c' ctl = s_str c ctl).
Proof.
  intros hctl hid h. unfold send_priority in h. assert (hi : small id) by (unfold small, max_varint; lia).
  assert (NO : forall (e : herr) (x : res herr unit), (Err e, c) = (x, c') -> exists e, x = Err e /\ more_on ctl [] false c c' /\ s_str c' ctl = s_str c ctl). { intros e x q. injection q as <- <-. exists e. split; [auto|]. split; [apply more_refl|auto]. }
  destruct (s_server c) eqn:SV; [right; exact (NO _ _ h)|]. destruct (Z.eqb_spec (id mod 4) 0) as [Q|Q]; cbn [negb] in h; [|right; exact (NO _ _ h)]. rewrite hctl in h.
  destruct (value_bytes u i) as (vb & vl). set (v := priority_value u i) in *. pose proof (zlen_nonneg v). pose proof (varint_size id hi) as zi. assert (hp : small (zlen (wr_varint_bytes id) + zlen v)) by (unfold small, max_varint; lia). pose proof (type_small 984832 ltac:(lia)) as ht.
  unfold T_PRIO_REQUEST in h. rewrite (h_len_ok _ ht), (h_len_ok _ hi), (h_len_ok _ hp) in h. pose proof (varint_size _ ht) as zt. pose proof (varint_size _ hp) as zp.
  destruct (capacity c ctl) as [cap|e|] eqn:C; [|right; exact (NO _ _ h)|exfalso; apply (capacity_np c ctl C)].
  destruct (Z.ltb_spec cap (zlen (wr_varint_bytes 984832) + zlen (wr_varint_bytes id) + zlen (wr_varint_bytes (zlen (wr_varint_bytes id) + zlen v)) + zlen v)) as [L|L]; [right; exact (NO _ _ h)|].
  pose proof (hwrites_seq (h_varint 984832) _ _ _ (hwrites_varint _ ht) (hwrites_seq (h_varint (zlen (wr_varint_bytes id) + zlen v)) _ _ _ (hwrites_varint _ hp) (hwrites_varint _ hi)) (mkWr 20 []) ltac:(cbn; lia)) as W. cbn [wr_left wr_out app] in W.
  set (head := wr_varint_bytes 984832 ++ wr_varint_bytes (zlen (wr_varint_bytes id) + zlen v) ++ wr_varint_bytes id) in *. assert (hh : zlen head = zlen (wr_varint_bytes 984832) + zlen (wr_varint_bytes (zlen (wr_varint_bytes id) + zlen v)) + zlen (wr_varint_bytes id)) by (unfold head; rewrite !zlen_app; lia).
  assert (z4 : zlen (wr_varint_bytes 984832) = 4) by reflexivity. assert (z1 : zlen (wr_varint_bytes (zlen (wr_varint_bytes id) + zlen v)) = 1). { destruct (wr_varint_ok _ hp) as (_ & ->). unfold varint_len, varint_len_opt. destruct (Z.leb_spec (zlen (wr_varint_bytes id) + zlen v) 63); [auto|lia]. }
  destruct (Z.ltb_spec 20 (zlen head)); [lia|].
  assert (E : (let* w := h_varint 984832 (mkWr 20 []) in let* w := h_varint (zlen (wr_varint_bytes id) + zlen v) w in let* w := h_varint id w in Ok (wr_out w)) = @Ok herr _ head).
  { destruct (h_varint 984832 (mkWr 20 [])) as [w1| |]; cbn [bind] in *; [|discriminate W|discriminate W]. destruct (h_varint _ w1) as [w2| |]; cbn [bind] in *; [|discriminate W|discriminate W]. rewrite W. reflexivity. }
  rewrite E in h. destruct (capacity_ok c ctl cap C) as (w & ew & hw & hg & hst). destruct (w_fin w) eqn:F.
  - apply (sends_dead ctl _ _ c w) in h; [|auto|left; auto]. destruct h as ((e1 & -> & _) & h1 & h2 & _). right. eauto.
  - assert (hd : ~ dead w) by (intros [x|[x|x]]; congruence).
    pose proof (sends_more ctl false [head] c w ew hd ltac:(cbn [concat]; rewrite !zlen_app; change (zlen (@nil Z)) with 0; lia) v c' r h ltac:(cbn [concat]; rewrite !zlen_app; change (zlen (@nil Z)) with 0; lia)) as (-> & S1 & S2 & _). left. split; [auto|]. split; [auto|]. split; [auto|].
    exists (mkWf 984832 (wr_varint_bytes 984832 ++ wr_varint_bytes (zlen (wr_varint_bytes id ++ v)) ++ wr_varint_bytes id ++ v) (wr_varint_bytes id ++ v)). rewrite zlen_app. split.
    + pose proof (frame_made 984832 (wr_varint_bytes id ++ v) ht) as FM. rewrite zlen_app in FM. apply FM; auto. apply bytes_ok_app. split; [apply varint_bytes, hi|auto].
    + split; [split; [auto|exists (wr_varint_bytes id); split; [apply wr_varint_q, hi|auto]]|]. split; [|auto]. cbn [w_bs]. eapply more_eq; [exact S1| |reflexivity]. cbn [concat]. rewrite app_nil_r. unfold head. rewrite <- !app_assoc. reflexivity.
Qed.

(** ** Order *)
Fixpoint st_after (st : Z) (l : list item) : Z :=
  match l with [] => st | ITrailers _ :: l => st_after 2 l | _ :: l => st_after 1 l end.
Lemma st_after_app l i : forall st, st_after st (l ++ [i]) = match i with ITrailers _ => 2 | _ => 1 end.
Proof. induction l as [|x l IH]; intros st; cbn; [destruct i; auto|destruct x; apply IH]. Qed.
Lemma proper_app server l i : forall st, proper server st l = true ->
  proper server st (l ++ [i]) = let s := st_after st l in match i with IHeaders _ => (s =? 0) || server && (s =? 1) | _ => s =? 1 end.
Proof.
  induction l as [|x l IH]; intros st h; cbn [app proper st_after] in *; [destruct i; cbn [proper]; rewrite andb_true_r; auto|].
  destruct x; apply andb_true_iff in h as (h1 & h2); rewrite h1; cbn [andb]; apply IH; auto.
Qed.
Definition state_of (o : option lst) : Z := match o with Some l => if l_done l then 3 else if l_init l then if l_trail l then 2 else 1 else if l_trail l then 3 else 0 | None => 0 end.
Lemma st_after_range l : forall st, 0 <= st <= 2 -> 0 <= st_after st l <= 2.
Proof. induction l as [|x l IH]; intros st h; cbn; auto. destruct x; apply IH; lia. Qed.
Lemma st_after_zero l : st_after 0 l = 0 -> l = [].
Proof. destruct (rev l) as [|i r] eqn:R. - apply (f_equal (@rev item)) in R. rewrite rev_involutive in R. auto. - apply (f_equal (@rev item)) in R. rewrite rev_involutive in R. cbn in R. subst. rewrite st_after_app. destruct i; discriminate. Qed.
Lemma carried_app a is b js : carried a is -> carried b js -> carried (a ++ b) (is ++ js).
Proof. induction 1; intros hb; cbn [app]; auto; constructor; auto. Qed.
Lemma carried_grease fs : Forall ignorable fs -> carried fs [].
Proof. induction 1; constructor; auto. Qed.

(** ** The invariant *)
Definition ctl_of (server : bool) : Z := if server then 3 else 2.
Definition last_of (l : list Z) : option Z := match rev l with x :: _ => Some x | [] => None end.
Definition fin_of (c : sconn) (k : Z) : bool := match s_w c k with Some w => w_fin w | None => false end.
Record sinv (server : bool) (start : list Z) (u : sent_st) : Prop := mkSi {
  i_server : s_server (v_conn u) = server;
  i_open : match s_open (v_conn u) with Ok cap => 0 <= cap | Err _ => True | Panic => False end;
  i_ctl : s_ctl (v_conn u) = Some (ctl_of server);
  i_out : exists w fs, s_w (v_conn u) (ctl_of server) = Some w /\ 0 <= w_cap w /\ w_out w = start ++ concat (map w_bs fs) /\ Forall frame_ok fs /\ Forall2 cshows fs (v_ctl u);
  i_go : s_goaway (v_conn u) = last_of (goaways (v_ctl u));
  i_fall : falling (goaways (v_ctl u));
  i_req : forall k, is_bidi k = true ->
    match s_w (v_conn u) k with
    | Some w => 0 <= w_cap w /\ (exists fs, Forall frame_ok fs /\ w_out w = concat (map w_bs fs) /\ carried fs (v_log u k)) /\ proper server 0 (v_log u k) = true /\
        (dead w \/ (st_after 0 (v_log u k) = state_of (s_str (v_conn u) k)))
    | None => v_log u k = [] /\ s_str (v_conn u) k = None
    end;
  i_str : forall k, s_str (v_conn u) k <> None -> is_bidi k = true;
  i_next : server = false -> s_next (v_conn u) mod 4 = 0 /\ 0 <= s_next (v_conn u) /\ (forall k, s_next (v_conn u) <= k -> k mod 4 = 0 -> v_log u k = []) /\ forall k, k mod 4 = 0 -> s_w (v_conn u) k <> None -> k < 2 ^ 62;
  i_end : forall k, is_bidi k = true -> fin_of (v_conn u) k = v_end u k
}.
Lemma bidi_four k : k mod 4 = 0 -> is_bidi k = true.
Proof. intros h. unfold is_bidi. apply Z.eqb_eq. rewrite (Z.div_mod k 4) by lia. rewrite h, Z.add_0_r. apply Z.bits_inj'. intros n hn. rewrite Z.land_spec, Z.bits_0. replace (4 * (k / 4)) with ((k / 4) * 2 ^ 2) by (change (2 ^ 2) with 4; lia). destruct (Z.eq_dec n 1) as [-> |hn1]; [rewrite Z.mul_pow2_bits_low by lia; auto|]. replace (Z.testbit 2 n) with false; [apply andb_false_r|]. symmetry. destruct (Z.eq_dec n 0) as [-> |]; auto. apply Z.bits_above_log2; cbn; lia. Qed.
Lemma ctl_uni server : is_bidi (ctl_of server) = false. Proof. destruct server; reflexivity. Qed.
Section Steps.
Context (server : bool) (start : list Z).
(** A call that wrote [fs] to a request stream, carrying [is] *)
Lemma step_on u id fs fin is c' n : sinv server start u -> is_bidi id = true -> more_on id (concat (map w_bs fs)) fin (v_conn u) c' -> Forall frame_ok fs -> carried fs is ->
  proper server 0 (v_log u id ++ is) = true ->
  (deadc c' id \/ st_after 0 (v_log u id ++ is) = state_of (s_str c' id)) -> (s_w (v_conn u) id = None -> s_str c' id = None) -> (s_w (v_conn u) id = None -> is = []) ->
  (server = false -> n mod 4 = 0 /\ s_next (v_conn u) <= n /\ (is <> [] -> id mod 4 = 0 -> id < n)) ->
  sinv server start (mkSent (set_next c' n) (add_to (v_log u) id is) (ends (v_end u) id fin) (v_ctl u)).
Proof.
  intros [i1 i2 i3 i4 i5 i6 i7 i8 i9 i10] hb [(f1 & f2 & f3 & f4 & f5 & f6 & f7) m2 m3 m4] hf hc hp ho hn hn2 hx.
  assert (nc : ctl_of server <> id) by (intros e; pose proof (ctl_uni server); congruence).
  constructor; cbn [v_conn v_log v_end v_ctl set_next s_server s_open s_ctl s_w s_goaway s_str s_next].
  - congruence.
  - rewrite f7. auto.
  - congruence.
  - destruct i4 as (w & fs0 & e & hh). exists w, fs0. rewrite m2 by auto. auto.
  - congruence.
  - auto.
  - intros k hk. specialize (i7 k hk). unfold add_to. destruct (Z.eqb_spec k id) as [-> |ne].
    + destruct (s_w (v_conn u) id) as [w|] eqn:W.
      * destruct m4 as (w' & e' & o' & q' & d' & _). rewrite e'. destruct i7 as (h1 & (fs0 & h2 & h3 & h4) & h5 & h6). split; [auto|]. split.
        { exists (fs0 ++ fs). split; [apply Forall_app; auto|]. rewrite concat_ws, <- h3. split; [auto|apply carried_app; auto]. }
        split; [auto|]. destruct ho as [ho|ho]; [left; unfold deadc in ho; rewrite e' in ho; auto|right; auto].
      * destruct m4 as (e' & _). rewrite e'. destruct i7 as (h1 & h2). rewrite h1, (hn2 eq_refl). auto.
    + rewrite m2, m3 by auto. exact i7.
  - intros k hk. destruct (Z.eq_dec k id) as [-> |ne]; auto. rewrite m3 in hk by auto. auto.
  - intros hs. destruct (i9 hs) as (n1 & n2 & n3 & n4). destruct (hx hs) as (x1 & x2 & x3). split; [auto|]. split; [lia|]. split; [|intros k hk hw; apply n4; auto; destruct (Z.eq_dec k id) as [-> |ne]; [destruct (s_w (v_conn u) id); [discriminate|destruct m4; congruence]|rewrite m2 in hw; auto]]. intros k hk hk4. unfold add_to. destruct (Z.eqb_spec k id) as [-> |ne]; [|apply n3; auto; lia].
    rewrite n3 by (auto; lia). destruct is as [|i is]; auto. exfalso. specialize (x3 ltac:(discriminate) hk4). lia.
  - intros k hk. specialize (i10 k hk). unfold fin_of, ends in *. cbn [set_next s_w]. destruct (Z.eqb_spec k id) as [-> |ne]; [|rewrite m2; auto]. rewrite <- i10. destruct (s_w (v_conn u) id) as [w|]; [destruct m4 as (w' & -> & _ & _ & _ & -> & _); auto|destruct m4 as (-> & _ & ->); auto].
Qed.
Lemma set_next_same c : set_next c (s_next c) = c. Proof. destruct c; reflexivity. Qed.
Lemma add_nil u id : forall k, add_to (v_log u) id [] k = v_log u k.
Proof. intros k. unfold add_to. destruct (k =? id); rewrite ?app_nil_r; auto. Qed.
Lemma end_nil u id : forall k, ends (v_end u) id false k = v_end u k.
Proof. intros k. unfold ends. destruct (k =? id); rewrite ?orb_false_r; auto. Qed.
(** Only the values of the log matter *)
Lemma sinv_ext c l l' n n' ctl : (forall k, l k = l' k) -> (forall k, n k = n' k) -> sinv server start (mkSent c l n ctl) -> sinv server start (mkSent c l' n' ctl).
Proof.
  intros e en [i1 i2 i3 i4 i5 i6 i7 i8 i9 i10]. cbn [v_conn v_log v_end v_ctl v_end] in *. constructor; cbn [v_conn v_log v_end v_ctl v_end]; auto.
  - intros k hk. rewrite <- e. apply i7; auto.
  - intros hs. destruct (i9 hs) as (n1 & n2 & n3 & n4). split; [auto|]. split; [auto|]. split; [|auto]. intros k. rewrite <- e. auto.
  - intros k hk. rewrite <- en. auto.
Qed.
(** Without progress: frames to be ignored at most *)
Lemma step_kept u id fs c' : sinv server start u -> is_bidi id = true -> more_on id (concat (map w_bs fs)) false (v_conn u) c' -> grease_frames fs -> kept (v_conn u) c' id ->
  sinv server start (mkSent c' (v_log u) (v_end u) (v_ctl u)).
Proof.
  intros hi hb hm (g1 & g2) hk. apply sinv_ext with (add_to (v_log u) id []) (ends (v_end u) id false); [apply add_nil|apply end_nil|]. rewrite <- (set_next_same c'). pose proof (i_req _ _ _ hi id hb) as hr. assert (nx : s_next c' = s_next (v_conn u)) by apply hm.
  apply step_on with fs; auto.
  - apply carried_grease, g2.
  - rewrite app_nil_r. destruct (s_w (v_conn u) id); [tauto|]. destruct hr as (-> & _). auto.
  - rewrite app_nil_r. destruct hk as [-> |(-> & hd)]; [|auto]. destruct (s_w (v_conn u) id) as [w|] eqn:W; [|destruct hr as (-> & ->); auto]. destruct hr as (_ & _ & _ & [hd|h]); [|auto]. left. eapply dead_more; [exact hm|]. unfold deadc. rewrite W. auto.
  - intros e. rewrite e in hr. destruct hr as (_ & hr). destruct hk as [-> |(-> & _)]; auto.
  - intros hs. rewrite nx. destruct (i_next _ _ _ hi hs) as (n1 & n2 & n3 & n4). split; [auto|]. split; [lia|]. intros []; auto.
Qed.
(** On the control stream *)
Lemma step_ctl u fs is c1 c' : sinv server start u -> more_on (ctl_of server) (concat (map w_bs fs)) false (v_conn u) c1 -> s_str c1 (ctl_of server) = s_str (v_conn u) (ctl_of server) -> Forall frame_ok fs -> Forall2 cshows fs is ->
  (c' = c1 /\ goaways is = [] \/ exists i, c' = set_sent c1 i /\ goaways is = [i] /\ forall o, s_goaway (v_conn u) = Some o -> i <= o) ->
  sinv server start (mkSent c' (v_log u) (v_end u) (v_ctl u ++ is)).
Proof.
  intros [i1 i2 i3 i4 i5 i6 i7 i8 i9 i10] [(f1 & f2 & f3 & f4 & f5 & f6 & f7) m2 m3 m4] hs hf hc hg.
  assert (E : s_server c' = s_server c1 /\ s_open c' = s_open c1 /\ s_ctl c' = s_ctl c1 /\ s_w c' = s_w c1 /\ s_str c' = s_str c1 /\ s_next c' = s_next c1). { destruct hg as [(-> & _)|(i & -> & _)]; repeat split. }
  destruct E as (e1 & e2 & e3 & e4 & e5 & e6). assert (ga : goaways (v_ctl u ++ is) = goaways (v_ctl u) ++ goaways is) by (unfold goaways; apply flat_map_app).
  constructor; cbn [v_conn v_log v_end v_ctl].
  - congruence.
  - rewrite e2, f7. auto.
  - congruence.
  - destruct i4 as (w & fs0 & e & h1 & h2 & h3 & h4). rewrite e in m4. destruct m4 as (w' & e' & o' & q' & _). exists w', (fs0 ++ fs). rewrite e4. split; [auto|]. split; [auto|]. rewrite concat_ws, app_assoc, <- h2. split; [auto|]. split; [apply Forall_app; auto|apply Forall2_app; auto].
  - rewrite ga. destruct hg as [(-> & ->)|(i & -> & -> & _)]; [rewrite app_nil_r; congruence|]. cbn [set_sent s_goaway]. unfold last_of. rewrite rev_app_distr. reflexivity.
  - rewrite ga. destruct hg as [(-> & ->)|(i & -> & -> & h)]; [rewrite app_nil_r; auto|]. rewrite i5 in h. revert i6 h. unfold last_of. generalize (goaways (v_ctl u)). clear. intros l hl h. induction l as [|x l IH]; cbn; auto. destruct l as [|y l]; cbn [app falling] in *.
    + split; auto.
    + destruct hl as (h1 & h2). split; auto. apply IH; auto. intros o ho. apply h. cbn [rev] in *. destruct (rev l ++ [y]) eqn:R; [destruct (rev l); discriminate R|]. cbn. auto.
  - intros k hk. assert (nk : k <> ctl_of server) by (intros ->; pose proof (ctl_uni server); congruence). rewrite e4, e5, m2, m3 by auto. apply i7; auto.
  - intros k hk. rewrite e5 in hk. destruct (Z.eq_dec k (ctl_of server)) as [-> |ne]; [rewrite hs in hk; auto|]. rewrite m3 in hk by auto. auto.
  - intros h. rewrite e6, f3. destruct (i9 h) as (n1 & n2 & n3 & n4). split; [auto|]. split; [auto|]. split; [auto|]. intros k hk. rewrite e4. destruct (Z.eq_dec k (ctl_of server)) as [-> |ne]; [rewrite h in hk; discriminate hk|]. rewrite m2 by auto. auto.
  - intros k hk. assert (nk : k <> ctl_of server) by (intros ->; pose proof (ctl_uni server); congruence). unfold fin_of. rewrite e4, m2 by auto. apply i10; auto.
Qed.
Lemma step_ctl_none u c' : sinv server start u -> more_on (ctl_of server) [] false (v_conn u) c' -> s_str c' (ctl_of server) = s_str (v_conn u) (ctl_of server) -> sinv server start (mkSent c' (v_log u) (v_end u) (v_ctl u)).
Proof. intros hi hm hs. rewrite <- (app_nil_r (v_ctl u)). apply (step_ctl u [] [] c'); auto. Qed.

(** *** The calls *)
(** Writing only adds, and nothing to a dead stream *)
Definition grows (c c' : sconn) : Prop := forall k w, s_w c k = Some w -> exists w' x, s_w c' k = Some w' /\ w_out w' = w_out w ++ x /\ (dead w -> x = [] /\ dead w') /\ (w_fin w = true -> w_fin w' = true).
Lemma grows_refl c : grows c c. Proof. intros k w h. exists w, []. rewrite app_nil_r. repeat split; auto. Qed.
Lemma grows_trans a b c : grows a b -> grows b c -> grows a c.
Proof.
  intros h1 h2 k w e. destruct (h1 k w e) as (w1 & x1 & e1 & o1 & d1 & f1). destruct (h2 k w1 e1) as (w2 & x2 & e2 & o2 & d2 & f2). exists w2, (x1 ++ x2). rewrite o2, o1, app_assoc. split; [auto|]. split; [auto|]. split; [|auto]. intros d. destruct (d1 d) as (-> & d'). destruct (d2 d') as (-> & d''). auto.
Qed.
Lemma grows_more id bs fin c c' : more_on id bs fin c c' -> grows c c'.
Proof.
  intros [_ m2 _ m4] k w e. destruct (Z.eq_dec k id) as [-> |ne]; [|exists w, []; rewrite m2, app_nil_r by auto; repeat split; auto]. rewrite e in m4. destruct m4 as (w' & e' & o & _ & d & f & _). exists w', bs. split; [auto|]. split; [auto|]. split; [auto|]. intros h. rewrite f, h. auto.
Qed.
Lemma grows_w c c' : s_w c' = s_w c -> grows c c'. Proof. intros h k w e. exists w, []. rewrite h, app_nil_r. repeat split; auto. Qed.
Definition good (u u' : sent_st) : Prop := sinv server start u' /\ grows (v_conn u) (v_conn u').
Lemma same_sent u : mkSent (v_conn u) (v_log u) (v_end u) (v_ctl u) = u. Proof. destruct u; reflexivity. Qed.
Lemma good_same u : sinv server start u -> good u (mkSent (v_conn u) (v_log u) (v_end u) (v_ctl u)). Proof. intros h. rewrite same_sent. split; [auto|apply grows_refl]. Qed.
Lemma good_kept u id fs c' : sinv server start u -> is_bidi id = true -> more_on id (concat (map w_bs fs)) false (v_conn u) c' -> grease_frames fs -> kept (v_conn u) c' id -> good u (mkSent c' (v_log u) (v_end u) (v_ctl u)).
Proof. intros hi hb m g hk. split; [eapply step_kept; eauto|]. cbn. eapply grows_more; eauto. Qed.
Lemma state_after u id w l : sinv server start u -> is_bidi id = true -> s_w (v_conn u) id = Some w -> ~ dead w -> s_str (v_conn u) id = Some l ->
  proper server 0 (v_log u id) = true /\ st_after 0 (v_log u id) = (if l_init l then if l_trail l then 2 else 1 else 0) /\ (l_init l = false -> l_trail l = false) /\ l_done l = false.
Proof.
  intros hi hb W nd E. pose proof (i_req _ _ _ hi id hb) as hr. rewrite W, E in hr. destruct hr as (_ & _ & r3 & [r4|r4]); [contradiction|]. cbn [state_of] in r4. pose proof (st_after_range (v_log u id) 0 ltac:(lia)).
  destruct (l_done l), (l_init l), (l_trail l); try lia; repeat split; auto; discriminate.
Qed.
(** A header section or a part of the body was added *)
Lemma step_item u id w l fs f fin i c' n : sinv server start u -> is_bidi id = true -> s_w (v_conn u) id = Some w -> ~ dead w -> s_str (v_conn u) id = Some l ->
  grease_frames fs -> frame_ok f -> shows f i -> more_on id (concat (map w_bs (fs ++ [f]))) fin (v_conn u) c' ->
  match i with IHeaders _ => l_init l = false \/ server = true /\ l_trail l = false | _ => l_init l = true /\ l_trail l = false end ->
  (deadc c' id \/ exists l', s_str c' id = Some l' /\ l_init l' = true /\ l_trail l' = (match i with ITrailers _ => true | _ => l_trail l end) /\ l_done l' = l_done l) ->
  (server = false -> n mod 4 = 0 /\ s_next (v_conn u) <= n /\ (id mod 4 = 0 -> v_log u id = [] -> id < n)) ->
  good u (mkSent (set_next c' n) (add_to (v_log u) id [i]) (ends (v_end u) id fin) (v_ctl u)).
Proof.
  intros hi hb W nd E (q1 & q2) q3 q4 m ok af hn. split; [|eapply grows_trans; [eapply grows_more; exact m|]; apply grows_w; reflexivity]. destruct (state_after u id w l hi hb W nd E) as (p1 & p2 & p3 & p4). apply step_on with (fs ++ [f]); auto.
  - apply Forall_app. auto.
  - apply (carried_app fs [] [f] [i]); [apply carried_grease, q2|]. constructor; [exact q4|constructor].
  - rewrite proper_app by auto. cbn zeta. rewrite p2. destruct i; [|destruct ok as (-> & ->); auto|destruct ok as (-> & ->); auto]. destruct ok as [-> |(-> & ->)]; auto. destruct (l_init l); auto.
  - rewrite st_after_app. destruct af as [af|(l' & e & a1 & a2 & a3)]; [auto|right]. rewrite e. cbn [state_of]. rewrite a1, a2, a3, p4. destruct i; auto.
    + destruct ok as [ok|(_ & ->)]; auto. rewrite (p3 ok). auto.
    + destruct ok as (_ & ->). auto.
  - congruence.
  - congruence.
  - intros hs. destruct (hn hs) as (n1 & n2 & n3). split; [auto|]. split; [auto|]. intros _ h4. destruct (i_next _ _ _ hi hs) as (_ & _ & m3 & _). destruct (Z_lt_le_dec id n) as [h|h]; auto. apply n3; auto. apply m3; auto. lia.
Qed.
(** A stream whose state says that something was sent is one that was opened *)
Lemma below u id c' bs fin : sinv server start u -> more_on id bs fin (v_conn u) c' -> v_log u id <> [] ->
  server = false -> s_next c' mod 4 = 0 /\ s_next (v_conn u) <= s_next c' /\ (id mod 4 = 0 -> v_log u id = [] -> id < s_next c').
Proof.
  intros hi hm hl hs. assert (nx : s_next c' = s_next (v_conn u)) by apply hm. rewrite nx. destruct (i_next _ _ _ hi hs) as (n1 & n2 & n3 & _). split; [auto|]. split; [lia|]. intros h4 h. contradiction.
Qed.
Lemma response_inv u id hs fin g1 g2 : server = true -> fields_ok hs -> grease_ok g1 -> grease_ok g2 -> sinv server start u ->
  good u (s_step u (SResponse id hs fin g1 g2)) /\ fst (send_response id hs fin g1 g2 (v_conn u)) <> Panic.
Proof.
  intros sv hf k1 k2 hi. cbn [s_step]. destruct (send_response id hs fin g1 g2 (v_conn u)) as [r c'] eqn:R. cbn [fst]. unfold send_response in R. destruct (s_str (v_conn u) id) as [l|] eqn:E; [|injection R as <- <-; split; [apply good_same; auto|discriminate]].
  destruct (l_init l) eqn:I; [injection R as <- <-; split; [apply good_same; auto|discriminate]|]. assert (hb : is_bidi id = true) by (apply (i_str _ _ _ hi); congruence).
  apply headers_sends in R; auto. destruct R as [(-> & (w & W & nd) & af & fs & f & q & q3 & q4 & m)|(e & fs & -> & q & m & kp)]; cbn [ok_of]; (split; [|discriminate]).
  - rewrite <- (set_next_same c'). eapply step_item; eauto; [|congruence]. destruct af as [af|af]; [auto|right]. rewrite E in af. eexists. split; [exact af|]. auto.
  - eapply good_kept; eauto.
Qed.
Lemma additional_inv u id hs trailer fin g1 g2 : fields_ok hs -> grease_ok g1 -> grease_ok g2 -> sinv server start u ->
  good u (s_step u (SAdditional id hs trailer fin g1 g2)) /\ fst (send_additional id hs trailer fin g1 g2 (v_conn u)) <> Panic.
Proof.
  intros hf k1 k2 hi. cbn [s_step]. destruct (send_additional id hs trailer fin g1 g2 (v_conn u)) as [r c'] eqn:R. cbn [fst]. unfold send_additional in R. rewrite (i_server _ _ _ hi) in R.
  destruct (negb server && negb trailer) eqn:ST; [injection R as <- <-; split; [apply good_same; auto|discriminate]|]. destruct (s_str (v_conn u) id) as [l|] eqn:E; [|injection R as <- <-; split; [apply good_same; auto|discriminate]].
  destruct (negb (l_init l) || l_trail l) eqn:I; [injection R as <- <-; split; [apply good_same; auto|discriminate]|]. apply orb_false_iff in I as (I & T). apply negb_false_iff in I. assert (hb : is_bidi id = true) by (apply (i_str _ _ _ hi); congruence).
  destruct (send_headers id hs fin g1 g2 (v_conn u)) as [r1 c1] eqn:H. apply headers_sends in H; auto. destruct H as [(-> & (w & W & nd) & af & fs & f & q & q3 & q4 & m)|(e & fs & -> & q & m & kp)].
  - injection R as <- <-. split; [|discriminate]. cbn [ok_of]. set (c' := if trailer then mark_trailers id c1 else c1). assert (M : more_on id [] false c1 c').
    { unfold c'. destruct trailer; [|apply more_refl]. unfold mark_trailers. destruct (s_str c1 id); [apply more_str|apply more_refl]. }
    assert (M2 : more_on id (concat (map w_bs (fs ++ [f]))) fin (v_conn u) c') by (eapply more_eq; [exact (more_trans _ _ _ _ _ _ _ _ m M)|apply app_nil_r|apply orb_false_r]).
    rewrite <- (set_next_same c'). destruct (state_after u id w l hi hb W nd E) as (_ & p2 & _). rewrite I, T in p2. eapply step_item; eauto.
    + destruct trailer; exact q4.
    + destruct trailer; auto. right. split; auto. destruct server; auto.
    + destruct af as [af|af]; [left; exact (dead_more _ _ _ _ _ M af)|]. 
rewrite E in af. right. unfold c'. destruct trailer; [|eexists; split; [exact af|auto]]. unfold mark_trailers. rewrite af, str_same. eexists. split; [reflexivity|]. auto.
    + eapply below; eauto. intros h. rewrite h in p2. discriminate p2.
  - injection R as <- <-. split; [|discriminate]. eapply good_kept; eauto.
Qed.
Lemma body_inv u id bs fin : bytes_ok bs -> zlen bs < 2 ^ 62 -> sinv server start u -> good u (s_step u (SBody id bs fin)) /\ fst (send_body id bs fin (v_conn u)) <> Panic.
Proof.
  intros hb hl hi. cbn [s_step]. destruct (send_body id bs fin (v_conn u)) as [r c'] eqn:R. cbn [fst]. destruct (Z.eqb_spec (id mod 4) 0) as [Q|Q]; [|unfold send_body in R; destruct (Z.eqb_spec (id mod 4) 0) in R; [contradiction|injection R as <- <-; split; [apply good_same; auto|discriminate]]].
  pose proof (bidi_four id Q) as hbi. apply body_sends in R; auto; [|pose proof (i_req _ _ _ hi id hbi) as hr; destruct (s_w (v_conn u) id); [tauto|auto]].
  destruct R as [(n & l & -> & (w & W & nd) & _ & E & I & T & hn & af & f & q3 & q4 & m)|(e & -> & m & kp)]; (split; [|discriminate]).
  - destruct (state_after u id w l hi hbi W nd E) as (_ & p2 & _). rewrite I, T in p2. rewrite <- (set_next_same c'). eapply (step_item u id w l [] f); eauto.
    + apply grease_nil.
    + cbn [app map concat]. rewrite app_nil_r. auto.
    + destruct af as [af|af]; [auto|right]. exists l. rewrite af. auto.
    + eapply below; eauto. intros h. rewrite h in p2. discriminate p2.
  - apply (good_kept u id []); auto using grease_nil.
Qed.
Lemma goaway_inv u id : 0 <= id < 2 ^ 62 -> sinv server start u -> good u (s_step u (SGoAway id)) /\ fst (send_goaway id (v_conn u)) <> Panic.
Proof.
  intros hid hi. cbn [s_step]. destruct (send_goaway id (v_conn u)) as [r c'] eqn:R. cbn [fst]. apply (goaway_sends id (v_conn u) _ r c' (i_ctl _ _ _ hi) hid) in R. destruct R as [(-> & hg & f & c1 & q1 & q2 & m & hs & ->)|(e & -> & m & hs)]; (split; [|discriminate]); cbn [ok_of].
  - assert (E : s_server (set_sent c1 (sent_id (v_conn u) id)) = s_server (v_conn u)) by apply m. rewrite E. fold (sent_id (v_conn u) id). split; [|eapply grows_trans; [eapply grows_more; exact m|apply grows_w; reflexivity]].
    apply (step_ctl u [f] [CGoAway (sent_id (v_conn u) id)] c1); auto. cbn [map concat]. rewrite app_nil_r. auto. right. exists (sent_id (v_conn u) id). auto.
  - split; [apply step_ctl_none; auto|eapply grows_more; exact m].
Qed.
Lemma priority_inv u id ur i : 0 <= id < 2 ^ 62 -> sinv server start u -> good u (s_step u (SPriority id ur i)) /\ fst (send_priority id ur i (v_conn u)) <> Panic.
Proof.
  intros hid hi. cbn [s_step]. destruct (send_priority id ur i (v_conn u)) as [r c'] eqn:R. cbn [fst]. apply (priority_sends id ur i (v_conn u) _ r c' (i_ctl _ _ _ hi) hid) in R. destruct R as [(-> & _ & _ & f & q1 & q2 & m & hs)|(e & -> & m & hs)]; (split; [|discriminate]); cbn [ok_of].
  - split; [|eapply grows_more; exact m]. apply (step_ctl u [f] [CPriority id (priority_value ur i)] c'); auto. cbn [map concat]. rewrite app_nil_r. auto.
  - split; [apply step_ctl_none; auto|eapply grows_more; exact m].
Qed.

(** *** Requests *)
(** Only the entry of a stream changes; nothing was sent on it yet *)
Lemma entry_inv u id o : sinv server start u -> is_bidi id = true -> v_log u id = [] -> state_of o = 0 -> (o <> None -> s_w (v_conn u) id <> None) -> sinv server start (mkSent (set_str (v_conn u) id o) (v_log u) (v_end u) (v_ctl u)).
Proof.
  intros [i1 i2 i3 i4 i5 i6 i7 i8 i9 i10] hb hl ho hw. constructor; cbn [v_conn v_log v_end v_ctl set_str s_server s_open s_ctl s_w s_goaway s_next s_str]; auto.
  - intros k hk. specialize (i7 k hk). unfold upd. destruct (Z.eqb_spec k id) as [-> |ne]; [|exact i7]. destruct (s_w (v_conn u) id) as [w|]; [|destruct i7; split; auto; destruct o; auto; exfalso; apply hw; [discriminate|auto]].
    destruct i7 as (h1 & h2 & h3 & _). rewrite hl in *. repeat split; auto.
  - intros k. unfold upd. destruct (Z.eqb_spec k id) as [-> |ne]; auto.
Qed.
(** A stream is opened *)
Lemma open_inv u id w : sinv server start u -> is_bidi id = true -> s_w (v_conn u) id = None -> w_out w = [] -> w_fin w = false -> 0 <= w_cap w -> (server = false -> id mod 4 = 0 -> id < 2 ^ 62) ->
  sinv server start (mkSent (set_w (v_conn u) (upd (s_w (v_conn u)) id (Some w))) (v_log u) (v_end u) (v_ctl u)).
Proof.
  intros [i1 i2 i3 i4 i5 i6 i7 i8 i9 i10] hb hl ho hwf hw hx. assert (nc : ctl_of server <> id) by (intros e; pose proof (ctl_uni server); congruence). constructor; cbn [v_conn v_log v_end v_ctl set_w s_server s_open s_ctl s_w s_goaway s_next s_str]; auto.
  - destruct i4 as (w0 & fs & e & h). exists w0, fs. unfold upd. destruct (Z.eqb_spec (ctl_of server) id); [contradiction|auto].
  - intros k hk. specialize (i7 k hk). unfold upd. destruct (Z.eqb_spec k id) as [-> |ne]; [|exact i7]. rewrite hl in i7. destruct i7 as (-> & ->). split; [auto|]. split; [exists []; rewrite ho; repeat split; constructor|]. split; auto.
  - intros hs. destruct (i9 hs) as (n1 & n2 & n3 & n4). split; [auto|]. split; [auto|]. split; [auto|]. intros k hk. unfold upd. destruct (Z.eqb_spec k id) as [-> |ne]; auto.
  - intros k hk. specialize (i10 k hk). unfold fin_of in *. cbn [set_w s_w]. unfold upd. destruct (Z.eqb_spec k id) as [-> |ne]; [|auto]. rewrite hl in i10. congruence.
Qed.
Lemma grows_open c id w : s_w c id = None -> grows c (set_w c (upd (s_w c) id (Some w))).
Proof. intros h k w0 e. exists w0, []. cbn. unfold upd. destruct (Z.eqb_spec k id) as [-> |ne]; [congruence|]. rewrite app_nil_r. auto. Qed.

Definition fresh : lst := mkLst false false false.
Lemma upd_same {A} (f : Z -> option A) k x : upd f k x k = x. Proof. unfold upd. rewrite Z.eqb_refl. auto. Qed.
(** The first write of a request, without data *)
Lemma first_write u c2 r : server = false -> sinv server start u -> let id := s_next (v_conn u) in stream_send (set_str (v_conn u) id (Some fresh)) id [] false = (r, c2) ->
  match r with
  | Ok _ => good u (mkSent c2 (v_log u) (v_end u) (v_ctl u)) /\ s_str c2 id = Some fresh /\ s_next c2 = id /\ id < 2 ^ 62
  | Err _ => good u (mkSent (set_str c2 id None) (v_log u) (v_end u) (v_ctl u))
  | Panic => False
  end.
Proof.
  intros hs hi id h. destruct (i_next _ _ _ hi hs) as (n1 & n2 & n3 & n4). fold id in n1, n2, n3. pose proof (bidi_four id n1) as hb. pose proof (n3 id ltac:(lia) n1) as hl. pose proof (i_req _ _ _ hi id hb) as hr. pose proof (i_open _ _ _ hi) as hop.
  assert (NO : forall c, c = v_conn u \/ c = set_str (v_conn u) id (Some fresh) -> good u (mkSent (set_str c id None) (v_log u) (v_end u) (v_ctl u))).
  { intros c hc. pose proof (entry_inv u id None hi hb hl eq_refl ltac:(congruence)) as hE. destruct hc as [-> | ->]; [split; [exact hE|apply grows_w; reflexivity]|]. split; [|apply grows_w; reflexivity].
    destruct hE as [i1 i2 i3 i4 i5 i6 i7 i8 i9 i10]. constructor; cbn [v_conn v_log v_end v_ctl set_str s_server s_open s_ctl s_w s_goaway s_next s_str] in *; auto.
    - intros k hk. specialize (i7 k hk). unfold upd in *. destruct (Z.eqb_spec k id); auto.
    - intros k hk. apply i8. unfold upd in *. destruct (Z.eqb_spec k id); auto. }
  unfold stream_send in h. cbn [set_str s_w s_open] in h. destruct (s_w (v_conn u) id) as [w|] eqn:W.
  - destruct (write_to id w [] false) as [r1 w1] eqn:WT. injection h as <- <-. unfold write_to in WT. assert (hid : id < 2 ^ 62) by (apply n4; auto; congruence).
    assert (SAME : forall k, upd (s_w (v_conn u)) id (Some w) k = s_w (v_conn u) k) by (intros k; unfold upd; destruct (Z.eqb_spec k id) as [-> |]; auto).
    assert (ERR : forall c, (forall k, s_w c k = s_w (v_conn u) k) -> s_str c = s_str (v_conn u) \/ s_str c = upd (s_str (v_conn u)) id (Some fresh) -> same_cfg (v_conn u) c -> forall o, o = None \/ o = Some fresh -> good u (mkSent (set_str c id o) (v_log u) (v_end u) (v_ctl u))).
    { intros c e1 e2 (f1 & f2 & f3 & f4 & f5 & f6 & f7) o ho. assert (hE : sinv server start (mkSent (set_str (v_conn u) id o) (v_log u) (v_end u) (v_ctl u))) by (apply entry_inv; auto; [destruct ho as [-> | ->]; auto|congruence]). split.
      - destruct hE as [i1 i2 i3 i4 i5 i6 i7 i8 i9 i10]. constructor; cbn [v_conn v_log v_end v_ctl set_str s_server s_open s_ctl s_w s_goaway s_next s_str] in *; auto; try congruence.
        + rewrite f7. auto.
        + destruct i4 as (w0 & fs & e & h). exists w0, fs. rewrite e1. auto.
        + intros k hk. specialize (i7 k hk). rewrite e1. replace (upd (s_str c) id o k) with (upd (s_str (v_conn u)) id o k); auto. unfold upd. destruct (Z.eqb_spec k id) as [|ne]; auto. destruct e2 as [-> | ->]; auto. unfold upd. destruct (Z.eqb_spec k id); [contradiction|auto].
        + intros k hk. apply i8. intros q. apply hk. unfold upd in *. destruct (Z.eqb_spec k id) as [|ne]; auto. destruct e2 as [-> | ->]; auto. unfold upd. destruct (Z.eqb_spec k id); [contradiction|auto].
        + intros h. rewrite f3. destruct (i9 h) as (m1 & m2 & m3 & m4). split; [auto|]. split; [auto|]. split; [auto|]. intros k. rewrite e1. auto.
        + intros k hk. specialize (i10 k hk). unfold fin_of in *. cbn [set_str s_w] in *. rewrite e1. auto.
      - intros k w0 e. exists w0, []. cbn. rewrite e1, app_nil_r. auto. }
    assert (FR : forall c, (forall k, s_w c k = s_w (v_conn u) k) -> s_str c = upd (s_str (v_conn u)) id (Some fresh) -> same_cfg (v_conn u) c -> good u (mkSent c (v_log u) (v_end u) (v_ctl u))).
    { intros c e1 e2 e3. destruct (ERR c e1 (or_intror e2) e3 (Some fresh) (or_intror eq_refl)) as (g1 & g2). split; [|exact g2]. destruct g1 as [i1 i2 i3 i4 i5 i6 i7 i8 i9 i10]. constructor; cbn [v_conn v_log v_end v_ctl set_str s_server s_open s_ctl s_w s_goaway s_next s_str] in *; auto.
      - intros k hk. specialize (i7 k hk). replace (upd (s_str c) id (Some fresh) k) with (s_str c k) in i7; auto. rewrite e2. unfold upd. destruct (k =? id); auto.
      - intros k hk. apply i8. intros q. apply hk. rewrite e2 in *. unfold upd in *. destruct (k =? id); auto. }
    destruct (w_gone w) eqn:G; [injection WT as <- <-; apply ERR; cbn; auto; repeat split|]. destruct (w_stop w) eqn:S; [injection WT as <- <-; apply ERR; cbn; auto; repeat split|]. destruct (w_fin w) eqn:F; [injection WT as <- <-; apply ERR; cbn; auto; repeat split|].
    cbn [andb orb] in WT. change (zlen (@nil Z)) with 0 in WT. rewrite Z.min_r in WT by tauto. cbn in WT. injection WT as <- <-. rewrite Z.sub_0_r, app_nil_r. replace (mkWst (w_cap w) (w_out w) false None false (w_read w)) with w by (destruct w; cbn in *; congruence).
    split; [|cbn; rewrite upd_same; auto]. apply FR; cbn; auto. repeat split.
  - destruct (Z.leb_spec (2 ^ 62) id) as [L|L]; [injection h as <- <-; apply NO; auto|]. destruct (s_open (v_conn u)) as [cap|e|]; [|injection h as <- <-; apply NO; auto|destruct hop].
    unfold write_to in h. cbn [w_gone w_stop w_fin w_cap w_out w_read andb orb] in h. change (zlen (@nil Z)) with 0 in h. rewrite Z.min_r in h by lia. cbn [Z.eqb Z.ltb andb Z.compare] in h. change (take 0 []) with (@nil Z) in h. cbn [app] in h. injection h as <- <-. rewrite Z.sub_0_r.
    set (w := mkWst cap [] false None false false). split; [|cbn; rewrite upd_same; auto].
    pose proof (open_inv u id w hi hb W eq_refl eq_refl hop ltac:(intros; lia)) as O. pose proof (entry_inv _ id (Some fresh) O hb hl eq_refl) as O2. cbn [v_conn v_log v_end v_ctl set_w s_w] in O2. rewrite upd_same in O2. specialize (O2 ltac:(discriminate)). split; [exact O2|]. apply (grows_open (v_conn u) id w W).
Qed.
Lemma request_inv u hs fin g1 g2 : server = false -> fields_ok hs -> grease_ok g1 -> grease_ok g2 -> sinv server start u ->
  good u (s_step u (SRequest hs fin g1 g2)) /\ fst (send_request hs fin g1 g2 (v_conn u)) <> Panic.
Proof.
  intros sv hf k1 k2 hi. cbn [s_step]. destruct (send_request hs fin g1 g2 (v_conn u)) as [r c'] eqn:R. cbn [fst]. unfold send_request in R. destruct (s_refuse (v_conn u)); [injection R as <- <-; split; [apply good_same; auto|discriminate]|].
  destruct (i_next _ _ _ hi sv) as (n1 & n2 & n3 & n4). set (id := s_next (v_conn u)) in *. pose proof (bidi_four id n1) as hb. pose proof (n3 id ltac:(lia) n1) as hl. fold fresh in R.
  destruct (stream_send (set_str (v_conn u) id (Some fresh)) id [] false) as [r2 c2] eqn:S. pose proof (first_write u c2 r2 sv hi S) as F. fold id in F.
  destruct r2 as [n|e|]; [|destruct e; injection R as <- <-; (split; [exact F|discriminate])|destruct F]. destruct F as ((F1 & F1g) & F2 & F3 & F4).
  set (u2 := mkSent c2 (v_log u) (v_end u) (v_ctl u)) in *. destruct (send_headers id hs fin g1 g2 c2) as [r3 c3] eqn:H. apply headers_sends in H; auto. destruct H as [(-> & (w & W & nd) & af & fs & f & q & q3 & q4 & m)|(e & fs & -> & q & m & kp)].
  - assert (nx : s_next c3 = id) by (transitivity (s_next c2); [apply m|auto]). rewrite nx in R. destruct (Z.ltb_spec u64_max (id + 4)) as [L|L]; [unfold u64_max in L; lia|]. injection R as <- <-. split; [|discriminate].
    assert (G : good u2 (mkSent (set_next c3 (id + 4)) (add_to (v_log u2) id [IHeaders hs]) (ends (v_end u2) id fin) (v_ctl u2))).
    { eapply (step_item u2 id w fresh fs f); eauto. - destruct af as [af|af]; [auto|right]. cbn [u2 v_conn] in F2. rewrite F2 in af. eexists. split; [exact af|]. auto. - intros _. cbn [u2 v_conn]. rewrite F3. split; [rewrite Z.add_mod by lia; rewrite n1; auto|]. split; lia. }
    destruct G as (G1 & G2). split; [exact G1|]. eapply grows_trans; [exact F1g|exact G2].
  - destruct (good_kept u2 id fs c3 F1 hb m q kp) as (G1 & G2). pose proof (grows_trans _ _ _ F1g G2) as G3. destruct e; injection R as <- <-; (split; [|discriminate]); try (split; [exact G1|exact G3]).
    split; [apply (entry_inv (mkSent c3 (v_log u) (v_end u) (v_ctl u)) id None G1 hb hl eq_refl); congruence|exact G3].
Qed.

(** *** Events *)
Lemma change_inv u id g : sinv server start u -> (forall w, w_out (g w) = w_out w /\ (0 <= w_cap w -> 0 <= w_cap (g w)) /\ (dead w -> dead (g w)) /\ w_fin (g w) = w_fin w) -> good u (mkSent (change (v_conn u) id g) (v_log u) (v_end u) (v_ctl u)).
Proof.
  intros hi hg. unfold change. destruct (s_w (v_conn u) id) as [w|] eqn:W; [|apply good_same; auto]. destruct (hg w) as (g1 & g2 & g3 & g4). split.
  - destruct hi as [i1 i2 i3 i4 i5 i6 i7 i8 i9 i10]. constructor; cbn [v_conn v_log v_end v_ctl set_w s_server s_open s_ctl s_w s_goaway s_next s_str] in *; auto.
    + destruct i4 as (w0 & fs & e & h1 & h2 & h). unfold upd. destruct (Z.eqb_spec (ctl_of server) id) as [<-|ne]; [|exists w0, fs; auto]. exists (g w), fs. assert (w0 = w) by congruence. subst. rewrite g1. auto.
    + intros k hk. specialize (i7 k hk). unfold upd. destruct (Z.eqb_spec k id) as [-> |ne]; auto. rewrite W in i7. rewrite g1. destruct i7 as (h1 & h2 & h3 & h4). split; [auto|]. split; [auto|]. split; [auto|]. destruct h4; auto.
    + intros h. destruct (i9 h) as (n1 & n2 & n3 & n4). split; [auto|]. split; [auto|]. split; [auto|]. intros k hk. unfold upd. destruct (Z.eqb_spec k id) as [-> |ne]; auto. intros _. apply n4; auto. congruence.
    + intros k hk. specialize (i10 k hk). unfold fin_of in *. cbn [set_w s_w]. unfold upd. destruct (Z.eqb_spec k id) as [-> |ne]; [|auto]. rewrite W in i10. congruence.
  - intros k w0 e. cbn. unfold upd. destruct (Z.eqb_spec k id) as [-> |ne]; [|exists w0, []; rewrite app_nil_r; auto 6]. assert (w0 = w) by congruence. subst. exists (g w), []. rewrite app_nil_r, g4. auto 6.
Qed.
Lemma local_four k : k mod 4 = 0 -> is_local k false = true.
Proof. intros h. unfold is_local. change 1 with (Z.ones 1). rewrite Z.land_ones by lia. change (2 ^ 1) with 2. cbn [Z.b2z]. apply Z.eqb_eq. pose proof (Z.div_mod k 4 ltac:(lia)). rewrite H, h, Z.add_0_r. replace (4 * (k / 4)) with ((2 * (k / 4)) * 2) by lia. apply Z.mod_mul. lia. Qed.
Lemma peer_inv u id cap : sinv server start u -> good u (mkSent (e_peer id cap (v_conn u)) (v_log u) (v_end u) (v_ctl u)).
Proof.
  intros hi. unfold e_peer. destruct (is_bidi id && negb (is_local id (s_server (v_conn u)))) eqn:B; [|apply good_same; auto]. apply andb_true_iff in B as (hb & hl). rewrite (i_server _ _ _ hi) in hl.
  set (c1 := match s_w (v_conn u) id with Some _ => v_conn u | None => _ end). assert (G : good u (mkSent c1 (v_log u) (v_end u) (v_ctl u)) /\ s_w c1 id <> None).
  { unfold c1. destruct (s_w (v_conn u) id) as [w|] eqn:W; [split; [apply good_same; auto|congruence]|]. split; [|cbn; rewrite upd_same; discriminate]. split; [|apply grows_open; auto]. apply open_inv; auto; [cbn; lia|]. intros -> h4. rewrite (local_four id h4) in hl. discriminate hl. }
  destruct G as ((G1 & G2) & G3). destruct (s_str c1 id) as [l|] eqn:E; [split; auto|]. split; [|exact G2].
  destruct G1 as [i1 i2 i3 i4 i5 i6 i7 i8 i9 i10]. constructor; cbn [v_conn v_log v_end v_ctl set_str s_server s_open s_ctl s_w s_goaway s_next s_str] in *; auto.
  - intros k hk. specialize (i7 k hk). unfold upd. destruct (Z.eqb_spec k id) as [-> |ne]; [|exact i7]. destruct (s_w c1 id) as [w|]; [|congruence]. rewrite E in i7. exact i7.
  - intros k. unfold upd. destruct (Z.eqb_spec k id) as [-> |ne]; auto.
Qed.
Lemma drop_inv u id : sinv server start u -> good u (mkSent (e_drop id (v_conn u)) (v_log u) (v_end u) (v_ctl u)).
Proof.
  intros hi. unfold e_drop. destruct (s_str (v_conn u) id) as [l|] eqn:E; [|apply good_same; auto]. destruct (l_done l) eqn:D; [|apply good_same; auto]. split; [|apply grows_w; reflexivity].
  destruct hi as [i1 i2 i3 i4 i5 i6 i7 i8 i9 i10]. constructor; cbn [v_conn v_log v_end v_ctl set_str s_server s_open s_ctl s_w s_goaway s_next s_str] in *; auto.
  - intros k hk. specialize (i7 k hk). unfold upd. destruct (Z.eqb_spec k id) as [-> |ne]; [|exact i7]. destruct (s_w (v_conn u) id) as [w|]; [|tauto]. rewrite E in i7. cbn [state_of] in i7. rewrite D in i7. destruct i7 as (h1 & h2 & h3 & [h4|h4]); [repeat split; auto|]. pose proof (st_after_range (v_log u id) 0 ltac:(lia)). lia.
  - intros k. unfold upd. destruct (Z.eqb_spec k id) as [-> |ne]; [congruence|auto].
Qed.
Lemma step_inv u o : sop_ok server o -> sinv server start u -> good u (s_step u o) /\ no_panic o (v_conn u).
Proof.
  intros ho hi. destruct o as [hs fin g1 g2|id hs fin g1 g2|id hs tr fin g1 g2|id bs fin|id|id ur i|id n|id e|id|id|id cap|id| |r]; cbn [sop_ok no_panic] in *.
  - destruct ho as (h1 & h2 & h3 & h4). apply request_inv; auto.
  - destruct ho as (h1 & h2 & h3 & h4). apply response_inv; auto.
  - destruct ho as (h2 & h3 & h4). apply additional_inv; auto.
  - destruct ho as (h1 & h2). apply body_inv; auto.
  - apply goaway_inv; auto.
  - apply priority_inv; auto.
  - split; auto. cbn [s_step]. apply change_inv; auto. intros w. cbn. repeat split; auto; lia.
  - split; auto. cbn [s_step]. apply change_inv; auto. intros w. cbn. repeat split; auto. intros _. right. left. discriminate.
  - split; auto. cbn [s_step]. apply change_inv; auto. intros w. cbn. repeat split; auto. intros _. right. right. auto.
  - split; auto. cbn [s_step]. apply change_inv; auto.
  - split; auto. apply peer_inv; auto.
  - split; auto. apply drop_inv; auto.
  - split; auto. split; [|apply grows_w; reflexivity]. destruct hi as [i1 i2 i3 i4 i5 i6 i7 i8 i9 i10]. constructor; auto.
  - split; auto. split; [|apply grows_w; reflexivity]. destruct hi as [i1 i2 i3 i4 i5 i6 i7 i8 i9 i10]. constructor; auto.
Qed.
Lemma run_inv ops : forall u, Forall (sop_ok server) ops -> sinv server start u -> good u (s_run u ops).
Proof.
  induction ops as [|o ops IH]; intros u ho hi; [split; [auto|apply grows_refl]|]. inversion ho as [|? ? h1 h2]; subst. destruct (step_inv u o h1 hi) as ((g1 & g2) & _). destruct (IH _ h2 g1) as (k1 & k2). split; [exact k1|]. eapply grows_trans; eauto.
Qed.
End Steps.

(** ** The beginning *)
Lemma init_inv server grease st cap : writable_frame (HSettings st) -> 129 <= cap -> fst (send_settings st (s_start server grease (Ok cap))) = Ok tt ->
  exists f, frame_ok f /\ carries (w_ty f) (w_pay f) (as_read (HSettings st)) /\ sinv server (0 :: w_bs f) (s_init server grease st cap).
Proof.
  intros hw hc h. destruct (to_bytes_ok _ hw) as (bs & ty & p & W & q & cr). unfold s_init. unfold send_settings in *. cbn [s_start s_server] in *. fold (ctl_of server) in *. unfold sends in *. unfold stream_send in *. cbn [s_start s_w s_open] in *.
  replace (2 ^ 62 <=? ctl_of server) with false in * by (destruct server; reflexivity). change (wr_varint_bytes 0) with [0] in *. unfold write_to in *. cbn [w_gone w_stop w_fin w_cap w_out w_read andb orb] in *. change (zlen [0]) with 1 in *. rewrite Z.min_r in * by lia. cbn [Z.eqb Z.ltb andb Z.compare] in *. change (take 1 [0]) with [0] in *. cbn [app set_w s_w s_server s_grease s_greased s_str s_next s_ctl s_goaway s_refuse s_open fst snd] in *.
  rewrite (W (mkWr 128 [])) in * by (cbn; lia). cbn [wr_left wr_out app] in *. destruct (Z.ltb_spec 128 (zlen bs)) as [L|L]; [discriminate h|]. cbn [wr_out] in *. rewrite upd_same in *. cbn [w_gone w_stop w_fin w_cap w_out w_read andb orb] in *. rewrite Z.min_r in * by lia.
  destruct ((zlen bs =? 0) && (0 <? zlen bs)) eqn:Z0; [lia|]. rewrite take_all in * by lia. cbn [snd] in *. exists (mkWf ty bs p). cbn [w_ty w_bs w_pay]. split; [|split; [exact cr|]].
  - split; [exact q|]. cbn [w_bs]. cbn [as_read] in cr. destruct cr as (_ & l & sl & _). destruct q as (t & n & q1 & q2 & ->). apply bytes_ok_app. split; [apply (qvarint_pos _ _ q1)|]. apply bytes_ok_app. split; [apply (qvarint_pos _ _ q2)|].
    clear -sl. induction sl as [|a id b v p l h1 h2 hs IH]; [constructor|]. apply bytes_ok_app. split; [apply (qvarint_pos _ _ h1)|]. apply bytes_ok_app. split; [apply (qvarint_pos _ _ h2)|auto].
  - constructor; cbn [v_conn v_log v_end v_ctl set_w s_start s_w s_server s_grease s_greased s_str s_next s_ctl s_goaway s_refuse s_open]; auto.
    + cbn; lia.
    + eexists. exists []. rewrite upd_same. split; [reflexivity|]. cbn. rewrite app_nil_r. split; [lia|]. split; [auto|]. split; constructor.
    + cbn. auto.
    + intros k hk. unfold upd. destruct (Z.eqb_spec k (ctl_of server)) as [-> |ne]; [rewrite ctl_uni in hk; discriminate hk|]. auto.
    + intros _. split; [auto|]. split; [lia|]. split; [auto|]. intros k h4. unfold upd. destruct (Z.eqb_spec k (ctl_of server)) as [-> |ne]; [destruct server; discriminate h4|congruence].
    + intros k hk. unfold fin_of. cbn [set_w s_w]. unfold upd. destruct (Z.eqb_spec k (ctl_of server)) as [-> |ne]; [rewrite ctl_uni in hk; discriminate hk|]. auto.
Qed.
