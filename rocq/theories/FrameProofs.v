(** Decoding of frames agrees with the wire format. *)
Require Import Verif.Base Verif.Errors Verif.RangesModel Verif.RangesProofs Verif.RangesProofs2.
Require Import Verif.OctetsModel Verif.OctetsSpec Verif.OctetsProofs Verif.FrameModel Verif.FrameSpec.

Ltac ands := repeat match goal with |- _ /\ _ => split end.

(** ** Readers *)
Lemma get_v_app l v rest : qvarint l v -> get_v (l ++ rest) = Ok (v, rest).
Proof. intros h. unfold get_v, rd. rewrite (rd_varint_app l v rest h). reflexivity. Qed.

Lemma get_n_app n l rest : zlen l = n -> get_n n (l ++ rest) = Ok (l, rest).
Proof. intros <-. unfold get_n, rd. rewrite rd_bytes_app. reflexivity. Qed.

Lemma get_lv_app l d rest : with_len l d -> get_lv (l ++ rest) = Ok (d, rest).
Proof.
  intros (ln & h & ->). unfold get_lv. rewrite <- app_assoc, (get_v_app _ _ _ h). cbn [bind]. apply get_n_app. reflexivity.
Qed.

Lemma get_v_bind {A} b (k : Z * list Z -> res error A) x : bytes_ok b -> bind (get_v b) k = Ok x ->
  exists l v b', b = l ++ b' /\ qvarint l v /\ bytes_ok b' /\ k (v, b') = Ok x.
Proof.
  intros hb h. unfold get_v, rd in h. destruct (rd_varint b) as [[v b']|] eqn:E; cbn [bind] in h; [|discriminate].
  destruct (rd_varint_inv _ _ _ hb E) as (l & -> & q). apply bytes_ok_app in hb as (_ & hb). exists l, v, b'. auto.
Qed.

Lemma get_n_bind {A} n b (k : list Z * list Z -> res error A) x : 0 <= n -> bytes_ok b -> bind (get_n n b) k = Ok x ->
  exists d b', b = d ++ b' /\ zlen d = n /\ bytes_ok d /\ bytes_ok b' /\ k (d, b') = Ok x.
Proof.
  intros hn hb h. unfold get_n, rd in h. destruct (rd_bytes n b) as [[d b']|] eqn:E; cbn [bind] in h; [|discriminate].
  destruct (rd_bytes_inv _ _ _ _ hn E) as (-> & q). apply bytes_ok_app in hb as (h1 & h2). exists d, b'. auto.
Qed.

Lemma get_lv_bind {A} b (k : list Z * list Z -> res error A) x : bytes_ok b -> bind (get_lv b) k = Ok x ->
  exists l d b', b = l ++ b' /\ with_len l d /\ bytes_ok b' /\ k (d, b') = Ok x.
Proof.
  intros hb h. unfold get_lv in h.
  destruct (get_v b) as [[len b1]|e|] eqn:E; cbn [bind] in h; try discriminate.
  destruct (get_v_bind b (fun x => Ok x) (len, b1) hb) as (l & v & b2 & -> & q & hb2 & e2); [rewrite E; reflexivity|].
  injection e2 as <- <-. pose proof (qvarint_bound _ _ q).
  destruct (get_n_bind v b2 k x ltac:(lia) hb2 h) as (d & b3 & -> & ed & hd & hb3 & hk).
  exists (l ++ d), d, b3. rewrite <- app_assoc. ands; auto. exists l. rewrite ed. auto.
Qed.

Lemma bind_np {A B} (r : res error A) (k : A -> res error B) :
  r <> Panic -> (forall a, r = Ok a -> k a <> Panic) -> bind r k <> Panic.
Proof. intros h1 h2. destruct r; cbn; auto; discriminate. Qed.

Lemma get_v_np b : get_v b <> Panic.
Proof. unfold get_v, rd. destruct (rd_varint b); discriminate. Qed.
Lemma get_n_np n b : get_n n b <> Panic.
Proof. unfold get_n, rd. destruct (rd_bytes n b); discriminate. Qed.
Lemma get_lv_np b : get_lv b <> Panic.
Proof. apply bind_np; [apply get_v_np|]. intros [v b'] _. apply get_n_np. Qed.

Lemma get_v_ok b v b' : bytes_ok b -> get_v b = Ok (v, b') -> exists l, b = l ++ b' /\ qvarint l v /\ bytes_ok b'.
Proof.
  intros hb e. destruct (get_v_bind b (fun x => Ok x) (v, b') hb) as (l & v2 & b2 & -> & q & hb2 & e2); [rewrite e; reflexivity|].
  injection e2 as <- <-. eauto.
Qed.

(** ** Padding *)
Lemma pad_loop_app n : forall len rest, hd 1 rest <> 0 -> pad_loop (repeat 0 n ++ rest) len = (len + Z.of_nat n, rest).
Proof.
  induction n as [|n IH]; intros len rest h; cbn [repeat app pad_loop].
  - destruct rest as [|x r]; [cbn [pad_loop]; f_equal; lia|]. cbn [hd] in h. destruct x; [lia| |]; cbn [pad_loop]; f_equal; lia.
  - rewrite IH by auto. f_equal. lia.
Qed.

Lemma pad_loop_inv b : forall len n rest, pad_loop b len = (n, rest) ->
  exists k, b = repeat 0 k ++ rest /\ hd 1 rest <> 0 /\ n = len + Z.of_nat k.
Proof.
  induction b as [|x b IH]; intros len n rest h; cbn [pad_loop] in h.
  - injection h as <- <-. exists O. cbn. split; auto. split; lia.
  - destruct x as [|p|p]; [|injection h as <- <-; exists O; cbn; split; auto; split; lia..].
    destruct (IH _ _ _ h) as (k & -> & h1 & h2). exists (S k). cbn [repeat app]. ands; auto. lia.
Qed.

(** ** ACK frames *)
Lemma range_count lo l M : wf lo l -> nonempty l -> (forall s e, In (s, e) l -> e <= M) -> l <> [] -> zlen l <= M - lo - 1.
Proof.
  revert lo. induction l as [|[s e] l IH]; intros lo w hn hm hne; [congruence|]. destruct w as (w1 & w2 & w3). rewrite zlen_cons.
  pose proof (hn s e (or_introl eq_refl)). pose proof (hm s e (or_introl eq_refl)).
  destruct l as [|y l]; [change (zlen (@nil range)) with 0; lia|].
  specialize (IH e w3). enough (zlen (y :: l) <= M - e - 1) by lia. apply IH; [| |discriminate].
  - intros a b hi. apply hn. right. auto.
  - intros a b hi. eapply hm. right. eauto.
Qed.

(** State of the range set while an ACK frame is parsed. *)
Definition ack_state (smallest : Z) (r : rangeset) : Prop :=
  rs_inv r /\ rs_cap r = usize_max /\ nonempty (rs_ranges r) /\ rs_ranges r <> [] /\
  (forall s e, In (s, e) (rs_ranges r) -> smallest <= s /\ e <= 2 ^ 62).

Lemma ack_insert lo hi smallest r : ack_state smallest r -> 0 <= lo -> lo < hi -> hi < smallest ->
  exists r', rs_insert (lo, hi) r = Ok r' /\ rs_ranges r' = (lo, hi) :: rs_ranges r /\ ack_state lo r'.
Proof.
  intros (hi1 & hc & hn & hne & hb) h0 h1 h2.
  destruct (rs_insert_spec r lo hi hi1 h0 ltac:(lia)) as (r' & e1 & e2 & e3 & e4). exists r'. split; auto.
  pose proof hi1 as (w & _).
  assert (hu : uins lo hi (rs_ranges r) = (lo, hi) :: rs_ranges r).
  { apply uins_before; [|eauto|lia]. intros a b hab. destruct (hb a b hab). lia. }
  assert (hl : zlen (rs_ranges r) <= 2 ^ 62 - (-1) - 1).
  { apply range_count; auto. intros a b hab. destruct (hb a b hab). auto. }
  rewrite hu, zlen_cons, hc in e4. unfold usize_max in e4. replace (1 + zlen (rs_ranges r) <=? 18446744073709551615) with true in e4 by lia.
  split; auto. split; auto. rewrite e4. ands; auto; try congruence.
  - intros a b [e|hab]; [injection e as <- <-; auto|auto].
  - intros a b [e|hab]; [injection e as <- <-; split; [lia|]|destruct (hb a b hab); lia].
    destruct (rs_ranges r) as [|[a b] l]; [congruence|]. pose proof (hn a b (or_introl eq_refl)). destruct (hb a b (or_introl eq_refl)). lia.
Qed.

Lemma ack_first lo hi : 0 <= lo -> lo < hi -> hi <= 2 ^ 62 ->
  exists r, rs_insert (lo, hi) rs_default = Ok r /\ rs_ranges r = [(lo, hi)] /\ ack_state lo r.
Proof.
  intros h0 h1 h2. assert (hi0 : rs_inv rs_default) by (apply (rs_new_inv usize_max); unfold usize_max; lia).
  destruct (rs_insert_spec rs_default lo hi hi0 h0 ltac:(lia)) as (r & e1 & e2 & e3 & e4). exists r. split; auto.
  cbn [rs_ranges rs_default uins rs_cap] in *. change (zlen [(lo, hi)] <=? usize_max) with true in e4. cbv iota in e4. split; auto. split; auto. rewrite e4.
  ands; auto; try discriminate.
  - intros a b [e|[]]. injection e as <- <-. auto.
  - intros a b [e|[]]. injection e as <- <-. lia.
Qed.

Lemma ack_loop_complete smallest l ranges : ack_ranges smallest l ranges -> forall fuel r rest,
  ack_state smallest r -> (length (l ++ rest) < fuel)%nat ->
  exists r', ack_loop fuel (zlen ranges) smallest r (l ++ rest) = Ok (r', rest) /\ rs_ranges r' = rev ranges ++ rs_ranges r.
Proof.
  induction 1 as [smallest|smallest lg gap ll len hi lo l ranges q1 q2 -> -> h0 ha IH]; intros fuel r rest hr hf.
  - exists r. destruct fuel; auto.
  - destruct fuel as [|fuel]; [lia|]. cbn [ack_loop].
    replace (zlen ((smallest - gap - 2 - len, smallest - gap - 2 + 1) :: ranges) <=? 0) with false
      by (rewrite zlen_cons; pose proof (zlen_nonneg ranges); lia).
    rewrite <- !app_assoc, (get_v_app _ _ _ q1). cbn [bind].
    pose proof (qvarint_bound _ _ q1). pose proof (qvarint_bound _ _ q2).
    replace (smallest <? 2 + gap) with false by lia. rewrite (get_v_app _ _ _ q2). cbn [bind].
    replace (smallest - gap - 2 <? len) with false by lia.
    destruct (ack_insert (smallest - gap - 2 - len) (smallest - gap - 2 + 1) smallest r hr) as (r1 & e1 & e2 & e3); try lia.
    rewrite e1. rewrite zlen_cons. replace (1 + zlen ranges - 1) with (zlen ranges) by lia.
    destruct (IH fuel r1 rest e3) as (r' & k1 & k2).
    { pose proof (qvarint_len _ _ q1) as (q & _). unfold zlen in q. rewrite !app_length in *. lia. }
    exists r'. split; auto. rewrite k2, e2. cbn [rev]. rewrite <- app_assoc. reflexivity.
Qed.

Lemma ack_loop_sound fuel : forall count smallest r b, bytes_ok b -> ack_state smallest r -> (length b < fuel)%nat ->
  match ack_loop fuel count smallest r b with
  | Ok (r', rest) => exists l ranges, b = l ++ rest /\ ack_ranges smallest l ranges /\ zlen ranges = Z.max 0 count /\
                       rs_ranges r' = rev ranges ++ rs_ranges r
  | Err _ => True
  | Panic => False
  end.
Proof.
  induction fuel as [|fuel IH]; intros count smallest r b hb hr hf; [lia|]. cbn [ack_loop].
  destruct (count <=? 0) eqn:Ec.
  { exists [], []. ands; auto; [constructor|]. change (zlen (@nil (Z * Z))) with 0. lia. }
  destruct (get_v b) as [[gap b1]|e|] eqn:E1; cbn [bind]; auto; [|destruct (get_v_np _ E1)].
  destruct (get_v_ok _ _ _ hb E1) as (lg & -> & q1 & hb1). pose proof (qvarint_bound _ _ q1).
  destruct (smallest <? 2 + gap) eqn:Eg; auto.
  destruct (get_v b1) as [[len b2]|e|] eqn:E2; cbn [bind]; auto; [|destruct (get_v_np _ E2)].
  destruct (get_v_ok _ _ _ hb1 E2) as (ll & -> & q2 & hb2). pose proof (qvarint_bound _ _ q2).
  destruct (smallest - gap - 2 <? len) eqn:El; auto.
  destruct (ack_insert (smallest - gap - 2 - len) (smallest - gap - 2 + 1) smallest r hr) as (r1 & e1 & e2 & e3); try lia.
  rewrite e1. specialize (IH (count - 1) (smallest - gap - 2 - len) r1 b2 hb2 e3).
  destruct (ack_loop fuel (count - 1) (smallest - gap - 2 - len) r1 b2) as [[r' rest]|e|] eqn:E3; auto.
  - destruct IH as (l & ranges & -> & k1 & k2 & k3).
    { pose proof (qvarint_len _ _ q1) as (q & _). unfold zlen in q. rewrite !app_length in *. lia. }
    exists (lg ++ ll ++ l), ((smallest - gap - 2 - len, smallest - gap - 2 + 1) :: ranges).
    ands.
    + rewrite <- !app_assoc. reflexivity.
    + eapply AckCons; eauto. lia.
    + rewrite zlen_cons. lia.
    + rewrite k3, e2. cbn [rev]. rewrite <- app_assoc. reflexivity.
  - apply IH. pose proof (qvarint_len _ _ q1) as (q & _). unfold zlen in q. rewrite !app_length in *. lia.
Qed.

Lemma parse_ack_complete ty l1 l2 delay ranges ecn rest : ack_body l1 delay ranges -> ecn_body l2 ecn ->
  ty = (match ecn with None => 2 | Some _ => 3 end) ->
  parse_ack_frame ty ((l1 ++ l2) ++ rest) = Ok (FAck delay ranges ecn, rest).
Proof.
  intros (a1 & largest & a2 & a3 & count & a4 & first & a5 & below & -> & q1 & q2 & q3 & q4 & h0 & hb & hc & ->) he ->.
  unfold parse_ack_frame. rewrite <- !app_assoc, (get_v_app _ _ _ q1). cbn [bind]. rewrite (get_v_app _ _ _ q2). cbn [bind].
  rewrite (get_v_app _ _ _ q3). cbn [bind]. rewrite (get_v_app _ _ _ q4). cbn [bind].
  replace (largest <? first) with false by lia.
  pose proof (qvarint_bound _ _ q1). pose proof (qvarint_bound _ _ q4). unfold max_varint in *.
  destruct (ack_first (largest - first) (largest + 1)) as (r & e1 & e2 & e3); try lia. rewrite e1, <- hc.
  destruct (ack_loop_complete _ _ _ hb (S (length (a5 ++ l2 ++ rest))) r (l2 ++ rest) e3) as (r' & k1 & k2); [lia|].
  rewrite k1. cbn [bind]. rewrite k2, e2. cbn [rev].
  destruct ecn as [[[e0 e4] ce]|]; cbn [ecn_body] in he.
  - destruct he as (la & lb & lc & -> & w1 & w2 & w3). change (Z.odd 3) with true. cbv iota.
    rewrite <- !app_assoc, (get_v_app _ _ _ w1). cbn [bind]. rewrite (get_v_app _ _ _ w2). cbn [bind].
    rewrite (get_v_app _ _ _ w3). reflexivity.
  - subst l2. reflexivity.
Qed.

Lemma parse_ack_sound ty b : bytes_ok b -> (ty = 2 \/ ty = 3) ->
  match parse_ack_frame ty b with
  | Ok (f, rest) => exists l, b = l ++ rest /\ frame_body ty l rest f /\ bytes_ok rest
  | Err _ => True
  | Panic => False
  end.
Proof.
  intros hb hty. unfold parse_ack_frame.
  destruct (get_v b) as [[largest b1]|e|] eqn:E1; cbn [bind]; auto; [|destruct (get_v_np _ E1)].
  destruct (get_v_ok _ _ _ hb E1) as (l1 & -> & q1 & hb1).
  destruct (get_v b1) as [[delay b2]|e|] eqn:E2; cbn [bind]; auto; [|destruct (get_v_np _ E2)].
  destruct (get_v_ok _ _ _ hb1 E2) as (l2 & -> & q2 & hb2).
  destruct (get_v b2) as [[count b3]|e|] eqn:E3; cbn [bind]; auto; [|destruct (get_v_np _ E3)].
  destruct (get_v_ok _ _ _ hb2 E3) as (l3 & -> & q3 & hb3).
  destruct (get_v b3) as [[first b4]|e|] eqn:E4; cbn [bind]; auto; [|destruct (get_v_np _ E4)].
  destruct (get_v_ok _ _ _ hb3 E4) as (l4 & -> & q4 & hb4).
  destruct (largest <? first) eqn:Ef; auto.
  pose proof (qvarint_bound _ _ q1). pose proof (qvarint_bound _ _ q4). pose proof (qvarint_bound _ _ q3). unfold max_varint in *.
  destruct (ack_first (largest - first) (largest + 1)) as (r & e1 & e2 & e3); try lia. rewrite e1.
  pose proof (ack_loop_sound (S (length b4)) count (largest - first) r b4 hb4 e3 ltac:(lia)) as hs.
  destruct (ack_loop (S (length b4)) count (largest - first) r b4) as [[r' b5]|e|] eqn:E5; cbn [bind]; auto.
  destruct hs as (l5 & below & -> & k1 & k2 & k3). apply bytes_ok_app in hb4 as (_ & hb5).
  assert (body : ack_body (l1 ++ l2 ++ l3 ++ l4 ++ l5) delay (rs_ranges r')).
  { exists l1, largest, l2, l3, count, l4, first, l5, below. ands; auto; try lia. rewrite k3, e2. reflexivity. }
  destruct (Z.odd ty) eqn:Eo.
  - destruct (get_v b5) as [[x b6]|e|] eqn:E6; cbn [bind]; auto; [|destruct (get_v_np _ E6)].
    destruct (get_v_ok _ _ _ hb5 E6) as (l6 & -> & q6 & hb6).
    destruct (get_v b6) as [[y b7]|e|] eqn:E7; cbn [bind]; auto; [|destruct (get_v_np _ E7)].
    destruct (get_v_ok _ _ _ hb6 E7) as (l7 & -> & q7 & hb7).
    destruct (get_v b7) as [[z b8]|e|] eqn:E8; cbn [bind]; auto; [|destruct (get_v_np _ E8)].
    destruct (get_v_ok _ _ _ hb7 E8) as (l8 & -> & q8 & hb8).
    exists ((l1 ++ l2 ++ l3 ++ l4 ++ l5) ++ (l6 ++ l7 ++ l8)). split; [rewrite <- !app_assoc; reflexivity|].
    destruct hty as [-> | ->]; [discriminate|]. split; auto.
    apply (BAck _ _ delay (rs_ranges r') (Some (x, y, z)) b8 body). exists l6, l7, l8. auto.
  - exists ((l1 ++ l2 ++ l3 ++ l4 ++ l5) ++ []). split; [rewrite app_nil_r, <- !app_assoc; reflexivity|].
    destruct hty as [-> | ->]; [|discriminate]. split; auto.
    apply (BAck _ _ delay (rs_ranges r') None b5 body). reflexivity.
Qed.

(** ** The whole decoder *)
Lemma testbit_cases (has_off has_len fin : bool) :
  let ty := 8 + (if has_off then 4 else 0) + (if has_len then 2 else 0) + (if fin then 1 else 0) in
  8 <= ty <= 15 /\ Z.testbit ty 2 = has_off /\ Z.testbit ty 1 = has_len /\ Z.odd ty = fin.
Proof. destruct has_off, has_len, fin; cbn; ands; auto; lia. Qed.

Lemma parse_stream_complete (has_off has_len fin : bool) id off d lid loff ld rest :
  qvarint lid id ->
  (if has_off then qvarint loff off else loff = [] /\ off = 0) ->
  (if has_len then with_len ld d else ld = d /\ rest = []) ->
  off + zlen d <= 2 ^ 62 - 1 ->
  parse_stream_frame (8 + (if has_off then 4 else 0) + (if has_len then 2 else 0) + (if fin then 1 else 0))
    ((lid ++ loff ++ ld) ++ rest) = Ok (FStream id off d fin, rest).
Proof.
  intros q ho hl hs. destruct (testbit_cases has_off has_len fin) as (_ & t1 & t2 & t3). cbv zeta in *.
  unfold parse_stream_frame. rewrite t1, t2, t3. rewrite <- !app_assoc, (get_v_app _ _ _ q). cbn [bind].
  assert (e1 : (if has_off then get_v (loff ++ ld ++ rest) else Ok (0, loff ++ ld ++ rest)) = Ok (off, ld ++ rest)).
  { destruct has_off; [apply get_v_app; auto|]. destruct ho as (-> & ->). reflexivity. }
  rewrite e1. cbn [bind]. unfold MAX_STREAM_SIZE. destruct has_len.
  - destruct hl as (ln & qn & ->). rewrite <- app_assoc, (get_v_app _ _ _ qn). cbn [bind].
    replace (2 ^ 62 <=? off + zlen d) with false by lia. rewrite get_n_app by auto. reflexivity.
  - destruct hl as (-> & ->). cbn [bind]. rewrite app_nil_r. replace (2 ^ 62 <=? off + zlen d) with false by lia.
    rewrite <- (app_nil_r d) at 2. rewrite get_n_app by auto. reflexivity.
Qed.

Lemma parse_frame_complete ty l rest f : frame_body ty l rest f -> parse_frame ty (l ++ rest) = Ok (f, rest).
Proof.
  intros h. destruct h as [n rest h|rest|l1 l2 delay ranges ecn rest h1 h2| | | | | has_off has_len fin id off d lid loff ld rest q ho hl hs| | | | | | | | | | | | | | | |has_len d ld rest hl].
  all: try (unfold parse_frame; cbn [Z.eqb Pos.eqb orb andb Z.leb Z.compare Pos.compare Pos.compare_cont]; cbv zeta).
  - rewrite pad_loop_app by auto. reflexivity.
  - reflexivity.
  - assert (e : parse_frame (match ecn with None => 2 | Some _ => 3 end) ((l1 ++ l2) ++ rest) =
                parse_ack_frame (match ecn with None => 2 | Some _ => 3 end) ((l1 ++ l2) ++ rest)) by (destruct ecn; reflexivity).
    unfold parse_frame in e. rewrite e. apply parse_ack_complete; auto.
  - rewrite <- !app_assoc. rewrite (get_v_app _ _ _ H). cbn [bind]. rewrite (get_v_app _ _ _ H0). cbn [bind].
    rewrite (get_v_app _ _ _ H1). reflexivity.
  - rewrite <- !app_assoc. rewrite (get_v_app _ _ _ H). cbn [bind]. rewrite (get_v_app _ _ _ H0). reflexivity.
  - rewrite <- !app_assoc. rewrite (get_v_app _ _ _ H). cbn [bind]. rewrite (get_lv_app _ _ _ H0). reflexivity.
  - destruct H as (ln & q & ->). rewrite <- !app_assoc. rewrite (get_v_app _ _ _ q). cbn [bind].
    replace (zlen d =? 0) with false by (destruct d; [congruence|]; rewrite zlen_cons; pose proof (zlen_nonneg d); lia).
    rewrite get_n_app by auto. reflexivity.
  - assert (e : forall b, parse_frame (8 + (if has_off then 4 else 0) + (if has_len then 2 else 0) + (if fin then 1 else 0)) b =
                parse_stream_frame (8 + (if has_off then 4 else 0) + (if has_len then 2 else 0) + (if fin then 1 else 0)) b)
      by (intros b; destruct has_off, has_len, fin; reflexivity).
    unfold parse_frame in e. rewrite e. apply parse_stream_complete; auto.
  - rewrite (get_v_app _ _ _ H). reflexivity.
  - rewrite <- !app_assoc. rewrite (get_v_app _ _ _ H). cbn [bind]. rewrite (get_v_app _ _ _ H0). reflexivity.
  - rewrite (get_v_app _ _ _ H). reflexivity.
  - rewrite (get_v_app _ _ _ H). reflexivity.
  - rewrite (get_v_app _ _ _ H). reflexivity.
  - rewrite <- !app_assoc. rewrite (get_v_app _ _ _ H). cbn [bind]. rewrite (get_v_app _ _ _ H0). reflexivity.
  - rewrite (get_v_app _ _ _ H). reflexivity.
  - rewrite (get_v_app _ _ _ H). reflexivity.
  - rewrite <- !app_assoc. rewrite (get_v_app _ _ _ H). cbn [bind]. rewrite (get_v_app _ _ _ H0). cbn [bind].
    rewrite (rd_u_app 1 [zlen cid]) by reflexivity. cbn [rd bind be_value]. change (zlen (@nil Z)) with 0.
    replace (zlen cid * 256 ^ 0 + 0) with (zlen cid) by lia. replace (negb ((1 <=? zlen cid) && (zlen cid <=? 20))) with false by lia.
    rewrite get_n_app by auto. cbn [bind]. rewrite get_n_app by auto. reflexivity.
  - rewrite (get_v_app _ _ _ H). reflexivity.
  - rewrite get_n_app by auto. reflexivity.
  - rewrite get_n_app by auto. reflexivity.
  - rewrite <- !app_assoc. rewrite (get_v_app _ _ _ H). cbn [bind]. rewrite (get_v_app _ _ _ H0). cbn [bind].
    rewrite (get_lv_app _ _ _ H1). reflexivity.
  - rewrite <- !app_assoc. rewrite (get_v_app _ _ _ H). cbn [bind]. rewrite (get_lv_app _ _ _ H0). reflexivity.
  - reflexivity.
  - destruct has_len; cbn.
    + destruct hl as (ln & q & ->). unfold parse_datagram_frame. cbn [Z.odd]. rewrite <- app_assoc, (get_v_app _ _ _ q). cbn [bind].
      rewrite get_n_app by auto. reflexivity.
    + destruct hl as (-> & ->). unfold parse_datagram_frame. cbn [Z.odd bind]. rewrite app_nil_r. rewrite <- (app_nil_r d) at 2.
      rewrite get_n_app by auto. reflexivity.
Qed.
