(** The encoder. *)
Require Import Verif.Base Verif.Errors Verif.RangesModel Verif.RangesProofs Verif.RangesProofs2.
Require Import Verif.OctetsModel Verif.OctetsSpec Verif.OctetsProofs Verif.OctetsProofs2.
Require Import Verif.FrameModel Verif.FrameSpec Verif.FrameProofs Verif.FrameProofs2.

(** ** Sequences of writes *)
Definition put_enc (p : put) : list Z :=
  match p with
  | PutV v => wr_varint_bytes v
  | PutV2 v => or_first 64 (be_enc 2 v)
  | PutU8 v => be_enc 1 v
  | PutB bs => bs
  | PutPanic => []
  end.
Definition puts_enc (l : list put) : list Z := flat_map put_enc l.

Definition put_ok (p : put) : Prop :=
  match p with
  | PutV v => is_v v
  | PutV2 v => 0 <= v < 2 ^ 14
  | PutU8 v => 0 <= v < 256
  | PutB bs => bytes_ok bs
  | PutPanic => False
  end.

Lemma is_v_max v : is_v v -> 0 <= v <= max_varint.
Proof. unfold is_v, max_varint. lia. Qed.

Lemma put_enc_bytes p : put_ok p -> bytes_ok (put_enc p).
Proof.
  destruct p as [v|v|v|bs|]; cbn [put_ok put_enc]; intros h; auto.
  - destruct (wr_varint_ok v (is_v_max v h)) as (q & _). apply qvarint_len in q. tauto.
  - apply or_first_bytes; [apply be_enc_bytes|cbn; auto].
  - apply be_enc_bytes.
  - contradiction.
Qed.

Lemma do_put_spec p c : oct_wf c -> put_ok p -> do_put p c = put_list (put_enc p) c.
Proof.
  intros hc hp. destruct p as [v|v|v|bs|]; cbn [put_ok put_enc do_put] in *.
  - apply put_varint_spec; auto. apply is_v_max. auto.
  - pose proof (rest_len c hc) as rl. unfold put_varint_with_len. rewrite cap_ok by auto.
    assert (hb : bytes_ok (or_first 64 (be_enc 2 v))) by (apply or_first_bytes; [apply be_enc_bytes|cbn; auto]).
    destruct (zlen (rest_of c) <? 2) eqn:E; [|reflexivity]. rewrite put_list_spec by auto.
    replace (zlen (or_first 64 (be_enc 2 v))) with 2 by reflexivity. rewrite E. reflexivity.
  - reflexivity.
  - apply put_bytes_spec; auto.
  - contradiction.
Qed.

Definition after_put (bs : list Z) (c : oct) : oct :=
  mkOct (take (oc_off c) (oc_buf c) ++ bs ++ drop (oc_off c + zlen bs) (oc_buf c)) (oc_off c + zlen bs).

Lemma after_put_app a b c : oct_wf c -> zlen a + zlen b <= zlen (rest_of c) -> after_put b (after_put a c) = after_put (a ++ b) c.
Proof.
  intros h hl. rewrite rest_len in hl by auto. destruct h as (h & _). pose proof (zlen_nonneg a). pose proof (zlen_nonneg b).
  assert (tl : zlen (take (oc_off c) (oc_buf c)) = oc_off c) by (rewrite zlen_take by lia; lia).
  unfold after_put. cbn [oc_buf oc_off]. rewrite zlen_app. f_equal; [|lia].
  rewrite (app_assoc (take (oc_off c) (oc_buf c)) a).
  assert (pl : zlen (take (oc_off c) (oc_buf c) ++ a) = oc_off c + zlen a) by (rewrite zlen_app; lia).
  rewrite <- pl at 1. rewrite take_app_exact. rewrite drop_app_ge by lia. rewrite pl.
  rewrite drop_drop by lia. rewrite <- !app_assoc. do 4 f_equal. lia.
Qed.

Lemma after_put_nil c : after_put [] c = c.
Proof. unfold after_put. change (zlen (@nil Z)) with 0. rewrite Z.add_0_r. cbn [app]. rewrite take_drop. destruct c; reflexivity. Qed.

Lemma do_puts_spec l : forall c, oct_wf c -> Forall put_ok l ->
  (zlen (puts_enc l) <= zlen (rest_of c) -> do_puts l c = (Ok tt, after_put (puts_enc l) c)) /\
  (zlen (rest_of c) < zlen (puts_enc l) -> exists c', do_puts l c = (Err TooShort, c')).
Proof.
  induction l as [|p l IH]; intros c hc hl; cbn [do_puts puts_enc flat_map].
  - split; [intros _; rewrite after_put_nil; reflexivity|]. change (zlen (@nil Z)) with 0. pose proof (zlen_nonneg (rest_of c)). lia.
  - inversion hl as [|? ? h1 h2]; subst. unfold obind at 1 2. rewrite do_put_spec by auto. fold (puts_enc l). rewrite zlen_app.
    pose proof (put_enc_bytes p h1) as hb. rewrite put_list_spec by auto.
    destruct (zlen (rest_of c) <? zlen (put_enc p)) eqn:E.
    { split; [pose proof (zlen_nonneg (puts_enc l)); lia|]. eauto. }
    fold (after_put (put_enc p) c).
    destruct (put_result (put_enc p) c _ hc hb ltac:(lia) eq_refl) as (w & _ & _ & r & _). fold (after_put (put_enc p) c) in *.
    destruct (IH (after_put (put_enc p) c) w h2) as (i1 & i2).
    assert (hr : zlen (rest_of (after_put (put_enc p) c)) = zlen (rest_of c) - zlen (put_enc p)).
    { rewrite r, zlen_drop by apply zlen_nonneg. lia. }
    split; intros hs.
    + rewrite i1 by lia. rewrite after_put_app by (auto; lia). reflexivity.
    + apply i2. lia.
Qed.

Lemma puts_enc_bytes l : Forall put_ok l -> bytes_ok (puts_enc l).
Proof. induction 1; cbn; [constructor|]. apply bytes_ok_app. split; auto. apply put_enc_bytes. auto. Qed.

Ltac small_v := unfold is_v; lia.
Ltac pok := repeat (apply Forall_cons; [cbn [put_ok]; first [assumption|small_v|lia]|]); apply Forall_nil.

(** ** The fields *)
Lemma enc_v v : is_v v -> qvarint (put_enc (PutV v)) v.
Proof. intros h. apply (wr_varint_ok v (is_v_max v h)). Qed.

Lemma enc_v_len v : is_v v -> zlen (put_enc (PutV v)) = varint_len v.
Proof. intros h. apply (wr_varint_ok v (is_v_max v h)). Qed.

Lemma enc_v2 v : 0 <= v < 2 ^ 14 -> qvarint (put_enc (PutV2 v)) v.
Proof. intros h. apply (or_first_varint 1 1 v); [lia|reflexivity|]. cbn. lia. Qed.

(** Ranges in descending order below [hi]. *)
Fixpoint desc (lo hi : Z) (l : list range) : Prop :=
  match l with
  | [] => True
  | (s, e) :: l => e < hi /\ s < e /\ lo < s /\ desc lo s l
  end.

Lemma desc_snoc lo e0 l : forall hi s, desc e0 hi l -> lo < s -> s < e0 -> e0 < hi -> desc lo hi (l ++ [(s, e0)]).
Proof.
  induction l as [|[a b] l IH]; intros hi s; cbn [desc app]; [lia|].
  intros (h1 & h2 & h3 & h4) h5 h6 h7. ands; auto; try lia.
Qed.

Lemma ack_ok_rev lo ranges : ack_ok lo ranges ->
  exists s e l, rev ranges = (s, e) :: l /\ lo < s /\ s < e <= 2 ^ 62 /\ desc lo s l.
Proof.
  induction 1 as [lo s e h1 h2|lo s e l h1 h2 h IH].
  - exists s, e, []. cbn. ands; auto; lia.
  - destruct IH as (s' & e' & l' & er & k1 & k2 & k3). exists s', e', (l' ++ [(s, e)]). cbn [rev]. rewrite er. ands; auto; try lia.
    apply desc_snoc; auto.
Qed.

Lemma desc_len lo l : forall hi, desc lo hi l -> l <> [] -> zlen l < hi - lo.
Proof.
  induction l as [|[s e] l IH]; intros hi h hn; [congruence|]. cbn [desc] in h. destruct h as (h1 & h2 & h3 & h4). rewrite zlen_cons.
  destruct l as [|y l]; [change (zlen (@nil range)) with 0; lia|]. specialize (IH s h4 ltac:(discriminate)). lia.
Qed.

Lemma ack_block_puts_spec l : forall hi tail, desc (-1) hi l -> hi <= 2 ^ 62 ->
  exists ps, ack_block_puts hi l tail = ps ++ tail /\ Forall put_ok ps /\ ack_ranges hi (puts_enc ps) l /\
    ack_blocks_len hi l = Some (zlen (puts_enc ps)).
Proof.
  induction l as [|[s e] l IH]; intros hi tail hd hh; cbn [ack_block_puts ack_blocks_len].
  - exists []. ands; auto. constructor.
  - cbn [desc] in hd. destruct hd as (h1 & h2 & h3 & h4). unfold put_sub, usub.
    replace (hi <? e) with false by lia. replace (hi - e <? 1) with false by lia.
    replace (e <? 1) with false by lia. replace (e - 1 <? s) with false by lia.
    destruct (IH s tail h4 ltac:(lia)) as (ps & e1 & e2 & e3 & e4).
    assert (v1 : is_v (hi - e - 1)) by (unfold is_v; lia). assert (v2 : is_v (e - 1 - s)) by (unfold is_v; lia).
    exists (PutV (hi - e - 1) :: PutV (e - 1 - s) :: ps). ands.
    + rewrite e1. reflexivity.
    + constructor; auto.
    + change (puts_enc (PutV (hi - e - 1) :: PutV (e - 1 - s) :: ps))
        with (put_enc (PutV (hi - e - 1)) ++ put_enc (PutV (e - 1 - s)) ++ puts_enc ps).
      replace (s, e) with (s, (e - 1) + 1) by (f_equal; lia).
      eapply AckCons; [apply enc_v; auto|apply enc_v; auto|lia|lia|lia|auto].
    + rewrite e4. change (puts_enc (PutV (hi - e - 1) :: PutV (e - 1 - s) :: ps))
        with (put_enc (PutV (hi - e - 1)) ++ put_enc (PutV (e - 1 - s)) ++ puts_enc ps).
      rewrite !zlen_app, !enc_v_len by auto. f_equal. lia.
Qed.

Definition encodes (f : frame) (ps : list put) : Prop :=
  Forall put_ok ps /\ frame_wire_len f = Some (zlen (puts_enc ps)) /\
  forall rest, follows f rest -> frame_wire (puts_enc ps) rest f.

Lemma enc_ty ty ps rest f : is_v ty -> frame_body ty (puts_enc ps) rest f -> frame_wire (puts_enc (PutV ty :: ps)) rest f.
Proof. intros h hf. exists (put_enc (PutV ty)), ty, (puts_enc ps). ands; auto. apply enc_v. auto. Qed.

Lemma enc_with_len d : is_v (zlen d) -> with_len (puts_enc [PutV (zlen d); PutB d]) d.
Proof. intros h. exists (put_enc (PutV (zlen d))). split; [apply enc_v; auto|]. cbn [puts_enc flat_map]. rewrite app_nil_r. reflexivity. Qed.

Lemma zlen_v {A} (d : list A) n : zlen d < n -> n <= 2 ^ 62 -> is_v (zlen d).
Proof. intros. unfold is_v. pose proof (zlen_nonneg d). lia. Qed.

Ltac lens := cbn [puts_enc flat_map]; rewrite ?app_nil_r, ?zlen_app, ?enc_v_len by (auto; small_v); try (f_equal; cbn [put_enc]; rewrite ?be_enc_len; change (zlen (@nil Z)) with 0; try lia).

Lemma repeat_enc n : puts_enc (repeat (PutV 0) n) = repeat 0 n.
Proof. induction n as [|n IH]; [reflexivity|]. cbn [repeat]. unfold puts_enc in *. cbn [flat_map]. rewrite IH. reflexivity. Qed.

Lemma ty_len ty : 0 <= ty <= 63 -> varint_len ty = 1.
Proof. intros h. unfold varint_len, varint_len_opt. replace (ty <=? 63) with true by lia. reflexivity. Qed.

Ltac tyl := first [match goal with |- context [varint_len (Zpos ?p)] => rewrite (ty_len (Zpos p)) by lia end | match goal with ty := _ |- _ => rewrite (ty_len ty) by lia end].

Lemma enc_padding len : 1 <= len -> encodes (FPadding len) (frame_puts (FPadding len)).
Proof.
  intros h. cbn [frame_puts]. split; [apply Forall_forall; intros p hp; apply repeat_spec in hp; subst p; cbn; small_v|].
  rewrite repeat_enc. split; [cbn; f_equal; unfold zlen; rewrite repeat_length; lia|].
  intros rest hr. cbn [follows] in hr. exists [0], 0, (repeat 0 (Z.to_nat (len - 1))).
  replace (Z.to_nat len) with (S (Z.to_nat (len - 1))) by lia. ands; auto.
  - apply (enc_v 0). small_v.
  - replace len with (1 + Z.of_nat (Z.to_nat (len - 1))) at 2 by lia. apply BPadding. auto.
Qed.

Lemma enc_ack delay ranges ecn : frame_legal (FAck delay ranges ecn) -> encodes (FAck delay ranges ecn) (frame_puts (FAck delay ranges ecn)).
Proof.
  intros (h1 & h2 & h3). destruct (ack_ok_rev _ _ h2) as (s & e & l & er & k1 & k2 & k3).
  unfold encodes. cbn [frame_puts frame_wire_len follows]. rewrite er. unfold put_sub, usub.
  replace (e <? 1) with false by lia. replace (e - 1 <? s) with false by lia.
  set (tail := match ecn with None => [] | Some (e0, e1, ce) => [PutV e0; PutV e1; PutV ce] end).
  destruct (ack_block_puts_spec l s tail k3 ltac:(lia)) as (ps & e1 & e2 & e3 & e4). rewrite e1, e4.
  set (ty := match ecn with None => 2 | Some _ => 3 end).
  assert (hty : is_v ty) by (unfold ty; destruct ecn; small_v).
  assert (v1 : is_v (e - 1)) by small_v. assert (v2 : is_v (e - 1 - s)) by small_v.
  assert (v3 : is_v (zlen l)).
  { unfold is_v. pose proof (zlen_nonneg l). destruct l as [|y l]; [change (zlen (@nil range)) with 0; lia|].
    pose proof (desc_len (-1) (y :: l) s k3 ltac:(discriminate)). lia. }
  assert (ht : Forall put_ok tail /\ ecn_body (puts_enc tail) ecn /\
     zlen (puts_enc tail) = match ecn with None => 0 | Some (e0, e1, ce) => varint_len e0 + varint_len e1 + varint_len ce end).
  { unfold tail. destruct ecn as [[[e0 e5] ce]|]; [|split; [constructor|split; reflexivity]].
    destruct h3 as (w1 & w2 & w3). split; [pok|]. split.
    - exists (put_enc (PutV e0)), (put_enc (PutV e5)), (put_enc (PutV ce)). cbn [puts_enc flat_map]. rewrite app_nil_r. ands; auto; apply enc_v; auto.
    - cbn [puts_enc flat_map]. rewrite app_nil_r, !zlen_app, !enc_v_len by auto. lia. }
  destruct ht as (t1 & t2 & t3).
  assert (ep : puts_enc (PutV ty :: [PutV (e - 1); PutV delay; PutV (zlen l); PutV (e - 1 - s)] ++ ps ++ tail) =
     put_enc (PutV ty) ++ (put_enc (PutV (e - 1)) ++ put_enc (PutV delay) ++ put_enc (PutV (zlen l)) ++ put_enc (PutV (e - 1 - s)) ++ puts_enc ps) ++ puts_enc tail).
  { unfold puts_enc. cbn [app flat_map]. rewrite flat_map_app, <- !app_assoc. reflexivity. }
  ands.
  - constructor; auto. cbn [app]. constructor; auto. constructor; auto. constructor; auto. constructor; auto. apply Forall_app. auto.
  - rewrite ep, !zlen_app, !enc_v_len, t3 by auto. rewrite (ty_len ty) by (unfold ty; destruct ecn; lia). f_equal. lia.
  - intros rest _. rewrite ep. exists (put_enc (PutV ty)), ty.
    eexists. split; [reflexivity|]. split; [apply enc_v; auto|]. unfold ty.
    apply BAck; auto. exists (put_enc (PutV (e - 1))), (e - 1), (put_enc (PutV delay)), (put_enc (PutV (zlen l))), (zlen l), (put_enc (PutV (e - 1 - s))), (e - 1 - s), (puts_enc ps), l.
    ands; auto; try (apply enc_v; auto); try lia.
    + replace (e - 1 - (e - 1 - s)) with s by lia. auto.
    + replace (e - 1 - (e - 1 - s)) with s by lia. replace (e - 1 + 1) with e by lia. rewrite <- er, rev_involutive. reflexivity.
Qed.

Lemma frame_encodes f : frame_legal f -> encodes f (frame_puts f).
Proof.
  destruct f as [len|p|delay ranges ecn|a b c|a b|off d|off n|d|id off d fin|id off n fin|a|a b|a|a|a|a b|a|a|a b cid token|a|d|d|a b d|a d| |d|n];
    cbn [frame_legal]; intros h; try contradiction.
  - apply enc_padding. auto.
  - subst p. split; [pok|]. split; [reflexivity|]. intros rest _. apply enc_ty; [small_v|]. constructor.
  - apply enc_ack. auto.
  - destruct h as (h1 & h2 & h3). cbn [frame_puts]. split; [pok|].
    split; [cbn [frame_wire_len]; lens; tyl; lia|]. intros rest _. apply enc_ty; [small_v|].
    cbn [puts_enc flat_map]. rewrite app_nil_r. constructor; apply enc_v; auto.
  - destruct h as (h1 & h2). cbn [frame_puts]. split; [pok|].
    split; [cbn [frame_wire_len]; lens; tyl; lia|]. intros rest _. apply enc_ty; [small_v|].
    cbn [puts_enc flat_map]. rewrite app_nil_r. constructor; apply enc_v; auto.
  - destruct h as (h1 & h2 & h3). pose proof (zlen_nonneg d). cbn [frame_puts crypto_header_puts app].
    split; [pok|].
    split; [cbn [frame_wire_len]; lens; tyl; change (zlen (or_first 64 (be_enc 2 (zlen d)))) with 2; lia|].
    intros rest _. apply enc_ty; [small_v|]. cbn [puts_enc flat_map]. rewrite app_nil_r. constructor; [apply enc_v; auto|].
    exists (put_enc (PutV2 (zlen d))). split; auto. apply enc_v2. lia.
  - destruct h as (h1 & h2). cbn [frame_puts]. assert (is_v (zlen d)) by small_v. split; [pok|].
    split; [cbn [frame_wire_len]; lens; tyl; lia|]. intros rest _. apply enc_ty; [small_v|].
    constructor; [apply enc_with_len; auto|]. intros ->. change (zlen (@nil Z)) with 0 in h2. lia.
  - destruct h as (h1 & h2 & h3 & h4 & h5). pose proof (zlen_nonneg d). cbn [frame_puts stream_header_puts app].
    assert (ety : (if fin then Z.lor (Z.lor (Z.lor 8 4) 2) 1 else Z.lor (Z.lor 8 4) 2) = 8 + (if true then 4 else 0) + (if true then 2 else 0) + (if fin then 1 else 0))
      by (destruct fin; reflexivity).
    rewrite ety. set (ty := 8 + (if true then 4 else 0) + (if true then 2 else 0) + (if fin then 1 else 0)) in *.
    assert (hty : is_v ty /\ 0 <= ty <= 63) by (unfold ty; destruct fin; split; small_v).
    destruct hty as (hty & hty').
    split; [pok|].
    split; [cbn [frame_wire_len]; lens; tyl; change (zlen (or_first 64 (be_enc 2 (zlen d)))) with 2; lia|].
    intros rest _. apply enc_ty; auto. cbn [puts_enc flat_map]. rewrite app_nil_r. unfold ty. apply (BStream true true fin); [apply enc_v; auto|apply enc_v; auto| |lia].
    exists (put_enc (PutV2 (zlen d))). split; auto. apply enc_v2. lia.
  - cbn [frame_puts]. split; [pok|].
    split; [cbn [frame_wire_len]; lens; tyl; lia|]. intros rest _. apply enc_ty; [small_v|].
    cbn [puts_enc flat_map]. rewrite app_nil_r. constructor; apply enc_v; auto.
  - destruct h as (h1 & h2). cbn [frame_puts]. split; [pok|].
    split; [cbn [frame_wire_len]; lens; tyl; lia|]. intros rest _. apply enc_ty; [small_v|].
    cbn [puts_enc flat_map]. rewrite app_nil_r. constructor; apply enc_v; auto.
  - cbn [frame_puts]. split; [pok|].
    split; [cbn [frame_wire_len]; lens; tyl; lia|]. intros rest _. apply enc_ty; [small_v|].
    cbn [puts_enc flat_map]. rewrite app_nil_r. constructor; apply enc_v; auto.
  - cbn [frame_puts]. split; [pok|].
    split; [cbn [frame_wire_len]; lens; tyl; lia|]. intros rest _. apply enc_ty; [small_v|].
    cbn [puts_enc flat_map]. rewrite app_nil_r. constructor; apply enc_v; auto.
  - cbn [frame_puts]. split; [pok|].
    split; [cbn [frame_wire_len]; lens; tyl; lia|]. intros rest _. apply enc_ty; [small_v|].
    cbn [puts_enc flat_map]. rewrite app_nil_r. constructor; apply enc_v; auto.
  - destruct h as (h1 & h2). cbn [frame_puts]. split; [pok|].
    split; [cbn [frame_wire_len]; lens; tyl; lia|]. intros rest _. apply enc_ty; [small_v|].
    cbn [puts_enc flat_map]. rewrite app_nil_r. constructor; apply enc_v; auto.
  - cbn [frame_puts]. split; [pok|].
    split; [cbn [frame_wire_len]; lens; tyl; lia|]. intros rest _. apply enc_ty; [small_v|].
    cbn [puts_enc flat_map]. rewrite app_nil_r. constructor; apply enc_v; auto.
  - cbn [frame_puts]. split; [pok|].
    split; [cbn [frame_wire_len]; lens; tyl; lia|]. intros rest _. apply enc_ty; [small_v|].
    cbn [puts_enc flat_map]. rewrite app_nil_r. constructor; apply enc_v; auto.
  - destruct h as (h1 & h2 & h3 & h4 & h5 & h6). cbn [frame_puts].
    split; [pok|].
    split; [cbn [frame_wire_len]; lens; tyl; lia|]. intros rest _. apply enc_ty; [small_v|].
    cbn [puts_enc flat_map]. rewrite app_nil_r.
    replace (put_enc (PutU8 (zlen cid))) with [zlen cid] by (cbn; rewrite Z.div_1_r, Z.mod_small by lia; reflexivity).
    constructor; auto; apply enc_v; auto.
  - cbn [frame_puts]. split; [pok|].
    split; [cbn [frame_wire_len]; lens; tyl; lia|]. intros rest _. apply enc_ty; [small_v|].
    cbn [puts_enc flat_map]. rewrite app_nil_r. constructor; apply enc_v; auto.
  - destruct h as (h1 & h2). cbn [frame_puts]. split; [pok|].
    split; [cbn [frame_wire_len]; lens; tyl; lia|]. intros rest _. apply enc_ty; [small_v|].
    cbn [puts_enc flat_map put_enc]. rewrite app_nil_r. constructor; auto.
  - destruct h as (h1 & h2). cbn [frame_puts]. split; [pok|].
    split; [cbn [frame_wire_len]; lens; tyl; lia|]. intros rest _. apply enc_ty; [small_v|].
    cbn [puts_enc flat_map put_enc]. rewrite app_nil_r. constructor; auto.
  - destruct h as (h1 & h2 & h3 & h4). pose proof (zlen_nonneg d). assert (is_v (zlen d)) by small_v. cbn [frame_puts].
    split; [pok|].
    split; [cbn [frame_wire_len]; lens; tyl; lia|]. intros rest _. apply enc_ty; [small_v|].
    change (puts_enc [PutV a; PutV b; PutV (zlen d); PutB d]) with (put_enc (PutV a) ++ put_enc (PutV b) ++ puts_enc [PutV (zlen d); PutB d]).
    constructor; [apply enc_v; auto|apply enc_v; auto|apply enc_with_len; auto].
  - destruct h as (h1 & h2 & h3). pose proof (zlen_nonneg d). assert (is_v (zlen d)) by small_v. cbn [frame_puts].
    split; [pok|].
    split; [cbn [frame_wire_len]; lens; tyl; lia|]. intros rest _. apply enc_ty; [small_v|].
    change (puts_enc [PutV a; PutV (zlen d); PutB d]) with (put_enc (PutV a) ++ puts_enc [PutV (zlen d); PutB d]).
    constructor; [apply enc_v; auto|apply enc_with_len; auto].
  - split; [pok|]. split; [reflexivity|]. intros rest _. apply enc_ty; [small_v|]. constructor.
  - destruct h as (h1 & h2). pose proof (zlen_nonneg d). cbn [frame_puts dgram_header_puts app]. change (Z.lor 48 1) with 49.
    split; [pok|].
    split; [cbn [frame_wire_len]; lens; tyl; change (zlen (or_first 64 (be_enc 2 (zlen d)))) with 2; lia|].
    intros rest _. apply enc_ty; [small_v|]. cbn [puts_enc flat_map]. rewrite app_nil_r. apply (BDatagram true).
    exists (put_enc (PutV2 (zlen d))). split; auto. apply enc_v2. lia.
Qed.

(** to_bytes writes the frame, of the length wire_len says, or reports that the
    buffer is too short. *)
Theorem frame_encode f c : frame_legal f -> cursor_ok c ->
  exists n bs, frame_wire_len f = Some n /\ zlen bs = n /\ bytes_ok bs /\
    (forall rest, follows f rest -> frame_wire bs rest f) /\
    (n <= zlen (oc_buf c) - oc_off c -> exists c', frame_to_bytes f c = (Ok n, c') /\
       oc_off c' = oc_off c + n /\
       oc_buf c' = take (oc_off c) (oc_buf c) ++ bs ++ drop (oc_off c + n) (oc_buf c)) /\
    (zlen (oc_buf c) - oc_off c < n -> exists c', frame_to_bytes f c = (Err TooShort, c')).
Proof.
  intros hf hc. destruct (frame_encodes f hf) as (h1 & h2 & h3). exists (zlen (puts_enc (frame_puts f))), (puts_enc (frame_puts f)).
  split; auto. split; auto. split; [apply puts_enc_bytes; auto|]. split; auto.
  destruct (do_puts_spec (frame_puts f) c hc h1) as (d1 & d2). pose proof (rest_len c hc) as rl.
  unfold frame_to_bytes. rewrite cap_ok by auto. rewrite <- rl. split; intros hl.
  - exists (after_put (puts_enc (frame_puts f)) c). unfold obind at 1. rewrite d1 by auto.
    destruct (put_result (puts_enc (frame_puts f)) c _ hc (puts_enc_bytes _ h1) hl eq_refl) as (w & _ & _ & r & _).
    fold (after_put (puts_enc (frame_puts f)) c) in *. rewrite cap_ok by auto. unfold oret.
    rewrite r, zlen_drop by apply zlen_nonneg. split; [|split; reflexivity]. f_equal. f_equal. lia.
  - destruct (d2 hl) as (c' & e). exists c'. unfold obind at 1. rewrite e. reflexivity.
Qed.

(** ** The round trip *)
Theorem frame_round_trip f pkt c rest : frame_legal f -> cursor_ok c -> has_frames pkt -> accepted_in pkt f ->
  bytes_ok rest -> follows f rest ->
  exists n, frame_wire_len f = Some n /\
    if zlen (oc_buf c) - oc_off c <? n then exists c', frame_to_bytes f c = (Err TooShort, c')
    else exists c' bs, frame_to_bytes f c = (Ok n, c') /\ zlen bs = n /\ oc_off c' = oc_off c + n /\
      oc_buf c' = take (oc_off c) (oc_buf c) ++ bs ++ drop (oc_off c + n) (oc_buf c) /\
      frame_from_bytes (bs ++ rest) pkt = Ok (f, rest).
Proof.
  intros hf hc hp ha hr hw. destruct (frame_encode f c hf hc) as (n & bs & h1 & h2 & h3 & h4 & h5 & h6).
  exists n. split; auto. destruct (zlen (oc_buf c) - oc_off c <? n) eqn:E; [apply h6; lia|].
  destruct h5 as (c' & e1 & e2 & e3); [lia|]. exists c', bs. ands; auto.
  apply frame_decode_table; auto; [apply bytes_ok_app; auto|]. exists bs. ands; auto.
Qed.

(** ** ACK frames as parsed *)
Lemma ack_ok_snoc lo l : forall s e hi, ack_ok lo l -> (forall s' e', In (s', e') l -> e' < s) -> s < e <= hi -> hi <= 2 ^ 62 -> ack_ok lo (l ++ [(s, e)]).
Proof.
  intros s e hi h. revert s e hi. induction h as [lo s0 e0 h1 h2|lo s0 e0 l h1 h2 h IH]; intros s e hi hb hs hh; cbn [app].
  - pose proof (hb s0 e0 (or_introl eq_refl)). constructor; try lia. constructor; lia.
  - constructor; auto. apply (IH s e hi); auto. intros s' e' hi'. apply (hb s' e'). right. auto.
Qed.

Lemma ack_ranges_below hi l ranges : ack_ranges hi l ranges -> forall s e, In (s, e) ranges -> 0 <= s < e /\ e < hi.
Proof.
  induction 1 as [|smallest lg gap ll len h lo l ranges q1 q2 -> -> hlo hr IH]; intros s e [].
  - injection H as <- <-. apply qvarint_bound in q1, q2. unfold max_varint in *. lia.
  - specialize (IH _ _ H). apply qvarint_bound in q1, q2. unfold max_varint in *. lia.
Qed.

Lemma ack_ranges_ok hi l ranges : ack_ranges hi l ranges -> hi < 2 ^ 62 -> forall e, hi < e <= 2 ^ 62 -> ack_ok (-1) (rev ranges ++ [(hi, e)]) \/ hi < 0.
Proof.
  induction 1 as [|smallest lg gap ll len h lo l ranges q1 q2 -> -> hlo hr IH]; intros hh e he.
  - cbn. destruct (Z_lt_dec smallest 0); [auto|]. left. constructor; lia.
  - left. apply qvarint_bound in q1, q2. unfold max_varint in *.
    destruct (IH ltac:(lia) (smallest - gap - 2 + 1) ltac:(lia)) as [k|k]; [|lia].
    cbn [rev]. apply (ack_ok_snoc _ _ _ _ (2 ^ 62)); try lia; auto.
    intros s' e' hin. apply in_app_iff in hin as [hin|[hin|[]]].
    + apply in_rev in hin. apply (ack_ranges_below _ _ _ hr) in hin. lia.
    + injection hin as <- <-. lia.
Qed.

Theorem ack_parsed_ok l rest delay ranges ecn : frame_wire l rest (FAck delay ranges ecn) ->
  is_v delay /\ ack_ok (-1) ranges.
Proof.
  intros (lt & ty & body & _ & _ & h). inversion h as [| |l1 l2 d' r' ecn' rest' h1 h2| | | | | | | | | | | | | | | | | | | | |]; subst.
  destruct h1 as (a1 & largest & a2 & a3 & count & a4 & first & a5 & below & -> & q1 & q2 & q3 & q4 & hs & hr & _ & ->).
  apply qvarint_bound in q1, q2, q3, q4. unfold max_varint in *. split; [unfold is_v; lia|].
  cbn [rev]. destruct (ack_ranges_ok _ _ _ hr ltac:(lia) (largest + 1) ltac:(lia)) as [k|k]; [auto|lia].
Qed.

(** ** Headers written apart from their data *)
Theorem header_encode f hdr n data c : cursor_ok c -> frame_legal f ->
  match f with
  | FStream id off d fin => hdr = stream_header_puts id off (zlen d) fin /\ data = d /\ frame_wire_len (FStreamHeader id off (zlen d) fin) = Some n
  | FCrypto off d => hdr = crypto_header_puts off (zlen d) /\ data = d /\ frame_wire_len (FCryptoHeader off (zlen d)) = Some n
  | FDatagram d => hdr = dgram_header_puts (zlen d) /\ data = d /\ frame_wire_len (FDatagramHeader (zlen d)) = Some n
  | _ => False
  end ->
  exists bs, zlen bs + zlen data = n /\ (forall rest, frame_wire (bs ++ data) rest f) /\
    (zlen bs <= zlen (oc_buf c) - oc_off c -> exists c', do_puts hdr c = (Ok tt, c') /\
       oc_off c' = oc_off c + zlen bs /\
       oc_buf c' = take (oc_off c) (oc_buf c) ++ bs ++ drop (oc_off c + zlen bs) (oc_buf c)).
Proof.
  intros hc hl hm. destruct (frame_encodes f hl) as (h1 & h2 & h3).
  assert (k : frame_puts f = hdr ++ [PutB data] /\ frame_wire_len f = Some n /\ (forall rest, follows f rest)).
  { destruct f; try contradiction; destruct hm as (-> & -> & hn); ands; auto; exact (fun _ => I). }
  destruct k as (k1 & k2 & k3). exists (puts_enc hdr). rewrite k1 in *. apply Forall_app in h1 as (h1 & _).
  assert (e : puts_enc (hdr ++ [PutB data]) = puts_enc hdr ++ data).
  { unfold puts_enc. rewrite flat_map_app. cbn [flat_map put_enc]. rewrite app_nil_r. reflexivity. }
  rewrite e in *. ands.
  - rewrite <- zlen_app. congruence.
  - intros rest. apply h3. apply k3.
  - intros hr. exists (after_put (puts_enc hdr) c). ands; try reflexivity. apply do_puts_spec; auto. rewrite rest_len by auto. auto.
Qed.

(** ** Sizes *)
Theorem stream_end_below b pkt id off d fin rest : bytes_ok b ->
  frame_from_bytes b pkt = Ok (FStream id off d fin, rest) -> 0 <= off /\ off + zlen d < 2 ^ 62.
Proof.
  intros hb h. apply frame_decode_iff in h as (l & _ & (lt & ty & body & _ & _ & h) & _); auto.
  inversion h as [| | | | | | |ho hl fin' id' off' d' lid loff ld rest' q1 q2 q3 q4| | | | | | | | | | | | | | | |]; subst.
  split; [|lia]. destruct ho; [apply qvarint_bound in q2; lia|lia].
Qed.

Theorem crypto_end_below b pkt off d rest : bytes_ok b ->
  frame_from_bytes b pkt = Ok (FCrypto off d, rest) ->
  0 <= off < 2 ^ 62 /\ zlen d < 2 ^ 62 /\ (crypto_arm_check off d = Ok tt <-> off + zlen d < 65536).
Proof.
  intros hb h. apply frame_decode_iff in h as (l & _ & (lt & ty & body & _ & _ & h) & _); auto.
  inversion h as [| | | | |a d' la ld rest' q1 (ln & q2 & e)| | | | | | | | | | | | | | | | | |]; subst.
  apply qvarint_bound in q1, q2. unfold max_varint in *. ands; try lia.
  unfold crypto_arm_check, MAX_CRYPTO_STREAM_OFFSET. destruct (65536 <=? off + zlen d) eqn:E; split; intros; try discriminate; auto; lia.
Qed.
