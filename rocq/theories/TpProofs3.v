Require Import Verif.Base Verif.Errors.
Require Import Verif.OctetsModel Verif.OctetsSpec Verif.OctetsProofs Verif.OctetsProofs2.
Require Import Verif.FrameModel Verif.FrameSpec Verif.FrameProofs Verif.FrameProofs2 Verif.FrameProofs3.
Require Import Verif.TpModel Verif.TpSpec Verif.TpProofs Verif.TpProofs2 Verif.PacketProofs2.

(** ** What the encoder writes *)
Fixpoint somes (l : list (Z * option (list Z))) : list (Z * list Z) :=
  match l with
  | [] => []
  | (i, Some v) :: l => (i, v) :: somes l
  | (i, None) :: l => somes l
  end.

Definition writes (ps : list put) (o : list (Z * option (list Z))) : Prop :=
  Forall put_ok ps /\ params_wire (puts_enc ps) (somes o).

Definition item (ps : list put) (id : Z) (o : option (list Z)) : Prop :=
  match o with
  | None => ps = []
  | Some v => Forall put_ok ps /\ exists li lv, puts_enc ps = li ++ lv /\ qvarint li id /\ with_len lv v
  end.

Lemma writes_nil : writes [] [].
Proof. split; constructor. Qed.

Lemma writes_cons ps id o rest ops : item ps id o -> writes rest ops -> writes (ps ++ rest) ((id, o) :: ops).
Proof.
  intros hi (h1 & h2). unfold writes. destruct o as [v|]; cbn [item somes] in *.
  - destruct hi as (hp & li & lv & e & q1 & q2). split; [apply Forall_app; auto|].
    unfold puts_enc in *. rewrite flat_map_app, e, <- app_assoc. constructor; auto.
  - subst ps. auto.
Qed.

Lemma item_param id len val v : is_v id -> is_v len -> Forall put_ok val -> puts_enc val = v -> zlen v = len ->
  item (param_puts id len val) id (Some v).
Proof.
  intros h1 h2 h3 h4 h5. cbn [item]. split; [unfold param_puts; repeat (apply Forall_cons; [cbn [put_ok]; auto|]); auto|].
  exists (put_enc (PutV id)), (put_enc (PutV len) ++ v). ands.
  - unfold param_puts, puts_enc in *. cbn [flat_map]. rewrite h4. reflexivity.
  - apply enc_v. auto.
  - exists (put_enc (PutV len)). split; auto. rewrite h5. apply enc_v. auto.
Qed.

Lemma varint_len_is_v v : is_v v -> is_v (varint_len v).
Proof. intros h. rewrite <- enc_v_len by auto. pose proof (enc_v v h) as q. apply qvarint_len in q. unfold is_v. lia. Qed.

Lemma item_int id max v : is_v id -> is_v v -> v <= max -> item (int_param id max v) id (Some (put_enc (PutV v))).
Proof.
  intros h1 h2 h3. unfold int_param. replace (max <? v) with false by lia. apply item_param; auto.
  - apply varint_len_is_v. auto.
  - unfold puts_enc. cbn [flat_map]. apply app_nil_r.
  - apply enc_v_len. auto.
Qed.

Definition nzo (v : Z) : option (list Z) := if v =? 0 then None else Some (put_enc (PutV v)).

Lemma item_nz id max v : is_v id -> is_v v -> v <= max -> item (nz_param id max v) id (nzo v).
Proof. intros h1 h2 h3. unfold nz_param, nzo. destruct (v =? 0); [reflexivity|]. apply item_int; auto. Qed.

Lemma item_cid id o : is_v id -> (forall d, o = Some d -> bytes_ok d /\ zlen d <= 20) -> item (cid_param id o) id o.
Proof.
  intros h1 h2. destruct o as [d|]; [|reflexivity]. destruct (h2 d eq_refl) as (h3 & h4). pose proof (zlen_nonneg d).
  unfold cid_param. apply item_param; auto; [small_v|]. unfold puts_enc. cbn [flat_map put_enc]. apply app_nil_r.
Qed.

Lemma item_srv (srv : bool) ps id o : item ps id o -> item (if srv then ps else []) id (if srv then o else None).
Proof. destruct srv; auto. reflexivity. Qed.

Definition opts (t : tparams) (srv : bool) : list (Z * option (list Z)) :=
  [(0x00, if srv then tp_odcid t else None);
   (0x01, nzo (tp_idle t));
   (0x02, if srv then match tp_token t with Some k => Some (be_enc 16 k) | None => None end else None);
   (0x03, nzo (tp_udp t));
   (0x04, nzo (tp_data t));
   (0x05, nzo (tp_bidi_local t));
   (0x06, nzo (tp_bidi_remote t));
   (0x07, nzo (tp_uni t));
   (0x08, nzo (tp_streams_bidi t));
   (0x09, nzo (tp_streams_uni t));
   (0x0a, nzo (tp_ade t));
   (0x0b, nzo (tp_mad t));
   (0x0c, if tp_dam t then Some [] else None);
   (0x0e, if tp_acil t =? 2 then None else Some (put_enc (PutV (tp_acil t))));
   (0x0f, tp_iscid t);
   (0x10, if srv then tp_rscid t else None);
   (0x20, match tp_dgram t with Some v => Some (put_enc (PutV v)) | None => None end)].

(** What the encoder asserts. *)
Definition tp_encodable (t : tparams) : Prop :=
  ub (tp_idle t) /\ ub (tp_data t) /\ ub (tp_bidi_local t) /\ ub (tp_bidi_remote t) /\ ub (tp_uni t) /\
  ub (tp_udp t) /\ ub (tp_streams_bidi t) /\ ub (tp_streams_uni t) /\
  0 <= tp_ade t <= 20 /\ ub (tp_mad t) /\ ub (tp_acil t) /\
  (forall v, tp_dgram t = Some v -> ub v) /\
  (forall d, tp_odcid t = Some d \/ tp_iscid t = Some d \/ tp_rscid t = Some d -> bytes_ok d /\ zlen d <= 20).

Lemma tp_puts_writes t srv : tp_encodable t -> writes (tp_puts t srv) (opts t srv).
Proof.
  unfold tp_encodable, ub. intros (h1 & h2 & h3 & h4 & h5 & h6 & h7 & h8 & h9 & h10 & h11 & h12 & h13). unfold tp_puts, opts.
  pose proof (eq_refl : max_varint = 2 ^ 62 - 1) as em.
  repeat (apply writes_cons; [|]); try (apply item_nz; unfold is_v, MAX_ACK_DELAY_EXPONENT; lia).
  - apply item_srv. apply item_cid; [small_v|]. intros d e. apply h13. auto.
  - apply item_srv. destruct (tp_token t) as [k|]; [|reflexivity]. apply item_param; try small_v.
    + apply Forall_cons; [apply be_enc_bytes|apply Forall_nil].
    + unfold puts_enc. cbn [flat_map put_enc]. apply app_nil_r.
    + apply be_enc_len.
  - destruct (tp_dam t); [|reflexivity]. apply item_param; try small_v; constructor.
  - destruct (tp_acil t =? 2); [reflexivity|]. apply item_int; unfold is_v; lia.
  - apply item_cid; [small_v|]. intros d e. apply h13. auto.
  - apply item_srv. apply item_cid; [small_v|]. intros d e. apply h13. auto.
  - rewrite <- (app_nil_r (match tp_dgram t with Some v => _ | None => [] end)). apply writes_cons; [|apply writes_nil].
    destruct (tp_dgram t) as [v|]; [|reflexivity]. specialize (h12 v eq_refl). apply item_int; unfold is_v; lia.
Qed.

Lemma tp_encode_spec t srv out : tp_encodable t -> bytes_ok out ->
  tp_encode t srv out = if zlen out <? zlen (puts_enc (tp_puts t srv)) then Err BufferTooShort else Ok (puts_enc (tp_puts t srv)).
Proof.
  intros ht hb. destruct (tp_puts_writes t srv ht) as (hp & _). unfold tp_encode.
  assert (hw : oct_wf (mkOct out 0)). { split; cbn [oc_off oc_buf]; auto. pose proof (zlen_nonneg out). lia. }
  destruct (do_puts_spec (tp_puts t srv) (mkOct out 0) hw hp) as (i1 & i2).
  assert (er : rest_of (mkOct out 0) = out) by reflexivity. rewrite er in *.
  destruct (zlen out <? zlen (puts_enc (tp_puts t srv))) eqn:E.
  - destruct i2 as (c & ->); [lia|]. reflexivity.
  - rewrite i1 by lia. unfold after_put. cbn [oc_off oc_buf]. change (take 0 out) with (@nil Z). cbn [app]. rewrite Z.add_0_l, take_app_exact. reflexivity.
Qed.

(** ** Back *)
Lemma look_somes i l : NoDup (map fst l) ->
  look i (somes l) = match find (fun p => i =? fst p) l with Some (_, o) => o | None => None end.
Proof.
  induction l as [|[j o] l IH]; cbn [map fst somes find look]; auto. intros h. inversion h as [|? ? h1 h2]; subst. specialize (IH h2).
  assert (hs : ~ In j (map fst (somes l))).
  { intros hi. apply h1. clear -hi. induction l as [|[k o] l IH]; [contradiction|]. destruct o; cbn [somes map fst In] in *; tauto. }
  destruct o as [v|]; cbn [look]; destruct (Z.eqb_spec i j) as [->|hne]; auto. apply look_none. auto.
Qed.

Lemma somes_nodup l : NoDup (map fst l) -> NoDup (map fst (somes l)).
Proof.
  induction l as [|[j o] l IH]; cbn [map fst somes]; auto. intros h. inversion h as [|? ? h1 h2]; subst. specialize (IH h2).
  destruct o; auto. cbn [map fst]. constructor; auto.
  intros hi. apply h1. clear -hi. induction l as [|[k o] l IH]; [contradiction|]. destruct o; cbn [somes map fst In] in *; tauto.
Qed.

Lemma nodupb_ok (l : list Z) : (fix f l := match l with [] => true | x :: l => negb (existsb (Z.eqb x) l) && f l end) l = true -> NoDup l.
Proof.
  induction l as [|x l IH]; intros h; constructor; apply andb_true_iff in h as (h1 & h2).
  - intros hi. assert (existsb (Z.eqb x) l = true) by (apply existsb_exists; exists x; split; auto; apply Z.eqb_refl).
    rewrite H in h1. discriminate.
  - apply IH. auto.
Qed.

Lemma opts_nodup t srv : NoDup (map fst (opts t srv)).
Proof. apply nodupb_ok. unfold opts. cbn [map fst]. vm_compute. reflexivity. Qed.

Lemma val_is_enc v : is_v v -> val_is (put_enc (PutV v)) v.
Proof. intros h. exists (put_enc (PutV v)), []. rewrite app_nil_r. split; auto. apply enc_v. auto. Qed.

Lemma somes_forall (P : Z * list Z -> Prop) l : Forall (fun p => match snd p with None => True | Some v => P (fst p, v) end) l -> Forall P (somes l).
Proof. induction 1 as [|[i o] l h1 h2 IH]; cbn [somes]; [constructor|]. destruct o; auto. Qed.

Lemma tp_sane_encodable t : tp_sane t -> tp_encodable t.
Proof.
  unfold tp_sane, tp_encodable, ub. intros (h1 & h2 & h3 & h4 & h5 & h6 & h7 & h8 & h9 & h10 & h11 & h12 & h13 & h14).
  ands; auto; try lia; try (apply h13; auto).
Qed.

Lemma param_ok_int srv id v : In id [0x01; 0x03; 0x04; 0x05; 0x06; 0x07; 0x08; 0x09; 0x0a; 0x0b; 0x0e; 0x20] -> is_v v -> in_range id v -> param_ok srv (id, put_enc (PutV v)).
Proof.
  intros hi hv hr. unfold param_ok. ands.
  - unfold only_from_server. cbn [In] in *. intros; exfalso; lia.
  - intros _. exists v. split; auto. apply val_is_enc. auto.
  - cbn [In] in hi. intros; exfalso; lia.
Qed.

Lemma param_ok_nz srv id v : In id [0x01; 0x03; 0x04; 0x05; 0x06; 0x07; 0x08; 0x09; 0x0a; 0x0b; 0x0e; 0x20] -> is_v v -> in_range id v ->
  match nzo v with None => True | Some d => param_ok srv (id, d) end.
Proof. intros. unfold nzo. destruct (v =? 0); auto. apply param_ok_int; auto. Qed.

Lemma opts_ok t srv : tp_sane t -> Forall (param_ok (negb srv)) (somes (opts t srv)).
Proof.
  intros (h1 & h2 & h3 & h4 & h5 & h6 & h7 & h8 & h9 & h10 & h11 & h12 & h13 & h14). unfold ub in *.
  apply somes_forall. unfold opts. repeat (apply Forall_cons; [cbn [fst snd]|]); [..|apply Forall_nil].
  all: try (apply param_ok_nz; [cbn [In]; tauto|unfold is_v; lia|unfold in_range; lia]).
  - destruct srv; auto. destruct (tp_odcid t); auto. unfold param_ok. ands; [auto|in_no|lia].
  - destruct srv; auto. destruct (tp_token t); auto. unfold param_ok. ands; [auto|in_no|]. intros _. rewrite be_enc_len. lia.
  - destruct (tp_dam t); auto. unfold param_ok. ands; [in_no|in_no|lia].
  - destruct (tp_acil t =? 2); auto. apply param_ok_int; [cbn [In]; tauto|unfold is_v; lia|unfold in_range; lia].
  - destruct (tp_iscid t); auto. unfold param_ok. ands; [in_no|in_no|lia].
  - destruct srv; auto. destruct (tp_rscid t); auto. unfold param_ok. ands; [auto|in_no|lia].
  - destruct (tp_dgram t) as [v|]; auto. specialize (h12 v eq_refl). apply param_ok_int; [cbn [In]; tauto|unfold is_v; lia|unfold in_range; lia].
Qed.

Lemma int_nz l i d v : is_v v -> look i l = nzo v -> (v = 0 -> d = 0) -> int_field l i d v.
Proof. intros h1 h2 h3. unfold int_field. rewrite h2. unfold nzo. destruct (Z.eqb_spec v 0) as [e|e]; [rewrite h3; auto|]. apply val_is_enc. auto. Qed.

Lemma filter_unkn_somes l : Forall (fun p => knownb (fst p) = true) l -> unkn (somes l) = [].
Proof. unfold unkn. induction 1 as [|[i o] l h1 h2 IH]; auto. destruct o; cbn [somes filter fst] in *; auto. rewrite h1. cbn. auto. Qed.

Lemma opts_says t srv track : tp_sane t -> says (somes (opts t srv)) track (tp_seen srv track t).
Proof.
  intros (h1 & h2 & h3 & h4 & h5 & h6 & h7 & h8 & h9 & h10 & h11 & h12 & h13 & h14). unfold ub in *.
  assert (hl : forall i, look i (somes (opts t srv)) = match find (fun p => i =? fst p) (opts t srv) with Some (_, o) => o | None => None end)
    by (intros; apply look_somes, opts_nodup).
  assert (hu : unkn (somes (opts t srv)) = []).
  { apply filter_unkn_somes. unfold opts. repeat (apply Forall_cons; [reflexivity|]). apply Forall_nil. }
  unfold says. fold (unkn (somes (opts t srv))). rewrite hu. unfold tp_seen.
  assert (hn : forall i v (d : Z), is_v v -> match find (fun p => i =? fst p) (opts t srv) with Some (_, o) => o | None => None end = nzo v -> (v = 0 -> d = 0) ->
    int_field (somes (opts t srv)) i d v).
  { intros i v d a1 a2 a3. apply int_nz; auto. rewrite hl. auto. }
  ands.
  all: try (destruct srv; fields; (apply hn; [unfold is_v; lia|reflexivity|lia])).
  all: unfold int_field; rewrite ?hl; unfold opts; cbn [find fst Z.eqb Pos.eqb].
  - destruct srv; fields; auto.
  - destruct srv; fields; auto. destruct (tp_token t) as [k|] eqn:E; auto. specialize (h14 k eq_refl). f_equal.
    rewrite take_all by (rewrite be_enc_len; lia). rewrite be_enc_value. symmetry. apply Z.mod_small. cbn. lia.
  - destruct srv; fields; destruct (tp_dam t); auto.
  - assert (match (if tp_acil t =? 2 then None else Some (put_enc (PutV (tp_acil t)))) with Some val => val_is val (tp_acil t) | None => tp_acil t = 2 end).
    { destruct (tp_acil t =? 2) eqn:E; [lia|]. apply val_is_enc. unfold is_v; lia. }
    destruct srv; fields; auto.
  - destruct srv; fields; auto.
  - destruct srv; fields; auto.
  - assert (match (match tp_dgram t with Some v => Some (put_enc (PutV v)) | None => None end) with Some val => exists x, tp_dgram t = Some x /\ val_is val x | None => tp_dgram t = None end).
    { destruct (tp_dgram t) as [v|] eqn:E; auto. specialize (h12 v eq_refl). exists v. split; auto. apply val_is_enc. unfold is_v; lia. }
    destruct srv; fields; auto.
  - destruct srv, track; fields; reflexivity.
Qed.

Lemma puts_len_app a b : zlen (puts_enc (a ++ b)) = zlen (puts_enc a) + zlen (puts_enc b).
Proof. unfold puts_enc. rewrite flat_map_app, zlen_app. reflexivity. Qed.

Lemma put_v_len v : is_v v -> 1 <= zlen (put_enc (PutV v)) <= 8.
Proof. intros h. pose proof (enc_v v h) as q. apply qvarint_len in q. tauto. Qed.

Lemma put_v1 v : 0 <= v < 64 -> zlen (put_enc (PutV v)) = 1.
Proof. intros h. rewrite enc_v_len by (unfold is_v; lia). unfold varint_len, varint_len_opt. replace (v <=? 63) with true by lia. reflexivity. Qed.

Lemma param_len id len val : 0 <= id < 64 -> 0 <= len < 64 -> zlen (puts_enc (param_puts id len val)) = 2 + zlen (puts_enc val).
Proof. intros h1 h2. unfold param_puts, puts_enc. cbn [flat_map]. rewrite !zlen_app, !put_v1 by auto. lia. Qed.

Lemma int_len id max v : 0 <= id < 64 -> is_v v -> v <= max -> zlen (puts_enc (int_param id max v)) <= 10.
Proof.
  intros h1 h2 h3. unfold int_param. replace (max <? v) with false by lia. pose proof (put_v_len v h2) as hl.
  rewrite param_len; auto; [|rewrite <- enc_v_len by auto; lia]. unfold puts_enc. cbn [flat_map]. rewrite app_nil_r. lia.
Qed.
Lemma nz_len id max v : 0 <= id < 64 -> is_v v -> v <= max -> zlen (puts_enc (nz_param id max v)) <= 10.
Proof. intros. unfold nz_param. destruct (v =? 0); [cbn; lia|]. apply int_len; auto. Qed.
Lemma cid_len id o : 0 <= id < 64 -> (forall d, o = Some d -> bytes_ok d /\ zlen d <= 20) -> zlen (puts_enc (cid_param id o)) <= 22.
Proof.
  intros h1 h2. destruct o as [d|]; [|cbn; lia]. destruct (h2 d eq_refl) as (_ & h). pose proof (zlen_nonneg d). unfold cid_param.
  rewrite param_len by lia. unfold puts_enc. cbn [flat_map put_enc]. rewrite app_nil_r. lia.
Qed.

Lemma tp_puts_len t srv : tp_encodable t -> zlen (puts_enc (tp_puts t srv)) <= if srv then 206 else 144.
Proof.
  unfold tp_encodable, ub. intros (h1 & h2 & h3 & h4 & h5 & h6 & h7 & h8 & h9 & h10 & h11 & h12 & h13). unfold tp_puts.
  pose proof (eq_refl : max_varint = 2 ^ 62 - 1) as em.
  rewrite !puts_len_app.
  pose proof (nz_len 1 max_varint (tp_idle t) ltac:(lia) ltac:(small_v) ltac:(lia)).
  pose proof (nz_len 3 max_varint (tp_udp t) ltac:(lia) ltac:(small_v) ltac:(lia)).
  pose proof (nz_len 4 max_varint (tp_data t) ltac:(lia) ltac:(small_v) ltac:(lia)).
  pose proof (nz_len 5 max_varint (tp_bidi_local t) ltac:(lia) ltac:(small_v) ltac:(lia)).
  pose proof (nz_len 6 max_varint (tp_bidi_remote t) ltac:(lia) ltac:(small_v) ltac:(lia)).
  pose proof (nz_len 7 max_varint (tp_uni t) ltac:(lia) ltac:(small_v) ltac:(lia)).
  pose proof (nz_len 8 max_varint (tp_streams_bidi t) ltac:(lia) ltac:(small_v) ltac:(lia)).
  pose proof (nz_len 9 max_varint (tp_streams_uni t) ltac:(lia) ltac:(small_v) ltac:(lia)).
  pose proof (nz_len 10 MAX_ACK_DELAY_EXPONENT (tp_ade t) ltac:(lia) ltac:(small_v) ltac:(unfold MAX_ACK_DELAY_EXPONENT; lia)).
  pose proof (nz_len 11 max_varint (tp_mad t) ltac:(lia) ltac:(small_v) ltac:(lia)).
  assert (zlen (puts_enc (if tp_dam t then param_puts 12 0 [] else [])) <= 2) by (destruct (tp_dam t); [rewrite param_len by lia|]; cbn; lia).
  assert (zlen (puts_enc (if tp_acil t =? 2 then [] else int_param 14 max_varint (tp_acil t))) <= 10).
  { destruct (tp_acil t =? 2); [cbn; lia|]. apply int_len; unfold is_v; lia. }
  assert (zlen (puts_enc match tp_dgram t with Some v => int_param 32 max_varint v | None => [] end) <= 10).
  { destruct (tp_dgram t) as [v|]; [|cbn; lia]. specialize (h12 v eq_refl). apply int_len; unfold is_v; lia. }
  pose proof (cid_len 15 (tp_iscid t) ltac:(lia) ltac:(intros d e; apply h13; auto)).
  destruct srv.
  - pose proof (cid_len 0 (tp_odcid t) ltac:(lia) ltac:(intros d e; apply h13; auto)).
    pose proof (cid_len 16 (tp_rscid t) ltac:(lia) ltac:(intros d e; apply h13; auto)).
    assert (zlen (puts_enc match tp_token t with Some k => param_puts 2 16 [PutB (be_enc 16 k)] | None => [] end) <= 18).
    { destruct (tp_token t); [|cbn; lia]. rewrite param_len by lia. unfold puts_enc. cbn [flat_map put_enc]. rewrite app_nil_r, be_enc_len. lia. }
    lia.
  - change (puts_enc []) with (@nil Z). change (zlen (@nil Z)) with 0. lia.
Qed.

Lemma tp_round_trip t srv out track : tp_sane t -> bytes_ok out ->
  match tp_encode t srv out with
  | Ok enc => tp_decode enc (negb srv) track = Ok (tp_seen srv track t)
  | Err e => e = BufferTooShort /\ zlen out < if srv then 206 else 144
  | Panic => False
  end.
Proof.
  intros ht hb. pose proof (tp_sane_encodable t ht) as he. rewrite tp_encode_spec by auto.
  destruct (tp_puts_writes t srv he) as (hp & hw).
  destruct (zlen out <? zlen (puts_enc (tp_puts t srv))) eqn:E.
  - split; auto. pose proof (tp_puts_len t srv he). lia.
  - apply tp_decode_iff; [apply puts_enc_bytes; auto|]. exists (somes (opts t srv)). ands; auto.
    + apply somes_nodup, opts_nodup.
    + apply opts_ok. auto.
    + apply opts_says. auto.
Qed.

(** ** Config *)
Definition cfg_legal (op : cfg_op) : Prop :=
  match op with
  | SetIdle v | SetUdp v | SetData v | SetBidiLocal v | SetBidiRemote v | SetUni v | SetStreamsBidi v | SetStreamsUni v
  | SetAde v | SetMad v | SetAcil v => 0 <= v < 2 ^ 64
  | SetToken (Some k) => 0 <= k < 2 ^ 128
  | _ => True
  end.

Lemma cfg_encodable ops : Forall cfg_legal ops -> tp_encodable (cfg_run ops).
Proof.
  intros h. unfold cfg_run.
  assert (h0 : tp_encodable tp_default).
  { unfold tp_encodable, ub, tp_default. fields. ands; try lia; try discriminate. intros d [e|[e|e]]; discriminate. }
  revert h0. generalize tp_default. induction h as [|op ops h1 h2 IH]; intros t ht; cbn [fold_left]; auto.
  apply IH. clear IH h2. unfold tp_encodable in *. pose proof (eq_refl : max_varint = 2 ^ 62 - 1) as em. unfold ub, MAX_ACK_DELAY_EXPONENT in *.
  destruct ht as (a1 & a2 & a3 & a4 & a5 & a6 & a7 & a8 & a9 & a10 & a11 & a12 & a13).
  destruct op; cbn [cfg_step cfg_legal] in *; unfold MAX_ACK_DELAY_EXPONENT; fields; try (ands; auto; lia).
  - destruct (2 <=? v) eqn:E; fields; ands; auto; lia.
  - destruct b; ands; auto; try lia. intros v e. injection e as <-. unfold MAX_DGRAM_FRAME_SIZE. lia. intros; discriminate.
Qed.

Lemma with_cids_encodable t o i r : tp_encodable t ->
  (forall d, o = Some d \/ i = Some d \/ r = Some d -> bytes_ok d /\ zlen d <= 20) ->
  tp_encodable (set_odcid o (set_iscid i (set_rscid r t))).
Proof. unfold tp_encodable. fields. intros h1 h2. ands; try tauto; try apply h1; try (intros; apply h2; tauto). Qed.

Lemma cfg_no_panic ops o i r srv out : Forall cfg_legal ops -> bytes_ok out ->
  (forall d, o = Some d \/ i = Some d \/ r = Some d -> bytes_ok d /\ zlen d <= 20) ->
  tp_encode (set_odcid o (set_iscid i (set_rscid r (cfg_run ops)))) srv out <> Panic.
Proof.
  intros h1 h2 h3. rewrite tp_encode_spec; auto; [|apply with_cids_encodable; auto; apply cfg_encodable; auto].
  destruct (zlen out <? _); discriminate.
Qed.

(** ** Consequences of the decoder's specification *)
Lemma look_in i l v : look i l = Some v -> In (i, v) l.
Proof. induction l as [|[j w] l IH]; cbn [look In]; [discriminate|]. destruct (Z.eqb_spec i j) as [->|hne]; [intros e; injection e as ->; auto|auto]. Qed.

Lemma int_field_range srv l i d x : Forall (param_ok srv) l -> is_int_param i -> int_field l i d x -> in_range i d -> 0 <= d <= 2 ^ 62 - 1 -> in_range i x /\ ub x.
Proof.
  intros hf hi h hd hb. unfold int_field in h. destruct (look i l) as [v|] eqn:E; [|subst; auto].
  apply look_in in E. rewrite Forall_forall in hf. specialize (hf _ E). destruct hf as (_ & hf & _). destruct (hf hi) as (y & hy & hr).
  rewrite (val_is_fun _ _ _ h hy). split; auto. destruct hy as (e & r & _ & q). apply qvarint_bound in q. unfold ub, max_varint in *. lia.
Qed.

Lemma keep_budget l : forall cap c k, 0 <= cap -> keep cap l = (c, k) -> 0 <= c /\
  c + fold_right (fun p s => zlen (snd p) + 8 + s) 0 k = cap /\ (forall p, In p k -> In p l).
Proof.
  induction l as [|[i v] l IH]; intros cap c k hc h; cbn [keep] in h.
  - injection h as <- <-. cbn. ands; auto; lia.
  - destruct (zlen v + 8 <? cap) eqn:E.
    + destruct (keep (cap - (zlen v + 8)) l) as [c' k'] eqn:E2. injection h as <- <-. destruct (IH (cap - (zlen v + 8)) c' k' ltac:(lia) E2) as (h1 & h2 & h3).
      ands; auto; [cbn [fold_right snd]; lia|]. cbn [In]. intros p [<-|hp]; auto.
    + destruct (IH _ _ _ hc h) as (h1 & h2 & h3). ands; auto. cbn [In]. auto.
Qed.

Lemma tp_decoded_range b srv track t : bytes_ok b -> tp_decode b srv track = Ok t ->
  ub (tp_idle t) /\ ub (tp_data t) /\ ub (tp_bidi_local t) /\ ub (tp_bidi_remote t) /\ ub (tp_uni t) /\
  1200 <= tp_udp t <= 2 ^ 62 - 1 /\ 0 <= tp_streams_bidi t <= 2 ^ 60 /\ 0 <= tp_streams_uni t <= 2 ^ 60 /\
  0 <= tp_ade t <= 20 /\ 0 <= tp_mad t < 2 ^ 14 /\ 2 <= tp_acil t <= 2 ^ 62 - 1 /\
  (forall v, tp_dgram t = Some v -> ub v) /\
  (srv = true -> tp_odcid t = None /\ tp_token t = None /\ tp_rscid t = None).
Proof.
  intros hb h. apply tp_decode_iff in h as (l & _ & _ & hf & hs); auto.
  destruct hs as (b1 & b2 & b3 & b4 & b5 & b6 & b7 & b8 & b9 & b10 & b11 & b12 & b13 & b14 & b15 & b16 & b17 & b18).
  apply (int_field_range srv) in b2 as (c2 & d2), b4 as (c4 & d4), b5 as (c5 & d5), b6 as (c6 & d6), b7 as (c7 & d7), b8 as (c8 & d8),
    b9 as (c9 & d9), b10 as (c10 & d10), b11 as (c11 & d11), b12 as (c12 & d12), b14 as (c14 & d14);
    try (unfold is_int_param; cbn [In]; tauto); try lia; auto; try (unfold in_range; lia).
  unfold in_range in *. unfold ub in *. ands; auto; try lia.
  - intros v e. destruct (look 32 l) as [val|] eqn:E; [|congruence]. destruct b17 as (x & ex & hx). rewrite ex in e. injection e as ->.
    destruct hx as (en & r & _ & q). apply qvarint_bound in q. unfold max_varint in q. lia.
  - intros ->. assert (hn : forall i, only_from_server i -> look i l = None).
    { intros i hi. destruct (look i l) as [v|] eqn:E; auto. apply look_in in E. rewrite Forall_forall in hf. destruct (hf _ E) as (h & _). discriminate (h hi). }
    rewrite b1, b16. rewrite (hn 2) in b3 by (unfold only_from_server; cbn [In]; tauto). ands; auto; apply hn; unfold only_from_server; cbn [In]; tauto.
Qed.

Lemma tp_decode_unknown b srv cap t : bytes_ok b -> 0 <= cap -> tp_decode b srv (Some cap) = Ok t ->
  exists c k l, tp_unknown t = Some (c, k) /\ 0 <= c /\ c + fold_right (fun p s => zlen (snd p) + 8 + s) 0 k = cap /\
    params_wire b l /\ forall p, In p k -> In p l /\ knownb (fst p) = false.
Proof.
  intros hb hc h. apply tp_decode_iff in h as (l & hw & _ & _ & hs); auto. do 17 (destruct hs as (_ & hs)).
  destruct (keep cap (filter (fun p => negb (knownb (fst p))) l)) as [c k] eqn:E. exists c, k, l.
  destruct (keep_budget _ _ _ _ hc E) as (h1 & h2 & h3). ands; auto.
  intros p hp. apply h3 in hp. apply filter_In in hp as (hp & hk). split; auto. destruct (knownb (fst p)); auto.
Qed.

Lemma tp_decode_dup b srv track l1 l2 l3 i v1 v2 : bytes_ok b -> params_wire b (l1 ++ (i, v1) :: l2 ++ (i, v2) :: l3) ->
  exists e, tp_decode b srv track = Err e.
Proof.
  intros hb hw. destruct (tp_decode b srv track) as [t|e|] eqn:E; [|eauto|exfalso; eapply tp_decode_np; eauto].
  apply tp_decode_iff in E as (l & w & hn & _); auto. rewrite (params_wire_fun _ _ _ w hw) in hn.
  rewrite map_app in hn. cbn [map fst] in hn. apply NoDup_remove_2 in hn. exfalso. apply hn. apply in_or_app. right. rewrite map_app. cbn [map fst].
  apply in_or_app. right. left. reflexivity.
Qed.

Lemma tp_decode_bad b srv track l p : bytes_ok b -> params_wire b l -> In p l -> ~ param_ok srv p -> exists e, tp_decode b srv track = Err e.
Proof.
  intros hb hw hi hp. destruct (tp_decode b srv track) as [t|e|] eqn:E; [|eauto|exfalso; eapply tp_decode_np; eauto].
  apply tp_decode_iff in E as (l' & w & _ & hf & _); auto. rewrite (params_wire_fun _ _ _ w hw) in hf. rewrite Forall_forall in hf. exfalso. apply hp, hf, hi.
Qed.

(** ** The connection ids *)
Lemma cid_eqb_eq a b : cid_eqb a b = true <-> a = b.
Proof. unfold cid_eqb. destruct (list_eq_dec Z.eq_dec a b); split; auto; discriminate. Qed.

Lemma check_cids_iff srv dcid odcid rscid t : check_peer_cids srv dcid odcid rscid t = Ok tt <->
  tp_iscid t = Some dcid /\
  (forall o, odcid = Some o -> tp_odcid t = Some o \/ tp_odcid t = None /\ srv = true) /\
  (forall r, rscid = Some r -> tp_rscid t = Some r).
Proof.
  unfold check_peer_cids. destruct (tp_iscid t) as [v|]; cbn [bind]; [|split; [discriminate|intros (h & _); discriminate]].
  destruct (cid_eqb v dcid) eqn:E; cbn [bind].
  2: { split; [discriminate|]. intros (h & _). injection h as ->. assert (cid_eqb dcid dcid = true) by (apply cid_eqb_eq; auto). congruence. }
  apply cid_eqb_eq in E. subst v.
  assert (h1 : (match odcid with Some o => match tp_odcid t with Some v => if cid_eqb v o then Ok tt else Err InvalidTransportParam
    | None => if srv then Ok tt else Err InvalidTransportParam end | None => Ok tt end = Ok tt :> res error unit) <->
    (forall o, odcid = Some o -> tp_odcid t = Some o \/ tp_odcid t = None /\ srv = true)).
  { destruct odcid as [o|]; [|split; auto; discriminate]. destruct (tp_odcid t) as [v|].
    - destruct (cid_eqb v o) eqn:E.
      + apply cid_eqb_eq in E. subst. split; auto.
      + split; [discriminate|]. intros h. destruct (h o eq_refl) as [e|(e & _)]; [|discriminate]. injection e as ->.
        assert (cid_eqb o o = true) by (apply cid_eqb_eq; auto). congruence.
    - destruct srv; split; auto; try discriminate. intros h. destruct (h o eq_refl) as [e|(_ & e)]; discriminate. }
  match goal with |- bind ?x _ = _ <-> _ => destruct x as [[]|e|] eqn:E1 end; cbn [bind].
  - destruct rscid as [r|].
    + destruct (tp_rscid t) as [v|].
      * destruct (cid_eqb v r) eqn:E.
        -- apply cid_eqb_eq in E. subst. split; auto. intros _. ands; auto. apply h1. auto.
        -- split; [discriminate|]. intros (_ & _ & h). specialize (h r eq_refl). injection h as ->. assert (cid_eqb r r = true) by (apply cid_eqb_eq; auto). congruence.
      * split; [discriminate|]. intros (_ & _ & h). discriminate (h r eq_refl).
    + split; auto. intros _. ands; auto; [apply h1; auto|discriminate].
  - split; [discriminate|]. intros (_ & h & _). apply h1 in h. discriminate.
  - split; [discriminate|]. intros (_ & h & _). apply h1 in h. discriminate.
Qed.
