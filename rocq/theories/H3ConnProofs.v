(** The reference parser can be resumed; reading from the transport. *)
Require Import Verif.Base Verif.Errors Verif.OctetsModel Verif.OctetsSpec Verif.OctetsProofs Verif.StreamsModel Verif.QpackModel Verif.H3FrameModel Verif.H3ConnModel Verif.H3ConnSpec.

Lemma bytes_ok_app a b : bytes_ok (a ++ b) <-> bytes_ok a /\ bytes_ok b.
Proof. apply Forall_app. Qed.

(** ** Varints *)
Lemma parse_len_byte x n : varint_parse_len x = Some n -> is_byte x.
Proof.
  unfold varint_parse_len. intros h. assert (hx : 0 <= Z.shiftr x 6 <= 3).
  { destruct (Z.shiftr x 6) as [|p|p] eqn:E; [lia| |discriminate h]. destruct p as [p|p|]; try (destruct p; try discriminate h); lia. }
  rewrite Z.shiftr_div_pow2 in hx by lia. change (2 ^ 6) with 64 in hx. unfold is_byte. lia.
Qed.
Lemma rd_u_len n b v r : rd_u n b = Some (v, r) -> zlen b = Z.of_nat n + zlen r.
Proof. intros h. destruct (rd_u_inv _ _ _ _ h) as (l & -> & e & _). rewrite zlen_app. lia. Qed.
Lemma rd_varint_short b v r : rd_varint b = Some (v, r) -> zlen r < zlen b.
Proof.
  intros h. destruct b as [|x tl]; [discriminate h|]. destruct (varint_parse_len x) as [n|] eqn:E.
  2:{ unfold rd_varint in h. rewrite E in h. discriminate h. }
  pose proof (parse_len_byte _ _ E) as hx. rewrite rd_varint_eq in h by auto.
  destruct (parse_len_spec x hx) as (_ & hk). destruct (pow_split _ hk) as (p1 & _).
  destruct (rd_u _ (x :: tl)) as [[w b']|] eqn:F; [|discriminate h]. injection h as _ <-. apply rd_u_len in F. lia.
Qed.
(** Fewer bytes than the first one announces *)
Lemma rd_varint_wait x tl n : varint_parse_len x = Some n -> zlen (x :: tl) < n -> rd_varint (x :: tl) = None.
Proof.
  intros h hl. pose proof (parse_len_byte _ _ h) as hx. rewrite rd_varint_eq by auto. destruct (parse_len_spec x hx) as (e & hk).
  destruct (pow_split _ hk) as (p1 & _). destruct (rd_u _ (x :: tl)) as [[w b']|] eqn:F; auto. apply rd_u_len in F. pose proof (zlen_nonneg b'). assert (n = 2 ^ (x / 64)) by congruence. lia.
Qed.
(** Exactly as many *)
Lemma rd_varint_done x tl n : bytes_ok (x :: tl) -> varint_parse_len x = Some n -> zlen (x :: tl) = n ->
  exists v, rd_varint (x :: tl) = Some (v, []) /\ 0 <= v /\ forall more, rd_varint ((x :: tl) ++ more) = Some (v, more).
Proof.
  intros hb h hl. pose proof (parse_len_byte _ _ h) as hx. destruct (parse_len_spec x hx) as (e & hk).
  destruct (pow_split _ hk) as (p1 & _). assert (hn : n = 2 ^ (x / 64)) by congruence.
  destruct (rd_varint (x :: tl)) as [[v r]|] eqn:F.
  2:{ rewrite rd_varint_eq in F by auto. destruct (rd_u _ (x :: tl)) as [[w b']|] eqn:G; [discriminate F|]. unfold rd_u in G.
      destruct (zlen (x :: tl) <? Z.of_nat (Z.to_nat (2 ^ (x / 64)))) eqn:L; [lia|discriminate G]. }
  destruct (rd_varint_inv _ _ _ hb F) as (l & e1 & hq).
  assert (hr : r = []).
  { rewrite rd_varint_eq in F by auto. destruct (rd_u _ (x :: tl)) as [[w b']|] eqn:G; [|discriminate F]. injection F as _ <-. apply rd_u_len in G.
    destruct b' as [|y b']; auto. rewrite (zlen_cons y b') in G. pose proof (zlen_nonneg b'). lia. }
  subst r. rewrite app_nil_r in e1. subst l. exists v. split; auto. split.
  - destruct hq as (_ & k & _ & _ & hv & _). lia.
  - intros more. apply rd_varint_app; auto.
Qed.

(** ** The parser *)
Section Ext.
Context (g : rcfg) (n1 n2 : phase -> list Z -> list tok).
Lemma on_skip_ext p len b : (forall p b', zlen b' <= zlen b -> n1 p b' = n2 p b') -> on_skip n1 p len b = on_skip n2 p len b.
Proof. intros h. unfold on_skip. destruct (zlen b <? len); auto. apply h. unfold drop, zlen. rewrite skipn_length. lia. Qed.
Lemma on_data_ext p len b : (forall p b', zlen b' <= zlen b -> n1 p b' = n2 p b') -> on_data n1 p len b = on_data n2 p len b.
Proof. intros h. unfold on_data. f_equal. apply on_skip_ext; auto. Qed.
Lemma on_payload_ext p ty len b : (forall p b', zlen b' <= zlen b -> n1 p b' = n2 p b') -> on_payload g n1 p ty len b = on_payload g n2 p ty len b.
Proof.
  intros h. unfold on_payload. assert (hd : zlen (drop len b) <= zlen b) by (unfold drop, zlen; rewrite skipn_length; lia).
  destruct (zlen b <? len); auto. destruct (ty =? 1).
  - destruct (read_section g p (take len b)); auto. f_equal. apply h; auto.
  - destruct (read_promise g (take len b)); auto.
Qed.
Lemma on_len_ext p ty b : (forall p b', zlen b' <= zlen b -> n1 p b' = n2 p b') -> on_len g n1 p ty b = on_len g n2 p ty b.
Proof.
  intros h. unfold on_len. destruct (rd_varint b) as [[len r]|] eqn:E; auto. apply rd_varint_short in E.
  destruct (length_error g ty len); auto. destruct (ty =? 0); [apply on_data_ext; intros; apply h; lia|].
  destruct ((ty =? 1) || (ty =? 5)); [apply on_payload_ext|apply on_skip_ext]; intros; apply h; lia.
Qed.
Lemma on_type_ext p b : (forall p b', zlen b' < zlen b -> n1 p b' = n2 p b') -> on_type g n1 p b = on_type g n2 p b.
Proof.
  intros h. unfold on_type. destruct (rd_varint b) as [[ty r]|] eqn:E; auto. apply rd_varint_short in E.
  destruct (next_phase g p ty); auto. apply on_len_ext. intros. apply h. lia.
Qed.
End Ext.
Lemma parse_fuel g : forall f1 f2 p b, (length b < f1)%nat -> (length b < f2)%nat -> parse_frames f1 g p b = parse_frames f2 g p b.
Proof.
  induction f1 as [|f1 IH]; intros f2 p b h1 h2; [lia|]. destruct f2 as [|f2]; [lia|]. cbn [parse_frames]. apply on_type_ext.
  intros p' b' h. unfold zlen in h. apply IH; lia.
Qed.
Definition parsed (g : rcfg) (p : phase) (b : list Z) : list tok := parse_frames (S (length b)) g p b.
Lemma parsed_eq g p b : parsed g p b = on_type g (parsed g) p b.
Proof. unfold parsed at 1. cbn [parse_frames]. apply on_type_ext. intros p' b' h. unfold zlen in h. apply parse_fuel; lia. Qed.

(** What a stream in state [s] makes of the bytes to come *)
Definition phase_of (s : hs) : phase := mkPhase (h_rinit s) (h_data s) (h_trail s) (h_count s).
Definition resume (g : rcfg) (s : hs) (more : list Z) : list tok :=
  match h_st s, h_fty s with
  | StFrame, _ => on_type g (parsed g) (phase_of s) (h_buf s ++ more)
  | StLen, Some ty => on_len g (parsed g) (phase_of s) ty (h_buf s ++ more)
  | StPayload, Some ty => on_payload g (parsed g) (phase_of s) ty (h_len s) (h_buf s ++ more)
  | StData, _ => on_data (parsed g) (phase_of s) (h_len s - h_off s) more
  | StSkip, _ => on_skip (parsed g) (phase_of s) (h_len s - h_off s) more
  | _, _ => []
  end.
Lemma resume_new g id local m p b : is_bidi id = true -> resume g (hs_new id local m p) b = says_all g b.
Proof. intros h. unfold hs_new. rewrite h. cbn. change (mkPhase false false false 0) with phase_new. symmetry. apply parsed_eq. Qed.

(** ** Reading from the transport *)
Definition data_of (q : tr) (id : Z) : list Z := match q_str q id with Some t => t_data t | None => [] end.
Record t_ok (t : tstr) : Prop := mkTok {
  tk_rst : t_rst t <> None -> t_data t = [] /\ t_fin t = true;
  tk_mark : t_mark t = true -> t_fin t = true;
  tk_bytes : bytes_ok (t_data t) }.
Definition tr_ok (q : tr) : Prop := forall id t, q_str q id = Some t -> t_ok t.
(** Reading on stream [id], and nothing else *)
Record moved (id : Z) (q q' : tr) : Prop := mkMoved {
  mv_other : forall j, j <> id -> q_str q' j = q_str q j /\ q_gone q' j = q_gone q j;
  mv_cfg : q_down q' = q_down q /\ q_server q' = q_server q /\ q_dgram q' = q_dgram q /\ q_bidi q' = q_bidi q;
  mv_self : match q_str q id with
            | None => q_str q' id = None /\ q_gone q' id = q_gone q id
            | Some t =>
                match q_str q' id with
                | Some t' => t_fin t' = t_fin t /\ t_rst t' = t_rst t /\ q_gone q' id = q_gone q id
                | None => t_fin t = true /\ q_gone q' id = true
                end
            end;
  mv_ok : tr_ok q -> tr_ok q' }.
Lemma moved_refl id q : moved id q q.
Proof. constructor; auto. destruct (q_str q id); auto. Qed.
Lemma moved_trans id a b c : moved id a b -> moved id b c -> moved id a c.
Proof.
  intros [o1 (c1 & c2 & c3 & c4) s1 k1] [o2 (d1 & d2 & d3 & d4) s2 k2]. constructor.
  - intros j h. destruct (o1 j h), (o2 j h). split; congruence.
  - repeat split; congruence.
  - destruct (q_str a id) as [t|].
    + destruct (q_str b id) as [t'|] eqn:E.
      * destruct s1 as (e1 & e2 & e3). destruct (q_str c id) as [t2|]; [destruct s2 as (f1 & f2 & f3)|destruct s2 as (f1 & f2)]; repeat split; congruence.
      * destruct s2 as (f1 & f2), s1 as (e1 & e2). rewrite f1. split; congruence.
    + destruct s1 as (e1 & e2). rewrite e1 in s2. destruct s2. split; congruence.
  - auto.
Qed.
Definition set_err (q : tr) (w : option Z) : tr := mkQ (q_str q) (q_gone q) w (q_down q) (q_server q) (q_dgram q) (q_bidi q).
Lemma moved_err id q w : moved id q (set_err q w).
Proof. constructor; auto. cbn. destruct (q_str q id); auto. Qed.
(** The stream will bring nothing more *)
Definition over (q : tr) (id : Z) : Prop := match q_str q id with Some t => t_fin t = true | None => q_gone q id = true end.
Lemma over_moved id k q q' : moved id q q' -> over q k -> over q' k.
Proof.
  intros [o _ s _]. unfold over. destruct (Z.eq_dec k id) as [-> |h].
  - destruct (q_str q id) as [t|].
    + destruct (q_str q' id) as [t'|]; [destruct s as (e1 & e2 & e3); congruence|tauto].
    + destruct s as (-> & ->). auto.
  - destruct (o k h) as (-> & ->). auto.
Qed.
Lemma data_moved id k q q' : moved id q q' -> k <> id -> data_of q' k = data_of q k.
Proof. intros [o _ _ _] h. unfold data_of. destruct (o k h) as (-> & _). auto. Qed.
Lemma exists_moved id k q q' : moved id q q' -> exists_in q k = true -> exists_in q' k = true.
Proof.
  intros [o _ s _]. unfold exists_in. destruct (Z.eq_dec k id) as [-> |h].
  - destruct (q_str q id) as [t|]; cbn.
    + intros _. destruct (q_str q' id) as [t'|]; auto. destruct s as (_ & ->). auto.
    + destruct s as (-> & ->). auto.
  - destruct (o k h) as (-> & ->). auto.
Qed.
Lemma upd_same {A} (f : Z -> option A) k x : upd f k x k = x.
Proof. unfold upd. rewrite Z.eqb_refl. auto. Qed.
Lemma upd_other {A} (f : Z -> option A) k x j : j <> k -> upd f k x j = f j.
Proof. intros h. unfold upd. rewrite (proj2 (Z.eqb_neq _ _) h). auto. Qed.

Lemma put_moved id q t t' : q_str q id = Some t -> t_fin t' = t_fin t -> t_rst t' = t_rst t -> (t_ok t -> t_ok t') -> moved id q (q_put q id t').
Proof.
  intros h1 h2 h3 h4. unfold q_put. destruct (t_finished t' && (negb (is_bidi id) || negb (t_open t'))) eqn:E; constructor; cbn; auto.
  - intros j hj. rewrite upd_other, (proj2 (Z.eqb_neq _ _) hj) by auto. auto.
  - rewrite h1, upd_same, Z.eqb_refl. split; auto. unfold t_finished in E. lia.
  - intros hk j tj hj. unfold tr_ok in hk. cbn in hj. unfold upd in hj. destruct (j =? id); [discriminate hj|eauto].
  - intros j hj. rewrite upd_other by auto. auto.
  - rewrite h1, upd_same. auto.
  - intros hk j tj hj. cbn in hj. unfold upd in hj. destruct (j =? id) eqn:F; [injection hj as <-; eauto|eauto].
Qed.
Lemma put_data id q t' : data_of (q_put q id t') id = t_data t'.
Proof.
  unfold q_put, data_of. destruct (t_finished t' && (negb (is_bidi id) || negb (t_open t'))) eqn:E; cbn; rewrite upd_same; auto.
  unfold t_finished, is_nil in E. destruct (t_data t'); auto. lia.
Qed.
Lemma put_finished id q t' : stream_finished (q_put q id t') id = t_finished t'.
Proof.
  unfold q_put, stream_finished. destruct (t_finished t' && (negb (is_bidi id) || negb (t_open t'))) eqn:E; cbn; rewrite upd_same; auto.
  lia.
Qed.
Lemma put_err id q t' : q_err (q_put q id t') = q_err q.
Proof. unfold q_put. destr_if; auto. Qed.

Definition foreign (q : tr) (id : Z) : bool := negb (negb (is_bidi id) && is_local id (q_server q)).
Lemma recv_spec q id n r q' : tr_ok q -> 0 <= n -> stream_recv q id n = (r, q') ->
  moved id q q' /\ q_err q' = q_err q /\
  match r with
  | Ok (bs, fin) =>
      data_of q id = bs ++ data_of q' id /\ bytes_ok bs /\ zlen bs = Z.min n (zlen (data_of q id)) /\ fin = stream_finished q' id /\
      (exists t, q_str q id = Some t /\ t_ready t = true /\ t_rst t = None) /\
      (bs = [] -> 0 < n -> fin = true)
  | Err Done => q' = q /\ stream_readable q id = false
  | Err e => data_of q' id = data_of q id /\
      ((exists code, e = StreamReset code /\ over q id /\ data_of q id = []) \/ (q' = q /\ (is_bidi id = true -> q_str q id = None)))
  | Panic => False
  end.
Proof.
  intros hk hn h. unfold stream_recv in h.
  destruct (negb (is_bidi id) && is_local id (q_server q)) eqn:E0.
  { injection h as <- <-. split; [apply moved_refl|]. split; auto. split; auto. right. split; auto. intros hb. rewrite hb in E0. discriminate E0. }
  destruct (q_str q id) as [t|] eqn:E.
  2:{ injection h as <- <-. split; [apply moved_refl|]. split; auto. }
  specialize (hk _ _ E) as ht.
  destruct (t_ready t) eqn:E1; cbn [negb] in h.
  2:{ injection h as <- <-. split; [apply moved_refl|]. split; auto. split; auto. unfold stream_readable. rewrite E. auto. }
  destruct (t_rst t) as [code|] eqn:E2.
  - injection h as <- <-. destruct (tk_rst t ht) as (d1 & d2); [congruence|]. split; [|split].
    + eapply put_moved; [exact E| | |]; cbn; auto. intros _. constructor; cbn; auto; try discriminate. constructor.
    + apply put_err.
    + rewrite put_data. unfold data_of. rewrite E. cbn [t_data]. rewrite d1. split; auto. left. exists code. unfold over. rewrite E. auto.
  - injection h as <- <-. split; [|split].
    + eapply put_moved; [exact E| | |]; cbn; auto. intros [k1 k2 k3]. constructor; cbn.
      * intros k. exfalso. apply k. reflexivity.
      * destruct (zlen (t_data t) <? n); [discriminate|auto].
      * unfold bytes_ok, drop in *. rewrite <- (firstn_skipn (Z.to_nat n)) in k3. apply Forall_app in k3. tauto.
    + apply put_err.
    + rewrite put_data, put_finished. unfold data_of. rewrite E. cbn [t_data]. split; [symmetry; apply take_drop|].
      split; [destruct ht as [_ _ k3]; unfold bytes_ok, take in *; rewrite <- (firstn_skipn (Z.to_nat n)) in k3; apply Forall_app in k3; tauto|].
      split; [apply zlen_take; lia|]. split; auto. split; [exists t; auto|].
      intros hb hpos. assert (hd : t_data t = []).
      { assert (hz : zlen (take n (t_data t)) = 0) by (rewrite hb; auto). rewrite zlen_take in hz by lia. destruct (t_data t); auto. rewrite zlen_cons in hz. pose proof (zlen_nonneg l). lia. }
      unfold t_finished. cbn. unfold t_ready in E1. rewrite hd in *. cbn in E1. rewrite (tk_mark t ht E1). unfold drop. rewrite skipn_nil. auto.
Qed.

(** Closing the connection *)
Lemma close_spec w e q e' q' : q_down q = false -> close_with w e q = (e', q') ->
  exists x, q' = set_err q (Some x) /\ ((q_err q = None /\ e' = e /\ x = w) \/ (q_err q = Some x /\ e' = HDone)).
Proof.
  intros hd h. unfold close_with in h. rewrite hd in h. cbn in h. destruct (q_err q) as [x|] eqn:E; cbn in h; injection h as <- <-.
  - exists x. split; [unfold set_err; rewrite <- E; destruct q; reflexivity|auto].
  - exists w. split; [unfold set_err; rewrite hd; reflexivity|]. left. auto.
Qed.

(** try_fill_buffer *)
Definition filled (s : hs) (trig : bool) (cap : Z) (bs : list Z) : hs :=
  set_pos (set_trig s trig) (h_st s) (h_buf s ++ bs) cap (h_len s) (h_off s + zlen bs).
Definition is_critical (ty : option styp) : bool := match ty with Some TControl | Some TEncoder | Some TDecoder => true | _ => false end.
Lemma fill_spec id : forall fuel s q r s' q', tr_ok q -> q_down q = false -> bytes_ok (h_buf s) -> zlen (h_buf s) = h_off s -> h_off s < h_len s ->
  (Z.to_nat (h_len s - h_off s) < fuel)%nat -> fill_loop fuel id s q = (r, s', q') ->
  exists bs cap trig, s' = filled s trig cap bs /\ bytes_ok bs /\ h_off s + zlen bs <= h_len s /\ data_of q id = bs ++ data_of q' id /\
    moved id q q' /\ h_cap s <= cap <= Z.max (h_cap s) (2 * (h_off s + zlen bs) + 4096) /\
    match r with
    | Ok _ => h_off s + zlen bs = h_len s /\ q_err q' = q_err q
    | Err e =>
        (is_critical (h_ty s) = true /\ q_err q' <> None /\ (q_err q = None -> e = HClosedCriticalStream) /\ (q_err q <> None -> e = HDone /\ q_err q' = q_err q)) \/
        (q_err q' = q_err q /\
         ((e = HDone /\ h_off s + zlen bs < h_len s) \/
          (h_off s + zlen bs < h_len s /\ exists t, e = HTransport t /\ (is_bidi id = true -> exists_in q id = true -> over q' id /\ data_of q' id = []))))
    | Panic => False
    end.
Proof.
  induction fuel as [|fuel IH]; intros s q r s' q' hk hd hb hz hl hf h; [lia|]. cbn [fill_loop] in h.
  set (cap := if h_cap s - zlen (h_buf s) <=? 0 then reserve (h_cap s) (zlen (h_buf s)) (Z.min MAX_ALLOC (h_len s - h_off s)) else h_cap s) in h.
  assert (hcap : h_cap s <= cap <= Z.max (h_cap s) (2 * h_off s + 4096) /\ h_off s < cap).
  { unfold cap, reserve, MAX_ALLOC. pose proof (zlen_nonneg (h_buf s)). destruct (h_cap s - zlen (h_buf s) <=? 0) eqn:E1; [|lia].
    destruct (Z.min 4096 (h_len s - h_off s) <=? h_cap s - zlen (h_buf s)) eqn:E2; lia. }
  set (usable := Z.min (h_len s - h_off s) (cap - zlen (h_buf s))) in h.
  assert (hu : 0 < usable <= h_len s - h_off s) by (unfold usable; lia).
  assert (hns : forall t, set_pos s (h_st s) (h_buf s) cap (h_len s) (h_off s) = filled s (h_trig s) cap [] /\ set_trig (set_pos s (h_st s) (h_buf s) cap (h_len s) (h_off s)) t = filled s t cap []).
  { intros t. unfold filled, set_pos, set_trig. cbn. rewrite app_nil_r, Z.add_0_r. auto. }
  destruct (stream_recv q id usable) as [r1 q1] eqn:R. destruct (recv_spec q id usable _ _ hk ltac:(lia) R) as (m1 & e1 & sp). clear R.
  assert (hd1 : q_down q1 = false) by (rewrite (proj1 (mv_cfg _ _ _ m1)); auto).
  destruct r1 as [[bs fin]|e|]; [| |destruct sp].
  - destruct sp as (d1 & b1 & z1 & f1 & (t & ht & hrd & hrst) & hfin).
    cbn [h_st h_buf h_cap h_len h_off set_pos] in h.
    assert (hs1 : set_pos (set_pos s (h_st s) (h_buf s) cap (h_len s) (h_off s)) (h_st s) (h_buf s ++ bs) cap (h_len s) (h_off s + zlen bs) = filled s (h_trig s) cap bs) by reflexivity.
    rewrite hs1 in h. clear hs1. pose proof (zlen_nonneg bs).
    destruct (critical (filled s (h_trig s) cap bs) fin) eqn:C.
    { unfold critical in C. cbn in C. change (match h_ty s with Some TControl | Some TEncoder | Some TDecoder => true | _ => false end) with (is_critical (h_ty s)) in C.
      apply andb_true_iff in C as (_ & C). destruct (h_close HClosedCriticalStream q1) as [e q2] eqn:CL. injection h as <- <- <-.
      destruct (close_spec _ _ _ _ _ hd1 CL) as (x & -> & hx). exists bs, cap, (h_trig s). split; auto. split; auto. split; [lia|].
      split; [exact d1|]. split; [eapply moved_trans; [exact m1|apply moved_err]|]. split; [lia|]. left. split; auto. split; [discriminate|].
      rewrite <- e1. destruct hx as [(hx & hy & _)|(hx & hy)]; split; intros hh; try congruence; cbn; split; congruence. }
    assert (hcomp : complete (filled s (h_trig s) cap bs) = (h_off s + zlen bs =? h_len s)) by reflexivity. rewrite hcomp in h.
    destruct (zlen bs <? usable) eqn:U.
    { destruct (h_off s + zlen bs =? h_len s) eqn:C2; [lia|]. injection h as <- <- <-.
      exists bs, cap, false. split; auto. split; auto. split; [lia|]. split; auto. split; auto. split; [lia|]. right. split; auto. left. split; auto. lia. }
    destruct (h_off s + zlen bs =? h_len s) eqn:C2.
    { injection h as <- <- <-. exists bs, cap, (h_trig s). split; auto. split; auto. split; [lia|]. split; auto. split; auto. split; [lia|]. split; auto. lia. }
    assert (hpos : 1 <= zlen bs) by lia.
    assert (k1 : bytes_ok (h_buf (filled s (h_trig s) cap bs))) by (apply bytes_ok_app; auto).
    assert (k2 : zlen (h_buf (filled s (h_trig s) cap bs)) = h_off (filled s (h_trig s) cap bs)) by (cbn; rewrite zlen_app; lia).
    assert (k3 : h_off (filled s (h_trig s) cap bs) < h_len (filled s (h_trig s) cap bs)) by (cbn; lia).
    assert (k4 : (Z.to_nat (h_len (filled s (h_trig s) cap bs) - h_off (filled s (h_trig s) cap bs)) < fuel)%nat) by (cbn; lia).
    destruct (IH _ _ _ _ _ (mv_ok _ _ _ m1 hk) hd1 k1 k2 k3 k4 h) as (bs2 & cap2 & trig2 & es & b2 & l2 & d2 & m2 & c2 & sp2).
    cbn [filled set_pos set_trig h_off h_len h_cap h_ty] in l2, c2, sp2. pose proof (zlen_nonneg bs2). exists (bs ++ bs2), cap2, trig2. rewrite zlen_app. split.
    { rewrite es. unfold filled, set_pos, set_trig. cbn. rewrite app_assoc, zlen_app, Z.add_assoc. auto. }
    split; [apply bytes_ok_app; auto|]. split; [lia|]. split; [rewrite d1, d2, app_assoc; auto|]. split; [eapply moved_trans; eauto|]. split; [lia|].
    rewrite Z.add_assoc. rewrite e1 in sp2. destruct r; auto.
    destruct sp2 as [sp2|(s1 & [s2|(s2 & t2 & s3 & s4)])]; [left; auto|right; split; auto|right; split; auto; right].
    split; auto. exists t2. split; auto. intros hbi hex. apply s4; auto. eapply exists_moved; eauto.
  - assert (sp2 : (e = Done /\ q1 = q) \/ (e <> Done /\ data_of q1 id = data_of q id /\ ((exists code, e = StreamReset code /\ over q id /\ data_of q id = []) \/ (q1 = q /\ (is_bidi id = true -> q_str q id = None))))).
    { destruct e; try (right; split; [discriminate|]; exact sp). left. tauto. }
    destruct sp2 as [(-> & ->)|(hne & hdata & hcase)].
    { injection h as <- <- <-. rewrite (proj2 (hns false)). exists [], cap, false. rewrite zlen_nil. split; auto. split; [constructor|]. split; [lia|]. split; auto. split; auto. split; [lia|].
      right. split; auto. left. split; auto. lia. }
    assert (fin2 : forall e2 q2 s2, (Err (HTransport e), s2, q2) = (r, s', q') -> s2 = set_pos s (h_st s) (h_buf s) cap (h_len s) (h_off s) -> q2 = q1 ->
      e2 = e -> exists bs cap trig, s' = filled s trig cap bs /\ bytes_ok bs /\ h_off s + zlen bs <= h_len s /\ data_of q id = bs ++ data_of q' id /\
    moved id q q' /\ h_cap s <= cap <= Z.max (h_cap s) (2 * (h_off s + zlen bs) + 4096) /\
    match r with
    | Ok _ => h_off s + zlen bs = h_len s /\ q_err q' = q_err q
    | Err e =>
        (is_critical (h_ty s) = true /\ q_err q' <> None /\ (q_err q = None -> e = HClosedCriticalStream) /\ (q_err q <> None -> e = HDone /\ q_err q' = q_err q)) \/
        (q_err q' = q_err q /\
         ((e = HDone /\ h_off s + zlen bs < h_len s) \/
          (h_off s + zlen bs < h_len s /\ exists t, e = HTransport t /\ (is_bidi id = true -> exists_in q id = true -> over q' id /\ data_of q' id = []))))
    | Panic => False
    end).
    { intros e2 q2 s2 hh -> -> ->. injection hh as <- <- <-. rewrite (proj1 (hns false)). exists [], cap, (h_trig s). rewrite zlen_nil. split; auto. split; [constructor|]. split; [lia|].
      split; [auto|]. split; auto. split; [lia|]. right. split; auto. right. split; [lia|]. exists e. split; auto. intros hbi hex.
      destruct hcase as [(code & -> & ho & hda)|(-> & hno)].
      - split; [eapply over_moved; eauto|congruence].
      - unfold over, exists_in in *. rewrite (hno hbi) in *. cbn in hex. split; auto. unfold data_of. rewrite (hno hbi). auto. }
    destruct e; try (eapply fin2; [exact h|reflexivity..]); [congruence|].
    destruct (critical (set_pos s (h_st s) (h_buf s) cap (h_len s) (h_off s)) true) eqn:C.
    + cbn in C. change (match h_ty s with Some TControl | Some TEncoder | Some TDecoder => true | _ => false end) with (is_critical (h_ty s)) in C.
      destruct (h_close HClosedCriticalStream q1) as [e q2] eqn:CL. injection h as <- <- <-.
      destruct (close_spec _ _ _ _ _ hd1 CL) as (x & -> & hx). rewrite (proj1 (hns false)). exists [], cap, (h_trig s). rewrite zlen_nil. split; auto. split; [constructor|]. split; [lia|].
      split; [exact (eq_sym hdata)|]. split; [eapply moved_trans; [exact m1|apply moved_err]|]. split; [lia|]. left. split; auto. split; [discriminate|].
      rewrite <- e1. destruct hx as [(hx & hy & _)|(hx & hy)]; split; intros hh; try congruence; cbn; split; congruence.
    + eapply fin2; [exact h|reflexivity..].
Qed.
