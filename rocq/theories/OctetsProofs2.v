(** The cursor API as a whole. *)
Require Import Verif.Base Verif.OctetsModel Verif.OctetsSpec Verif.OctetsProofs.

Lemma or_first_bytes m l : bytes_ok l -> In m [64; 128; 192] -> bytes_ok (or_first m l).
Proof.
  intros h hm. destruct l as [|x l]; auto. inversion h as [|? ? h1 h2]; subst. constructor; auto.
  unfold is_byte in *. split; [apply Z.lor_nonneg; cbn in hm; lia|].
  destruct (Z.eq_dec (Z.lor x m) 0) as [->|n0]; [lia|].
  assert (0 <= Z.lor x m) by (apply Z.lor_nonneg; cbn in hm; lia).
  change 256 with (2 ^ 8). apply Z.log2_lt_pow2; [lia|]. rewrite Z.log2_lor by (cbn in hm; lia).
  assert (Z.log2 x <= 7) by (change 7 with (Z.log2 255); apply Z.log2_le_mono; lia).
  assert (Z.log2 m <= 7) by (cbn in hm; destruct hm as [<-|[<-|[<-|[]]]]; cbn; lia). lia.
Qed.

Lemma or_first_len m l : zlen (or_first m l) = zlen l.
Proof. destruct l; reflexivity. Qed.

(** Every write is [put_list] of some bytes. *)
Lemma put_varint_len_spec v n c : oct_wf c -> In n [1; 2; 4; 8] ->
  exists bs, zlen bs = n /\ bytes_ok bs /\ put_varint_with_len v n c = put_list bs c.
Proof.
  intros h hn. pose proof (rest_len c h) as rl. unfold put_varint_with_len, obind, o_cap.
  assert (z : (zlen (oc_buf c) <? oc_off c) = false) by (destruct h as ((? & ?) & _); lia). rewrite z, <- rl.
  assert (g : forall bs, bytes_ok bs -> zlen bs = n ->
    (if zlen (rest_of c) <? n then ofail else put_list bs) c = put_list bs c).
  { intros bs hb <-. destruct (zlen (rest_of c) <? zlen bs) eqn:E; [|reflexivity]. rewrite put_list_spec, E by auto. reflexivity. }
  destruct hn as [<-|[<-|[<-|[<-|[]]]]].
  - exists (be_enc 1 v). rewrite be_enc_len. split; [reflexivity|]. split; [apply be_enc_bytes|].
    apply g; [apply be_enc_bytes|apply be_enc_len].
  - exists (or_first 64 (be_enc 2 v)). rewrite or_first_len, be_enc_len. split; [reflexivity|].
    split; [apply or_first_bytes; [apply be_enc_bytes|cbn; auto]|].
    apply g; [apply or_first_bytes; [apply be_enc_bytes|cbn; auto]|reflexivity].
  - exists (or_first 128 (be_enc 4 v)). rewrite or_first_len, be_enc_len. split; [reflexivity|].
    split; [apply or_first_bytes; [apply be_enc_bytes|cbn; auto]|].
    apply g; [apply or_first_bytes; [apply be_enc_bytes|cbn; auto]|reflexivity].
  - exists (or_first 192 (be_enc 8 v)). rewrite or_first_len, be_enc_len. split; [reflexivity|].
    split; [apply or_first_bytes; [apply be_enc_bytes|cbn; auto]|].
    apply g; [apply or_first_bytes; [apply be_enc_bytes|cbn; auto]|reflexivity].
Qed.

Lemma put_bytes_spec bs c : oct_wf c -> bytes_ok bs -> put_bytes bs c = put_list bs c.
Proof.
  intros h hb. pose proof (rest_len c h) as rl. unfold put_bytes, obind, o_cap.
  assert (z : (zlen (oc_buf c) <? oc_off c) = false) by (destruct h as ((? & ?) & _); lia). rewrite z, <- rl.
  destruct (zlen (rest_of c) <? zlen bs) eqn:E1; [rewrite put_list_spec, E1 by auto; reflexivity|].
  destruct (zlen bs =? 0) eqn:E; [|reflexivity]. rewrite put_list_spec, E1 by auto.
  assert (e : bs = []) by (destruct bs; auto; rewrite zlen_cons in E; pose proof (zlen_nonneg bs); lia). subst bs.
  change (zlen (@nil Z)) with 0. rewrite Z.add_0_r. cbn [app]. rewrite take_drop. destruct c; reflexivity.
Qed.

Lemma put_list_cases bs c : oct_wf c -> bytes_ok bs ->
  (zlen (rest_of c) < zlen bs /\ put_list bs c = (Err TooShort, c)) \/
  (zlen bs <= zlen (rest_of c) /\ exists c', put_list bs c = (Ok tt, c') /\ oct_wf c' /\
    zlen (oc_buf c') = zlen (oc_buf c) /\ oc_off c' = oc_off c + zlen bs /\
    take (oc_off c) (oc_buf c') = take (oc_off c) (oc_buf c) /\
    drop (oc_off c) (oc_buf c') = bs ++ drop (oc_off c') (oc_buf c) /\
    drop (oc_off c') (oc_buf c') = drop (oc_off c') (oc_buf c)).
Proof.
  intros h hb. rewrite put_list_spec by auto. destruct (zlen (rest_of c) <? zlen bs) eqn:E; [left; split; auto; lia|].
  right. split; [lia|]. eexists. split; [reflexivity|].
  destruct (put_result bs c _ h hb ltac:(lia) eq_refl) as (w & l & a & b & t).
  split; auto. split; auto. split; auto. split; auto.
  pose proof (rest_len c h) as rl. pose proof (zlen_nonneg bs). destruct h as (h1 & h2).
  unfold rest_of in a, b. cbn [oc_buf oc_off] in a, b |- *. rewrite drop_drop in b by lia.
  replace (zlen bs + oc_off c) with (oc_off c + zlen bs) in b by lia.
  replace (oc_off c + zlen bs) with (oc_off c + zlen bs) in b by lia.
  split; [rewrite a; f_equal; exact b|exact b].
Qed.

Lemma cap_ok {A} (k : Z -> om A) c : oct_wf c -> obind o_cap k c = k (zlen (rest_of c)) c.
Proof.
  intros h. unfold obind, o_cap. rewrite rest_len by auto. destruct h as (h & _).
  replace (zlen (oc_buf c) <? oc_off c) with false by lia. reflexivity.
Qed.

Definition good {A} (c : oct) (r : res oct_err A * oct) : Prop :=
  fst r <> Panic /\ oct_wf (snd r) /\ zlen (oc_buf (snd r)) = zlen (oc_buf c).

Lemma rd_u_len n b v r : rd_u n b = Some (v, r) -> Z.of_nat n <= zlen b.
Proof. unfold rd_u. destruct (zlen b <? Z.of_nat n) eqn:E; [discriminate|]. intros _. lia. Qed.

Lemma rd_varint_len b v r : bytes_ok b -> rd_varint b = Some (v, r) -> 1 <= zlen b - zlen r <= zlen b.
Proof.
  intros hb h. destruct (rd_varint_inv b v r hb h) as (l & -> & q). destruct (qvarint_len l v q).
  rewrite zlen_app. pose proof (zlen_nonneg r). lia.
Qed.

Lemma good_bind {A B} (m : om A) (k : A -> om B) c : good c (m c) ->
  (forall a c', m c = (Ok a, c') -> oct_wf c' -> good c' (k a c')) -> good c (obind m k c).
Proof.
  intros (h1 & h2 & h3) hk. unfold obind. destruct (m c) as [[a|e|] c'] eqn:E; cbn [fst snd] in *.
  - destruct (hk a c' eq_refl h2) as (g1 & g2 & g3). unfold good. split; auto. split; auto. lia.
  - unfold good. split; [discriminate|]. auto.
  - congruence.
Qed.

Lemma good_map {A B} (f : A -> B) (m : om A) c : good c (m c) -> good c (omap f m c).
Proof. intros h. apply good_bind; auto. intros a c' _ hw. unfold oret, good. cbn. split; [discriminate|auto]. Qed.

Lemma good_u n c : oct_wf c -> good c (get_u n c).
Proof.
  intros h. rewrite get_u_rd by auto. destruct (rd_u n (rest_of c)) as [[v r]|] eqn:E; unfold good; cbn [fst snd].
  - split; [discriminate|]. split; [|reflexivity]. apply advance_wf; auto. apply rd_u_len in E. lia.
  - split; [discriminate|auto].
Qed.

Lemma good_varint c : oct_wf c -> good c (get_varint c).
Proof.
  intros h. rewrite get_varint_rd by auto. destruct (rd_varint (rest_of c)) as [[v r]|] eqn:E; unfold good; cbn [fst snd].
  - split; [discriminate|]. split; [|reflexivity]. apply advance_wf; auto.
    apply rd_varint_len in E; [lia|apply rest_bytes; auto].
  - split; [discriminate|auto].
Qed.

Lemma good_bytes n c : oct_wf c -> 0 <= n -> good c (get_bytes n c).
Proof.
  intros h hn. unfold get_bytes. rewrite cap_ok by auto. destruct (zlen (rest_of c) <? n) eqn:E; unfold good; cbn [fst snd].
  - split; [discriminate|auto].
  - split; [discriminate|]. split; [|reflexivity]. apply advance_wf; auto. lia.
Qed.

Lemma good_put bs c : oct_wf c -> bytes_ok bs -> good c (put_list bs c).
Proof.
  intros h hb. destruct (put_list_cases bs c h hb) as [(_ & ->)|(_ & c' & -> & w & l & _)]; unfold good; cbn [fst snd].
  - split; [discriminate|auto].
  - split; [discriminate|auto].
Qed.

Lemma get_u_nonneg n c v c' : oct_wf c -> get_u n c = (Ok v, c') -> 0 <= v.
Proof.
  intros h hg. rewrite get_u_rd in hg by auto. destruct (rd_u n (rest_of c)) as [[w r]|] eqn:E; [|discriminate].
  injection hg as <- _. destruct (rd_u_inv _ _ _ _ E) as (l & e & _ & ->).
  pose proof (rest_bytes c h) as hb. rewrite e in hb. apply bytes_ok_app in hb as (hl & _).
  pose proof (be_value_range l hl). lia.
Qed.

Lemma get_varint_nonneg c v c' : oct_wf c -> get_varint c = (Ok v, c') -> 0 <= v <= max_varint.
Proof.
  intros h hg. rewrite get_varint_rd in hg by auto. destruct (rd_varint (rest_of c)) as [[w r]|] eqn:E; [|discriminate].
  injection hg as <- _. destruct (rd_varint_inv _ _ _ (rest_bytes c h) E) as (l & _ & q).
  apply qvarint_bound in q. auto.
Qed.

Lemma oc_step_good op c : oct_wf c -> legal_op op -> good c (oc_step op c).
Proof.
  intros h hl. destruct op; cbn [oc_step legal_op] in *; apply good_map.
  - apply good_u; auto.
  - rewrite peek_u_rd by auto. destruct (rd_u 1 (rest_of c)) as [[v r]|]; unfold good; cbn; split; try discriminate; auto.
  - apply good_varint; auto.
  - apply good_bytes; auto.
  - apply good_bind; [apply good_u; auto|]. intros a c' e w. apply good_bytes; auto. eapply get_u_nonneg; [|exact e]; auto.
  - apply good_bind; [apply good_u; auto|]. intros a c' e w. apply good_bytes; auto. eapply get_u_nonneg; [|exact e]; auto.
  - apply good_bind; [apply good_varint; auto|]. intros a c' e w. apply good_bytes; auto. eapply get_varint_nonneg; [|exact e]; auto.
  - unfold peek_bytes. rewrite cap_ok by auto. destruct (zlen (rest_of c) <? len); unfold good; cbn; split; try discriminate; auto.
  - unfold rewind. destruct (oc_off c <? len) eqn:E; unfold good; cbn; split; try discriminate; auto.
    split; auto. destruct h as (h1 & h2). split; auto. cbn. lia.
  - unfold slice_last. rewrite cap_ok by auto. destruct (zlen (rest_of c) <? len); unfold good; cbn; split; try discriminate; auto.
  - unfold skip. rewrite cap_ok by auto. destruct (zlen (rest_of c) <? n) eqn:E; unfold good; cbn [fst snd ofail]; split; try discriminate; auto.
    split; [|reflexivity]. apply advance_wf; auto. lia.
  - apply good_put; auto. apply be_enc_bytes.
  - rewrite put_varint_spec by (auto; unfold max_varint; lia). apply good_put; auto.
    destruct (wr_varint_ok v) as (q & _); [unfold max_varint; lia|]. apply qvarint_len in q. tauto.
  - destruct hl as (_ & hl). destruct (put_varint_len_spec v len c h hl) as (bs & _ & hb & ->). apply good_put; auto.
  - rewrite put_bytes_spec by auto. apply good_put; auto.
Qed.

Theorem oc_run_safe ops : forall c, cursor_ok c -> Forall legal_op ops ->
  exists rs c', oc_run ops c = Some (rs, c') /\ cursor_ok c' /\ zlen (oc_buf c') = zlen (oc_buf c).
Proof.
  induction ops as [|op ops IH]; intros c h hl; cbn [oc_run].
  - exists [], c. auto.
  - inversion hl as [|? ? l1 l2]; subst. destruct (oc_step_good op c h l1) as (g1 & g2 & g3).
    destruct (oc_step op c) as [r c1]. cbn [fst snd] in *.
    destruct (IH c1 g2 l2) as (rs & c' & e & w & l). rewrite e.
    destruct r; try congruence; eexists _, _; (split; [reflexivity|]); split; auto; lia.
Qed.

(** A failing call leaves the cursor where it was. *)
Theorem failed_call_no_effect op c e c' : cursor_ok c -> legal_op op -> length_prefixed op = false ->
  oc_step op c = (Err e, c') -> c' = c.
Proof.
  intros h hl hp. destruct op; cbn [oc_step legal_op length_prefixed] in *; try discriminate; unfold omap; unfold obind at 1;
    intros he.
  - rewrite get_u_rd in he by auto. destruct (rd_u n (rest_of c)) as [[v r]|]; unfold oret, ofail in he; cbn in he; congruence.
  - rewrite peek_u_rd in he by auto. destruct (rd_u 1 (rest_of c)) as [[v r]|]; unfold oret, ofail in he; cbn in he; congruence.
  - rewrite get_varint_rd in he by auto. destruct (rd_varint (rest_of c)) as [[v r]|]; unfold oret, ofail in he; cbn in he; congruence.
  - unfold get_bytes in he. rewrite cap_ok in he by auto. destruct (zlen (rest_of c) <? len); unfold oret, ofail in he; cbn in he; congruence.
  - unfold peek_bytes in he. rewrite cap_ok in he by auto. destruct (zlen (rest_of c) <? len); unfold oret, ofail in he; cbn in he; congruence.
  - unfold rewind in he. destruct (oc_off c <? len); unfold oret, ofail in he; cbn in he; congruence.
  - unfold slice_last in he. rewrite cap_ok in he by auto. destruct (zlen (rest_of c) <? len); unfold oret, ofail in he; cbn in he; congruence.
  - unfold skip in he. rewrite cap_ok in he by auto. destruct (zlen (rest_of c) <? n); unfold oret, ofail in he; cbn in he; congruence.
  - unfold put_u in he. destruct (put_list_cases (be_enc n v) c h (be_enc_bytes n v)) as [(_ & e1)|(_ & c2 & e1 & _)]; rewrite e1 in he; unfold oret, ofail in he; cbn in he; congruence.
  - destruct (wr_varint_ok v) as (q & _); [unfold max_varint; lia|]. apply qvarint_len in q as (_ & q).
    rewrite put_varint_spec in he by (auto; unfold max_varint; lia).
    destruct (put_list_cases _ c h q) as [(_ & e1)|(_ & c2 & e1 & _)]; rewrite e1 in he; unfold oret, ofail in he; cbn in he; congruence.
  - destruct hl as (_ & hl). destruct (put_varint_len_spec v len c h hl) as (bs & _ & hb & e2). rewrite e2 in he.
    destruct (put_list_cases _ c h hb) as [(_ & e1)|(_ & c2 & e1 & _)]; rewrite e1 in he; unfold oret, ofail in he; cbn in he; congruence.
  - rewrite put_bytes_spec in he by auto.
    destruct (put_list_cases _ c h hl) as [(_ & e1)|(_ & c2 & e1 & _)]; rewrite e1 in he; unfold oret, ofail in he; cbn in he; congruence.
Qed.

Definition peek_bytes_k len cap : om (list Z) := if cap <? len then ofail
  else fun c => (Ok (slice (oc_off c) (oc_off c + len) (oc_buf c)), c).
Definition slice_last_k len cap : om (list Z) := if cap <? len then ofail
  else fun c => (Ok (slice (zlen (oc_buf c) - len) (zlen (oc_buf c)) (oc_buf c)), c).
Definition skip_k n cap : om unit := if cap <? n then ofail else fun c => (Ok tt, advance n c).

(** Calls of fixed size succeed exactly when the bytes are there, read those
    bytes, and move by that much. *)
Theorem fixed_size_calls op c n : cursor_ok c -> legal_op op -> needs op = Some n ->
  (n <= zlen (oc_buf c) - oc_off c ->
     exists v c', oc_step op c = (Ok v, c') /\ oc_off c' = oc_off c + moves op /\
       (forall w, reads op (drop (oc_off c) (oc_buf c)) = Some w -> v = w) /\
       (is_write op = false -> oc_buf c' = oc_buf c) /\
       take (oc_off c) (oc_buf c') = take (oc_off c) (oc_buf c) /\
       drop (oc_off c + n) (oc_buf c') = drop (oc_off c + n) (oc_buf c)) /\
  (zlen (oc_buf c) - oc_off c < n -> oc_step op c = (Err TooShort, c)).
Proof.
  intros h hl hn. pose proof (rest_len c h) as rl.
  assert (P : forall bs (f : unit -> oc_val), bytes_ok bs -> zlen bs = n ->
    (n <= zlen (oc_buf c) - oc_off c -> exists v c', omap f (put_list bs) c = (Ok v, c') /\ oc_off c' = oc_off c + n /\
       v = f tt /\ take (oc_off c) (oc_buf c') = take (oc_off c) (oc_buf c) /\
       drop (oc_off c + n) (oc_buf c') = drop (oc_off c + n) (oc_buf c)) /\
    (zlen (oc_buf c) - oc_off c < n -> omap f (put_list bs) c = (Err TooShort, c))).
  { intros bs f hb <-. unfold omap, obind.
    destruct (put_list_cases bs c h hb) as [(q & ->)|(q & c' & -> & w & l & o & t & d & d')]; split; intros hq; try lia.
    - reflexivity.
    - eexists _, c'. split; [reflexivity|]. rewrite o in *. auto 10. }
  destruct op; cbn [needs] in hn; try discriminate; injection hn as hn; cbn [oc_step moves reads is_write legal_op] in *.
  - unfold omap, obind. rewrite get_u_rd by auto. unfold rd_u. rewrite hn. split; intros hq.
    + replace (zlen (rest_of c) <? n) with false by lia. eexists _, _. split; [reflexivity|]. split; [cbn; lia|].
      split; [|auto]. intros w e. injection e as <-. rewrite be_dec_value. reflexivity.
    + replace (zlen (rest_of c) <? n) with true by lia. reflexivity.
  - unfold omap, obind. rewrite peek_u_rd by auto. unfold rd_u. subst n. change (Z.of_nat 1) with 1. split; intros hq.
    + replace (zlen (rest_of c) <? 1) with false by lia. eexists _, _. split; [reflexivity|]. split; [cbn; lia|].
      split; [|auto]. intros w e. injection e as <-. rewrite be_dec_value. reflexivity.
    + replace (zlen (rest_of c) <? 1) with true by lia. reflexivity.
  - subst n. unfold omap, obind. rewrite get_bytes_rd by auto. unfold rd_bytes. split; intros hq.
    + replace (zlen (rest_of c) <? len) with false by lia. eexists _, _. split; [reflexivity|]. split; [cbn; lia|].
      split; [|auto]. intros w e. injection e as <-. reflexivity.
    + replace (zlen (rest_of c) <? len) with true by lia. reflexivity.
  - subst n. unfold omap, obind. pose proof (cap_ok (peek_bytes_k len) c h) as ck. change (peek_bytes len c = peek_bytes_k len (zlen (rest_of c)) c) in ck. rewrite ck. unfold peek_bytes_k. split; intros hq.
    + replace (zlen (rest_of c) <? len) with false by lia. eexists _, _. split; [reflexivity|]. split; [cbn; lia|].
      split; [|auto]. intros w e. injection e as <-. unfold slice. replace (oc_off c + len - oc_off c) with len by lia. reflexivity.
    + replace (zlen (rest_of c) <? len) with true by lia. reflexivity.
  - subst n. unfold omap, obind. pose proof (cap_ok (slice_last_k len) c h) as ck. change (slice_last len c = slice_last_k len (zlen (rest_of c)) c) in ck. rewrite ck. unfold slice_last_k. split; intros hq.
    + replace (zlen (rest_of c) <? len) with false by lia. eexists _, _. split; [reflexivity|]. split; [cbn; lia|].
      split; [|auto]. intros w e. injection e as <-. fold (rest_of c). rewrite rl.
      destruct h as (h1 & _). unfold slice, rest_of. rewrite take_all by (rewrite zlen_drop; lia).
      rewrite drop_drop by lia. do 2 f_equal. lia.
    + replace (zlen (rest_of c) <? len) with true by lia. reflexivity.
  - subst n. unfold omap, obind. pose proof (cap_ok (skip_k n0) c h) as ck. change (skip n0 c = skip_k n0 (zlen (rest_of c)) c) in ck. rewrite ck. unfold skip_k. split; intros hq.
    + replace (zlen (rest_of c) <? n0) with false by lia. eexists _, _. split; [reflexivity|]. split; [cbn; lia|].
      split; [|auto]. discriminate.
    + replace (zlen (rest_of c) <? n0) with true by lia. reflexivity.
  - destruct (P (be_enc n0 v) (fun _ => VUnit) (be_enc_bytes n0 v)) as (P1 & P2); [rewrite be_enc_len; auto|].
    split; [|exact P2]. intros hq. destruct (P1 hq) as (w & c' & e & o & -> & t & d). exists VUnit, c'.
    split; [exact e|]. split; [lia|]. split; [discriminate|]. split; [discriminate|auto].
  - destruct hl as (_ & hl). subst n. destruct (put_varint_len_spec v len c h hl) as (bs & q & hb & e2).
    destruct (P bs (fun _ => VUnit) hb q) as (P1 & P2). unfold omap, obind in *. rewrite e2.
    split; [|exact P2]. intros hq. destruct (P1 hq) as (w & c' & e & o & -> & t & d). exists VUnit, c'.
    split; [exact e|]. split; [lia|]. split; [discriminate|]. split; [discriminate|auto].
  - destruct (P bs (fun _ => VUnit) hl hn) as (P1 & P2). unfold omap, obind in *. rewrite put_bytes_spec by auto.
    split; [|exact P2]. intros hq. destruct (P1 hq) as (w & c' & e & o & -> & t & d). exists VUnit, c'.
    split; [exact e|]. split; [lia|]. split; [discriminate|]. split; [discriminate|auto].
Qed.

(** Integers written are read back. *)
Theorem int_round_trip n v c c' : cursor_ok c -> 0 <= v < 256 ^ Z.of_nat n -> put_u n v c = (Ok tt, c') ->
  get_u n (mkOct (oc_buf c') (oc_off c)) = (Ok v, c') /\
  be_value (slice (oc_off c) (oc_off c') (oc_buf c')) = v /\ oc_off c' = oc_off c + Z.of_nat n.
Proof.
  intros h hv hp. unfold put_u in hp.
  destruct (put_list_cases (be_enc n v) c h (be_enc_bytes n v)) as [(_ & e)|(q & c2 & e & w & l & o & t & d & d')];
    rewrite e in hp; [discriminate|]. injection hp as <-. rewrite be_enc_len in o.
  assert (w2 : oct_wf (mkOct (oc_buf c2) (oc_off c))) by (destruct h, w; split; cbn; auto; lia).
  rewrite get_u_rd by auto. unfold rest_of. cbn [oc_buf oc_off]. rewrite d.
  rewrite rd_u_app by apply be_enc_len. rewrite be_enc_value, Z.mod_small by auto.
  split; [|split; [|exact o]].
  - unfold advance. cbn [oc_buf oc_off]. rewrite <- o. destruct c2; reflexivity.
  - unfold slice. rewrite d, o. replace (oc_off c + Z.of_nat n - oc_off c) with (zlen (be_enc n v)) by (rewrite be_enc_len; lia).
    rewrite take_app_exact, be_enc_value. apply Z.mod_small. auto.
Qed.

(** Variable length integers. *)
Theorem varint_round_trip v c : cursor_ok c -> 0 <= v < 2 ^ 62 -> varint_len v <= zlen (oc_buf c) - oc_off c ->
  exists c', put_varint v c = (Ok tt, c') /\ oc_off c' = oc_off c + varint_len v /\
    get_varint (mkOct (oc_buf c') (oc_off c)) = (Ok v, c') /\
    qvarint (slice (oc_off c) (oc_off c') (oc_buf c')) v /\
    take (oc_off c) (oc_buf c') = take (oc_off c) (oc_buf c) /\
    drop (oc_off c') (oc_buf c') = drop (oc_off c') (oc_buf c).
Proof.
  intros h hv hl. destruct (wr_varint_ok v) as (q & ql); [unfold max_varint; lia|].
  rewrite put_varint_spec by (auto; unfold max_varint; lia). pose proof (rest_len c h) as rl.
  destruct (qvarint_len _ _ q) as (_ & qb).
  destruct (put_list_cases _ c h qb) as [(hh & e)|(_ & c2 & e & w & l & o & t & d & d')]; [lia|].
  exists c2. rewrite ql in o. split; auto. split; auto.
  assert (w2 : oct_wf (mkOct (oc_buf c2) (oc_off c))) by (destruct h, w; split; cbn; auto; lia).
  split; [|split; [|auto]].
  - rewrite get_varint_rd by auto. unfold rest_of. cbn [oc_buf oc_off]. rewrite d, (rd_varint_app _ _ _ q).
    rewrite zlen_app. f_equal. unfold advance. cbn [oc_buf oc_off]. destruct c2 as [b2 o2]. cbn [oc_buf oc_off] in *.
    f_equal. lia.
  - unfold slice. rewrite d. replace (oc_off c2 - oc_off c) with (zlen (wr_varint_bytes v)) by lia.
    rewrite take_app_exact. auto.
Qed.

Theorem varint_no_room v c : cursor_ok c -> 0 <= v < 2 ^ 62 -> zlen (oc_buf c) - oc_off c < varint_len v ->
  put_varint v c = (Err TooShort, c).
Proof.
  intros h hv hl. destruct (wr_varint_ok v) as (q & ql); [unfold max_varint; lia|].
  rewrite put_varint_spec by (auto; unfold max_varint; lia). pose proof (rest_len c h) as rl.
  destruct (qvarint_len _ _ q) as (_ & qb).
  destruct (put_list_cases _ c h qb) as [(hh & e)|(hh & _)]; [auto|lia].
Qed.

Theorem varint_long_form v n c : cursor_ok c -> 0 <= v < 2 ^ 62 -> In n [1; 2; 4; 8] -> varint_len v <= n ->
  n <= zlen (oc_buf c) - oc_off c ->
  exists c', put_varint_with_len v n c = (Ok tt, c') /\ oc_off c' = oc_off c + n /\
    get_varint (mkOct (oc_buf c') (oc_off c)) = (Ok v, c').
Proof.
  intros h hv hn hl hr. pose proof (rest_len c h) as rl.
  assert (P : forall bs, qvarint bs v -> zlen bs = n -> exists c', put_list bs c = (Ok tt, c') /\ oc_off c' = oc_off c + n /\
    get_varint (mkOct (oc_buf c') (oc_off c)) = (Ok v, c')).
  { intros bs q ql. destruct (qvarint_len _ _ q) as (_ & qb).
    destruct (put_list_cases _ c h qb) as [(hh & e)|(_ & c2 & e & w & l & o & t & d & d')]; [lia|].
    exists c2. rewrite ql in o. split; auto. split; auto.
    assert (w2 : oct_wf (mkOct (oc_buf c2) (oc_off c))) by (destruct h, w; split; cbn in *; auto; destruct hn as [<-|[<-|[<-|[<-|[]]]]]; lia).
    rewrite get_varint_rd by auto. unfold rest_of. cbn [oc_buf oc_off]. rewrite d, (rd_varint_app _ _ _ q).
    rewrite zlen_app. f_equal. unfold advance. cbn [oc_buf oc_off]. destruct c2 as [b2 o2]. cbn [oc_buf oc_off] in *.
    f_equal. lia. }
  unfold put_varint_with_len. rewrite cap_ok by auto. replace (zlen (rest_of c) <? n) with false by lia.
  unfold varint_len, varint_len_opt, max_varint in hl.
  destruct hn as [<-|[<-|[<-|[<-|[]]]]].
  - change (1 =? 1) with true. cbv iota. apply P; [|reflexivity]. destruct (v <=? 63) eqn:E; [|repeat destr_if; lia].
    pose proof (proj1 (wr_varint_ok v ltac:(unfold max_varint; lia))) as q. unfold wr_varint_bytes in q. rewrite E in q. exact q.
  - change (2 =? 1) with false. change (2 =? 2) with true. cbv iota. apply P; [|reflexivity].
    apply (or_first_varint 1 1); cbn; try lia. repeat destr_if; lia.
  - change (4 =? 1) with false. change (4 =? 2) with false. change (4 =? 4) with true. cbv iota. apply P; [|reflexivity].
    apply (or_first_varint 3 2); cbn; try lia. repeat destr_if; lia.
  - change (8 =? 1) with false. change (8 =? 2) with false. change (8 =? 4) with false. change (8 =? 8) with true. cbv iota.
    apply P; [|reflexivity]. apply (or_first_varint 7 3); cbn; lia.
Qed.

Theorem varint_decode_total c : cursor_ok c ->
  (exists v c', get_varint c = (Ok v, c') /\ 0 <= v < 2 ^ 62 /\ oc_buf c' = oc_buf c /\
     oc_off c < oc_off c' <= zlen (oc_buf c) /\ qvarint (slice (oc_off c) (oc_off c') (oc_buf c)) v) \/
  (get_varint c = (Err TooShort, c) /\
   forall l rest v, drop (oc_off c) (oc_buf c) = l ++ rest -> ~ qvarint l v).
Proof.
  intros h. rewrite get_varint_rd by auto. pose proof (rest_len c h) as rl.
  destruct (rd_varint (rest_of c)) as [[v r]|] eqn:E.
  - left. destruct (rd_varint_inv _ _ _ (rest_bytes c h) E) as (l & e & q).
    destruct (qvarint_len _ _ q) as (ql & _). pose proof (qvarint_bound _ _ q). unfold max_varint in *.
    eexists _, _. split; [reflexivity|]. split; [lia|]. cbn [advance oc_buf oc_off]. rewrite e, zlen_app in *.
    pose proof (zlen_nonneg r). split; auto. split; [lia|]. unfold slice. fold (rest_of c). rewrite e.
    replace (oc_off c + (zlen l + zlen r - zlen r) - oc_off c) with (zlen l) by lia. rewrite take_app_exact. auto.
  - right. split; auto. intros l rest v e q. apply (rd_varint_none _ _ _ _ e q). exact E.
Qed.
