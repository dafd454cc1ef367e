Require Import Verif.Base Verif.Errors.
Require Import Verif.OctetsModel Verif.OctetsSpec Verif.OctetsProofs Verif.OctetsProofs2.
Require Import Verif.FrameModel Verif.FrameSpec Verif.FrameProofs Verif.FrameProofs2 Verif.FrameProofs3.
Require Import Verif.TpModel Verif.TpSpec Verif.TpProofs.

(** ** The whole list *)
Definition unkn (l : list (Z * list Z)) := filter (fun p => negb (knownb (fst p))) l.

Definition opt_field (l : list (Z * list Z)) (i : Z) (d x : option (list Z)) : Prop :=
  match look i l with None => x = d | Some v => x = Some v end.

(** Like [says], from the state [t0]. *)
Definition says_from (l : list (Z * list Z)) (t0 t : tparams) : Prop :=
  opt_field l 0x00 (tp_odcid t0) (tp_odcid t) /\
  int_field l 0x01 (tp_idle t0) (tp_idle t) /\
  match look 0x02 l with None => tp_token t = tp_token t0 | Some val => tp_token t = Some (be_value (take 16 val)) end /\
  int_field l 0x03 (tp_udp t0) (tp_udp t) /\
  int_field l 0x04 (tp_data t0) (tp_data t) /\
  int_field l 0x05 (tp_bidi_local t0) (tp_bidi_local t) /\
  int_field l 0x06 (tp_bidi_remote t0) (tp_bidi_remote t) /\
  int_field l 0x07 (tp_uni t0) (tp_uni t) /\
  int_field l 0x08 (tp_streams_bidi t0) (tp_streams_bidi t) /\
  int_field l 0x09 (tp_streams_uni t0) (tp_streams_uni t) /\
  int_field l 0x0a (tp_ade t0) (tp_ade t) /\
  int_field l 0x0b (tp_mad t0) (tp_mad t) /\
  tp_dam t = (match look 0x0c l with None => tp_dam t0 | Some _ => true end) /\
  int_field l 0x0e (tp_acil t0) (tp_acil t) /\
  opt_field l 0x0f (tp_iscid t0) (tp_iscid t) /\
  opt_field l 0x10 (tp_rscid t0) (tp_rscid t) /\
  match look 0x20 l with None => tp_dgram t = tp_dgram t0 | Some val => exists x, tp_dgram t = Some x /\ val_is val x end /\
  tp_unknown t = (match tp_unknown t0 with None => None | Some (c, ps) => let '(c', k) := keep c (unkn l) in Some (c', ps ++ k) end).

Lemma look_none i l : ~ In i (map fst l) -> look i l = None.
Proof.
  induction l as [|[j v] l IH]; cbn [map fst In look]; auto. intros h.
  destruct (Z.eqb_spec i j) as [->|hne]; [tauto|]. apply IH. tauto.
Qed.

Lemma int_field_cons l id val i d0 d1 x : ~ In id (map fst l) -> ch id i val d0 d1 -> int_field l i d1 x -> int_field ((id, val) :: l) i d0 x.
Proof.
  unfold ch, int_field. intros hn h1 h2. cbn [look]. destruct (Z.eqb_spec i id) as [->|hne].
  - rewrite look_none in h2 by auto. subst x. auto.
  - subst d1. auto.
Qed.

Lemma opt_field_cons l id val i d0 d1 x : ~ In id (map fst l) -> cho id i val d0 d1 -> opt_field l i d1 x -> opt_field ((id, val) :: l) i d0 x.
Proof.
  unfold cho, opt_field. intros hn h1 h2. cbn [look]. destruct (Z.eqb_spec i id) as [->|hne].
  - rewrite look_none in h2 by auto. congruence.
  - subst d1. auto.
Qed.

Lemma says_cons l id val t0 t1 t : ~ In id (map fst l) -> step_says id val t0 t1 -> says_from l t1 t -> says_from ((id, val) :: l) t0 t.
Proof.
  intros hn h1 h2. unfold step_says in h1. unfold says_from in *.
  destruct h1 as (a1 & a2 & a3 & a4 & a5 & a6 & a7 & a8 & a9 & a10 & a11 & a12 & a13 & a14 & a15 & a16 & a17 & a18).
  destruct h2 as (b1 & b2 & b3 & b4 & b5 & b6 & b7 & b8 & b9 & b10 & b11 & b12 & b13 & b14 & b15 & b16 & b17 & b18).
  ands; try (eapply int_field_cons; eassumption); try (eapply opt_field_cons; eassumption).
  - cbn [look]. destruct (Z.eqb_spec 2 id) as [e|hne]; [rewrite look_none in b3 by congruence|]; [congruence|]. rewrite a3 in b3. auto.
  - cbn [look]. destruct (Z.eqb_spec 12 id) as [e|hne]; [rewrite look_none in b13 by congruence|]; [congruence|]. rewrite a13 in b13. auto.
  - cbn [look]. destruct (Z.eqb_spec 32 id) as [e|hne]; [rewrite look_none in b17 by congruence; rewrite b17; exact a17|]. rewrite a17 in b17. auto.
  - unfold unkn. cbn [filter fst]. fold (unkn l). rewrite b18, a18. destruct (tp_unknown t0) as [[c ps]|]; destruct (knownb id); cbn [negb]; auto.
    cbn [unknown_push keep]. destruct (zlen val + 8 <? c); auto.
    destruct (keep (c - (zlen val + 8)) (unkn l)) as [c' k]. rewrite <- app_assoc. reflexivity.
Qed.

Lemma says_nil t : says_from [] t t.
Proof. unfold says_from, int_field, opt_field. cbn [look unkn filter keep]. ands; auto. destruct (tp_unknown t) as [[c ps]|]; auto. rewrite app_nil_r. reflexivity. Qed.

(** ** The loop *)

Lemma decode_loop_sound srv fuel : forall b seen t t', bytes_ok b -> decode_loop fuel srv b seen t = Ok t' ->
  exists l, params_wire b l /\ NoDup (map fst l) /\ (forall i, In i (map fst l) -> ~ In i seen) /\ Forall (param_ok srv) l /\ says_from l t t'.
Proof.
  induction fuel as [|fuel IH]; intros b seen t t' hb h; cbn [decode_loop] in h; [discriminate|].
  destruct b as [|x b0]; [injection h as <-; exists []; ands; auto; [constructor|constructor|apply says_nil]|].
  destruct (get_v (x :: b0)) as [[id b]| |] eqn:E1; cbn [bind] in h; try discriminate.
  destruct (get_v_ok _ _ _ hb E1) as (li & e1 & q1 & hb1).
  destruct (existsb (Z.eqb id) seen) eqn:E2; [discriminate|].
  destruct (get_lv_bind _ _ _ hb1 h) as (lv & val & b2 & e2 & w & hb2 & h'). clear h.
  assert (hv : bytes_ok val).
  { destruct w as (ln & q & e). subst lv b. apply bytes_ok_app in hb1 as (hb1 & _). apply bytes_ok_app in hb1. tauto. }
  cbn beta iota in h'. pose proof (apply_param_spec srv id val t hv) as hs. destruct (apply_param srv id val t) as [t1| |]; cbn [bind] in h'; try discriminate.
  destruct hs as (hp & hs). destruct (IH _ _ _ _ hb2 h') as (l & w1 & w2 & w3 & w4 & w5).
  assert (hn : ~ In id (map fst l)).
  { intros hi. apply (w3 id hi). left. reflexivity. }
  exists ((id, val) :: l). ands.
  - rewrite e1, e2. constructor; auto.
  - cbn [map fst]. constructor; auto.
  - cbn [map fst]. intros i [<-|hi] hin.
    + assert (existsb (Z.eqb id) seen = true) by (apply existsb_exists; exists id; split; auto; apply Z.eqb_refl). congruence.
    + apply (w3 i hi). right. auto.
  - constructor; auto.
  - eapply says_cons; eauto.
Qed.

Lemma decode_loop_complete srv l : forall fuel b seen t, bytes_ok b -> params_wire b l -> NoDup (map fst l) ->
  (forall i, In i (map fst l) -> ~ In i seen) -> Forall (param_ok srv) l -> zlen b < Z.of_nat fuel ->
  exists t', decode_loop fuel srv b seen t = Ok t'.
Proof.
  induction l as [|[id val] l IH]; intros fuel b seen t hb w hd hs hp hf; inversion w as [|li id0 lv val0 b0 l0 q1 q2 q3]; subst.
  - destruct fuel; [change (zlen (@nil Z)) with 0 in hf; lia|]. cbn [decode_loop]. eauto.
  - destruct fuel as [|fuel]; [pose proof (zlen_nonneg (li ++ lv ++ b0)); lia|].
    cbn [decode_loop]. destruct (li ++ lv ++ b0) as [|x bb] eqn:Eb.
    { apply qvarint_len in q1 as (q & _). apply (f_equal zlen) in Eb. rewrite zlen_app in Eb. change (zlen (@nil Z)) with 0 in Eb.
      pose proof (zlen_nonneg (lv ++ b0)). lia. }
    rewrite <- Eb in *. clear Eb x bb. rewrite (get_v_app _ _ _ q1). cbn [bind].
    assert (existsb (Z.eqb id) seen = false) as ->.
    { match goal with |- ?e = _ => destruct e eqn:E; auto end. apply existsb_exists in E as (x & hx & e). apply Z.eqb_eq in e. subst x.
      exfalso. apply (hs id); [left; auto|auto]. }
    rewrite (get_lv_app _ _ _ q2). cbn [bind].
    apply bytes_ok_app in hb as (_ & hb). apply bytes_ok_app in hb as (hlv & hb).
    assert (hv : bytes_ok val). { destruct q2 as (ln & _ & ->). apply bytes_ok_app in hlv. tauto. }
    inversion hp as [|? ? hp1 hp2]; subst. cbn [map fst] in hd. inversion hd as [|? ? hd1 hd2]; subst.
    pose proof (apply_param_spec srv id val t hv) as ha. destruct (apply_param srv id val t) as [t1| |]; cbn [step_ok bind] in *; [|contradiction..].
    apply IH; auto.
    + intros i hi [<-|hin]; [contradiction|]. apply (hs i); auto. right. auto.
    + rewrite !zlen_app in hf. apply qvarint_len in q1 as (q & _). pose proof (zlen_nonneg lv). lia.
Qed.

Definition tp_init (track : option Z) := match track with Some n => set_unknown (Some (n, [])) tp_default | None => tp_default end.

Lemma says_init l track t : says_from l (tp_init track) t <-> says l track t.
Proof.
  unfold says_from, says, opt_field. fold (unkn l).
  assert (ho : forall i x, (match look i l with None => x = None | Some v => x = Some v end) <-> x = look i l).
  { intros i x. destruct (look i l); tauto. }
  destruct track as [n|]; unfold tp_init, tp_default; fields; rewrite !ho.
  - destruct (keep n (unkn l)) as [c k]. cbn [app]. tauto.
  - tauto.
Qed.

Lemma int_field_fun l i d x y : int_field l i d x -> int_field l i d y -> x = y.
Proof. unfold int_field. destruct (look i l); [apply val_is_fun|congruence]. Qed.

Lemma tp_ext t t' : tp_odcid t = tp_odcid t' -> tp_idle t = tp_idle t' -> tp_token t = tp_token t' -> tp_udp t = tp_udp t' -> tp_data t = tp_data t' -> tp_bidi_local t = tp_bidi_local t' -> tp_bidi_remote t = tp_bidi_remote t' -> tp_uni t = tp_uni t' -> tp_streams_bidi t = tp_streams_bidi t' -> tp_streams_uni t = tp_streams_uni t' -> tp_ade t = tp_ade t' -> tp_mad t = tp_mad t' -> tp_dam t = tp_dam t' -> tp_acil t = tp_acil t' -> tp_iscid t = tp_iscid t' -> tp_rscid t = tp_rscid t' -> tp_dgram t = tp_dgram t' -> tp_unknown t = tp_unknown t' -> t = t'.
Proof. destruct t, t'. fields. intros. subst. reflexivity. Qed.

Lemma says_fun l track t t' : says l track t -> says l track t' -> t = t'.
Proof.
  intros (a1 & a2 & a3 & a4 & a5 & a6 & a7 & a8 & a9 & a10 & a11 & a12 & a13 & a14 & a15 & a16 & a17 & a18)
   (b1 & b2 & b3 & b4 & b5 & b6 & b7 & b8 & b9 & b10 & b11 & b12 & b13 & b14 & b15 & b16 & b17 & b18).
  apply tp_ext.
  - rewrite a1, b1; reflexivity.
  - exact (int_field_fun _ _ _ _ _ a2 b2).
  - destruct (look 2 l); rewrite a3, b3; reflexivity.
  - exact (int_field_fun _ _ _ _ _ a4 b4).
  - exact (int_field_fun _ _ _ _ _ a5 b5).
  - exact (int_field_fun _ _ _ _ _ a6 b6).
  - exact (int_field_fun _ _ _ _ _ a7 b7).
  - exact (int_field_fun _ _ _ _ _ a8 b8).
  - exact (int_field_fun _ _ _ _ _ a9 b9).
  - exact (int_field_fun _ _ _ _ _ a10 b10).
  - exact (int_field_fun _ _ _ _ _ a11 b11).
  - exact (int_field_fun _ _ _ _ _ a12 b12).
  - rewrite a13, b13; reflexivity.
  - exact (int_field_fun _ _ _ _ _ a14 b14).
  - rewrite a15, b15; reflexivity.
  - rewrite a16, b16; reflexivity.
  - destruct (look 32 l) as [v|]; [|rewrite a17, b17; reflexivity]. destruct a17 as (x & e1 & hx), b17 as (y & e2 & hy). rewrite e1, e2. f_equal. eapply val_is_fun; eauto.
  - rewrite a18, b18; reflexivity.
Qed.

Lemma qvarint_ne l v r : qvarint l v -> l ++ r = [] -> False.
Proof.
  intros q e. apply qvarint_len in q as (q & _). apply (f_equal zlen) in e. rewrite zlen_app in e. change (zlen (@nil Z)) with 0 in e.
  pose proof (zlen_nonneg r). lia.
Qed.

Lemma params_wire_fun b l l' : params_wire b l -> params_wire b l' -> l = l'.
Proof.
  intros h. revert l'. induction h as [|li id lv val b l q1 q2 q3 IH]; intros l' w.
  - remember [] as z eqn:ez. destruct w as [|li' id' lv' val' b' l0 p1 p2 p3]; auto. exfalso. eapply qvarint_ne; eauto.
  - remember (li ++ lv ++ b) as z eqn:ez. destruct w as [|li' id' lv' val' b' l0 p1 p2 p3]; [exfalso; eapply qvarint_ne; eauto|].
    pose proof (get_v_app _ _ (lv ++ b) q1) as g1. rewrite <- ez in g1. rewrite (get_v_app _ _ (lv' ++ b') p1) in g1. injection g1 as -> g1.
    pose proof (get_lv_app _ _ b q2) as g2. rewrite <- g1 in g2. rewrite (get_lv_app _ _ b' p2) in g2. injection g2 as -> ->. f_equal. auto.
Qed.

Lemma tp_decode_iff b srv track t : bytes_ok b ->
  (tp_decode b srv track = Ok t <-> exists l, params_wire b l /\ NoDup (map fst l) /\ Forall (param_ok srv) l /\ says l track t).
Proof.
  intros hb. unfold tp_decode. fold (tp_init track). split.
  - intros h. apply decode_loop_sound in h as (l & h1 & h2 & _ & h3 & h4); auto. exists l. ands; auto. apply says_init. auto.
  - intros (l & h1 & h2 & h3 & h4).
    destruct (decode_loop_complete srv l (S (length b)) b [] (tp_init track) hb h1 h2 ltac:(auto) h3 ltac:(unfold zlen; lia)) as (t' & e).
    rewrite e. apply decode_loop_sound in e as (l' & w1 & w2 & _ & w3 & w4); auto. apply says_init in w4.
    f_equal.
    assert (l' = l) as ->; [|eapply says_fun; eauto].
    eapply params_wire_fun; eauto.
Qed.

Lemma decode_loop_np srv fuel : forall b seen t, bytes_ok b -> zlen b < Z.of_nat fuel -> decode_loop fuel srv b seen t <> Panic.
Proof.
  induction fuel as [|fuel IH]; intros b seen t hb hf; [pose proof (zlen_nonneg b); lia|]. cbn [decode_loop].
  destruct b as [|x b0]; [discriminate|].
  destruct (get_v (x :: b0)) as [[id b]| |] eqn:E1; cbn [bind]; [|discriminate|exfalso; eapply get_v_np; eauto].
  destruct (get_v_ok _ _ _ hb E1) as (li & e1 & q1 & hb1). destruct (existsb (Z.eqb id) seen); [discriminate|].
  destruct (get_lv b) as [[val b2]| |] eqn:E2; cbn [bind]; [|discriminate|exfalso; eapply get_lv_np; eauto].
  destruct (get_lv_bind b (fun x => Ok x) (val, b2) hb1 ltac:(rewrite E2; reflexivity)) as (lv & val' & b2' & e2 & w & hb2 & h').
  injection h' as -> ->.
  assert (hv : bytes_ok val). { destruct w as (ln & _ & e). subst lv b. apply bytes_ok_app in hb1 as (hb1 & _). apply bytes_ok_app in hb1. tauto. }
  pose proof (apply_param_spec srv id val t hv) as ha. destruct (apply_param srv id val t) as [t1| |]; cbn [step_ok bind] in *; [|discriminate|contradiction].
  apply IH; auto. rewrite e1, e2, !zlen_app in hf. apply qvarint_len in q1 as (q & _). pose proof (zlen_nonneg lv). lia.
Qed.

Lemma tp_decode_np b srv track : bytes_ok b -> tp_decode b srv track <> Panic.
Proof. intros hb. apply decode_loop_np; auto. unfold zlen. lia. Qed.
