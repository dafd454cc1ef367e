(** Stream limits of both sides, and streams that are over. *)
Require Import Verif.Base Verif.Errors Verif.Assoc Verif.OctetsModel Verif.FlowControlModel Verif.RangeBufModel
  Verif.RangeBufProofs Verif.RecvBufModel Verif.RecvBufProofs Verif.RecvBufProofs2 Verif.RecvSpec Verif.RecvBufProofs3
  Verif.SendBufModel Verif.StreamsModel Verif.StreamsSpec Verif.StreamsProofs
  Verif.StreamsEffects Verif.StreamsShape Verif.StreamsShape2 Verif.StreamsRecv.

Lemma reserve_err len fin s e : sb_reserve len fin s = Err e -> e = FinalSize \/ exists c, e = StreamStopped c.
Proof.
  unfold sb_reserve, sb_cap. destruct (sb_error s) as [c|]; cbn [bind]; [intros h; injection h as <-; eauto|].
  destr_if; [discriminate|]. cbn [bind].
  destruct (_ <? len); repeat (destr_if; try (intros h; injection h as <-; auto; fail)); try discriminate.
Qed.
Lemma append_err chunk reserved fin s e : sb_append chunk reserved fin s = Err e -> e = BufferTooShort.
Proof. unfold sb_append. cbv zeta. destr_if; [|discriminate]. congruence. Qed.
Lemma append_all_err cs : forall reserved fin s e, append_all cs reserved fin s = Err e -> e = BufferTooShort.
Proof.
  induction cs as [|x cs IH]; intros reserved fin s e; cbn; [discriminate|].
  destruct (sb_append x reserved fin s) as [[r s']|e'|] eqn:E; cbn [bind]; [apply IH| |discriminate].
  apply append_err in E. congruence.
Qed.
Lemma write_err (zc : bool) data cap fin s e :
  (if zc then sb_write_zc data cap fin s else sb_write (take cap data) fin s) = Err e ->
  e = FinalSize \/ e = BufferTooShort \/ exists c, e = StreamStopped c.
Proof.
  destruct zc; unfold sb_write_zc, sb_write;
    match goal with |- context [sb_reserve ?a ?b ?c] => destruct (sb_reserve a b c) as [[[r f] s']|e'|] eqn:E end; cbn [bind];
    try discriminate; try (intros h; injection h as <-; apply reserve_err in E as [->|(x & ->)]; eauto; fail).
  - destr_if; [discriminate|]. destruct (sb_append (take r data) r f s') as [[r2 s2]|e2|] eqn:E3; cbn [bind]; [|
      intros h; injection h as <-; apply append_err in E3; auto|discriminate]. destr_if; discriminate.
  - destr_if; [discriminate|].
    match goal with |- context [append_all ?a ?b ?c ?d] => destruct (append_all a b c d) as [[r2 s2]|e2|] eqn:E3 end; cbn [bind]; [|
      intros h; injection h as <-; apply append_all_err in E3; auto|discriminate]. destr_if; discriminate.
Qed.

Section P.
Variable P : params.

Lemma goc_unopened sid local c : ent sid c = None -> local = is_local sid (p_server P) ->
  (within P sid (kind sid c) -> cn_get_or_create P sid local c = Ok (fresh P sid, create P sid c)) /\
  (~ within P sid (kind sid c) -> cn_get_or_create P sid local c = Err StreamLimit).
Proof.
  intros he hl. destruct (cn_get_or_create P sid local c) as [[s c1]|e|] eqn:E.
  - apply goc_ok in E as [(h & _)|(_ & _ & hw & -> & ->)]; [congruence|]. split; [auto|tauto].
  - apply goc_err in E as [(_ & s & h)|[(_ & _ & h)|(-> & _ & _ & hw)]]; [congruence|tauto|]. split; [tauto|auto].
  - apply goc_panic in E as [].
Qed.

Lemma goc_over sid local c s : ent sid c = Some (s, true) -> cn_get_or_create P sid local c = Err Done.
Proof. unfold cn_get_or_create, ent. intros ->. auto. Qed.

Variables (i : start) (ops : list cn_op) (outs : list cn_out) (c : conn).
Hypothesis H : history P i ops outs c.

Let adv b := advertised b i outs.
Let gr b := granted b i ops.
Lemma shp : Shape P i adv gr c.
Proof. apply shape_history. exact H. Qed.

Lemma within_peer sid : 0 <= sid -> own P sid = false -> (within P sid (kind sid c) <-> seqno sid < adv (bidirectional sid)).
Proof.
  intros h0 ho. unfold within. rewrite local_own, ho, seq_spec, lim_kind, bidi_spec by auto.
  pose proof (sh_po _ _ _ _ _ shp (bidirectional sid)). rewrite (sh_adv _ _ _ _ _ shp) in *. lia.
Qed.
Lemma within_own sid : 0 <= sid -> own P sid = true -> (within P sid (kind sid c) <-> seqno sid < gr (bidirectional sid)).
Proof.
  intros h0 ho. unfold within. rewrite local_own, ho, seq_spec, lim_kind, bidi_spec by auto.
  pose proof (sh_lo _ _ _ _ _ shp (bidirectional sid)). rewrite (sh_gr _ _ _ _ _ shp) in *. lia.
Qed.

Lemma rx_room : (fc_max_data (c_fc c) <? c_rx c) = false.
Proof. pose proof (rx_max _ _ _ _ _ _ (rx_hist _ _ _ _ _ H)). lia. Qed.

Lemma fresh_send sid : exists m, st_send (fresh P sid) = sb_new m.
Proof. unfold fresh. destruct (new_limits P _ _) as [rx tx]. exists tx. reflexivity. Qed.

Lemma live_ent sid c' s : ent sid c' = Some (s, false) -> live sid c'.
Proof. intros h. exists s. apply get_ent. auto. Qed.

Lemma peer_open op sid : op_ok op -> frame_on P op sid -> own P sid = false -> unopened sid c ->
  (adv (bidirectional sid) <= seqno sid -> cn_step P op c = Err StreamLimit) /\
  (seqno sid < adv (bidirectional sid) ->
     match cn_step P op c with
     | Ok (o, c') => o = CoOk /\ live sid c'
     | Err e => e = FlowControlE
     | Panic => False
     end).
Proof.
  intros hop hf ho hu. apply unopened_ent in hu.
  assert (h0 : 0 <= sid) by (destruct op; cbn in hf, hop; try tauto; destruct hf as (-> & _); tauto).
  assert (hl : is_local sid (p_server P) = false) by (rewrite local_own; auto).
  destruct (goc_unopened sid false c hu (eq_sym hl)) as (g1 & g2).
  pose proof (within_peer sid h0 ho) as hw. pose proof rx_room as hr. pose proof (rx_hist _ _ _ _ _ H) as hrx.
  assert (g3 : adv (bidirectional sid) <= seqno sid -> cn_get_or_create P sid false c = Err StreamLimit).
  { intros q. apply g2. rewrite hw. lia. }
  assert (g4 : seqno sid < adv (bidirectional sid) -> cn_get_or_create P sid false c = Ok (fresh P sid, create P sid c)).
  { intros q. apply g1. apply hw. auto. }
  destruct (fresh_recv P (proj1 H) sid) as (fr1 & fr2 & fr3).
  assert (fr4 : rv_fin_off (st_recv (fresh P sid)) = None) by (unfold fresh; destruct (new_limits P _ _); reflexivity).
  destruct op; cbn [frame_on] in hf; try contradiction; destruct hf as (-> & hd); cbn [cn_step op_ok] in *.
  - unfold cn_stream. rewrite hl, andb_false_r, hr. cbv zeta. split; intros q; [rewrite g3 by auto; auto|].
    rewrite g4 by auto. destr_if; [reflexivity|].
    pose proof (rv_write_spec data off fin _ fr1 (proj1 (proj2 hop))) as E'. cbv zeta in E'.
    destruct (rv_write (rb_from data off fin) (st_recv (fresh P sid))) as [r|e|] eqn:Ew; cbn [bind];
      [|destruct E' as [(-> & _)|(_ & _ & [(f & q' & _)|(_ & q')])]; [auto|congruence|pose proof (zlen_nonneg data); lia]|contradiction].
    split; auto. apply live_ent with (s := set_recv r (fresh P sid)).
    rewrite if_rq, if_fc. unfold ent. cn. apply aget_aset_same.
  - unfold cn_reset. rewrite hl, andb_false_r, hr. cbv zeta. split; intros q; [rewrite g3 by auto; auto|].
    rewrite g4 by auto.
    pose proof (rv_reset_spec code final _ fr1 (proj1 (proj2 (proj2 hop)))) as E'.
    destruct (rv_reset code final (st_recv (fresh P sid))) as [[[dd cc]|e|] r] eqn:Ew;
      [|destruct E' as [(_ & [(f & q' & _)|q'])|(-> & _)]; [congruence|lia|auto]|contradiction].
    destr_if; [reflexivity|]. split; auto. apply live_ent with (s := set_recv r (fresh P sid)).
    rewrite if_rq. unfold ent. cn. apply aget_aset_same.
  - destruct hd as [hd|hd]; [|congruence]. unfold cn_stop. rewrite <- (bidi_spec sid) in hd by auto. rewrite hd, hl. cbn [negb andb].
    split; intros q; [rewrite g3 by auto; auto|]. rewrite g4 by auto. cbv zeta.
    destruct (fresh_send sid) as (m & hm). rewrite hm.
    destruct (sb_stop code (sb_new m)) as [[[a b] d]|e|] eqn:Es; [| |discriminate].
    + split; auto. apply live_ent with (s := set_send d (fresh P sid)). rewrite if_wq. unfold ent. cn. apply aget_aset_same.
    + split; auto. apply live_ent with (s := fresh P sid). apply ent_create_same.
  - destruct hd as [hd|hd]; [|congruence]. unfold cn_max_stream_data. rewrite <- (bidi_spec sid) in hd by auto. rewrite hd, hl. cbn [negb andb].
    split; intros q; [rewrite g3 by auto; auto|]. rewrite g4 by auto. cbv zeta. split; auto.
    eapply live_ent. rewrite if_fq, if_wq. unfold ent. cn. apply aget_aset_same.
Qed.

Lemma peer_limit_grows b fits m c' : cn_step P (CnSendMaxStreams b fits) c = Ok (CoMaxStreams b m, c') -> adv b <= m.
Proof.
  intros h. destruct (shape_step P i adv gr (CnSendMaxStreams b fits) _ c c' (proj1 (proj2 H)) I h shp) as (_ & q).
  specialize (q b). unfold adv' in q. rewrite Bool.eqb_reflx in q. auto.
Qed.

Lemma seqno_nonneg x : 0 <= x -> 0 <= seqno x.
Proof. intros. unfold seqno. apply Z.div_pos; lia. Qed.

Lemma pigeon (l : list Z) n : NoDup l -> (forall x, In x l -> 0 <= x < n) -> 0 <= n -> zlen l <= n.
Proof.
  intros hn hb h0. assert (hi : incl (map Z.to_nat l) (seq 0 (Z.to_nat n))).
  { intros k hk. apply in_map_iff in hk as (x & <- & hx). apply in_seq. specialize (hb x hx). lia. }
  apply NoDup_incl_length in hi.
  - rewrite map_length, seq_length in hi. unfold zlen. lia.
  - clear hi. induction l as [|x l IH]; cbn; [constructor|]. inversion hn as [|? ? h1 h2]; subst.
    constructor.
    + rewrite in_map_iff. intros (y & q1 & q2). apply h1. replace x with y; auto.
      pose proof (hb y (or_intror q2)). pose proof (hb x (or_introl eq_refl)). lia.
    + apply IH; auto. intros y hy. apply hb. right. auto.
Qed.

Lemma nodup_map_inj {A B} (f : A -> B) l : (forall x y, In x l -> In y l -> f x = f y -> x = y) -> NoDup l -> NoDup (map f l).
Proof.
  induction l as [|x l IH]; intros hi hn; cbn; [constructor|]. inversion hn as [|? ? h1 h2]; subst. constructor.
  - rewrite in_map_iff. intros (y & q1 & q2). apply h1. rewrite (hi x y); auto; [left|right]; auto.
  - apply IH; auto. intros a b ha hb. apply hi; right; auto.
Qed.

Lemma NoDup_app_iff' {A} (a b : list A) : NoDup a -> NoDup b -> (forall x, In x a -> ~ In x b) -> NoDup (a ++ b).
Proof.
  induction a as [|x a IH]; cbn; auto. intros h1 h2 h3. inversion h1 as [|? ? q1 q2]; subst. constructor.
  - rewrite in_app_iff. intros [q|q]; [auto|]. apply (h3 x); auto.
  - apply IH; auto.
Qed.

Definition overs b := filter (fun x => peers P b x && is_over x c) (keys c).
Lemma overs_spec b : closed_peer_streams P b c (overs b).
Proof.
  split; [apply NoDup_filter, (sh_nodup _ _ _ _ _ shp)|]. intros x. unfold overs. rewrite filter_In, andb_true_iff, sk_over.
  unfold peers. rewrite andb_true_iff, negb_true_iff. split.
  - intros (_ & (h1 & h2) & h3). apply Bool.eqb_prop in h2. auto.
  - intros (h1 & h2 & h3). ands; auto; [|rewrite h3; apply Bool.eqb_reflx]. apply known_keys.
    apply known_cases. right. apply sk_over. auto.
Qed.

Lemma peer_count b l : NoDup l -> (forall x, In x l -> live x c /\ own P x = false /\ bidirectional x = b) ->
  zlen l <= first_local b i.
Proof.
  intros hn hl. destruct (overs_spec b) as (on & oi).
  assert (hp : forall x, In x (l ++ overs b) -> known x c /\ peers P b x = true).
  { intros x hx. unfold peers. apply in_app_iff in hx as [hx|hx].
    - destruct (hl x hx) as (h1 & h2 & h3). rewrite h2, h3, Bool.eqb_reflx. split; auto. apply known_cases. auto.
    - apply oi in hx as (h1 & h2 & h3). rewrite h2, h3, Bool.eqb_reflx. split; auto. apply known_cases. auto. }
  assert (hm : zlen (map seqno (l ++ overs b)) <= l_peer_opened (lim_of b c)).
  { apply pigeon.
    - apply nodup_map_inj.
      + intros x y hx hy he. destruct (hp x hx) as (k1 & p1). destruct (hp y hy) as (k2 & p2).
        unfold peers in p1, p2. apply andb_true_iff in p1 as (p1 & p1'). apply andb_true_iff in p2 as (p2 & p2').
        apply Bool.eqb_prop in p1'. apply Bool.eqb_prop in p2'. apply negb_true_iff in p1. apply negb_true_iff in p2.
        eapply sid_inj; eauto; try congruence; eapply (sh_pos _ _ _ _ _ shp); auto.
      + apply NoDup_app_iff'; auto. intros x h1 h2. apply oi in h2 as (h2 & _). destruct (hl x h1) as (h3 & _).
        eapply live_not_over; eauto.
    - intros x hx. apply in_map_iff in hx as (y & <- & hy). destruct (hp y hy) as (k & q).
      pose proof (sh_peer _ _ _ _ _ shp b y k q). pose proof (sh_pos _ _ _ _ _ shp y k). pose proof (seqno_nonneg y). lia.
    - apply (sh_pz _ _ _ _ _ shp). }
  unfold zlen in hm. rewrite map_length, app_length in hm. fold (zlen l) in hm.
  pose proof (sh_po _ _ _ _ _ shp b). pose proof (sh_le _ _ _ _ _ shp b). pose proof (sh_next _ _ _ _ _ shp b) as hnx.
  unfold n_over in hnx. fold (overs b) in hnx. unfold zlen in *. lia.
Qed.

Lemma peer_credit b fits m c' : cn_step P (CnSendMaxStreams b fits) c = Ok (CoMaxStreams b m, c') ->
  exists l, closed_peer_streams P b c l /\ m = Z.min u64_max (first_local b i + zlen l).
Proof.
  cbn [cn_step]. unfold cn_send_max_streams. cbv zeta. intros h. dif h; [|discriminate]. injection h as <- _.
  exists (overs b). split; [apply overs_spec|]. apply (sh_next _ _ _ _ _ shp b).
Qed.

Lemma peer_credit_due b l x : closed_peer_streams P b c l -> adv b < Z.min u64_max (first_local b i + zlen l) ->
  (live x c \/ over x c) -> own P x = false -> bidirectional x = b ->
  adv b - (seqno x + 1) <= first_local b i / 2 ->
  exists c', cn_step P (CnSendMaxStreams b true) c = Ok (CoMaxStreams b (Z.min u64_max (first_local b i + zlen l)), c').
Proof.
  intros (ln & li) ha hx h1 h2 h3. destruct (overs_spec b) as (on & oi).
  assert (hz : zlen (overs b) = zlen l).
  { unfold zlen. f_equal. apply Nat.le_antisymm; apply NoDup_incl_length; auto; intros y hy; [apply li, oi|apply oi, li]; auto. }
  pose proof (sh_next _ _ _ _ _ shp b) as hnx. unfold n_over in hnx. fold (overs b) in hnx. rewrite hz in hnx.
  apply known_cases in hx.
  assert (hp : peers P b x = true) by (unfold peers; rewrite h1, h2, Bool.eqb_reflx; auto).
  pose proof (sh_peer _ _ _ _ _ shp b x hx hp) as hsp. pose proof (sh_adv _ _ _ _ _ shp b) as had.
  pose proof (sh_init _ _ _ _ _ shp b) as hin.
  cbn [cn_step]. unfold cn_send_max_streams. cbv zeta. fold (lim_of b c).
  assert (hs : should_update (lim_of b c) = true).
  { unfold should_update. rewrite hnx, had, hin. apply andb_true_iff. split; [lia|]. unfold sat_sub.
    assert (0 <= first_local b i / 2). { apply Z.div_pos; [|lia]. destruct (proj1 (proj2 H)) as (_ & _ & _ & _ & q1 & q2 & _). unfold first_local. destruct b; lia. }
    lia. }
  rewrite hs. cbn [orb andb]. rewrite hnx. eauto.
Qed.

(** ** This side's streams *)
Lemma own_open op sid o c' : op_ok op -> call_opens op sid -> own P sid = true -> unopened sid c ->
  cn_step P op c = Ok (o, c') ->
  (gr (bidirectional sid) <= seqno sid -> o = CoErr StreamLimit /\ unchanged_streams c c') /\
  (seqno sid < gr (bidirectional sid) -> o <> CoErr StreamLimit /\ live sid c').
Proof.
  intros hop hc ho hu h. apply unopened_ent in hu.
  assert (h0 : 0 <= sid) by (destruct op; cbn in hc, hop; try tauto; subst; tauto).
  assert (hl : is_local sid (p_server P) = true) by (rewrite local_own; auto).
  destruct (goc_unopened sid true c hu (eq_sym hl)) as (g1 & g2).
  pose proof (within_own sid h0 ho) as hw.
  destruct op; cbn [call_opens] in hc; try contradiction; subst; cbn [cn_step op_ok] in *.
  - apply send_ok in h as [(_ & _ & _ & q)|(_ & _ & h)]; [congruence|]. cbv zeta in h.
    match type of h with context [set_c_blk ?b c] => set (c0 := set_c_blk b c) in h end.
    destruct h as [(-> & _ & _ & hn & ->)|[(_ & _ & s & q)|[(_ & _ & _ & q)|h]]]; try congruence.
    + split; [|intros q; destruct hn; apply hw; auto]. intros _. split; auto.
      unfold c0. destruct (p_blocked P); [unfold set_kind; destruct (is_bidi sid)|]; split; reflexivity.
    + destruct h as (s & c1 & hg & h).
      assert (hf : within P sid (kind sid c) /\ s = fresh P sid).
      { destruct hg as [q|_ _ q1 q2]; [unfold ent in hu, q; cbn in q; congruence|]. split; auto. }
      destruct hf as (hf & ->). apply hw in hf. split; [lia|]. intros _.
      pose proof (gocs_ent _ _ _ _ _ _ hg) as he.
      destruct (fresh_send sid) as (m & hm). rewrite hm in h.
      destruct h as [(e & q & _)|[(n & _ & _ & _ & -> & ->)|(n & _ & _ & [(e & q & -> & ->)|h])]].
      * unfold sb_cap in q. cbn in q. dif q; discriminate.
      * split; [discriminate|]. eapply live_ent. exact he.
      * split; [|eapply live_ent; exact he]. intros q'. injection q' as ->.
        apply write_err in q as [q|[q|(x & q)]]; discriminate.
      * destruct h as (n' & b & _ & _ & -> & bl & bs & _ & ->). split; [destr_if; discriminate|].
        eapply live_ent. unfold ent. cn. apply aget_aset_same.
  - apply priority_ok in h as [(-> & e & he & h)|(s & c1 & hg & -> & h)].
    + assert (hn : ~ within P sid (kind sid c)) by (intros q; rewrite (g1 q) in he; discriminate).
      rewrite (g2 hn) in he. injection he as <-. destruct h as [->|(q & _)]; [|discriminate].
      split; [|intros q; destruct hn; apply hw; auto]. intros _. split; auto. split; auto.
    + assert (hf : within P sid (kind sid c)) by (destruct hg as [q|_ _ q _]; [congruence|auto]).
      apply hw in hf. split; [lia|]. intros _. split; [discriminate|]. pose proof (gocs_ent _ _ _ _ _ _ hg) as he.
      destruct h as [(-> & _)| ->]; eapply live_ent; [exact he|]. unfold ent. cn. apply aget_aset_same.
Qed.

Lemma own_left b : exists n, q_streams_left b c = Some (gr b - n) /\ used_up_to P b c n /\ 0 <= n <= gr b.
Proof.
  exists (l_local_opened (lim_of b c)). pose proof (sh_lo _ _ _ _ _ shp b) as h1. pose proof (sh_lz _ _ _ _ _ shp b) as h2.
  rewrite (sh_gr _ _ _ _ _ shp) in h1. ands; auto.
  - unfold q_streams_left. cbv zeta. fold (lim_of b c). rewrite (sh_gr _ _ _ _ _ shp). destr_if; [lia|]. auto.
  - unfold used_up_to. cbv zeta. split.
    + intros x (hk & ho & hb). apply known_cases in hk.
      pose proof (sh_ours _ _ _ _ _ shp b x hk). unfold ours in *. rewrite ho, hb, Bool.eqb_reflx in *.
      specialize (H0 eq_refl). lia.
    + destruct (sh_ours_max _ _ _ _ _ shp b) as [q|(x & k & o & q)]; auto. right. exists x.
      unfold ours in o. apply andb_true_iff in o as (o1 & o2). apply Bool.eqb_prop in o2. apply known_cases in k. ands; auto. lia.
Qed.

(** ** Streams that are over *)
Lemma over_step x op o c0 c' : op_ok op -> named c0 -> cn_step P op c0 = Ok (o, c') -> over x c0 -> over x c'.
Proof.
  intros hop hn h hov. apply (step_shaped P) in h as (c1 & c2 & h1 & h2 & (h3 & _)); auto.
  apply sk_over. apply sk_over in hov.
  assert (hs : forall a b, same a b -> is_over x a = true -> is_over x b = true).
  { intros a b hab q. rewrite (same_over _ _ _ hab). auto. }
  apply (hs c2); auto.
  assert (q1 : is_over x c1 = true).
  { destruct h1 as [(h1 & _)|(sid & _ & (he & _ & _ & hk & ho & _))]; [eapply hs; eauto|].
    destruct (Z.eq_dec x sid) as [->|n]; [|unfold is_over; rewrite ho; auto].
    unfold is_over, sk in hov. rewrite he in hov. discriminate. }
  destruct h2 as [(h2 & _)|(sid & b & l & k & s1 & s2 & _ & ho & _)]; [eapply hs; eauto|].
  destruct (Z.eq_dec x sid) as [->|n]; [unfold is_over; rewrite s2; auto|unfold is_over; rewrite ho; auto].
Qed.

Lemma over_frame op sid : op_ok op -> frame_on P op sid -> over sid c -> cn_step P op c = Ok (CoIgnored, c).
Proof.
  intros hop hf hov. unfold over in hov. apply collected_ent in hov as (s & he). pose proof rx_room as hr.
  assert (h0 : 0 <= sid) by (destruct op; cbn in hf, hop; try tauto; destruct hf as (-> & _); tauto).
  destruct op; cbn [frame_on] in hf; try contradiction; destruct hf as (-> & hd); cbn [cn_step op_ok] in *;
    unfold cn_stream, cn_reset, cn_stop, cn_max_stream_data; rewrite <- (local_own P sid), <- (bidi_spec sid) in hd by auto; rewrite ?hr, (goc_over sid false c s he);
    destruct hd as [-> | ->]; cbn [negb andb]; try reflexivity; rewrite ?andb_false_r; reflexivity.
Qed.

Lemma over_call op sid o c' : op_ok op -> over sid c -> cn_step P op c = Ok (o, c') ->
  match op with
  | CnRecv x _ | CnCapacity x | CnWritable x _ => x = sid -> o = CoErr (InvalidStreamState sid) /\ c' = c
  | CnSend _ x _ _ => x = sid -> (o = CoErr Done \/ o = CoErr (InvalidStreamState sid)) /\ unchanged_streams c c'
  | CnShutdown x _ _ _ => x = sid -> (o = CoErr Done \/ o = CoErr (InvalidStreamState sid)) /\ c' = c
  | CnPriority x _ _ => x = sid -> o = CoOk /\ c' = c
  | CnSendStream _ => forall f, o <> CoSent (Some (SfStream sid f))
  | CnSendMaxStreamData x _ _ _ => forall m, o <> CoMaxStreamData sid m
  | CnWritableNext => o <> CoNext (Some sid)
  | _ => True
  end.
Proof.
  intros hop hov h. unfold over in hov. apply collected_ent in hov as (s & he).
  assert (hg : cn_get sid c = None) by (unfold cn_get, ent in *; rewrite he; auto).
  destruct op; auto; cbn [cn_step] in h.
  - intros ->. unfold cn_recv in h. dif h; [injection h as <- <-; auto|]. rewrite hg in h. injection h as <- <-. auto.
  - intros ->. apply send_ok in h as [(-> & -> & _)|(_ & _ & h)]; [split; auto; split; auto|]. cbv zeta in h.
    match type of h with context [set_c_blk ?b c] => set (c0 := set_c_blk b c) in h end.
    destruct h as [(_ & q & _)|[(-> & -> & _)|[(_ & _ & q & _)|h]]]; try congruence.
    + split; auto. split; reflexivity.
    + destruct h as (s0 & c1 & hgo & _). destruct hgo as [q|q _ _ _]; unfold ent in *; cbn in q; congruence.
  - intros ->. unfold cn_priority in h. rewrite (goc_over sid true c s he) in h. injection h as <- <-. auto.
  - intros ->. unfold cn_shutdown in h. cbv zeta in h. dif h; [injection h as <- <-; auto|]. rewrite hg in h. injection h as <- <-. auto.
  - intros ->. unfold cn_capacity in h. rewrite hg in h. cbn [bind] in h. injection h as <- <-. auto.
  - intros ->. unfold cn_writable, cn_capacity in h. rewrite hg in h. cbn [bind] in h. injection h as <- <-. auto.
  - apply writable_next_ok in h as [(-> & _)|(y & hn & _ & -> & _)]; [discriminate|]. intros q. injection q as ->.
    clear - hn hg. revert hn. induction (c_wq c) as [|k l IH]; cbn; [discriminate|].
    destruct (cn_get (k_id k) c) as [s|] eqn:E; auto. destruct (sb_cap (st_send s)); try discriminate.
    + destr_if; auto. intros q. injection q as q. congruence.
    + intros q. injection q as q. congruence.
  - intros m q. subst o. apply send_max_stream_data_ok in h as [(q & _)|[(q & _)|(s0 & full & he0 & _ & _ & [(_ & q & _)|(_ & q & _)])]]; try discriminate.
    injection q as -> _. congruence.
  - intros f ->. unfold cn_send_stream in h. dif h; [discriminate|].
    apply send_stream_loop_ok in h as (skips & _ & [(q & _)|(k & tl & s0 & bytes & fin & b & _ & he0 & _ & _ & _ & q & _)]); [discriminate|].
    injection q as q _. rewrite <- q in he0. congruence.
Qed.
End P.

Lemma over_run P i ops2 : forall ops outs c outs2 c2 x, history P i ops outs c -> Forall op_ok ops2 ->
  cn_run P ops2 c = Ok (outs2, c2) -> over x c -> over x c2.
Proof.
  induction ops2 as [|op ops2 IH]; intros ops outs c outs2 c2 x H ho h hov; cbn in h.
  - injection h as _ <-. auto.
  - inversion ho as [|? ? ho1 ho2]; subst. destruct (cn_step P op c) as [[o c1]| |] eqn:E; try discriminate. cbn [bind] in h.
    destruct (cn_run P ops2 c1) as [[os c3]| |] eqn:E2; try discriminate. cbn in h. injection h as _ ->.
    eapply (IH (ops ++ [op]) (outs ++ [o]) c1); eauto; [eapply history_step; eauto|].
    eapply over_step; eauto. eapply shape_named. apply shape_history. exact H.
Qed.
