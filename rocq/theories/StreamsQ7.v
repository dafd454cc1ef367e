(** The order of streams over histories. *)
Require Import Verif.Base Verif.Errors Verif.Assoc Verif.OctetsModel Verif.FlowControlModel Verif.RangeBufModel
  Verif.RangesModel Verif.RangesProofs Verif.RecvBufModel Verif.RecvBufProofs2
  Verif.SendBufModel Verif.SendSpec Verif.SendBufProofs Verif.SendBufProofs2 Verif.SendBufProofs3 Verif.SendProofs Verif.SendProofs2 Verif.SendProofs3
  Verif.StreamsModel Verif.StreamsSpec Verif.StreamsProofs
  Verif.StreamsEffects Verif.StreamsShape Verif.StreamsShape2 Verif.StreamsShape3 Verif.StreamsRecv Verif.StreamsTx Verif.StreamsTx2 Verif.StreamsTx3 Verif.StreamsTx4 Verif.StreamsTx5 Verif.StreamsTx6
  Verif.StreamsQ Verif.StreamsQ2 Verif.StreamsQ3 Verif.StreamsQ4 Verif.StreamsSpec2 Verif.StreamsQ5 Verif.StreamsQ6.
Require Import Sorted.






Lemma ahead_alone y x q : linked y q = true -> ~ In x (ids q) -> ahead y x q.
Proof.
  intros h n. apply linked_iff in h. unfold ids in h. apply in_map_iff in h as (k & e & h). apply in_split in h as (l1 & l2 & ->).
  exists l1, k, l2. ands; auto. intros q. apply n. unfold ids in *. rewrite map_app. apply in_or_app. auto.
Qed.
Lemma linked_drop y skips q : linked y q = true -> ~ In y skips -> linked y (dropq skips q) = true.
Proof.
  intros h n. apply linked_iff in h. apply linked_iff. unfold ids in *. apply in_map_iff in h as (k & <- & h). apply in_map. apply in_dropq. auto.
Qed.

Lemma app_eq_len {A} (a b c d : list A) : a ++ b = c ++ d -> length a = length c -> a = c /\ b = d.
Proof. revert c; induction a as [|x a IH]; intros [|y c] h e; cbn in *; try discriminate; auto. injection h as -> h. injection e as e. destruct (IH _ h e) as (-> & ->). auto. Qed.

Section P.
Variable P : params.
Variable i : start.

Lemma live_keyof c x s f : ent x c = Some (s, f) -> keyof c x = Some (st_key s).
Proof. intros h. unfold keyof. rewrite h. auto. Qed.

Lemma live_prio ops outs c x s : history P i ops outs c -> ent x c = Some (s, false) ->
  st_key s = mkKey (fst (priority_of x ops outs)) (snd (priority_of x ops outs)) x.
Proof. intros hist h. pose proof (prio_history P i ops outs c x hist) as q. rewrite (live_keyof _ _ _ _ h) in q. eauto. Qed.

Lemma before_lt k1 k2 : k_id k1 <> k_id k2 -> goes_before (k_id k1) (k_urg k1, k_inc k1) (k_id k2) (k_urg k2, k_inc k2) -> key_lt k1 k2 = true.
Proof.
  intros n h. unfold goes_before in h. cbn [fst snd] in h. unfold key_lt. replace (k_id k1 =? k_id k2) with false by lia.
  destruct h as [h|(h1 & h)]; [replace (k_urg k1 =? k_urg k2) with false by lia; cbn; lia|]. rewrite h1, Z.eqb_refl. cbn [negb].
  destruct h as [(h2 & h3)|(h2 & h3 & h4)]; rewrite h2, h3; cbn; auto. lia.
Qed.

(** The first of a sorted queue. *)
Lemma head_best ops outs c q k tl y : history P i ops outs c -> qinv (keyof c) q -> q = k :: tl -> linked y q = true -> y <> k_id k ->
  live y c -> live (k_id k) c -> ~ goes_before y (priority_of y ops outs) (k_id k) (priority_of (k_id k) ops outs).
Proof.
  intros hist hi -> hl n (sy & hy) (sk & hsk) hb. apply get_ent in hy, hsk. apply linked_iff in hl. destruct hl as [e|hl]; [congruence|].
  unfold ids in hl. apply in_map_iff in hl as (ky & e & hin). pose proof (qi_key _ _ hi ky (or_intror hin)) as h1. pose proof (qi_key _ _ hi k (or_introl eq_refl)) as h2.
  rewrite e, (live_keyof _ _ _ _ hy) in h1. rewrite (live_keyof _ _ _ _ hsk) in h2. rewrite (live_prio _ _ _ _ _ hist hy) in h1. rewrite (live_prio _ _ _ _ _ hist hsk) in h2.
  pose proof (qi_sort _ _ hi) as hs. inversion hs as [|? ? _ hf]; subst. rewrite Forall_forall in hf. specialize (hf _ hin). unfold ple in hf.
  rewrite before_lt in hf; [discriminate|auto|]. injection h1 as h1. injection h2 as h2. rewrite <- h1 at 2 3. rewrite <- h2 at 2 3. cbn [k_urg k_inc].
  rewrite <- !surjective_pairing. auto.
Qed.

Lemma sends_best ops outs c room x f c' y : history P i ops outs c -> Forall roomy ops -> 19 <= room ->
  cn_step P (CnSendStream room) c = Ok (CoSent (Some (SfStream x f)), c') -> waiting y c -> y <> x ->
  ~ goes_before y (priority_of y ops outs) x (priority_of x ops outs).
Proof.
  intros hist hr hro h hw n. cbn [cn_step] in h. unfold cn_send_stream in h. dif h; [discriminate|].
  destruct (tx_history _ _ _ _ _ hist) as (T & _). pose proof (waiting_queued _ _ _ _ _ _ hist hr hw) as hl.
  pose proof (proj1 (waiting_LF P _ _ _ T) hw) as hf.
  apply send_stream_loop_ok in h as (skips & hsk & [(h & _)|(k & tl & s & bytes & fin & b' & hq0 & he & hns & hroom & hem & ho & _)]); [discriminate|].
  injection ho as -> _. cbv zeta in hq0. pose proof (servable_kept _ _ _ _ hf hro hsk) as hnsk.
  destruct (q_history _ _ _ _ _ hist) as (_ & _ & hq). eapply (head_best ops outs c (dropq skips (c_fq c)) k tl); eauto.
  - eapply qinv_mv; [|exact hq]. apply qmv_drop. apply qm_refl.
  - apply linked_drop; auto.
  - destruct hw as (s' & hs' & _). exists s'. auto.
  - exists s. apply get_ent. auto.
Qed.

Lemma sends_some ops outs c room o c' y : history P i ops outs c -> Forall roomy ops -> 19 <= room ->
  cn_step P (CnSendStream room) c = Ok (o, c') -> waiting y c -> exists x f, o = CoSent (Some (SfStream x f)).
Proof.
  intros hist hr hro h hw. cbn [cn_step] in h. unfold cn_send_stream in h. dif h; [unfold MAX_STREAM_OVERHEAD in *; lia|].
  destruct (tx_history _ _ _ _ _ hist) as (T & _). pose proof (waiting_queued _ _ _ _ _ _ hist hr hw) as hl.
  pose proof (proj1 (waiting_LF P _ _ _ T) hw) as hf.
  apply send_stream_loop_ok in h as (skips & hsk & h). pose proof (servable_kept _ _ _ _ hf hro hsk) as hnsk.
  destruct h as [(-> & h & _)|(k & tl & s & bytes & fin & b' & hq0 & he & hns & hroom & hem & -> & _)].
  - pose proof (linked_drop _ _ _ hl hnsk) as q. cbv zeta in h. rewrite h in q. discriminate.
  - eauto.
Qed.

Lemma reads_best ops outs c x c' y : history P i ops outs c -> cn_step P CnReadableNext c = Ok (CoNext (Some x), c') ->
  in_readable y c -> live x c -> live y c -> y <> x -> ~ goes_before y (priority_of y ops outs) x (priority_of x ops outs).
Proof.
  intros hist h hy lx ly n. cbn [cn_step] in h. apply readable_next_ok in h as [(h & _)|(k & tl & e & h & _)]; [discriminate|]. injection h as ->.
  destruct (q_history _ _ _ _ _ hist) as (hq & _). eapply head_best; eauto. apply linked_iff. auto.
Qed.

(** ** Round robin *)
Definition rr (u x y : Z) (c : conn) : Prop :=
  ahead y x (c_fq c) /\ keyof c x = Some (mkKey u true x) /\ keyof c y = Some (mkKey u true y).

Lemma rr_keep u x y ops outs c op o c' : history P i ops outs c -> cn_step P op c = Ok (o, c') -> x <> y -> rr u x y c ->
  (forall z v b, op = CnPriority z v b -> z <> x /\ z <> y) -> live y c' -> LF y c -> roomy op -> (forall f, o <> CoSent (Some (SfStream y f))) -> rr u x y c'.
Proof.
  intros hist h n (h1 & h2 & h3) hnp (sy & hy) hf hr ho. apply get_ent in hy. pose proof (q_history _ _ _ _ _ hist) as hq. pose proof (hist_kinds _ _ _ _ _ hist) as hk.
  assert (hnp' : (forall z v b, op <> CnPriority z v b) -> rr u x y c').
  { intros hn. destruct (q_step_np _ _ _ _ _ hq hk h hn) as (km & _). pose proof (rr_step P y op c o c' hk h hn ltac:(eauto) hf hr ho) as hm.
    pose proof (kmono_at _ _ _ _ km h2) as k2. pose proof (kmono_at _ _ _ _ km h3) as k3. unfold rr. ands; auto.
    eapply (qmy_ahead y x (keyof c')); [exact hm| |exact k2|exact k3|auto|auto|auto|auto|auto].
    destruct hq as (_ & _ & hq). eapply qinv_ext; [exact hq|]. intros k _. apply kmono_at. auto. }
  destruct op; try (apply hnp'; discriminate). cbn [cn_step] in h. destruct (hnp _ _ _ eq_refl) as (n1 & n2). clear hnp'.
  apply priority_ok in h as [(-> & _)|(s & c1 & hg & -> & h)]; [unfold rr; auto|].
  destruct (q_goc _ _ _ _ _ _ hq hk hg) as (km & _ & _). pose proof (kmono_at _ _ _ _ km h2) as k2. pose proof (kmono_at _ _ _ _ km h3) as k3.
  pose proof (gocs_fq P _ _ _ _ _ hg) as ef. destruct h as [(-> & _)| ->]; [unfold rr; rewrite ef; auto|]. unfold rr. cbv zeta. cn. rewrite ef.
  ands; [apply ahead_update; auto| |]; unfold keyof, ent in *; cn; rewrite aget_aset_other by auto; auto.
Qed.

Lemma rr_first ops outs c room x y u f c' : history P i ops outs c -> Forall roomy ops -> 19 <= room -> x <> y ->
  cn_step P (CnSendStream room) c = Ok (CoSent (Some (SfStream x f)), c') -> waiting y c ->
  priority_of x ops outs = (u, true) -> priority_of y ops outs = (u, true) -> rr u x y c'.
Proof.
  intros hist hr hro n h hw px py. pose proof h as h0. cbn [cn_step] in h. unfold cn_send_stream in h. dif h; [discriminate|].
  destruct (tx_history _ _ _ _ _ hist) as (T & _). pose proof (waiting_queued _ _ _ _ _ _ hist hr hw) as hl.
  pose proof (proj1 (waiting_LF P _ _ _ T) hw) as hf.
  apply send_stream_loop_ok in h as (skips & hsk & [(h & _)|(k & tl & s & bytes & fin & b' & hq0 & he & hns & hroom & hem & ho & ->)]); [discriminate|].
  injection ho as -> _. cbv zeta in hq0 |- *. pose proof (servable_kept _ _ _ _ hf hro hsk) as hnsk.
  pose proof (q_history _ _ _ _ _ hist) as hq. pose proof (linked_drop _ _ _ hl hnsk) as hld.
  assert (hqi : qinv (keyof c) (dropq skips (c_fq c))) by (eapply qinv_mv; [apply qmv_drop, qm_refl|apply hq]).
  pose proof (live_prio _ _ _ _ _ hist he) as kx. rewrite px in kx. cbn [fst snd] in kx.
  destruct hw as (sy & hsy & _). apply get_ent in hsy. pose proof (live_prio _ _ _ _ _ hist hsy) as ky. rewrite py in ky. cbn [fst snd] in ky.
  assert (hrl : linked y (q_remove (k_id k) (dropq skips (c_fq c))) = true) by (rewrite linked_remove_other; auto).
  unfold rr. ands.
  - cn. change (st_key s) with (st_key (set_send b' s)). destruct (st_flushable (set_send b' s)); cbn [negb].
    + change (st_key (set_send b' s)) with (st_key s). rewrite kx. cbn [k_inc]. unfold q_insert. cbn [k_id].
      rewrite linked_remove_same. apply linked_iff in hrl. unfold ids in hrl. apply in_map_iff in hrl as (k2 & e2 & hin).
      assert (hi' : qinv (keyof c) (q_remove (k_id k) (dropq skips (c_fq c)))) by (eapply qinv_mv; [apply qm_rem, qm_refl|auto]).
      pose proof (qi_key _ _ hi' _ hin) as e3. rewrite e2, (live_keyof _ _ _ _ hsy), ky in e3. injection e3 as <-.
      eapply ahead_self; [apply hi'|apply hi'|exact hin|reflexivity|reflexivity|auto|apply linked_remove_same|reflexivity|reflexivity|reflexivity].
    + apply ahead_alone; auto. rewrite ids_q_remove. tauto.
  - unfold keyof, ent. cn. rewrite aget_aset_same. cbn. rewrite kx. auto.
  - unfold keyof, ent in *. cn. rewrite aget_aset_other by auto. rewrite hsy. cbn. rewrite ky. auto.
Qed.

Lemma round_robin ops outs room x y u f mid : forall mouts c,
  history P i (ops ++ CnSendStream room :: mid) (outs ++ CoSent (Some (SfStream x f)) :: mouts) c -> length ops = length outs ->
  Forall roomy (ops ++ CnSendStream room :: mid) -> x <> y ->
  priority_of x ops outs = (u, true) -> priority_of y ops outs = (u, true) ->
  (forall z v b, In (CnPriority z v b) mid -> z <> x /\ z <> y) ->
  (forall a b outs' c', CnSendStream room :: mid = a ++ b -> history P i (ops ++ a) outs' c' -> waiting y c') ->
  (forall f', ~ In (CoSent (Some (SfStream y f'))) mouts) -> rr u x y c.
Proof.
  induction mid as [|op mid IH] using rev_ind; intros mouts c hist hlen hr n px py hnp hw hno.
  - pose proof hist as (q1 & q2 & q3 & q4). apply run_snoc in q4 as (os & c1 & o & h1 & h2 & e).
    assert (mouts = [] /\ os = outs /\ o = CoSent (Some (SfStream x f))) as (-> & -> & ->).
    { pose proof (run_length _ _ _ _ _ h1) as q5. apply app_eq_len in e as (e1 & e2); [|congruence]. injection e2 as e2 e3. auto. }
    apply Forall_app in q3 as (q3 & _). apply Forall_app in hr as (hr1 & hr2). inversion hr2 as [|? ? hr3 _]; subst. cbn in hr3.
    assert (h0 : history P i ops outs c1) by (unfold history; auto).
    eapply rr_first; [exact h0|auto| |auto|exact h2| |auto|auto].
    + destruct hr3; auto. exfalso. cbn [cn_step] in h2. unfold cn_send_stream in h2. unfold MAX_STREAM_OVERHEAD in h2. replace (room <=? 12) with true in h2 by lia. discriminate.
    + apply (hw [] [CnSendStream room] outs c1); auto. rewrite app_nil_r. auto.
  - pose proof hist as (q1 & q2 & q3 & q4). change (CnSendStream room :: mid ++ [op]) with ((CnSendStream room :: mid) ++ [op]) in *. rewrite app_assoc in *.
    apply run_snoc in q4 as (os & c1 & o & h1 & h2 & e).
    destruct (exists_last (l := CoSent (Some (SfStream x f)) :: mouts) ltac:(discriminate)) as (m' & o' & em).
    rewrite em, app_assoc in e. apply app_inj_tail in e as (<- & <-).
    pose proof (run_length _ _ _ _ _ h1) as q5. rewrite !app_length in q5. cbn [length] in q5.
    destruct m' as [|z m']; [cbn [length] in q5; lia|]. injection em as <- em. subst mouts.
    apply Forall_app in q3 as (q3 & _). apply Forall_app in hr as (hr1 & hr2). inversion hr2 as [|? ? hr3 _]; subst.
    assert (h0 : history P i (ops ++ CnSendStream room :: mid) (outs ++ CoSent (Some (SfStream x f)) :: m') c1) by (unfold history; auto).
    assert (hrr : rr u x y c1).
    { apply (IH m' c1); auto.
      - intros z v b hin. apply (hnp z v b). apply in_or_app. auto.
      - intros a b os c2 ea. apply (hw a (b ++ [op])). rewrite ea, app_assoc. auto.
      - intros f' hin. apply (hno f'). apply in_or_app. auto. }
    assert (w1 : waiting y c1) by (apply (hw (CnSendStream room :: mid) [op] _ _ eq_refl h0)).
    assert (w2 : waiting y c).
    { apply (hw ((CnSendStream room :: mid) ++ [op]) [] ((outs ++ CoSent (Some (SfStream x f)) :: m') ++ [o']) c); [rewrite app_nil_r; auto|].
      rewrite app_assoc. rewrite <- (app_assoc outs). exact hist. }
    destruct (tx_history _ _ _ _ _ h0) as (T & _).
    eapply (rr_keep u x y); [exact h0|exact h2|auto|auto| | |exact (proj1 (waiting_LF P _ _ _ T) w1)|auto|].
    + intros z v b e. apply (hnp z v b). subst. apply in_or_app. right. left. auto.
    + destruct w2 as (s & hs & _). exists s. auto.
    + intros f' e. apply (hno f'). subst. apply in_or_app. right. left. auto.
Qed.

(** The stream at the front of the queue of [y] is not [x]. *)
Lemma rr_not_first u x y ops outs c room f c' : history P i ops outs c -> Forall roomy ops -> rr u x y c -> waiting y c -> 19 <= room -> x <> y ->
  cn_step P (CnSendStream room) c <> Ok (CoSent (Some (SfStream x f)), c').
Proof.
  intros hist hr (h1 & _) hw hro n h. cbn [cn_step] in h. unfold cn_send_stream in h. dif h; [discriminate|].
  destruct (tx_history _ _ _ _ _ hist) as (T & _). pose proof (proj1 (waiting_LF P _ _ _ T) hw) as hf.
  apply send_stream_loop_ok in h as (skips & hsk & [(h & _)|(k & tl & s & bytes & fin & b' & hq0 & he & hns & hroom & hem & ho & ->)]); [discriminate|].
  injection ho as -> _. cbv zeta in hq0. pose proof (servable_kept _ _ _ _ hf hro hsk) as hnsk.
  assert (ha : forall sk q, ahead y (k_id k) q -> ~ In y sk -> ahead y (k_id k) (dropq sk q)).
  { clear. induction sk as [|z sk IH]; intros q h hn; cbn [dropq fold_left]; auto. apply IH; [|firstorder]. apply ahead_remove; [intros ->; apply hn; left; auto|auto]. }
  specialize (ha _ _ h1 hnsk). rewrite hq0 in ha. destruct ha as (l1 & ky & l2 & e & e2 & hx). destruct l1 as [|a l1].
  - injection e as -> _. auto.
  - injection e as <- _. apply hx. left. auto.
Qed.

(** ** What a call to send accepts *)
Lemma send_accepts ops outs c x s n zc data fin o c' : history P i ops outs c -> 0 <= x -> ent x c = Some (s, false) -> sb_cap (st_send s) = Ok n ->
  (is_bidi x = true \/ is_local x (p_server P) = true) ->
  cn_step P (CnSend zc x data fin) c = Ok (o, c') ->
  let m := Z.min (zlen data) (Z.min (c_txcap c) n) in
  o = (if (m =? 0) && (0 <? zlen data) then CoErr Done else CoWrote m) \/
  o = CoErr FinalSize /\ (finished_on x ops outs \/ cut_on x ops outs).
Proof.
  intros hist hx he hcap hsd h m. cbn [cn_step] in h. apply send_ok in h as [(_ & _ & q1 & q2)|(_ & _ & h)]; [destruct hsd; congruence|]. cbv zeta in h.
  destruct h as [(_ & q & _)|[(_ & _ & s0 & q)|[(_ & _ & q & _)|(s1 & c1 & hg & h)]]]; try congruence.
  assert (s1 = s) as ->.
  { destruct hg as [q|q _ _ _]; unfold ent in q, he; cn_in q; congruence. }
  destruct (tx_history _ _ _ _ _ hist) as (T & _). pose proof (t_sb _ _ _ _ _ _ T he) as hs. pose proof (t_cap _ _ _ T) as ht.
  pose proof (zlen_nonneg data) as hz.
  assert (hn : n = sb_max_data (st_send s) - sb_off (st_send s) /\ 0 <= n /\ sb_error (st_send s) = None).
  { unfold sb_cap in hcap. destruct (sb_error (st_send s)); [discriminate|]. dif hcap; [discriminate|]. injection hcap as <-. repeat split; auto; lia. }
  destruct hn as (hn & hn0 & herr).
  destruct h as [(e & q & _)|[(n0 & _ & q1 & q2 & -> & _)|(n0 & _ & hnz & h)]]; [congruence| |].
  { left. unfold m. rewrite q1. replace (Z.min (zlen data) (Z.min 0 n)) with 0 by lia. replace (0 <? zlen data) with true by lia. auto. }
  assert (hsl : send_len (c_txcap c) (zlen data) = Z.min (c_txcap c) (zlen data)) by (unfold send_len; destr_if; lia).
  set (w := if zc then _ else _) in h.
  assert (wp : write_post (g_w (ghost P ops outs) x) (st_send s) (take (send_len (c_txcap c) (zlen data)) data) (send_fin (c_txcap c) (zlen data) fin) w).
  { unfold w. destruct zc; [apply sb_write_zc_spec; auto; lia|apply sb_write_spec; auto]. }
  destruct h as [(e & hw & -> & _)|(sent & b & hw & hle & -> & _)]; rewrite hw in wp.
  - right. cbn in wp. destruct e; try (exfalso; exact wp); [congruence|]. destruct wp as (_ & q & _). split; auto.
    destruct (of_stream P i ops outs c hist x) as [(q1 & _)|(s' & fl & so & su & st & k1 & k2 & k3 & k4 & k5 & k6 & k7 & k8 & k9 & k10)]; [congruence|].
    rewrite k1 in he. injection he as -> ->. rewrite <- k7, <- k9. destruct (is_reset_dec (ss_buf st)) as [r|r].
    + right. apply (h_reset _ _ _ _ k2). auto.
    + left. rewrite (h_reset _ _ _ _ k2) in r. apply (h_fin _ _ _ _ k2 r). congruence.
  - left. cbn in wp. destruct wp as (_ & _ & _ & w4 & _). rewrite zlen_take in w4 by lia. rewrite hsl in *. rewrite <- hn in w4.
    assert (sent = m) as -> by (unfold m; lia). replace (0 <? Z.min (c_txcap c) (zlen data)) with (0 <? zlen data); [auto|]. lia.
Qed.

Lemma writable_promise ops outs c x len c1 zc data fin o c2 : history P i ops outs c -> 0 <= x -> (is_bidi x = true \/ is_local x (p_server P) = true) ->
  cn_step P (CnWritable x len) c = Ok (CoBool true, c1) -> zlen data <= len -> cn_step P (CnSend zc x data fin) c1 = Ok (o, c2) ->
  o = CoWrote (zlen data) \/ o = CoErr FinalSize /\ (finished_on x ops outs \/ cut_on x ops outs).
Proof.
  intros hist hx hsd h hle h2. cbn [cn_step] in h. apply writable_ok in h as [(h & _)|(s & he & [(e & _ & h & _)|(n & hc & [(hl & _ & ->)|(_ & h & _)])])]; try discriminate.
  destruct (send_accepts _ _ _ _ _ _ _ _ _ _ _ hist hx he hc hsd h2) as [-> |q]; auto. left. pose proof (zlen_nonneg data).
  replace (Z.min (zlen data) (Z.min (c_txcap c) n)) with (zlen data) by lia. destr_if; auto. lia.
Qed.

Lemma capacity_promise ops outs c x n c1 zc data fin o c2 : history P i ops outs c -> 0 <= x -> (is_bidi x = true \/ is_local x (p_server P) = true) ->
  cn_step P (CnCapacity x) c = Ok (CoCap n, c1) -> cn_step P (CnSend zc x data fin) c1 = Ok (o, c2) ->
  o = (if (Z.min (zlen data) n =? 0) && (0 <? zlen data) then CoErr Done else CoWrote (Z.min (zlen data) n)) \/
  o = CoErr FinalSize /\ (finished_on x ops outs \/ cut_on x ops outs).
Proof.
  intros hist hx hsd h h2. cbn [cn_step] in h. destruct (cn_capacity x c) as [[r c3]| |] eqn:E; try discriminate. cbn [bind] in h.
  apply capacity_ok in E as [(-> & -> & hn)|(s & he & [(e & h1 & -> & ->)|(k & h1 & -> & ->)])]; try discriminate. injection h as <- <-.
  apply (send_accepts _ _ _ _ _ _ _ _ _ _ _ hist hx he h1 hsd h2).
Qed.
End P.
