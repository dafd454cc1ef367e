(** Runs of an HTTP/3 connection keep the invariant. *)
Require Import Verif.Base Verif.Errors Verif.OctetsModel Verif.StreamsModel Verif.QpackModel Verif.H3FrameModel Verif.H3ConnModel Verif.H3ConnSpec Verif.H3ConnProofs Verif.H3ConnProofs2 Verif.H3ConnProofs3 Verif.H3ConnProofs4 Verif.H3ConnProofs5 Verif.H3ConnProofs6 Verif.H3ConnProofs7.

Section Run.
Context (server : bool) (mfss : option Z) (mfss_ok : match mfss with Some n => 0 <= n | None => True end).
Notation cfg := (cfg_of server mfss).
Notation inv := (inv server mfss).
Notation glob := (glob server mfss).
Notation status := (status server mfss).
Notation okstr := (okstr server mfss).
Definition run_inv (u : run_st) : Prop := inv (u_conn u) (u_got u) (u_all u) (u_reset u) (u_bad u).

Lemma accepts_not_over id c : accepts id c = true -> over (c_q c) id -> False.
Proof.
  unfold accepts, over. intros h ho. apply andb_true_iff in h as (h1 & h2). destruct (q_str (c_q c) id) as [t|].
  - rewrite ho in h2. discriminate h2.
  - rewrite ho in h1. discriminate h1.
Qed.
Lemma deliver_spec id bs fin mark c : accepts id c = true -> tr_ok (c_q c) -> bytes_ok bs ->
  let q' := deliver id bs fin mark (c_q c) in
  data_of q' id = data_of (c_q c) id ++ bs /\ tr_ok q' /\ q_err q' = q_err (c_q c) /\ q_down q' = q_down (c_q c) /\
  (forall k, k <> id -> q_str q' k = q_str (c_q c) k) /\ (forall k, q_gone q' k = q_gone (c_q c) k) /\ is_some (q_str q' id) = true.
Proof.
  intros ha hk hb. unfold accepts in ha. apply andb_true_iff in ha as (h1 & h2). unfold deliver. destruct (q_gone (c_q c) id); [discriminate h1|]. clear h1.
  set (t := match q_str (c_q c) id with Some t => t | None => t_new true end).
  assert (ht : t_fin t = false /\ t_rst t = None /\ t_drain t = false /\ t_data t = data_of (c_q c) id /\ t_ok t).
  { unfold t, data_of. destruct (q_str (c_q c) id) as [t0|] eqn:E.
    - pose proof (hk _ _ E) as ok. destruct (t_fin t0), (t_rst t0), (t_drain t0); try discriminate h2. do 4 (split; [reflexivity|]). exact ok.
    - do 4 (split; [reflexivity|]). constructor; cbn; try discriminate; [congruence|constructor]. }
  destruct ht as (t1 & t2 & t3 & t4 & [k1 k2 k3]). rewrite t1, t2, t3. cbn [orb is_some]. unfold data_of at 1. cbn [q_str q_err q_down q_gone]. rewrite upd_same. cbn [t_data is_some]. split; [rewrite t4; auto|].
  split; [|repeat split; auto].
  - intros j tj hj. cbn [q_str] in hj. unfold upd in hj. destruct (j =? id); [|eauto]. injection hj as <-. constructor; cbn.
    + congruence.
    + intros hm. apply orb_true_iff in hm as [hm|hm]; [specialize (k2 hm); congruence|]. apply andb_true_iff in hm. tauto.
    + apply Forall_app. auto.
  - intros k h. apply upd_other. auto.
Qed.
Lemma data_same q q' k : q_str q' k = q_str q k -> data_of q' k = data_of q k.
Proof. unfold data_of. intros ->. auto. Qed.
Lemma over_same q q' k : q_str q' k = q_str q k -> q_gone q' k = q_gone q k -> over q k -> over q' k.
Proof. unfold over. intros -> ->. auto. Qed.
Lemma exists_same q q' k : q_str q' k = q_str q k -> q_gone q' k = q_gone q k -> exists_in q' k = exists_in q k.
Proof. unfold exists_in. intros -> ->. auto. Qed.
Lemma like_self c k : match c_str c k with
  | Some s => exists s', c_str c k = Some s' /\ like s s'
  | None => c_str c k = None \/ (is_bidi k = true /\ is_local k server = false /\ exists s', c_str c k = Some s' /\ like (new_stream c k false) s' /\ c_mfss c = mfss)
  end.
Proof. destruct (c_str c k) as [s|]; auto. exists s. split; auto. apply like_refl. Qed.

Lemma deliver_inv id bs fin mark c got all reset bad : inv c got all reset bad -> accepts id c = true -> bytes_ok bs ->
  inv (with_q c (deliver id bs fin mark (c_q c))) got (add_to all id bs) reset bad.
Proof.
  intros (g & hs) ha hb. destruct (deliver_spec id bs fin mark c ha (g_tr _ _ _ _ _ g) hb) as (d1 & d2 & d3 & d4 & d5 & d6 & d7). set (q' := deliver id bs fin mark (c_q c)) in *.
  assert (hdo : forall k, k <> id -> data_of q' k = data_of (c_q c) k) by (intros; apply data_same; auto).
  assert (hall : forall k, zlen (data_of q' k) - zlen (data_of (c_q c) k) = zlen (add_to all id bs k) - zlen (all k) /\ zlen (all k) <= zlen (add_to all id bs k)).
  { intros k. destruct (Z.eq_dec k id) as [-> |hk]; [rewrite d1, add_to_same, !zlen_app; pose proof (zlen_nonneg bs); lia|rewrite hdo, add_to_other by auto; lia]. }
  split.
  - destruct g. constructor; auto; cbn [with_q c_q c_str c_fin].
    + congruence.
    + intros k s h. destruct (g_str k s h) as [w|(w1 & w2)]; [left; auto|right; split; [congruence|auto]].
    + intros k hk. destruct (g_fin k hk) as (h1 & h2). assert (k <> id) by (intros ->; eapply accepts_not_over; eauto). rewrite hdo by auto. split; auto. apply (over_same (c_q c)); auto.
    + rewrite d3. auto.
    + intros k. specialize (hall k). specialize (g_len k). lia.
    + intros k s h. specialize (hall k). destruct (g_buf k s h). lia.
  - intros k hk. destruct (Z.eq_dec k id) as [-> |hne].
    + rewrite add_to_same. destruct (hs id hk) as [((h0 & hf) & h1 & h2)|[(s & seen & h1 & h2 & h3 & h4)|[(h & _)|(h1 & h2 & h4)]]].
      * left. split; [|split; [auto|cbn [with_q c_q]; rewrite d1, h2; auto]]. split; auto. intros hl. cbn [with_q c_q]. exfalso. specialize (hf hl). unfold accepts in ha. unfold exists_in in hf. destruct (g_cfg _ _ _ _ _ g) as (hsv & _). rewrite hsv in ha.
        destruct (q_str (c_q c) id); [discriminate hf|]. cbn in hf. rewrite hf, hl in ha. discriminate ha.
      * right. left. exists s, seen. split; auto. split; auto. cbn [with_q c_q]. rewrite d1, h3, app_assoc. auto.
      * exfalso. eapply accepts_not_over; eauto.
      * right. right. right. split; [cbn [with_q c_q]; congruence|]. split; auto. intros more. rewrite <- app_assoc. auto.
    + rewrite add_to_other by auto. eapply status_frame; eauto; cbn [with_q c_q c_str]; auto.
      * apply (over_same (c_q c)); auto.
      * rewrite (exists_same (c_q c) q' k) by auto. auto.
      * congruence.
      * exact (like_self c k).
Qed.
Lemma reset_inv id code c got all reset bad : inv c got all reset bad -> inv (with_q c (peer_reset id code (c_q c))) got all (fun k => (k =? id) || reset k) bad.
Proof.
  intros h. assert (HR : forall k, reset k = true -> (k =? id) || reset k = true) by (intros k ->; apply orb_true_r).
  assert (HN : peer_reset id code (c_q c) = c_q c -> inv (with_q c (peer_reset id code (c_q c))) got all (fun k => (k =? id) || reset k) bad).
  { intros ->. eapply inv_q; eauto; apply h. }
  unfold peer_reset in *. destruct (q_str (c_q c) id) as [t|] eqn:E; auto. destruct (is_some (t_rst t)); auto. clear HN.
  set (q' := mkQ _ _ _ _ _ _ _). destruct h as (g & hs).
  assert (d1 : data_of q' id = []) by (unfold data_of, q'; cbn [q_str]; rewrite upd_same; auto).
  assert (d2 : over q' id) by (unfold over, q'; cbn [q_str]; rewrite upd_same; auto).
  assert (d5 : forall k, k <> id -> q_str q' k = q_str (c_q c) k) by (intros k hk; apply upd_other; auto).
  assert (hdo : forall k, k <> id -> data_of q' k = data_of (c_q c) k) by (intros; apply data_same; auto).
  assert (hall : forall k, zlen (data_of q' k) <= zlen (data_of (c_q c) k)).
  { intros k. destruct (Z.eq_dec k id) as [-> |hk]; [rewrite d1, zlen_nil; apply zlen_nonneg|rewrite hdo by auto; lia]. }
  assert (g' : glob (with_q c q') all bad).
  { destruct g. constructor; auto; cbn [with_q c_q c_str c_fin].
    - intros j tj hj. unfold q' in hj. cbn [q_str] in hj. unfold upd in hj. destruct (j =? id); [|eauto]. injection hj as <-. constructor; cbn; auto. constructor.
    - intros k hk. destruct (g_fin k hk) as (h1 & h2). destruct (Z.eq_dec k id) as [-> |hne]; auto. rewrite hdo by auto. split; auto. apply (over_same (c_q c)); auto.
    - intros k. specialize (hall k). specialize (g_len k). lia.
    - intros k s h. specialize (hall k). destruct (g_buf k s h). lia. }
  split; auto. intros k hk. destruct (Z.eq_dec k id) as [-> |hne].
  - rewrite Z.eqb_refl. cbn [orb]. right. right. left. split; auto. split; auto. destruct (hs id hk) as [(h0 & h1 & h2)|[(s & seen & h1 & h2 & h3 & h4)|[(_ & _ & x & hx & _)|(h1 & h2 & h4)]]].
    + exists (says_all (cfg id) (all id)). rewrite h1. split; auto. discriminate.
    + exists (resume (cfg id) s (data_of (c_q c) id)). rewrite h4, <- h3. split; auto. discriminate.
    + exists x. split; auto. discriminate.
    + destruct (h4 []) as (x & hx). rewrite app_nil_r in hx. exists x. split; auto. discriminate.
  - replace (k =? id) with false by lia. cbn [orb]. eapply status_frame; eauto; cbn [with_q c_q c_str]; auto.
    + apply (over_same (c_q c)); auto.
    + rewrite (exists_same (c_q c) q' k) by auto. auto.
    + exact (like_self c k).
Qed.
(** What we send *)
Lemma sent_q_inv q' c got all reset bad : inv c got all reset bad -> (forall k, data_of q' k = data_of (c_q c) k) -> (forall k, over (c_q c) k -> over q' k) -> (forall k, exists_in (c_q c) k = false -> exists_in q' k = false) ->
  q_err q' = q_err (c_q c) -> q_down q' = q_down (c_q c) -> tr_ok q' -> inv (with_q c q') got all reset bad.
Proof. intros h h1 h2 h3 h4 h5 h6. eapply inv_q; eauto; try congruence. - rewrite h4. apply h. - rewrite h5. apply h. Qed.
Lemma put_tr id t t' q : q_str q id = Some t -> tr_ok q -> t_data t' = t_data t -> (t_fin t = true -> t_fin t' = true) -> t_ok t' ->
  forall q', (q' = mkQ (upd (q_str q) id (Some t')) (q_gone q) (q_err q) (q_down q) (q_server q) (q_dgram q) (q_bidi q) \/ q' = q_put q id t') ->
  (forall k, data_of q' k = data_of q k) /\ (forall k, over q k -> over q' k) /\ (forall k, exists_in q k = false -> exists_in q' k = false) /\ q_err q' = q_err q /\ q_down q' = q_down q /\ tr_ok q'.
Proof.
  intros E hk hd hf ht q' hq.
  assert (HS : q' = mkQ (upd (q_str q) id (Some t')) (q_gone q) (q_err q) (q_down q) (q_server q) (q_dgram q) (q_bidi q) \/
     (t_finished t' = true /\ q' = mkQ (upd (q_str q) id None) (fun k => (k =? id) || q_gone q k) (q_err q) (q_down q) (q_server q) (q_dgram q) (q_bidi q))).
  { destruct hq as [-> | ->]; auto. unfold q_put. destruct (t_finished t'); cbn [andb]; auto. destruct (_ || _); auto. }
  clear hq. destruct HS as [-> |(hfin & ->)]; (split; [|split; [|split; [|split; [reflexivity|split; [reflexivity|]]]]]).
  - intros k. unfold data_of. cbn. unfold upd. destruct (k =? id) eqn:J; auto. assert (k = id) by lia. subst k. rewrite E. auto.
  - intros k. unfold over. cbn. unfold upd. destruct (k =? id) eqn:J; auto. assert (k = id) by lia. subst k. rewrite E. auto.
  - intros k. unfold exists_in. cbn. unfold upd. destruct (k =? id) eqn:J; auto. assert (k = id) by lia. subst k. rewrite E. discriminate.
  - intros j tj. cbn. unfold upd. destruct (j =? id); eauto. congruence.
  - intros k. unfold data_of. cbn. unfold upd. destruct (k =? id) eqn:J; auto. assert (k = id) by lia. subst k. rewrite E. unfold t_finished in hfin. apply andb_true_iff in hfin as (_ & hn). rewrite <- hd. destruct (t_data t'); auto. discriminate hn.
  - intros k. unfold over. cbn. unfold upd. destruct (k =? id) eqn:J; auto.
  - intros k. unfold exists_in. cbn. unfold upd. destruct (k =? id) eqn:J; auto. assert (k = id) by lia. subst k. rewrite E. discriminate.
  - intros j tj. cbn. unfold upd. destruct (j =? id); eauto. congruence.
Qed.
Lemma sent_fin_inv id c got all reset bad : inv c got all reset bad -> inv (with_q c (sent_fin id (c_q c))) got all reset bad.
Proof.
  intros h. unfold sent_fin. destruct (q_str (c_q c) id) as [t|] eqn:E; [|rewrite with_q_id; auto].
  pose proof (g_tr _ _ _ _ _ (proj1 h)) as hk. set (t' := mkT _ _ _ _ _ _ _). set (q' := mkQ _ _ _ _ _ _ _).
  destruct (put_tr id t t' (c_q c) E hk eq_refl (fun h => h)) with (q' := q') as (p1 & p2 & p3 & p4 & p5 & p6); auto.
  - destruct (hk _ _ E). constructor; auto.
  - apply sent_q_inv; auto.
Qed.
Lemma sent_all_inv id c got all reset bad : inv c got all reset bad -> inv (with_q c (sent_all id (c_q c))) got all reset bad.
Proof.
  intros h. unfold sent_all. destruct (q_str (c_q c) id) as [t|] eqn:E; [|rewrite with_q_id; auto].
  pose proof (g_tr _ _ _ _ _ (proj1 h)) as hk. set (t' := mkT _ _ _ _ _ _ _). set (q' := if t_ready t' then _ else _).
  destruct (put_tr id t t' (c_q c) E hk eq_refl (fun h => h)) with (q' := q') as (p1 & p2 & p3 & p4 & p5 & p6).
  - destruct (hk _ _ E). constructor; auto.
  - unfold q'. destruct (t_ready t'); auto.
  - apply sent_q_inv; auto.
Qed.
Lemma request_inv id c got all reset bad : inv c got all reset bad -> is_bidi id = true -> is_local id false = true -> c_server c = false -> c_str c id = None -> exists_in (c_q c) id = false ->
  inv (open_request id (with_q c (with_new (c_q c) id))) got all reset bad.
Proof.
  intros (g & hs) hb hl hsv hn hex. destruct (g_cfg _ _ _ _ _ g) as (g1 & g2). assert (hsf : server = false) by congruence.
  unfold exists_in in hex. apply orb_false_iff in hex as (hx1 & hx2). assert (E : q_str (c_q c) id = None) by (destruct (q_str (c_q c) id); auto; discriminate hx1).
  set (q' := with_new (c_q c) id). set (c' := open_request id (with_q c q')).
  assert (hq : c_q c' = q') by reflexivity.
  assert (d5 : forall k, k <> id -> q_str q' k = q_str (c_q c) k) by (intros k hk; apply upd_other; auto).
  assert (d1 : data_of q' id = [] /\ data_of (c_q c) id = []) by (unfold data_of, q', with_new; cbn [q_str]; rewrite upd_same, E; auto).
  assert (hdo : forall k, data_of q' k = data_of (c_q c) k) by (intros k; destruct (Z.eq_dec k id) as [-> |hk]; [destruct d1; congruence|apply data_same; auto]).
  assert (hstr : forall k, k <> id -> c_str c' k = c_str c k) by (intros k hk; apply upd_other; auto).
  assert (hself : c_str c' id = Some (new_stream c id true)) by (apply upd_same).
  split.
  - destruct g. constructor; rewrite ?hq; auto.
    + intros j tj hj. unfold q', with_new in hj. cbn [q_str] in hj. unfold upd in hj. destruct (j =? id); [|eauto]. injection hj as <-. constructor; cbn; try discriminate; auto. constructor.
    + intros k s h. destruct (Z.eq_dec k id) as [-> |hk].
      * rewrite hself in h. injection h as <-. left. exists true. apply wf_new; auto.
      * rewrite hstr in h by auto. apply g_str. auto.
    + intros k hk. change (In k (c_fin c)) in hk. destruct (g_fin k hk) as (h1 & h2). rewrite hdo. split; auto. assert (k <> id) by (intros ->; unfold over in h1; rewrite E in h1; congruence). apply (over_same (c_q c)); auto.
    + intros k. rewrite hdo. auto.
    + intros k s h. destruct (Z.eq_dec k id) as [-> |hk].
      * rewrite hself in h. injection h as <-. unfold new_stream, hs_new. rewrite hb. cbn [h_buf h_cap]. rewrite (proj1 d1). change (zlen (@nil Z)) with 0. pose proof (zlen_nonneg (all id)). lia.
      * rewrite hstr in h by auto. rewrite hdo. auto.
  - intros k hk. destruct (Z.eq_dec k id) as [-> |hne].
    + destruct (hs id hk) as [(h0 & h1 & h2)|[(s & seen & h1 & _)|[(h & _)|(_ & (s & h1 & _) & _)]]]; try congruence.
      * right. left. exists (new_stream c id true), []. split; auto. split; [rewrite hsf, hl; rewrite <- hsf; apply wf_new; auto|]. rewrite hq, hdo. split; auto. intros more. rewrite h1. apply resume_at. auto.
      * unfold over in h. rewrite E in h. congruence.
    + eapply status_frame; eauto; rewrite ?hq; auto.
      * apply (over_same (c_q c)); auto.
      * rewrite (exists_same (c_q c) q' k) by auto. auto.
      * rewrite hstr by auto. apply like_self.
Qed.

Theorem step_inv u o : hop_ok o -> run_inv u -> run_inv (h_step u o).
Proof.
  unfold run_inv. intros ho h. destruct o as [id bs fin mark|id code|id|ids|id room|id|id|id]; cbn [h_step].
  - destruct (accepts id (u_conn u)) eqn:A; auto. apply deliver_inv; auto.
  - apply reset_inv; auto.
  - apply sent_all_inv; auto.
  - destruct (poll ids (u_conn u)) as [r c'] eqn:P. eapply poll_inv in P; eauto. apply P.
  - destruct (exists_in (c_q (u_conn u)) id) eqn:X; auto. destruct (recv_body id room (u_conn u)) as [r c'] eqn:P. eapply body_poll_inv in P; eauto. apply P.
  - destruct (is_some (q_str (c_q (u_conn u)) id)) eqn:X; auto. apply finish_local_inv; [exact mfss_ok|apply sent_fin_inv; auto|]. cbn [with_q c_q]. unfold sent_fin. destruct (q_str (c_q (u_conn u)) id) eqn:E; [|discriminate X]. cbn. rewrite upd_same. auto.
  - destruct (may_request (u_conn u)); auto. match goal with |- context [if ?b then _ else _] => destruct b eqn:X end; auto.
    repeat (apply andb_true_iff in X as (X & ?)). cbn. apply request_inv; auto.
    + destruct (c_server (u_conn u)); auto; discriminate.
    + destruct (c_str (u_conn u) id); auto; discriminate.
    + destruct (exists_in (c_q (u_conn u)) id); auto; discriminate.
  - apply take_inv; auto.
Qed.
Theorem init_inv maxp dgram bidi : run_inv (h_init server mfss maxp dgram bidi).
Proof.
  split.
  - constructor; cbn; auto; try discriminate; try tauto.
    + intros i [h|[h|h]]; discriminate h.
  - intros k hk. left. split; [|split; auto]. split; auto.
Qed.
Theorem run_inv_all maxp dgram bidi ops : Forall hop_ok ops -> run_inv (h_run (h_init server mfss maxp dgram bidi) ops).
Proof.
  intros h. unfold h_run. assert (H : forall ops u, Forall hop_ok ops -> run_inv u -> run_inv (fold_left h_step ops u)).
  { clear ops h. induction ops as [|o ops IH]; intros u h hu; auto. apply Forall_inv in h as h1. apply Forall_inv_tail in h. cbn. apply IH; auto. apply step_inv; auto. }
  apply H; auto. apply init_inv.
Qed.
End Run.
