(** Polling, reading bodies and everything else keeps the invariant. *)
Require Import Verif.Base Verif.Errors Verif.OctetsModel Verif.StreamsModel Verif.QpackModel Verif.H3FrameModel Verif.H3ConnModel Verif.H3ConnSpec Verif.H3ConnProofs Verif.H3ConnProofs2 Verif.H3ConnProofs3 Verif.H3ConnProofs4 Verif.H3ConnProofs5 Verif.H3ConnProofs6.

Lemma finished_over q id : exists_in q id = true -> stream_finished q id = true -> over q id /\ data_of q id = [].
Proof.
  unfold exists_in, stream_finished, over, data_of, t_finished. destruct (q_str q id) as [t|]; cbn; auto. intros _ h. apply andb_true_iff in h as (h1 & h2). split; auto. destruct (t_data t); auto. discriminate h2.
Qed.
Section Run.
Context (server : bool) (mfss : option Z) (mfss_ok : match mfss with Some n => 0 <= n | None => True end).
Notation cfg := (cfg_of server mfss).
Notation inv := (inv server mfss).
Notation glob := (glob server mfss).
Notation status := (status server mfss).
Notation okstr := (okstr server mfss).

(** ** Changes of the transport only *)
Lemma inv_q c q' got got' all reset reset' bad bad' : inv c got all reset bad -> (forall k, is_bidi k = true -> got' k = got k) ->
  (forall k, data_of q' k = data_of (c_q c) k) -> (forall k, over (c_q c) k -> over q' k) -> (forall k, exists_in (c_q c) k = false -> exists_in q' k = false) ->
  (q_err (c_q c) <> None -> q_err q' <> None) -> (q_err q' <> None -> bad' = true) -> (forall k, reset k = true -> reset' k = true) -> (bad = true -> bad' = true) -> tr_ok q' -> q_down q' = false ->
  inv (with_q c q') got' all reset' bad'.
Proof.
  intros (g & hs) hgot hd ho hx he heb hr hb hk hdn. split.
  - destruct g. constructor; auto; cbn [with_q c_q c_str c_fin].
    + intros k s h. destruct (g_str k s h) as [w|(w1 & w2)]; [left; auto|right; auto].
    + intros k h. rewrite hd. destruct (g_fin k h). auto.
    + intros k. rewrite hd. auto.
    + intros k s h. rewrite hd. auto.
  - intros k hk'. rewrite hgot by auto. eapply status_frame; eauto; cbn [with_q c_q c_str]; auto. destruct (c_str c k) as [s|]; auto. exists s. split; auto. apply like_refl.
Qed.
Lemma with_q_id c : with_q c (c_q c) = c.
Proof. destruct c; auto. Qed.
Lemma inv_bad c got got' all reset bad bad' : inv c got all reset bad -> (forall k, is_bidi k = true -> got' k = got k) -> (bad = true -> bad' = true) -> inv c got' all reset bad'.
Proof.
  intros h hg hb. rewrite <- (with_q_id c). eapply inv_q; eauto; try apply h. intros hq. apply hb. apply (g_bad _ _ _ _ _ (proj1 h)). auto.
Qed.
Lemma inv_moved id c q' got all reset bad : inv c got all reset bad -> moved id (c_q c) q' -> data_of q' id = data_of (c_q c) id -> q_err q' = q_err (c_q c) -> inv (with_q c q') got all reset bad.
Proof.
  intros h m hd he. eapply inv_q; eauto; try congruence.
  - intros k. destruct (Z.eq_dec k id) as [-> |hk]; auto. eapply data_moved; eauto.
  - intros k. apply over_moved with id. auto.
  - intros k. rewrite (exists_other id _ _ k m). auto.
  - rewrite he. apply h.
  - apply (mv_ok _ _ _ m). apply h.
  - rewrite (proj1 (mv_cfg _ _ _ m)). apply h.
Qed.

(** ** A stream that is over is marked, or forgotten *)
Lemma inv_over id c c' got all reset bad : inv c got all reset bad -> over (c_q c) id -> data_of (c_q c) id = [] ->
  c_q c' = c_q c -> (forall j, j <> id -> c_str c' j = c_str c j) -> c_server c' = c_server c -> c_mfss c' = c_mfss c -> (uni_ids c -> uni_ids c') ->
  (forall k, In k (c_fin c') -> In k (c_fin c) \/ k = id) ->
  (forall s', c_str c' id = Some s' -> okstr (c_q c) id s' /\ zlen (h_buf s') <= zlen (all id) /\ h_cap s' <= 8192 + 2 * zlen (all id)) ->
  inv c' got all reset bad.
Proof.
  intros (g & hs) ho hd eq ej e1 e2 e3 ef es. split.
  - destruct (g_cfg _ _ _ _ _ g) as (g1 & g2). constructor; rewrite ?eq; try apply g; auto.
    + split; congruence.
    + apply e3. apply g.
    + intros k s h. destruct (Z.eq_dec k id) as [-> |hk]; [apply es; auto|]. rewrite ej in h by auto. eapply g_str; eauto.
    + intros k h. destruct (ef k h) as [h1| ->]; auto. apply (g_fin _ _ _ _ _ g k h1).
    + intros k s h. destruct (Z.eq_dec k id) as [-> |hk].
      * destruct (es s h) as (_ & h1 & h2). rewrite hd, zlen_nil. lia.
      * rewrite ej in h by auto. eapply g_buf; eauto.
  - intros k hb. destruct (Z.eq_dec k id) as [-> |hk].
    + right. right. left. eapply dead_mono; [eapply status_dead; eauto| | | |]; rewrite ?eq; auto.
    + eapply status_frame; eauto; rewrite ?eq; auto. rewrite (ej k hk). destruct (c_str c k) as [s|]; auto. exists s. split; auto. apply like_refl.
Qed.
Lemma finished_inv id c got all reset bad : inv c got all reset bad -> exists_in (c_q c) id = true -> stream_finished (c_q c) id = true -> inv (process_finished id c) got all reset bad.
Proof.
  intros h hex hf. destruct (finished_over _ _ hex hf) as (ho & hd). unfold process_finished. destruct (c_str c id) as [s|] eqn:E; auto.
  assert (HD : inv (with_fin (with_str c id (Some (snd (goto s StDone 0 false))) (c_q c)) (c_fin c ++ [id])) got all reset bad).
  { apply (inv_over id c); eauto; cbn [with_fin with_str c_q c_str c_fin]; auto.
    - intros j hj. apply upd_other. auto.
    - intros k hk. apply in_app_or in hk as [hk|[hk|[]]]; auto.
    - intros s'. rewrite upd_same. intros hs. rewrite goto_ok in hs by discriminate. cbn [snd] in hs. assert (s' = set_pos s StDone [] (h_cap s) 0 0) as -> by congruence. destruct (g_buf _ _ _ _ _ (proj1 h) id s E) as (h1 & h2).
      split; [|split; [cbn [set_pos h_buf]; rewrite zlen_nil; apply zlen_nonneg|exact h2]].
      destruct (g_str _ _ _ _ _ (proj1 h) id s E) as [(loc & wc & _)|(w1 & w2)]; [left; exists loc; split; [apply wfc_pos; auto|reflexivity]|right; split; [auto|discriminate]]. }
  assert (HN : inv (with_str c id None (c_q c)) got all reset bad).
  { apply (inv_over id c); eauto; cbn [with_fin with_str c_q c_str c_fin]; auto.
    - intros j hj. apply upd_other. auto.
    - intros s'. rewrite upd_same. discriminate. }
  destruct (h_st s); auto; destruct (h_ty s) as [[]|]; auto.
Qed.
Lemma remove_inv id c got all reset bad : inv c got all reset bad -> over (c_q c) id -> data_of (c_q c) id = [] -> inv (remove_finished id c) got all reset bad.
Proof.
  intros h ho hd. unfold remove_finished. destruct (c_str c id) as [s|] eqn:E; auto. destruct (h_lfin s); auto.
  apply (inv_over id c); eauto; cbn [with_fin with_str c_q c_str c_fin]; auto.
  - intros j hj. apply upd_other. auto.
  - intros s'. rewrite upd_same. discriminate.
Qed.
Lemma remove_uni id c got all reset bad : inv c got all reset bad -> is_bidi id = false -> inv (remove_finished id c) got all reset bad.
Proof.
  intros h hb. unfold remove_finished. destruct (c_str c id) as [s|] eqn:E; auto. destruct (h_lfin s); auto. destruct h as (g & hs). split.
  - destruct g. constructor; auto; cbn [with_str c_q c_str c_fin]; intros k sk hk; unfold upd in hk; destruct (k =? id) eqn:J; eauto; discriminate hk.
  - intros k hk. eapply status_frame; eauto. cbn [with_str c_str]. rewrite upd_other by congruence. destruct (c_str c k) as [s0|]; auto. exists s0. split; auto. apply like_refl.
Qed.
Lemma finish_local_inv id c got all reset bad : inv c got all reset bad -> is_some (q_str (c_q c) id) = true -> inv (finish_local id c) got all reset bad.
Proof.
  intros h hex. unfold finish_local. destruct (c_str c id) as [s|] eqn:E; auto. destruct (stream_finished (c_q c) id) eqn:F.
  - assert (hx : exists_in (c_q c) id = true) by (unfold exists_in; rewrite hex; auto). destruct (finished_over _ _ hx F). apply (inv_over id c); eauto; cbn [with_str c_q c_str c_fin]; auto.
    + intros j hj. apply upd_other. auto.
    + intros s'. rewrite upd_same. discriminate.
  - destruct h as (g & hs). split.
    + destruct g. constructor; auto; cbn [with_str c_q c_str c_fin]; intros k sk hk; unfold upd in hk; destruct (k =? id) eqn:J; eauto; injection hk as <-; assert (k = id) by lia; subst k.
      * eapply okstr_like; [apply like_lfin|]. eauto.
      * exact (g_buf id s E).
    + intros k hb. eapply status_frame; eauto. cbn [with_str c_str]. destruct (Z.eq_dec k id) as [-> |hk].
      * rewrite E, upd_same. exists (set_lfin s). split; auto. apply like_lfin.
      * rewrite upd_other by auto. destruct (c_str c k) as [s0|]; auto. exists s0. split; auto. apply like_refl.
Qed.
Lemma take_inv id c got all reset bad : inv c got all reset bad -> inv (snd (take_priority id c)) got all reset bad.
Proof.
  intros h. unfold take_priority. destruct (c_str c id) as [s|] eqn:E; auto. cbn [snd]. destruct h as (g & hs). split.
  - destruct g. constructor; auto; cbn [with_str c_q c_str c_fin]; intros k sk hk; unfold upd in hk; destruct (k =? id) eqn:J; eauto; injection hk as <-; assert (k = id) by lia; subst k.
    + eapply okstr_like; [apply like_prio|]. eauto.
    + exact (g_buf id s E).
  - intros k hb. eapply status_frame; eauto. cbn [with_str c_str]. destruct (Z.eq_dec k id) as [-> |hk].
    + rewrite E, upd_same. eexists. split; eauto. apply like_prio.
    + rewrite upd_other by auto. destruct (c_str c k) as [s0|]; auto. exists s0. split; auto. apply like_refl.
Qed.

(** ** Polling *)
Definition polled (got : Z -> list tok) (all : Z -> list Z) (reset : Z -> bool) (bad : bool) (o : res herr (Z * hevent) * conn) : Prop :=
  let '(r, c') := o in r <> Panic /\ inv c' (got_event got r) all reset (bad || is_bad r) /\ (r = Err HDone -> q_err (c_q c') = None).
Lemma or_else_polled got all reset bad o k : polled got all reset bad o -> (forall c, inv c got all reset bad -> q_err (c_q c) = None -> polled got all reset bad (k c)) -> polled got all reset bad (or_else o k).
Proof.
  destruct o as [r c]. intros h hk. unfold or_else. destruct r as [|e|]; auto. destruct e; auto. destruct h as (_ & h & h2). cbn in h. rewrite orb_false_r in h. auto.
Qed.
Lemma polled_done got all reset bad c : inv c got all reset bad -> q_err (c_q c) = None -> polled got all reset bad (Err HDone, c).
Proof. intros h hq. split; [discriminate|]. split; auto. cbn. rewrite orb_false_r. auto. Qed.
Lemma fail_polled got all reset bad c e : inv c got all reset bad -> q_err (c_q c) = None -> kind e = true -> polled got all reset bad (fail e c).
Proof.
  intros h hq hk. unfold fail, fail_as. destruct (close_with (to_wire e) e (c_q c)) as [e' q'] eqn:CL. destruct (close_spec _ _ _ _ _ (g_down _ _ _ _ _ (proj1 h)) CL) as (x & -> & hx).
  destruct hx as [(_ & -> & ->)|(hx & _)]; [|congruence]. assert (hb : @is_bad (Z * hevent) (Err e) = true) by (destruct e; auto; discriminate hk).
  split; [discriminate|]. split; [|intros h1; injection h1 as ->; discriminate hk]. rewrite hb, orb_true_r. eapply inv_q; eauto.
  - intros id t. cbn. apply (g_tr _ _ _ _ _ (proj1 h)).
  - cbn. apply (g_down _ _ _ _ _ (proj1 h)).
Qed.
Lemma readable_polled id c got all reset bad r c' : inv c got all reset bad -> (is_bidi id = true -> exists_in (c_q c) id = true) -> q_err (c_q c) = None ->
  process_readable true id c = (r, c') -> polled got all reset bad (r, c').
Proof.
  intros h hex hq hr. destruct (readable_inv server mfss mfss_ok true id c got all reset bad r c' h hex ltac:(auto) hr) as (e & _ & _ & P).
  destruct r as [ev|e0|]; [| |destruct P].
  - destruct P as (_ & P & _). split; [discriminate|]. split; [|discriminate]. cbn. rewrite orb_false_r. auto.
  - destruct P as (P & Pq & _). split; [discriminate|]. split; [|intros h1; injection h1 as ->; rewrite Pq; auto].
    eapply inv_bad; eauto. destruct e0; cbn; intros; rewrite ?orb_true_r; auto.
Qed.
Lemma control_polled id c got all reset bad : is_bidi id = false -> inv c got all reset bad -> q_err (c_q c) = None -> polled got all reset bad (process_control id c).
Proof.
  intros hb h hq. unfold process_control, if_finished. destruct (stream_finished (c_q c) id); [apply fail_polled; auto|].
  destruct (negb (stream_readable (c_q c) id)); [apply polled_done; auto|]. destruct (process_readable true id c) as [r c1] eqn:R.
  assert (P : polled got all reset bad (r, c1)) by (eapply readable_polled; eauto; congruence).
  destruct r as [|e|]; auto. destruct e; auto. destruct P as (_ & P & Pq). cbn in P. rewrite orb_false_r in P. destruct (stream_finished (c_q c1) id); [apply fail_polled; auto|apply polled_done; auto].
Qed.
Lemma pop_polled c got all reset bad : inv c got all reset bad -> q_err (c_q c) = None -> polled got all reset bad (popped c).
Proof.
  intros h hq. unfold popped, pop_finished. destruct (c_fin c) as [|id l] eqn:F; [apply polled_done; auto|].
  destruct (g_fin _ _ _ _ _ (proj1 h) id ltac:(rewrite F; left; auto)) as (ho & hd).
  assert (h1 : inv (with_fin c l) got all reset bad).
  { destruct h as (g & hs). split; [destruct g; constructor; auto; cbn [with_fin c_q c_fin]; intros k hk; apply g_fin; rewrite F; right; auto|exact hs]. }
  assert (h2 : inv (remove_finished id (with_fin c l)) got all reset bad) by (apply remove_inv; auto).
  assert (hq2 : c_q (remove_finished id (with_fin c l)) = c_q c) by (unfold remove_finished; destruct (c_str _ id) as [s|]; auto; destruct (h_lfin s); auto).
  assert (HE : forall c', inv c' got all reset bad -> forall ev, (ev = EvFinished \/ exists code, ev = EvReset code) -> polled got all reset bad (Ok (id, ev), c')).
  { intros c' hc ev hev. split; [discriminate|]. split; [|discriminate]. cbn [is_bad]. rewrite orb_false_r. destruct hev as [-> |(code & ->)]; exact hc. }
  destruct (stream_readable (c_q _) id) eqn:SR; [|apply HE; auto]. destruct (stream_recv (c_q _) id 0) as [r q1] eqn:R.
  destruct (recv_spec _ id 0 _ _ (g_tr _ _ _ _ _ (proj1 h2)) ltac:(lia) R) as (m1 & e1 & sp).
  assert (h3 : inv (with_q (remove_finished id (with_fin c l)) q1) got all reset bad).
  { eapply inv_moved; eauto. destruct r as [[bs fin]|e|]; [| |destruct sp].
    - destruct sp as (d1 & _). rewrite hq2 in *. rewrite hd in d1. symmetry in d1. apply app_eq_nil in d1 as (_ & d1). congruence.
    - destruct e; try apply sp. destruct sp as (-> & _). auto. }
  destruct r as [[bs fin]|e|]; [apply HE; auto| |apply HE; auto]. destruct e; apply HE; eauto.
Qed.
Lemma streams_polled : forall ids c got all reset bad, inv c got all reset bad -> q_err (c_q c) = None -> (forall id, In id ids -> exists_in (c_q c) id = true) -> polled got all reset bad (poll_streams ids c).
Proof.
  induction ids as [|id ids IH]; intros c got all reset bad h hq hex; [apply polled_done; auto|]. cbn [poll_streams]. destruct (process_readable true id c) as [r c1] eqn:R.
  assert (hid : exists_in (c_q c) id = true) by (apply hex; left; auto).
  assert (P : polled got all reset bad (r, c1)) by (eapply readable_polled; eauto).
  destruct (readable_inv server mfss mfss_ok true id c got all reset bad r c1 h ltac:(auto) ltac:(auto) R) as (e & _ & _ & PR).
  assert (hex1 : forall j, exists_in (c_q c1) j = exists_in (c_q c) j) by (intros j; apply exists_other with id; apply (ev_q _ _ _ e)).
  assert (HF : forall got', inv c1 got' all reset bad -> inv (if stream_finished (c_q c1) id then process_finished id c1 else c1) got' all reset bad).
  { intros got' hi. destruct (stream_finished (c_q c1) id) eqn:F; auto. apply finished_inv; auto. rewrite hex1. auto. }
  assert (HFq : c_q (if stream_finished (c_q c1) id then process_finished id c1 else c1) = c_q c1).
  { destruct (stream_finished (c_q c1) id); auto. unfold process_finished. destruct (c_str c1 id) as [s|]; auto. destruct (h_st s); auto; destruct (h_ty s) as [[]|]; auto. }
  destruct r as [ev|e0|]; [| |destruct PR].
  - destruct PR as (_ & PR & _). split; [discriminate|]. split; [|discriminate]. cbn [is_bad]. rewrite orb_false_r. auto.
  - destruct PR as (PR & Pq & Po & _). destruct e0 as [| | | | | | | | | | |t| |]; try exact P.
    + cbn [kind] in PR. rewrite orb_false_r in PR. apply IH; auto.
      * rewrite HFq, Pq; auto.
      * intros j hj. rewrite HFq, hex1. apply hex. right. auto.
    + destruct t; try exact P. split; [discriminate|]. split; [|discriminate]. cbn [is_bad got_event]. rewrite orb_false_r. cbn [kind] in PR. rewrite orb_false_r in PR.
      destruct (is_bidi id) eqn:B.
      * destruct (Po eq_refl) as (ho & hd). apply remove_inv; auto.
      * apply remove_uni; auto.
Qed.

Theorem poll_inv ids c got all reset bad r c' : inv c got all reset bad -> poll ids c = (r, c') -> r <> Panic /\ inv c' (got_event got r) all reset (bad || is_bad r).
Proof.
  intros h hp. unfold poll in hp. destruct (is_some (q_err (c_q c))) eqn:Q.
  - injection hp as <- <-. split; [discriminate|]. cbn. rewrite orb_false_r. auto.
  - assert (hq : q_err (c_q c) = None) by (destruct (q_err (c_q c)); auto; discriminate Q).
    assert (HC : forall o c, inv c got all reset bad -> q_err (c_q c) = None -> (forall i, o = Some i -> is_bidi i = false) -> polled got all reset bad (control_of o c)).
    { intros o c0 h0 hq0 ho. unfold control_of. destruct o as [i|]; [apply control_polled; auto|apply polled_done; auto]. }
    assert (hu : forall c, inv c got all reset bad -> uni_ids c) by (intros c0 (g & _); apply g).
    assert (P : polled got all reset bad (r, c')); [|destruct P as (p1 & p2 & _); auto]. rewrite <- hp. clear hp r c'.
    apply or_else_polled; [apply HC; auto; intros i hi; apply (hu c h); auto|]. intros c1 h1 q1.
    apply or_else_polled; [apply HC; auto; intros i hi; apply (hu c1 h1); auto|]. intros c2 h2 q2.
    apply or_else_polled; [apply HC; auto; intros i hi; apply (hu c2 h2); auto|]. intros c3 h3 q3.
    apply or_else_polled; [apply pop_polled; auto|]. intros c4 h4 q4.
    apply or_else_polled; [|intros c5 h5 q5; apply pop_polled; auto].
    apply streams_polled; auto. intros id hid. apply filter_In in hid as (_ & hid). unfold stream_readable in hid. unfold exists_in. destruct (q_str (c_q c4) id); auto. discriminate hid.
Qed.

(** ** Reading a body *)
Lemma add_to_same {A} (f : Z -> list A) id l : add_to f id l id = f id ++ l.
Proof. unfold add_to. rewrite Z.eqb_refl. auto. Qed.
Lemma add_to_other {A} (f : Z -> list A) id l k : k <> id -> add_to f id l k = f k.
Proof. unfold add_to. intros h. replace (k =? id) with false by lia. auto. Qed.
Lemma consume_inv id s c got acc all reset bad n r s1 q1 : inv c (add_to got id (map KByte acc)) all reset bad -> exists_in (c_q c) id = true -> c_str c id = Some s -> h_st s = StData -> 0 <= n ->
  consume_data id s (c_q c) n = (r, s1, q1) ->
  let c1 := with_str c id (Some s1) q1 in
  is_bidi id = true /\ exists_in (c_q c1) id = true /\ wfx server mfss id s1 /\
  match r with
  | Ok (bs, fin) => data_of (c_q c) id = bs ++ data_of (c_q c1) id /\ inv c1 (add_to got id (map KByte (acc ++ bs))) all reset bad /\
      (let g := add_to got id (map KByte (acc ++ bs)) id in live server mfss c1 g (all id) id \/ dead server mfss c1 g (all id) (reset id) bad id)
  | Err HDone => inv c1 (add_to got id (map KByte acc)) all reset bad
  | Err e => inv c1 got all reset true
  | Panic => False
  end.
Proof.
  intros (g & hs) hex E hst hn hc c1. destruct (g_cfg _ _ _ _ _ g) as (hsv & hmf).
  destruct (g_str _ _ _ _ _ g id s E) as [(loc0 & hw0)|(_ & h)]; [|congruence].
  assert (hb : is_bidi id = true) by (destruct hw0 as (_ & wp); unfold wf_pos in wp; rewrite hst in wp; apply wp).
  set (g0 := add_to got id (map KByte acc)) in *.
  assert (exists loc, wf server mfss loc id s /\ ((loc = is_local id server /\ exists seen, all id = seen ++ data_of (c_q c) id /\ forall more, g0 id ++ resume (cfg id) s more = says_all (cfg id) (seen ++ more)) \/
     dead server mfss c (g0 id) (all id) (reset id) bad id)) as (loc & hw & hcase).
  { destruct (hs id hb) as [((h & _) & _)|[(s2 & seen & h1 & h2 & h3 & h4)|[h|(_ & (s2 & h1 & h2) & _)]]]; try congruence.
    - rewrite E in h1. injection h1 as <-. exists (is_local id server). split; auto. left. split; auto. exists seen. auto.
    - exists loc0. auto. }
  destruct (consume_spec server mfss loc id s (c_q c) n r s1 q1 hw hst (g_tr _ _ _ _ _ g) hn hc) as (m1 & e1 & w1 & b1 & k1 & sp).
  assert (hat : at_id id c c1 s1 q1) by (eapply at_with, at_refl; eauto). assert (henv : env id c c1) by (eapply env_at; eauto).
  assert (hex1 : exists_in (c_q c1) id = true) by (rewrite (exists_other id _ _ id (ev_q _ _ _ henv)); auto).
  split; auto. split; auto. split; [exists loc; auto|]. assert (hq1 : c_q c1 = q1) by reflexivity.
  assert (HG : forall bs, data_of (c_q c) id = bs ++ data_of q1 id -> glob c1 all bad).
  { intros bs hd. eapply glob_env; eauto.
    - apply (at_self _ _ _ _ _ hat).
    - unfold stream_at. rewrite E. unfold grown. rewrite b1, zlen_nil. pose proof (zlen_nonneg (h_buf s)). pose proof (zlen_nonneg bs). lia.
    - left. exists loc. auto.
    - rewrite hq1, e1. auto.
    - rewrite hq1, e1. apply g. }
  assert (HO : forall k bad' got0, is_bidi k = true -> k <> id -> (bad = true -> bad' = true) -> got0 = g0 k -> status c1 got0 (all k) (reset k) bad' k).
  { intros k bad' got0 hbk hk hbb ->. eapply status_other; eauto. rewrite hq1, e1. auto. }
  assert (HS : forall bs, data_of (c_q c) id = bs ++ data_of q1 id -> (forall more, resume (cfgl server mfss loc id) s (bs ++ more) = map KByte bs ++ resume (cfgl server mfss loc id) s1 more) ->
     live server mfss c1 (g0 id ++ map KByte bs) (all id) id \/ dead server mfss c1 (g0 id ++ map KByte bs) (all id) (reset id) bad id).
  { intros bs hd hm. destruct hcase as [(-> & seen & h1 & h2)|h].
    - left. exists s1, (seen ++ bs). split; [apply (at_self _ _ _ _ _ hat)|]. split; auto. rewrite hq1. split; [rewrite h1, hd, app_assoc; auto|]. intros more. rewrite <- !app_assoc. rewrite <- h2. f_equal. symmetry. apply hm.
    - right. pose proof h as (h1 & h2 & _). rewrite h2 in hd. symmetry in hd. apply app_eq_nil in hd as (-> & hd). cbn [map]. rewrite app_nil_r. eapply dead_mono; eauto. eapply over_other; eauto. }
  destruct r as [[bs fin]|e|]; [| |destruct sp].
  - destruct sp as (hd & _ & _ & hm). split; auto. assert (hg : add_to got id (map KByte (acc ++ bs)) id = g0 id ++ map KByte bs) by (unfold g0; rewrite !add_to_same, map_app, app_assoc; auto).
    specialize (HS bs hd hm). rewrite hg. split; auto. split; [eauto|]. intros k hk. destruct (Z.eq_dec k id) as [-> |hne].
    + rewrite hg. destruct HS; [right; left|right; right; left]; auto.
    + apply HO; auto. unfold g0. rewrite !add_to_other; auto.
  - destruct sp as (hd & hm & hee). specialize (HG [] (eq_sym hd)). specialize (HS [] (eq_sym hd) hm). cbn [map] in HS. rewrite app_nil_r in HS.
    assert (hi : inv c1 g0 all reset bad).
    { split; auto. intros k hk. destruct (Z.eq_dec k id) as [-> |hne]; [|apply HO; auto]. destruct HS; [right; left|right; right; left]; auto. }
    destruct hee as [-> |(t & -> & hee)]; auto. destruct (hee hex) as (ho & hd0). split.
    + destruct HG; constructor; auto.
    + intros k hk. destruct (Z.eq_dec k id) as [-> |hne].
      * right. right. left. split; auto. split; auto. pose proof (status_dead server mfss c1 (g0 id) (all id) (reset id) bad id all hb HG (proj2 hi id hb) ho hd0) as (_ & _ & x & hx & _). exists (map KByte acc ++ x). split; [|discriminate].
        rewrite hx. unfold g0. rewrite add_to_same, app_assoc. auto.
      * apply HO; auto. unfold g0. rewrite add_to_other; auto.
Qed.
Lemma body_inv id got all reset bad : forall fuel room acc c r c', inv c (add_to got id (map KByte acc)) all reset bad -> exists_in (c_q c) id = true -> zlen (data_of (c_q c) id) < Z.of_nat fuel ->
  (acc = [] \/ c_str c id <> None) -> body_loop fuel id room acc c = (r, c') ->
  match r with
  | Ok acc' => inv c' (add_to got id (map KByte acc')) all reset bad /\ exists_in (c_q c') id = true
  | Err e => inv c' got all reset (bad || is_bad r)
  | Panic => False
  end.
Proof.
  induction fuel as [|fuel IH]; intros room acc c r c' h hex hf hacc hr; [pose proof (zlen_nonneg (data_of (c_q c) id)); lia|]. cbn [body_loop] in hr.
  destruct (room <=? 0) eqn:ER; [injection hr as <- <-; auto|].
  destruct (c_str c id) as [s|] eqn:E.
  2:{ injection hr as <- <-. destruct hacc as [-> |]; [|congruence]. cbn [is_bad]. rewrite orb_false_r. eapply inv_bad; eauto. intros k _. destruct (Z.eq_dec k id) as [-> |hne]; [rewrite add_to_same; cbn; rewrite app_nil_r; auto|rewrite add_to_other; auto]. }
  destruct (h_st s) eqn:ST; try (injection hr as <- <-; auto).
  destruct (consume_data id s (c_q c) room) as [[r1 s1] q1] eqn:C. set (c1 := with_str c id (Some s1) q1) in *.
  destruct (consume_inv id s c got acc all reset bad room r1 s1 q1 h hex E ST ltac:(lia) C) as (hb & hex1 & hw1 & P). fold c1 in P, hex1.
  destruct r1 as [[bs fin]|e|]; [| |destruct P].
  - destruct P as (hd & hi & hld). destruct (is_nil bs || fin) eqn:EN; [injection hr as <- <-; auto|]. apply orb_false_iff in EN as (EN & _).
    assert (hlen : zlen (data_of (c_q c1) id) < zlen (data_of (c_q c) id)) by (rewrite hd, zlen_app; destruct bs; [discriminate EN|rewrite zlen_cons; pose proof (zlen_nonneg bs); lia]).
    destruct (process_readable false id c1) as [r2 c2] eqn:R.
    assert (hs1 : stream_at c1 id = s1) by (unfold stream_at, c1; cbn [with_str c_str]; rewrite upd_same; auto).
    destruct (readable_inv server mfss mfss_ok false id c1 _ all reset bad r2 c2 hi (fun _ => hex1) ltac:(right; rewrite hs1; auto) R) as (henv & hne & hle & P).
    assert (hex2 : exists_in (c_q c2) id = true) by (rewrite (exists_other id _ _ id (ev_q _ _ _ henv)); auto).
    assert (HE : forall e, e <> HDone -> r2 = Err e -> inv c2 got all reset (bad || @is_bad (list Z) (Err e))).
    { intros e hd2 ->. destruct P as (P & _ & _ & Px). assert (hbe : @is_bad (list Z) (Err e) = true) by (destruct e; auto; congruence). rewrite hbe, orb_true_r. destruct P as (Pg & Ps). split.
      - destruct Pg; constructor; auto.
      - intros k hk. destruct (Z.eq_dec k id) as [-> |hk2].
        + eapply Px; auto. rewrite add_to_same. reflexivity.
        + specialize (Ps k hk). rewrite add_to_other in Ps by auto. eapply status_frame; eauto. destruct (c_str c2 k) as [s0|]; auto. exists s0. split; auto. apply like_refl. }
    destruct r2 as [ev|e|]; [destruct P; discriminate| |destruct P].
    assert (HE2 : e <> HDone -> match e with HDone => if stream_finished (c_q c2) id then (Ok (acc ++ bs), c2) else body_loop fuel id (room - zlen bs) (acc ++ bs) c2 | _ => (Err e, c2) end = (r, c') -> match r with
        | Ok acc' => inv c' (add_to got id (map KByte acc')) all reset bad /\ exists_in (c_q c') id = true
        | Err e => inv c' got all reset (bad || is_bad r) | Panic => False end).
    { intros hne0 hh. assert (hh2 : (Err e, c2) = (r, c')) by (destruct e; auto; congruence). injection hh2 as <- <-. apply HE; auto. }
    destruct e; try (apply HE2; [discriminate|exact hr]). cbn [kind] in P. rewrite orb_false_r in P. destruct P as (P & _).
    destruct (stream_finished (c_q c2) id); [injection hr as <- <-; auto|]. eapply IH; eauto. lia.
  - destruct e; injection hr as <- <-; auto; cbn [is_bad]; rewrite ?orb_true_r; auto.
Qed.
Theorem body_poll_inv id room c got all reset bad r c' : inv c got all reset bad -> exists_in (c_q c) id = true -> recv_body id room c = (r, c') ->
  r <> Panic /\ inv c' (got_body got id r) all reset (bad || is_bad r).
Proof.
  intros h hex hr. unfold recv_body in hr. set (fuel := S _) in hr.
  assert (h0 : inv c (add_to got id (map KByte [])) all reset bad).
  { eapply inv_bad; eauto. intros k _. destruct (Z.eq_dec k id) as [-> |hne]; [rewrite add_to_same; cbn; rewrite app_nil_r; auto|rewrite add_to_other; auto]. }
  destruct (body_loop fuel id room [] c) as [r1 c1] eqn:B.
  pose proof (body_inv id got all reset bad fuel room [] c r1 c1 h0 hex ltac:(unfold fuel, data_of, zlen; destruct (q_str (c_q c) id); cbn [length]; lia) ltac:(auto) B) as P.
  destruct r1 as [acc|e|]; [| |destruct P].
  - destruct P as (P & hex1). assert (P2 : inv (if stream_finished (c_q c1) id then process_finished id c1 else c1) (add_to got id (map KByte acc)) all reset bad).
    { destruct (stream_finished (c_q c1) id) eqn:F; auto. apply finished_inv; auto. }
    injection hr as <- <-. destruct (is_nil acc) eqn:N; (split; [discriminate|]); cbn [is_bad got_body]; rewrite orb_false_r; auto.
    destruct acc; [|discriminate N]. eapply inv_bad; eauto. intros k _. destruct (Z.eq_dec k id) as [-> |hne]; [rewrite add_to_same; cbn; rewrite app_nil_r; auto|rewrite add_to_other; auto].
  - injection hr as <- <-. split; [discriminate|]. auto.
Qed.
End Run.
