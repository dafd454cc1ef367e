(** Consequences of the history invariant, in the form the properties use. *)
Require Import Verif.Base Verif.Errors Verif.FlowControlModel Verif.RangeBufModel
  Verif.RangeBufProofs Verif.RecvBufModel Verif.RecvBufProofs Verif.RecvBufProofs2
  Verif.RecvSpec Verif.RecvBufProofs3 Verif.RecvBufProofs4.
From Coq Require Import Sorting.Sorted.

Section Fixed.
Variables (md w mw : Z).
Hypotheses (hmd : 0 <= md) (hw : 0 <= w) (hmw : 0 <= mw).

Lemma run_hist ops outs st :
  Forall rv_op_ok ops -> rv_run ops (rv_new md w mw) = Ok (outs, st) -> rv_hist md ops outs st.
Proof. intros hok hr. exact (rv_run_hist md ops [] [] _ _ _ (rv_hist_new md w mw hmd hw hmw) hok hr). Qed.

Lemma recv_no_panic ops : Forall rv_op_ok ops -> rv_run ops (rv_new md w mw) <> Panic.
Proof. intros hok. exact (rv_run_no_panic md ops [] [] _ (rv_hist_new md w mw hmd hw hmw) hok). Qed.

Lemma recv_prefix S ops outs st :
  Forall rv_op_ok ops -> Forall (cut_from S) ops ->
  rv_run ops (rv_new md w mw) = Ok (outs, st) ->
  exists rest, S = read_bytes outs ++ rest.
Proof.
  intros hok hcut hr. pose proof (run_hist _ _ _ hok hr) as H.
  exists (drop (zlen (read_bytes outs)) S).
  assert (hp : forall i, 0 <= i < zlen (read_bytes outs) -> zget S i = zget (read_bytes outs) i).
  { intros i hi. destruct (zget (read_bytes outs) i) eqn:E.
    - destruct (h_bytes _ _ _ _ H i z E) as (op & hin & hc).
      rewrite Forall_forall in hcut. apply (hcut op hin i z hc).
    - apply zget_none_range in E. lia. }
  assert (hlen : zlen (read_bytes outs) <= zlen S).
  { pose proof (zlen_nonneg (read_bytes outs)) as h0. destruct (Z.eq_dec (zlen (read_bytes outs)) 0) as [e|n].
    - rewrite e. apply zlen_nonneg.
    - pose proof (hp (zlen (read_bytes outs) - 1) ltac:(lia)) as q.
      destruct (zget (read_bytes outs) (zlen (read_bytes outs) - 1)) eqn:E.
      + apply zget_some_range in q. lia.
      + apply zget_none_range in E. lia. }
  rewrite <- (take_drop (zlen (read_bytes outs)) S) at 1. f_equal.
  apply zget_ext; [rewrite zlen_take; pose proof (zlen_nonneg (read_bytes outs)); lia|].
  intros i hi. rewrite zlen_take in hi by (pose proof (zlen_nonneg (read_bytes outs)); lia).
  rewrite zget_take by lia. apply hp. lia.
Qed.

Lemma recv_from_frames ops outs st i :
  Forall rv_op_ok ops -> rv_run ops (rv_new md w mw) = Ok (outs, st) ->
  0 <= i < zlen (read_bytes outs) ->
  exists op x, In op ops /\ carries op i x /\ zget (read_bytes outs) i = Some x.
Proof.
  intros hok hr hi. pose proof (run_hist _ _ _ hok hr) as H.
  destruct (zget (read_bytes outs) i) eqn:E; [|apply zget_none_range in E; lia].
  destruct (h_bytes _ _ _ _ H i z E) as (op & hin & hc). eauto.
Qed.

Lemma not_stopped ops outs st :
  rv_hist md ops outs st -> ~ stopped ops -> rv_drain st = false /\ rv_error st = None.
Proof.
  intros H hs. unfold stopped in hs. split.
  - destruct (rv_drain st) eqn:E; auto. apply (h_drain _ _ _ _ H) in E. tauto.
  - destruct (rv_error st) eqn:E; auto. exfalso. apply hs. right. apply (h_error _ _ _ _ H). congruence.
Qed.

Lemma recv_complete ops outs st n cap :
  Forall rv_op_ok ops -> rv_run ops (rv_new md w mw) = Ok (outs, st) ->
  ~ stopped ops -> (forall o, 0 <= o < n -> arrived ops o) ->
  zlen (read_bytes outs) < n -> n <= zlen (read_bytes outs) + cap ->
  exists bytes fin st', rv_step (RvRead cap) st = Ok (ORead (Ok (bytes, fin)), st') /\
    n <= zlen (read_bytes outs ++ bytes).
Proof.
  intros hok hr hs harr h1 h2. pose proof (run_hist _ _ _ hok hr) as H.
  destruct (not_stopped _ _ _ H hs) as (hd & he).
  pose proof (h_read_eq _ _ _ _ H hd he) as hoff.
  pose proof (h_inv _ _ _ _ H) as hinv. pose proof (i_off _ hinv).
  assert (hl : forall o, rv_off st <= o < n -> look (rv_data st) o <> None).
  { intros o ho. apply (h_arrived _ _ _ _ H); auto; try lia. apply harr; lia. }
  assert (hready : rv_ready st = true).
  { apply rv_ready_spec; auto. left. specialize (hl (rv_off st) ltac:(lia)).
    destruct (look (rv_data st) (rv_off st)); eauto; congruence. }
  cbn [rv_step]. pose proof (rv_emit_spec cap st hinv ltac:(lia)) as W.
  destruct (rv_emit cap st) as [[ [bytes f] | e |] s1]; try contradiction.
  - destruct W as (w1 & w2 & w3 & w4 & w5 & w6 & w7 & w8 & w9 & w10 & w11 & w12 & w13 & w14 & w15).
    exists bytes, f, s1. split; auto. rewrite zlen_app. destruct w15 as [q|q]; [lia|].
    destruct (Z_lt_ge_dec (rv_off s1) n); [|lia]. exfalso. apply (hl (rv_off s1)); [pose proof (zlen_nonneg bytes); lia|auto].
  - destruct W as (_ & _ & _ & _ & _ & _ & _ & [(_ & q & _)|(c & _ & _ & q)]); congruence.
Qed.

Lemma recv_readable_progress ops outs st cap :
  Forall rv_op_ok ops -> rv_run ops (rv_new md w mw) = Ok (outs, st) -> 0 < cap ->
  exists r st', rv_step (RvRead cap) st = Ok (ORead r, st') /\
    (rv_ready st = true <->
     match r with
     | Ok (bytes, fin) => bytes <> [] \/ fin = true
     | Err (StreamReset _) => True
     | _ => False
     end) /\
    (rv_ready st = false <-> r = Err Done).
Proof.
  intros hok hr hcap. pose proof (run_hist _ _ _ hok hr) as H.
  pose proof (h_inv _ _ _ _ H) as hinv.
  cbn [rv_step]. pose proof (rv_emit_spec cap st hinv ltac:(lia)) as W.
  destruct (rv_emit cap st) as [[ [bytes f] | e |] s1]; try contradiction.
  - destruct W as (w1 & w2 & w3 & w4 & w5 & w6 & w7 & w8 & w9 & w10 & w11 & w12 & w13 & w14 & w15).
    eexists _, _. split; [reflexivity|]. rewrite w1.
    split; [|split; discriminate]. split; auto. intros _.
    apply rv_ready_spec in w1; auto. destruct w1 as [(x & hx)|(b & b1 & b2 & b3 & b4)].
    + left. intros ->. cbn in *. destruct w15 as [q|q]; [unfold zlen in q; cbn in q; lia|].
      rewrite w5, Z.add_0_r in q. congruence.
    + right. rewrite w12. unfold rv_is_fin. rewrite w8, b4.
      assert (zlen bytes = 0); [|lia].
      pose proof (zlen_nonneg bytes). destruct (Z.eq_dec (zlen bytes) 0); auto.
      specialize (w13 0 ltac:(lia)). rewrite b1 in w13. cbn [look] in w13. rewrite bget_none in w13.
      * apply zget_none_range in w13. lia.
      * pose proof (i_chain _ hinv) as ic. rewrite b1 in ic. apply ic.
      * unfold rbM. lia.
  - destruct W as (_ & _ & _ & _ & _ & _ & _ & [(-> & q & _)|(c & -> & q & _)]);
      eexists _, _; (split; [reflexivity|]); rewrite q.
    + split; [split; [discriminate|tauto]|tauto].
    + split; [tauto|split; discriminate].
Qed.

Lemma rl_loop_spec max_len : forall bs c next,
  chain next bs -> 0 <= c < max_len ->
  exists k, rl_loop max_len bs c next = c + k /\ 0 <= k <= max_len - c /\
    (forall o, next <= o < next + k -> look bs o <> None) /\
    (c + k = max_len \/ look bs (next + k) = None).
Proof.
  induction bs as [|b tl IH]; intros c next hc hlt; cbn [rl_loop].
  - exists 0. repeat split; try lia. right; reflexivity.
  - pose proof hc as (w1 & h2 & h3 & h4 & h5). pose proof (rbL_nonneg b w1).
    assert (hM : rbM b = rbO b + rbL b) by reflexivity.
    destruct (rbO b =? next) eqn:E; cbn [negb].
    2:{ exists 0. split; [lia|]. split; [lia|]. split; [intros; lia|]. right. rewrite Z.add_0_r.
        apply (look_none next); auto. intros x [<-|hin]; [lia|].
        destruct (chain_wf _ _ _ h5 hin). left; lia. }
    assert (hb : forall o, next <= o < next + rbL b -> look (b :: tl) o <> None).
    { intros o ho. cbn [look]. destruct (bget_some b o w1) as (x & ->); [lia|]. discriminate. }
    destruct (Z.min (c + rbL b) max_len =? max_len) eqn:E2.
    + exists (max_len - c). split; [lia|]. split; [lia|]. split; [|left; lia].
      intros o ho. apply hb. lia.
    + replace (Z.min (c + rbL b) max_len) with (c + rbL b) by lia.
      destruct (IH (c + rbL b) (rbM b) h5 ltac:(lia)) as (k & k1 & k2 & k3 & k4).
      exists (rbL b + k). split; [lia|]. split; [lia|].
      assert (lk : forall o, next + rbL b <= o -> look (b :: tl) o = look tl o).
      { intros o ho. cbn [look]. rewrite bget_none; auto. right; lia. }
      split.
      * intros o ho. destruct (Z_lt_ge_dec o (next + rbL b)); [apply hb; lia|].
        rewrite lk by lia. apply k3. lia.
      * destruct k4 as [k4|k4]; [left; lia|right]. rewrite lk by lia. rewrite <- k4. f_equal. lia.
Qed.

Lemma recv_readable_len ops outs st m :
  Forall rv_op_ok ops -> rv_run ops (rv_new md w mw) = Ok (outs, st) ->
  ~ stopped ops -> 0 < m ->
  let k := rv_readable_len m st in let r := zlen (read_bytes outs) in
  0 <= k <= m /\ (forall o, r <= o < r + k -> arrived ops o) /\
  (k = m \/ ~ arrived ops (r + k)).
Proof.
  intros hok hr hs hm. cbv zeta. pose proof (run_hist _ _ _ hok hr) as H.
  destruct (not_stopped _ _ _ H hs) as (hd & he).
  pose proof (h_read_eq _ _ _ _ H hd he) as hoff.
  pose proof (h_inv _ _ _ _ H) as hinv.
  unfold rv_readable_len.
  destruct (rl_loop_spec m (rv_data st) 0 (rv_off st) (i_chain _ hinv) ltac:(lia)) as (k & -> & k2 & k3 & k4).
  cbn [Z.add]. rewrite hoff. split; [lia|]. split.
  - intros o ho. specialize (k3 o ho). destruct (look (rv_data st) o) eqn:E; [|congruence].
    destruct (h_look _ _ _ _ H _ _ E) as (op & i1 & i2). exists op, z; auto.
  - destruct k4 as [k4|k4]; [left; lia|right]. intros ha.
    revert k4. apply (h_arrived _ _ _ _ H hd he); auto. lia.
Qed.

(** *** acceptance *)
Lemma recv_frame_accepted ops outs st off data fin :
  Forall rv_op_ok ops -> rv_run ops (rv_new md w mw) = Ok (outs, st) -> 0 <= off ->
  let e := off + zlen data in
  (forall f, last_limit md outs < e -> rv_step (RvFrame off data f) st = Err FlowControlE) /\
  (e <= last_limit md outs ->
    ((forall op f, In op ops -> final_size_of op f -> e <= f /\ (fin = true -> e = f)) /\
     (fin = true -> forall op u, In op ops -> uses_up_to op u -> u <= e) ->
     exists o st', rv_step (RvFrame off data fin) st = Ok (o, st')) /\
    (~ ((forall op f, In op ops -> final_size_of op f -> e <= f /\ (fin = true -> e = f)) /\
        (fin = true -> forall op u, In op ops -> uses_up_to op u -> u <= e)) ->
     rv_step (RvFrame off data fin) st = Err FinalSize)).
Proof.
  intros hok hr hoff. cbv zeta. pose proof (run_hist _ _ _ hok hr) as H.
  pose proof (h_inv _ _ _ _ H) as hinv. rewrite (h_limit _ _ _ _ H).
  split.
  - intros f hl. cbn [rv_step]. destruct (rb_from_views data off f) as (_ & _ & vM & _).
    unfold rv_write. rewrite vM. replace (fc_max_data (rv_fc st) <? off + zlen data) with true by lia. reflexivity.
  - intros hl. cbn [rv_step]. pose proof (rv_write_spec data off fin st hinv hoff) as W. cbv zeta in W.
    destruct (rv_write (rb_from data off fin) st) as [s1|e|]; cbn [bind]; try contradiction.
    + split; [eauto|]. intros hn. exfalso. apply hn.
      destruct W as (_ & _ & _ & _ & _ & wfo & wlen & _). split.
      * intros op f hin hf. apply (h_fin1 _ _ _ _ H _ _ hin) in hf. destruct (wfo f hf). split; auto. intros; symmetry; auto.
      * intros hfin op u hin hu. apply (h_len1 _ _ _ _ H _ _ hin) in hu. specialize (wlen hfin). lia.
    + destruct W as [(-> & q)|(-> & _ & q)]; [lia|]. split; [|auto].
      intros (a1 & a2). exfalso. destruct q as [(f & f1 & f2)|(f1 & f2)].
      * destruct (h_fin2 _ _ _ _ H f f1) as (op & i1 & i2). destruct (a1 op f i1 i2). destruct f2 as [|(f2 & f3)]; [lia|].
        apply f3. symmetry; auto.
      * destruct (h_len2 _ _ _ _ H) as [l0|(op & i1 & i2)]; [pose proof (zlen_nonneg data); lia|].
        specialize (a2 f1 op _ i1 i2). lia.
Qed.

Lemma recv_reset_accepted ops outs st code final :
  Forall rv_op_ok ops -> rv_run ops (rv_new md w mw) = Ok (outs, st) -> 0 <= final ->
  let legal := (forall op f, In op ops -> final_size_of op f -> final = f) /\
               (forall op u, In op ops -> uses_up_to op u -> u <= final) in
  (legal -> final <= last_limit md outs -> exists o st', rv_step (RvReset code final) st = Ok (o, st')) /\
  (legal -> last_limit md outs < final -> rv_step (RvReset code final) st = Err FlowControlE) /\
  (~ legal -> rv_step (RvReset code final) st = Err FinalSize).
Proof.
  intros hok hr hf. cbv zeta. pose proof (run_hist _ _ _ hok hr) as H.
  pose proof (h_inv _ _ _ _ H) as hinv. rewrite (h_limit _ _ _ _ H). cbn [rv_step].
  pose proof (rv_reset_spec code final st hinv hf) as W.
  destruct (rv_reset code final st) as [[ [d c] | e |] s1]; try contradiction.
  - destruct W as (w1 & w2 & w3 & w4 & w5 & _).
    split; [eauto|]. split; [lia|]. intros hn. exfalso. apply hn. split.
    + intros op f hin hff. symmetry. apply w5. eapply h_fin1; eauto.
    + intros op u hin hu. apply (h_len1 _ _ _ _ H _ _ hin) in hu. lia.
  - assert (hleg : (forall op f, In op ops -> final_size_of op f -> final = f) /\
               (forall op u, In op ops -> uses_up_to op u -> u <= final) ->
               ~ ((exists f, rv_fin_off st = Some f /\ f <> final) \/ final < rv_len st)).
    { intros (a1 & a2) [(f & f1 & f2)|q].
      - destruct (h_fin2 _ _ _ _ H f f1) as (op & i1 & i2). apply f2. symmetry; eauto.
      - destruct (h_len2 _ _ _ _ H) as [l0|(op & i1 & i2)]; [lia|]. specialize (a2 op _ i1 i2). lia. }
    split; [|split].
    + intros hl hle. destruct W as [(_ & q)|(_ & q & _)]; [|lia]. exfalso. apply (hleg hl q).
    + intros hl hle. destruct W as [(_ & q)|(-> & q)]; auto. exfalso. apply (hleg hl q).
    + intros hn. destruct W as [(-> & _)|(-> & q1 & q2 & q3)]; auto. exfalso. apply hn. split.
      * intros op f hin hff. symmetry. apply q3. eapply h_fin1; eauto.
      * intros op u hin hu. apply (h_len1 _ _ _ _ H _ _ hin) in hu. lia.
Qed.

Lemma recv_one_final_size ops outs st :
  Forall rv_op_ok ops -> rv_run ops (rv_new md w mw) = Ok (outs, st) ->
  (forall op1 op2 f1 f2, In op1 ops -> In op2 ops -> final_size_of op1 f1 -> final_size_of op2 f2 -> f1 = f2) /\
  (forall op1 op2 f u, In op1 ops -> In op2 ops -> final_size_of op1 f -> uses_up_to op2 u -> u <= f).
Proof.
  intros hok hr. pose proof (run_hist _ _ _ hok hr) as H. split.
  - intros op1 op2 f1 f2 i1 i2 s1 s2. apply (h_fin1 _ _ _ _ H _ _ i1) in s1. apply (h_fin1 _ _ _ _ H _ _ i2) in s2. congruence.
  - intros op1 op2 f u i1 i2 s1 s2. apply (h_fin1 _ _ _ _ H _ _ i1) in s1. apply (h_len1 _ _ _ _ H _ _ i2) in s2.
    apply (i_fin _ (h_inv _ _ _ _ H)) in s1. lia.
Qed.

Lemma recv_below_limit ops outs st op u :
  Forall rv_op_ok ops -> rv_run ops (rv_new md w mw) = Ok (outs, st) ->
  In op ops -> uses_up_to op u -> u <= last_limit md outs.
Proof.
  intros hok hr hin hu. pose proof (run_hist _ _ _ hok hr) as H. rewrite (h_limit _ _ _ _ H).
  apply (h_len1 _ _ _ _ H _ _ hin) in hu. pose proof (i_limit _ (h_inv _ _ _ _ H)). lia.
Qed.

(** *** limits are monotone *)
Lemma limits_sorted : forall ops past pouts st outs st',
  rv_hist md past pouts st -> Forall rv_op_ok ops -> rv_run ops st = Ok (outs, st') ->
  Sorted Z.le (last_limit md pouts :: limits outs).
Proof.
  induction ops as [|op ops IH]; intros past pouts st outs st' H hok hr; cbn [rv_run] in hr.
  - inv hr. constructor; constructor.
  - inv hok. destruct (rv_step op st) as [ [o s1] | |] eqn:Es; cbn [bind] in hr; try discriminate.
    destruct (rv_run ops s1) as [ [os s2] | |] eqn:Er; cbn [bind] in hr; try discriminate.
    inv hr. pose proof (rv_hist_step md past pouts st op o s1 H H2 Es) as H'.
    specialize (IH _ _ _ _ _ H' H3 Er).
    rewrite last_limit_app in IH.
    destruct o as [ | | | |[l|]]; cbn [limits last_limit] in *; auto.
    constructor; auto. constructor.
    destruct op as [| | | | now rtt fits]; cbn [rv_step] in Es;
      try solve [repeat match goal with
                 | E : bind ?x _ = _ |- _ => destruct x; cbn [bind] in E
                 | E : (let '(_, _) := ?x in _) = _ |- _ => destruct x
                 | E : match ?x with _ => _ end = _ |- _ => destruct x
                 end; discriminate].
    pose proof (rv_limit_spec now rtt fits st (h_inv _ _ _ _ H)) as W.
    destruct (rv_limit now rtt fits st) as [ [l' s'] | |]; try contradiction. cbn [bind] in Es. inv Es.
    rewrite (h_limit _ _ _ _ H). lia.
Qed.

(** *** credit *)
Lemma recv_credit ops outs st :
  Forall rv_op_ok ops -> Forall not_empty_frame ops -> rv_run ops (rv_new md w mw) = Ok (outs, st) ->
  exists h, highest ops h /\ sum_of out_charge outs = h /\
    zlen (read_bytes outs) <= sum_of out_credit outs <= h /\
    (stopped ops \/ zlen (read_bytes outs) = h -> sum_of out_credit outs = h).
Proof.
  intros hok hne hr. pose proof (run_hist _ _ _ hok hr) as H.
  exists (rv_len st). pose proof (h_inv _ _ _ _ H) as hinv. pose proof (i_off _ hinv).
  rewrite (h_credit _ _ _ _ H hne), (h_charge _ _ _ _ H hne).
  pose proof (h_read _ _ _ _ H).
  split; [split; [apply H|apply H]|]. split; auto. split; [lia|].
  intros [[hs|hs]|hs]; [| |lia].
  - apply (h_drain _ _ _ _ H) in hs. apply (i_drain _ hinv hs).
  - apply (h_error _ _ _ _ H) in hs. destruct (rv_error st) eqn:E; [|congruence]. apply (i_error _ hinv _ E).
Qed.

Lemma rv_run_app : forall a b st,
  rv_run (a ++ b) st = let* '(o1, s1) := rv_run a st in
                       let* '(o2, s2) := rv_run b s1 in Ok (o1 ++ o2, s2).
Proof.
  induction a as [|op a IH]; intros b st; cbn [app rv_run bind].
  - destruct (rv_run b st) as [ [o2 s2] | |]; reflexivity.
  - destruct (rv_step op st) as [ [o s1] | |]; cbn [bind]; auto. rewrite IH.
    destruct (rv_run a s1) as [ [os s2] | |]; cbn [bind]; auto.
    destruct (rv_run b s2) as [ [o2 s3] | |]; cbn [bind]; auto.
Qed.

Lemma stopped_app a b : stopped a -> stopped (a ++ b).
Proof.
  intros [h|(op & h & r)]; [left|right; exists op]; rewrite in_app_iff; auto.
Qed.

Lemma no_data_after_stop : forall b past pouts st outs st',
  rv_hist md past pouts st -> stopped past -> Forall rv_op_ok b -> rv_run b st = Ok (outs, st') ->
  read_bytes outs = [].
Proof.
  induction b as [|op b IH]; intros past pouts st outs st' H hs hok hr; cbn [rv_run] in hr.
  - inv hr. reflexivity.
  - inv hok. destruct (rv_step op st) as [ [o s1] | |] eqn:Es; cbn [bind] in hr; try discriminate.
    destruct (rv_run b s1) as [ [os s2] | |] eqn:Er; cbn [bind] in hr; try discriminate.
    inv hr. pose proof (rv_hist_step md past pouts st op o s1 H H2 Es) as H'.
    pose proof (IH _ _ _ _ _ H' (stopped_app _ _ hs) H3 Er) as hrest.
    cbn [read_bytes]. rewrite hrest.
    destruct o as [| [ [bytes f] | e |]| | |]; auto. exfalso.
    destruct op as [| cap | | | now rtt fits]; cbn [rv_step] in Es;
      try solve [repeat match goal with
                 | E : bind ?x _ = _ |- _ => destruct x; cbn [bind] in E
                 | E : (let '(_, _) := ?x in _) = _ |- _ => destruct x
                 | E : match ?x with _ => _ end = _ |- _ => destruct x
                 end; discriminate].
    cbn in H2. pose proof (rv_emit_spec cap st (h_inv _ _ _ _ H) H2) as W.
    destruct (rv_emit cap st) as [[ [bytes' f'] | e |] s']; try discriminate.
    destruct W as (_ & w2 & w3 & _). destruct hs as [hs|hs].
    + apply (h_drain _ _ _ _ H) in hs. congruence.
    + apply (h_error _ _ _ _ H) in hs. congruence.
Qed.

Lemma recv_stop a b outs1 outs2 st1 st2 :
  Forall rv_op_ok (a ++ b) -> rv_run a (rv_new md w mw) = Ok (outs1, st1) ->
  rv_run b st1 = Ok (outs2, st2) -> stopped a -> read_bytes outs2 = [].
Proof.
  intros hok ha hb hs. apply Forall_app in hok as (hoka & hokb).
  exact (no_data_after_stop b a outs1 st1 outs2 st2 (run_hist _ _ _ hoka ha) hs hokb hb).
Qed.
End Fixed.
