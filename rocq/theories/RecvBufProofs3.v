(** Reset, shutdown and limit updates; the history invariant. *)
Require Import Verif.Base Verif.Errors Verif.FlowControlModel Verif.RangeBufModel
  Verif.RangeBufProofs Verif.RecvBufModel Verif.RecvBufProofs Verif.RecvBufProofs2 Verif.RecvSpec.

Lemma rv_reset_spec code final st :
  rv_inv st -> 0 <= final ->
  match rv_reset code final st with
  | (Panic, _) => False
  | (Err e, _) =>
      (e = FinalSize /\ ((exists f, rv_fin_off st = Some f /\ f <> final) \/ final < rv_len st)) \/
      (e = FlowControlE /\ fc_max_data (rv_fc st) < final /\ rv_len st <= final /\
       forall f, rv_fin_off st = Some f -> f = final)
  | (Ok (d, c), st') =>
      rv_inv st' /\ rv_drain st' = rv_drain st /\ rv_fc st' = rv_fc st /\
      rv_len st <= final <= fc_max_data (rv_fc st) /\
      (forall f, rv_fin_off st = Some f -> f = final) /\
      rv_len st' = final /\ rv_off st' = final /\ rv_fin_off st' = Some final /\
      rv_error st' <> None /\ d = final - rv_len st /\ c = final - rv_off st /\
      (rv_error st = None -> forall o, look (rv_data st') o = None) /\
      (rv_error st <> None -> st' = st)
  end.
Proof.
  intros inv hf. destruct inv as [i1 i2 i3 i4 i5 i6 i7 i8 i9 i10 i11]. unfold rv_reset.
  destruct (match rv_fin_off st with Some f => negb (f =? final) | None => false end) eqn:E1.
  { left. split; auto. left. destruct (rv_fin_off st) as [f|]; [|discriminate]. exists f; split; auto; lia. }
  destruct (final <? rv_len st) eqn:E2. { left. split; auto. right; lia. }
  assert (hfo : forall f, rv_fin_off st = Some f -> f = final).
  { intros f h. rewrite h in E1. lia. }
  destruct (rv_error st) as [e|] eqn:Ee.
  { destruct (i8 e eq_refl) as (a & b). pose proof (hfo _ b).
    split; [constructor; auto; intros; apply (i8 e eq_refl)|].
    repeat match goal with |- _ /\ _ => split end; solve [auto|lia|congruence|discriminate]. }
  pose proof (rb_from_views [] final true) as (vO & vL & vM & vB).
  destruct (rb_from_wf [] final true hf) as (hw & hfr).
  assert (vF : rb_fin (rb_from [] final true) = true) by reflexivity.
  set (buf := rb_from [] final true) in *. change (zlen (@nil Z)) with 0 in *. rewrite Z.add_0_r in vM.
  unfold rv_write. rewrite vF, vM. unfold rb_is_empty. rewrite vL.
  cbn [rv_fc rv_fin_off rv_len rv_off andb negb].
  destruct (fc_max_data (rv_fc st) <? final) eqn:E3.
  { right. split; auto. split; [lia|]. split; [lia|auto]. }
  destruct (rv_fin_off st) as [f|] eqn:Ef.
  - pose proof (hfo f eq_refl). subst f. specialize (i6 final eq_refl).
    replace (final <? final) with false by lia. rewrite Z.eqb_refl. cbn [negb].
    rewrite E2. rewrite Z.eqb_refl. cbn [andb].
    cbn [rv_data rv_off rv_len rv_fc rv_fin_off rv_error rv_drain].
    split.
    { constructor; cbn [rv_data rv_off rv_len rv_fc rv_fin_off rv_error rv_drain chain In];
        auto; try lia; try tauto.
      all: intros; repeat split; auto; try lia; try congruence; f_equal; lia. }
    repeat match goal with |- _ /\ _ => split end; solve [auto|lia|congruence|intros _ o; reflexivity].
  - rewrite E2. cbn [andb]. rewrite Z.eqb_refl. cbn [negb andb].
    rewrite andb_false_r.
    unfold set_fin_off. cbn [rb_data buf rb_from length].
    cbn [rv_data rv_off rv_len rv_fc rv_fin_off rv_error rv_drain].
    cbn [write_loop]. cbn [rv_data rv_off rv_len rv_fc rv_fin_off rv_error rv_drain].
    rewrite vO. replace (final <? final) with false by lia. cbn [bind].
    unfold data_range; cbn [filter overlap_scan].
    replace (if (rbO buf <? rv_len st) || rb_is_empty buf then Ok (Some buf, []) else Ok (Some buf, []))
      with (@Ok error _ (Some buf, @nil rangebuf)) by (destr_if; auto).
    cbn [bind app]. cbn [write_loop]. rewrite vM. cbn [data_insert].
    assert (hmax : Z.max (rv_len st) final = final) by lia. rewrite hmax.
    destruct (rv_drain st) eqn:Ed;
      cbn [rv_data rv_off rv_len rv_fc rv_fin_off rv_error rv_drain];
      (split;
       [ constructor; cbn [rv_data rv_off rv_len rv_fc rv_fin_off rv_error rv_drain chain In];
         auto; try lia; try tauto; try congruence
       | repeat match goal with |- _ /\ _ => split end;
         try solve [auto|lia|congruence|intros _ o; reflexivity] ]).
    + repeat split; auto; try apply hw; try lia; intros ? [].
    + intros b [<- | []]. lia.
    + intros b [<- | []] _. f_equal. lia.
    + intros _ o. cbn [look]. rewrite bget_none; auto. lia.
Qed.

Lemma rv_shutdown_spec st :
  rv_inv st ->
  match rv_shutdown st with
  | Panic => False
  | Err e => e = Done /\ rv_drain st = true
  | Ok (n, st') =>
      rv_inv st' /\ rv_drain st = false /\ rv_drain st' = true /\ n = rv_len st - rv_off st /\
      rv_off st' = rv_len st /\ rv_len st' = rv_len st /\ rv_data st' = [] /\
      rv_fc st' = rv_fc st /\ rv_fin_off st' = rv_fin_off st /\ rv_error st' = rv_error st
  end.
Proof.
  intros inv. destruct inv as [i1 i2 i3 i4 i5 i6 i7 i8 i9 i10 i11]. unfold rv_shutdown.
  destruct (rv_drain st) eqn:Ed; auto. replace (rv_len st <? rv_off st) with false by lia.
  cbn [rv_data rv_off rv_len rv_fc rv_fin_off rv_error rv_drain].
  split; [|repeat split; auto].
  constructor; cbn [rv_data rv_off rv_len rv_fc rv_fin_off rv_error rv_drain chain In]; auto; try lia; try tauto.
  intros e he. destruct (i8 e he); auto.
Qed.

(** *** limits *)
Lemma fc_update_committed now f :
  fc_max_data (fc_update_max_data now f) = fc_max_data_next f /\
  fc_consumed (fc_update_max_data now f) = fc_consumed f /\
  fc_window (fc_update_max_data now f) = fc_window f /\
  fc_max_window (fc_update_max_data now f) = fc_max_window f /\
  fc_last_update (fc_update_max_data now f) <> None.
Proof. unfold fc_update_max_data; cbn. repeat split; auto. discriminate. Qed.

Lemma fc_autotune_spec now rtt f :
  0 <= fc_window f <= fc_max_window f ->
  let f' := fc_autotune now rtt f in
  fc_max_data f' = fc_max_data f /\ fc_consumed f' = fc_consumed f /\
  fc_window f <= fc_window f' <= fc_max_window f' /\ fc_max_window f' = fc_max_window f /\
  fc_last_update f' = fc_last_update f.
Proof.
  intros h. cbv zeta. unfold fc_autotune, fc_set_window, WINDOW_INCREASE_FACTOR.
  destruct (fc_last_update f) eqn:E; [destr_if|]; cbn; repeat split; auto; lia.
Qed.

Lemma rv_set_fc_inv f st :
  rv_inv st -> fc_max_data (rv_fc st) <= fc_max_data f -> fc_consumed f = fc_consumed (rv_fc st) ->
  0 <= fc_window f <= fc_max_window f ->
  (fc_last_update f <> None -> fc_max_data f <= fc_max_data_next f) ->
  rv_inv (rv_set_fc f st).
Proof.
  intros [i1 i2 i3 i4 i5 i6 i7 i8 i9 i10 i11] h1 h2 h3 h4.
  constructor; cbn; auto; lia.
Qed.

Lemma rv_limit_spec now rtt fits st :
  rv_inv st ->
  match rv_limit now rtt fits st with
  | Ok (l, st') =>
      rv_inv st' /\ (exists f, st' = rv_set_fc f st) /\
      fc_max_data (rv_fc st) <= fc_max_data (rv_fc st') /\
      fc_consumed (rv_fc st') = fc_consumed (rv_fc st) /\
      fc_window (rv_fc st) <= fc_window (rv_fc st') /\
      (match l with Some l => fc_max_data (rv_fc st') = l
                  | None => fc_max_data (rv_fc st') = fc_max_data (rv_fc st) end)
  | _ => False
  end.
Proof.
  intros inv. pose proof inv as [i1 i2 i3 i4 i5 i6 i7 i8 i9 i10 i11].
  unfold rv_limit.
  assert (hs : exists full, rv_almost_full st = Ok full /\
      (full = true -> fc_max_data (rv_fc st) <= fc_consumed (rv_fc st) + fc_window (rv_fc st))).
  { unfold rv_almost_full, fc_should_update. destruct (rv_fin_off st).
    - exists false. split; auto; discriminate.
    - replace (fc_max_data (rv_fc st) <? fc_consumed (rv_fc st)) with false by lia.
      eexists. split; [reflexivity|]. intros h. lia. }
  destruct hs as (full & -> & hfull). cbn [bind].
  set (f1 := if full then fc_autotune now rtt (rv_fc st) else rv_fc st).
  assert (h1 : (if full then rv_autotune now rtt st else st) = rv_set_fc f1 st).
  { unfold f1, rv_autotune. destruct full; auto. destruct st; reflexivity. }
  rewrite h1.
  assert (hf1 : fc_max_data f1 = fc_max_data (rv_fc st) /\ fc_consumed f1 = fc_consumed (rv_fc st) /\
     fc_window (rv_fc st) <= fc_window f1 <= fc_max_window f1 /\
     fc_last_update f1 = fc_last_update (rv_fc st)).
  { unfold f1. destruct full; [|repeat split; lia].
    destruct (fc_autotune_spec now rtt (rv_fc st) i10) as (a1 & a2 & a3 & a4 & a5). auto. }
  destruct hf1 as (a1 & a2 & a3 & a5).
  assert (inv1 : rv_inv (rv_set_fc f1 st)).
  { apply rv_set_fc_inv; auto; try lia. rewrite a5. intros h. specialize (i11 h).
    unfold fc_max_data_next in *. lia. }
  match goal with |- context [if ?c && fits then _ else _] => destruct (c && fits) eqn:E end.
  2:{ cbn [rv_fc rv_set_fc]. split; auto. split; [exists f1; auto|]. repeat split; lia. }
  apply andb_true_iff in E as (E & _). apply orb_true_iff in E.
  assert (hle : fc_max_data f1 <= fc_max_data_next f1).
  { unfold fc_max_data_next. destruct E as [E|E]; [lia|].
    destruct (fc_last_update (rv_fc st)) eqn:El; [|discriminate].
    specialize (i11 ltac:(congruence)). unfold fc_max_data_next in i11. lia. }
  unfold rv_update_max_data, rv_set_fc. cbn [rv_fc rv_data rv_off rv_len rv_fin_off rv_error rv_drain].
  destruct (fc_update_committed now f1) as (u1 & u2 & u3 & u4 & u5).
  assert (hn2 : fc_max_data_next (fc_update_max_data now f1) = fc_max_data_next f1).
  { unfold fc_max_data_next. lia. }
  split. { apply (rv_set_fc_inv (fc_update_max_data now f1) st inv); lia. }
  split. { exists (fc_update_max_data now f1). reflexivity. }
  repeat split; auto; lia.
Qed.
