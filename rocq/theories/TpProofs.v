Require Import Verif.Base Verif.Errors.
Require Import Verif.OctetsModel Verif.OctetsSpec Verif.OctetsProofs Verif.OctetsProofs2.
Require Import Verif.FrameModel Verif.FrameSpec Verif.FrameProofs Verif.FrameProofs2 Verif.FrameProofs3.
Require Import Verif.TpModel Verif.TpSpec.

(** ** One parameter *)
Lemma val_varint_ok val v : bytes_ok val -> val_varint val = Ok v -> val_is val v.
Proof.
  intros hb h. unfold val_varint in h. destruct (get_v val) as [[v' r]| |] eqn:E; cbn [bind] in h; try discriminate.
  injection h as ->. destruct (get_v_ok _ _ _ hb E) as (e & e1 & q & _). exists e, r. auto.
Qed.

Lemma val_varint_complete val v : val_is val v -> val_varint val = Ok v.
Proof. intros (e & r & -> & q). unfold val_varint. rewrite (get_v_app _ _ _ q). reflexivity. Qed.

Lemma val_varint_np val : val_varint val <> Panic.
Proof. apply bind_np; [apply get_v_np|]. intros [v b] _. discriminate. Qed.

Lemma val_is_fun val x y : val_is val x -> val_is val y -> x = y.
Proof. intros h1 h2. apply val_varint_complete in h1. apply val_varint_complete in h2. congruence. Qed.

Definition ch (id i : Z) (val : list Z) (old new : Z) : Prop :=
  if i =? id then val_is val new else new = old.
Definition cho (id i : Z) (val : list Z) (old new : option (list Z)) : Prop :=
  if i =? id then new = Some val else new = old.

Definition step_says (id : Z) (val : list Z) (t t' : tparams) : Prop :=
  cho id 0x00 val (tp_odcid t) (tp_odcid t') /\
  ch id 0x01 val (tp_idle t) (tp_idle t') /\
  (if 0x02 =? id then tp_token t' = Some (be_value (take 16 val)) else tp_token t' = tp_token t) /\
  ch id 0x03 val (tp_udp t) (tp_udp t') /\
  ch id 0x04 val (tp_data t) (tp_data t') /\
  ch id 0x05 val (tp_bidi_local t) (tp_bidi_local t') /\
  ch id 0x06 val (tp_bidi_remote t) (tp_bidi_remote t') /\
  ch id 0x07 val (tp_uni t) (tp_uni t') /\
  ch id 0x08 val (tp_streams_bidi t) (tp_streams_bidi t') /\
  ch id 0x09 val (tp_streams_uni t) (tp_streams_uni t') /\
  ch id 0x0a val (tp_ade t) (tp_ade t') /\
  ch id 0x0b val (tp_mad t) (tp_mad t') /\
  tp_dam t' = (if 0x0c =? id then true else tp_dam t) /\
  ch id 0x0e val (tp_acil t) (tp_acil t') /\
  cho id 0x0f val (tp_iscid t) (tp_iscid t') /\
  cho id 0x10 val (tp_rscid t) (tp_rscid t') /\
  (if 0x20 =? id then exists x, tp_dgram t' = Some x /\ val_is val x else tp_dgram t' = tp_dgram t) /\
  tp_unknown t' = (if knownb id then tp_unknown t else
    match tp_unknown t with None => None | Some u => Some (unknown_push id val u) end).

Ltac fields := cbn [set_odcid set_idle set_token set_udp set_data set_bidi_local set_bidi_remote set_uni set_streams_bidi
  set_streams_uni set_ade set_mad set_dam set_acil set_iscid set_rscid set_dgram set_unknown
  tp_odcid tp_idle tp_token tp_udp tp_data tp_bidi_local tp_bidi_remote tp_uni tp_streams_bidi tp_streams_uni tp_ade tp_mad
  tp_dam tp_acil tp_iscid tp_rscid tp_dgram tp_unknown] in *.

Ltac in_no := unfold only_from_server, is_int_param; cbn [In]; intros; exfalso; lia.

Lemma knownb_false id : ~ In id [0x00; 0x01; 0x02; 0x03; 0x04; 0x05; 0x06; 0x07; 0x08; 0x09; 0x0a; 0x0b; 0x0c; 0x0d; 0x0e; 0x0f; 0x10; 0x20] -> knownb id = false.
Proof.
  intros h. unfold knownb. match goal with |- ?e = _ => destruct e eqn:E; auto end.
  apply existsb_exists in E as (x & hx & e). apply Z.eqb_eq in e. subst x. contradiction.
Qed.

Ltac split_id id :=
  repeat match goal with
  | |- context [if (id =? ?k) then _ else _] =>
      let H := fresh "H" in destruct (Z.eqb_spec id k) as [H|H]; [subst id|]
  end.

Definition step_ok (srv : bool) (id : Z) (val : list Z) (t : tparams) (r : res error tparams) : Prop :=
  match r with
  | Ok t' => param_ok srv (id, val) /\ step_says id val t t'
  | Err _ => ~ param_ok srv (id, val)
  | Panic => False
  end.

Ltac fin := unfold step_says, ch, cho; fields; cbn [Z.eqb Pos.eqb]; ands; auto.

Lemma apply_param_spec srv id val t : bytes_ok val -> step_ok srv id val t (apply_param srv id val t).
Proof.
  intros hb. unfold apply_param.
  assert (hint : is_int_param id -> forall (k : Z -> res error tparams),
     (forall x, val_is val x -> step_ok srv id val t (k x)) -> step_ok srv id val t (let* v := val_varint val in k v)).
  { intros hi k hk. destruct (val_varint val) as [v|e|] eqn:E; cbn [bind].
    - apply hk. apply val_varint_ok; auto.
    - cbn [step_ok]. intros (_ & h & _). destruct (h hi) as (x & hx & _). rewrite (val_varint_complete _ _ hx) in E. discriminate.
    - exfalso. eapply val_varint_np; eauto. }
  assert (hpo : forall x, is_int_param id -> val_is val x -> in_range id x -> param_ok srv (id, val)).
  { intros x h1 h2 h3. unfold param_ok. ands.
    - intros h. exfalso. unfold is_int_param, only_from_server in *. cbn [In] in *. lia.
    - intros _. exists x. auto.
    - intros ->. exfalso. unfold is_int_param in *. cbn [In] in *. lia. }
  assert (hno : forall x, is_int_param id -> val_is val x -> ~ in_range id x -> ~ param_ok srv (id, val)).
  { intros x h1 h2 h3 (_ & h & _). destruct (h h1) as (y & hy & hr). rewrite (val_is_fun _ _ _ h2 hy) in h3. contradiction. }
  assert (hcid : only_from_server id -> ~ is_int_param id -> (id = 2 -> 16 <= zlen val) -> forall t', (srv = false -> step_says id val t t') ->
    step_ok srv id val t (if srv then Err InvalidTransportParam else Ok t')).
  { intros h1 h2 h3 t' h4. destruct srv; cbn [step_ok].
    - intros (h & _). discriminate (h h1).
    - split; auto. unfold param_ok. ands; auto. contradiction. }
  split_id id.
  all: try (apply hcid; [unfold only_from_server; cbn [In]; tauto| unfold is_int_param; cbn [In]; lia |lia|intros _; fin]).
  all: try (apply hint; [unfold is_int_param; cbn [In]; tauto|]; intros x hx;
    try match goal with |- context [if ?c then _ else _] => destruct c eqn:E end; cbn [step_ok];
    [ first [ apply (hno x); [unfold is_int_param; cbn [In]; tauto|auto|unfold in_range, MAX_STREAM_ID, MAX_ACK_DELAY_EXPONENT in *; lia]
            | split; [apply (hpo x); [unfold is_int_param; cbn [In]; tauto|auto|unfold in_range; lia]|fin; eauto] ]
    | split; [apply (hpo x); [unfold is_int_param; cbn [In]; tauto|auto|unfold in_range, MAX_STREAM_ID, MAX_ACK_DELAY_EXPONENT in *; lia]|fin] .. ]).
  all: try (cbn [step_ok]; split; [unfold param_ok; ands; [in_no|in_no|lia]|fin]).
  - (* token *)
    destruct srv; cbn [step_ok]; [intros (h & _); discriminate h; unfold only_from_server; cbn [In]; tauto|].
    unfold get_n, rd. destruct (rd_bytes 16 val) as [[b r]|] eqn:E; cbn [bind step_ok].
    + pose proof (rd_bytes_inv 16 val b r ltac:(lia) E) as (e1 & e2). split.
      * unfold param_ok. ands; auto; [in_no|]. intros _. subst val. rewrite zlen_app. pose proof (zlen_nonneg r). lia.
      * fin. rewrite be_dec_value. subst val. rewrite <- e2, take_app_exact. reflexivity.
    + intros (_ & _ & h). specialize (h eq_refl). pose proof (rd_bytes_app (take 16 val) (drop 16 val)) as q.
      rewrite take_drop in q. rewrite zlen_take in q by lia. replace (Z.min 16 (zlen val)) with 16 in q by lia. congruence.
  - (* unknown *)
    assert (hk : knownb id = false) by (apply knownb_false; cbn [In]; lia).
    assert (he : forall i, In i [0x00; 0x01; 0x02; 0x03; 0x04; 0x05; 0x06; 0x07; 0x08; 0x09; 0x0a; 0x0b; 0x0c; 0x0d; 0x0e; 0x0f; 0x10; 0x20] -> (i =? id) = false).
    { intros i hi. apply Z.eqb_neq. intros ->. cbn [In] in hi. lia. }
    assert (hp : param_ok srv (id, val)).
    { unfold param_ok. ands; [in_no|in_no|lia]. }
    destruct (tp_unknown t) as [u|] eqn:E; cbn [step_ok]; split; auto; unfold step_says, ch, cho; rewrite !he by (cbn [In]; lia); rewrite hk;
      fields; rewrite E; ands; auto.
Qed.
