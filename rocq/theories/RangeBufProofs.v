(** Facts about RangeBuf views. *)
Require Import Verif.Base Verif.Errors Verif.RangeBufModel.

Definition rb_wf (b : rangebuf) : Prop :=
  0 <= rb_start b <= rb_pos b /\ rb_pos b <= rb_start b + rb_len b <= zlen (rb_data b)
  /\ rb_start b <= rb_off b /\ 0 <= rb_len b.

(** A buffer nothing was consumed from. *)
Definition rb_fresh (b : rangebuf) : Prop := rb_pos b = rb_start b.

Lemma rb_from_wf d o f : 0 <= o -> rb_wf (rb_from d o f) /\ rb_fresh (rb_from d o f).
Proof.
  intros. pose proof (zlen_nonneg d). unfold rb_wf, rb_fresh, rb_from; cbn. lia.
Qed.

Lemma rb_from_views d o f :
  rbO (rb_from d o f) = o /\ rbL (rb_from d o f) = zlen d /\
  rbM (rb_from d o f) = o + zlen d /\ rb_bytes (rb_from d o f) = d.
Proof.
  unfold rbM, rbO, rbL, rb_bytes, rb_from; cbn [rb_off rb_start rb_pos rb_len rb_data].
  repeat split; try lia. rewrite Z.add_0_l. apply slice_full.
Qed.

Lemma rb_bytes_len b : rb_wf b -> zlen (rb_bytes b) = rbL b.
Proof.
  intros (h1 & h2 & h3 & h4). unfold rb_bytes, rbL. rewrite slice_len by lia. lia.
Qed.

Lemma rbL_nonneg b : rb_wf b -> 0 <= rbL b.
Proof. intros (h1 & h2 & h3 & h4). unfold rbL. lia. Qed.

Lemma rbO_nonneg b : rb_wf b -> 0 <= rbO b.
Proof. intros (h1 & h2 & h3 & h4). unfold rbO. lia. Qed.

Lemma rbO_le_M b : rb_wf b -> rbO b <= rbM b.
Proof. intros h; pose proof (rbL_nonneg b h); unfold rbM; lia. Qed.

Lemma rb_split_fresh at_ b :
  rb_wf b -> rb_fresh b -> 0 <= at_ <= rbL b ->
  exists lo hi, rb_split_off at_ b = Ok (lo, hi) /\
    rb_wf lo /\ rb_fresh lo /\ rb_wf hi /\ rb_fresh hi /\
    rbO lo = rbO b /\ rbL lo = at_ /\ rb_bytes lo = take at_ (rb_bytes b) /\ rb_fin lo = false /\
    rbO hi = rbO b + at_ /\ rbL hi = rbL b - at_ /\ rb_bytes hi = drop at_ (rb_bytes b) /\
    rb_fin hi = rb_fin b.
Proof.
  intros (h1 & h2 & h3 & h4) hf hat. unfold rb_fresh in hf. unfold rbL in hat.
  unfold rb_split_off. replace (rb_len b <? at_) with false by lia.
  eexists _, _. split; [reflexivity|].
  unfold rb_wf, rb_fresh, rbO, rbL, rb_bytes; cbn [rb_data rb_start rb_pos rb_len rb_off rb_fin].
  repeat match goal with |- _ /\ _ => split end; try lia; try reflexivity.
  - rewrite take_slice by lia. f_equal; lia.
  - rewrite drop_slice by lia. f_equal; lia.
Qed.

Lemma rb_consume_views n b :
  rb_wf b -> 0 <= n <= rbL b ->
  rb_wf (rb_consume n b) /\ rbO (rb_consume n b) = rbO b + n /\
  rbL (rb_consume n b) = rbL b - n /\ rbM (rb_consume n b) = rbM b /\
  rb_bytes (rb_consume n b) = drop n (rb_bytes b).
Proof.
  intros (h1 & h2 & h3 & h4) hn. unfold rbL in hn.
  unfold rb_wf, rbM, rbO, rbL, rb_bytes, rb_consume;
    cbn [rb_data rb_start rb_pos rb_len rb_off rb_fin].
  repeat match goal with |- _ /\ _ => split end; try lia.
  rewrite drop_slice by lia. f_equal.
Qed.

(** The byte a buffer holds for stream offset [o]. *)
Definition bget (b : rangebuf) (o : Z) : option Z := zget (rb_bytes b) (o - rbO b).

Lemma bget_some b o : rb_wf b -> rbO b <= o < rbM b -> exists x, bget b o = Some x.
Proof.
  intros h ho. unfold bget. destruct (zget (rb_bytes b) (o - rbO b)) eqn:E; eauto.
  apply zget_none_range in E. rewrite rb_bytes_len in E by auto. unfold rbM in ho; lia.
Qed.

Lemma bget_none b o : rb_wf b -> (o < rbO b \/ rbM b <= o) -> bget b o = None.
Proof.
  intros h ho. unfold bget. destruct (zget (rb_bytes b) (o - rbO b)) eqn:E; auto.
  apply zget_some_range in E. rewrite rb_bytes_len in E by auto. unfold rbM in ho; lia.
Qed.

Lemma bget_range b o x : rb_wf b -> bget b o = Some x -> rbO b <= o < rbM b.
Proof.
  intros h E. unfold bget in E. apply zget_some_range in E.
  rewrite rb_bytes_len in E by auto. unfold rbM; lia.
Qed.

(** Byte contents of the two halves of a split. *)
Lemma bget_lo b lo at_ o :
  rb_wf b -> rb_wf lo -> 0 <= at_ <= rbL b -> rbO lo = rbO b -> rbL lo = at_ ->
  rb_bytes lo = take at_ (rb_bytes b) -> o < rbO b + at_ -> bget lo o = bget b o.
Proof.
  intros h hl ha h1 h2 h3 ho. unfold bget. rewrite h1, h3. apply zget_take; lia.
Qed.

Lemma bget_hi b hi at_ o :
  rb_wf b -> 0 <= at_ <= rbL b -> rbO hi = rbO b + at_ ->
  rb_bytes hi = drop at_ (rb_bytes b) -> rbO b + at_ <= o -> bget hi o = bget b o.
Proof.
  intros h ha h1 h3 ho. unfold bget. rewrite h1, h3. rewrite zget_drop by lia. f_equal; lia.
Qed.
