(** No more is acknowledged or neutered than was sent. *)
Require Import Verif.Base Verif.BwModel Verif.SampModel Verif.SampSpec Verif.SampProofs.

Fixpoint nums (h : list sev) : list Z := match h with [] => [] | SSent _ n _ _ true :: h => n :: nums h | _ :: h => nums h end.
Definition osize (h : list sev) (n : Z) : Z := match open_ n h with Some q => head_size q | None => 0 end.
Fixpoint total (f : Z -> Z) (l : list Z) : Z := match l with [] => 0 | n :: l => f n + total f l end.

Lemma nums_in h n : In n (nums h) -> exists t b f, In (SSent t n b f true) h.
Proof.
  induction h as [|e h IH]; [intros []|]. destruct e as [t m b f []| | | | | |]; cbn [nums]; intros hin;
    try (destruct (IH hin) as (x & y & z & k); exists x, y, z; right; exact k).
  destruct hin as [<-|hin]; [exists t, b, f; left; reflexivity|]. destruct (IH hin) as (x & y & z & k); exists x, y, z; right; exact k.
Qed.
Lemma open_nums h n q : open_ n h = Some q -> In n (nums h).
Proof.
  intros e. destruct (open_shape _ _ _ e) as ((l & ->) & t & b & f & q' & ->). clear e. induction l as [|e l IH]; [left; auto|]. cbn [app].
  destruct e as [? ? ? ? []| | | | | |]; cbn [nums]; auto. right. exact IH.
Qed.
Lemma nums_nodup h : sensible h -> NoDup (nums h).
Proof.
  induction h as [|e h IH]; [constructor|]. intros hs. pose proof (sensible_tl _ _ hs) as h1. specialize (IH h1). destruct e as [t m b f []| | | | | |]; cbn [nums]; auto.
  constructor; auto. intros hin. apply nums_in in hin. destruct hin as (x & y & z & k). cbn in hs. destruct hs as (_ & _ & _ & hn & _). apply hn in k. lia.
Qed.
Lemma total_ext f g l : (forall n, In n l -> f n = g n) -> total f l = total g l.
Proof. induction l as [|x l IH]; cbn [total]; auto. intros h. rewrite IH by (intros; apply h; right; auto). rewrite h by (left; auto). reflexivity. Qed.
Lemma total_le f g l : (forall n, f n <= g n) -> total f l <= total g l.
Proof. intros h. induction l as [|x l IH]; cbn [total]; [lia|]. specialize (h x). lia. Qed.
Lemma total_zero f l : (forall n, 0 <= f n) -> 0 <= total f l.
Proof. intros h. induction l as [|x l IH]; cbn [total]; [lia|]. specialize (h x). lia. Qed.
Lemma total_cut f g l n : NoDup l -> In n l -> g n = 0 -> (forall m, m <> n -> g m = f m) -> total g l = total f l - f n.
Proof.
  induction l as [|x l IH]; [intros _ []|]. intros hn hin h0 he. inversion hn; subst. cbn [total]. destruct hin as [->|hin].
  - rewrite h0. rewrite (total_ext g f); [lia|]. intros m hm. apply he. intros ->. contradiction.
  - rewrite IH by auto. rewrite (he x); [lia|]. intros ->. contradiction.
Qed.
Lemma osize_nonneg h n : sensible h -> 0 <= osize h n.
Proof. intros hs. unfold osize. destruct (open_ n h) eqn:E; [|lia]. apply open_sensible in E; auto. tauto. Qed.

Lemma forget_one h e n : sensible h -> nums (e :: h) = nums h -> (forall m, open_ m (e :: h) = if n =? m then None else open_ m h) ->
  total (osize (e :: h)) (nums (e :: h)) = total (osize h) (nums h) - osize h n.
Proof.
  intros hs en eo. rewrite en. destruct (open_ n h) as [q|] eqn:E.
  - apply total_cut; [apply nums_nodup; auto|eapply open_nums; eauto| |].
    + unfold osize. rewrite eo, Z.eqb_refl. reflexivity.
    + intros m hm. unfold osize. rewrite eo. replace (n =? m) with false by lia. reflexivity.
  - unfold osize at 3. rewrite E, Z.sub_0_r. apply total_ext. intros m _. unfold osize. rewrite eo. destruct (n =? m) eqn:E2; auto. replace m with n by lia. rewrite E. reflexivity.
Qed.

Lemma at_most h : sensible h -> acked_total h + neut_total h + total (osize h) (nums h) <= sent_total h.
Proof.
  induction h as [|e h IH]; [cbn; lia|]. intros hs. pose proof (sensible_tl _ _ hs) as h1. specialize (IH h1). destruct e as [t n b f []|n|n b|now n|bw| |least].
  - cbn [acked_total neut_total nums sent_total total].
    assert (e1 : osize (SSent t n b f true :: h) n = b) by (unfold osize; cbn [open_]; rewrite Z.eqb_refl; reflexivity).
    assert (e2 : total (osize (SSent t n b f true :: h)) (nums h) = total (osize h) (nums h)).
    { apply total_ext. intros m hm. unfold osize. cbn [open_]. destruct (n =? m) eqn:E; auto. exfalso. apply nums_in in hm. destruct hm as (x & y & z & k). cbn in hs. destruct hs as (_ & _ & _ & hn & _). apply hn in k. lia. }
    lia.
  - exact IH.
  - rewrite (forget_one h (SNeut n) n h1 eq_refl (fun _ => eq_refl)). cbn [acked_total neut_total sent_total]. fold (osize h n). lia.
  - rewrite (forget_one h (SLost n b) n h1 eq_refl (fun _ => eq_refl)). cbn [acked_total neut_total sent_total]. pose proof (osize_nonneg h n h1). lia.
  - rewrite (forget_one h (SAcked now n) n h1 eq_refl (fun _ => eq_refl)). cbn [acked_total neut_total sent_total]. fold (osize h n). lia.
  - exact IH.
  - exact IH.
  - cbn [acked_total neut_total sent_total nums]. assert (total (osize (SObs least :: h)) (nums h) <= total (osize h) (nums h)); [|lia].
    apply total_le. intros m. unfold osize at 1. cbn [open_]. pose proof (osize_nonneg h m h1). destruct (m <? least); [lia|]. unfold osize. lia.
Qed.
Lemma acked_le_sent h : sensible h -> 0 <= neut_total h /\ acked_total h + neut_total h <= sent_total h.
Proof.
  intros hs. pose proof (at_most h hs). pose proof (total_zero (osize h) (nums h) (fun n => osize_nonneg h n hs)). split; [|lia].
  clear - hs. induction h as [|e h IH]; [cbn; lia|]. pose proof (sensible_tl _ _ hs) as h1. specialize (IH h1). destruct e; cbn [neut_total]; auto.
  fold (osize h n). pose proof (osize_nonneg h n h1). lia.
Qed.
