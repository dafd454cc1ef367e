(** Which points of the acknowledgment line become starts for later samples. *)
Require Import Verif.Base Verif.BwModel Verif.SampModel Verif.SampSpec Verif.SampProofs Verif.SampOrder.

(** The points of the acknowledgment line since a packet was last sent with nothing
    in flight, newest first *)
Fixpoint burst_line (h : list sev) : list apoint :=
  match h with
  | [] => []
  | SSent t _ _ f true :: h => if f =? 0 then [mkAp t (acked_total h)] else burst_line h
  | SAcked now n :: h' => match open_ n h' with Some _ => mkAp now (acked_total h) :: burst_line h' | None => burst_line h' end
  | _ :: h => burst_line h
  end.
(** The point before the newest one, or the newest if there is no other; with the
    fix, also if nothing had been acknowledged at the other *)
Definition point_before (fix_ : bool) (l : list apoint) : option apoint :=
  match l with
  | [] => None
  | [x] => Some x
  | x :: y :: _ => if fix_ && (ap_bytes y <=? 0) then Some x else Some y
  end.

Definition P (h : list sev) (s : sampler) : Prop := sp_p1 s = nth_error (burst_line h) 0 /\ sp_p0 s = nth_error (burst_line h) 1.
Lemma tk_points c bw bytes s s' x : tk_update c bw bytes s = Ok (s', x) -> sp_p0 s' = sp_p0 s /\ sp_p1 s' = sp_p1 s.
Proof.
  unfold tk_update. cbv zeta. destruct (tk_start s); [|intros e; injection e as <- <-; auto]. destruct (_ <? _); [intros e; injection e as <- <-; auto|].
  destruct (_ <=? _); [intros e; injection e as <- <-; auto|]. destruct (_ <? _); [discriminate|]. intros e; injection e as <- <-; auto.
Qed.
Lemma P_step c t0 e h s s' : sc_avoid c = true -> J c t0 h s -> J c t0 (e :: h) s' -> P h s -> sp_step c e s = Ok s' -> P (e :: h) s'.
Proof.
  intros hav hj hj' (k1 & k0) hs. unfold P. destruct e; cbn [sp_step] in hs.
  - unfold sp_on_sent in hs. destruct retr; cbn [negb] in hs; [|injection hs as <-; auto]. cbv zeta in hs. rewrite hav, Bool.andb_true_r in hs. cbn [burst_line]. destruct (flight =? 0).
    + unfold points_update in hs. destruct (_ <? 0); cbn [bind] in hs; [discriminate|]. destruct (smap_insert _ _ _); cbn [bind] in hs; try discriminate. injection hs as <-. cbn. rewrite (jacked _ _ _ _ hj). auto.
    + cbn [bind] in hs. destruct (smap_insert _ _ _); cbn [bind] in hs; try discriminate. injection hs as <-. auto.
  - injection hs as <-. unfold sp_on_neutered. destruct (smap_take _ _). auto.
  - injection hs as <-. unfold sp_on_lost. destruct (smap_take _ _). auto.
  - destruct (sp_on_acked c now n s) as [(s1, r)| |] eqn:E; cbn [bind] in hs; try discriminate. injection hs as <-. cbn [burst_line].
    pose proof (jacked _ _ _ _ hj') as ha. unfold sp_on_acked in E. destruct (smap_take n (sp_map s)) as (p, m) eqn:Et. destruct (take_spec _ _ _ _ (jsorted _ _ _ _ hj) Et) as (ho & _). rewrite (jmap _ _ _ _ hj) in ho. subst p.
    destruct (open_ n h) as [q|]; cbn [option_map] in E; [|injection E as <- _; auto]. cbv zeta in E. rewrite hav in E. unfold points_update in E at 1. destruct (_ <? match _ with Some _ => _ | None => _ end); cbn [bind] in E; try discriminate.
    match type of E with bind ?x _ = _ => destruct x as [sr| |]; cbn [bind] in E; try discriminate end. destruct (choose_a0 _ _ _) as (a0 & cands).
    assert (hp : sp_p1 s1 = Some (mkAp now (sp_acked s1)) /\ sp_p0 s1 = sp_p1 s).
    { destruct (_ <=? _); [injection E as <- <-; auto|]. destruct (_ <? _); [discriminate|]. destruct (srate _ _); cbn [bind] in E; try discriminate. injection E as <- <-. auto. }
    destruct hp as (-> & ->). rewrite ha. split; [reflexivity|]. rewrite k1. reflexivity.
  - destruct (sp_on_end c bw s) as [(s1, x)| |] eqn:E; cbn [bind] in hs; try discriminate. injection hs as <-. cbn [burst_line]. unfold sp_on_end in E. destruct (_ <? _); [discriminate|]. destruct (_ =? 0); [injection E as <- <-; auto|].
    destruct (tk_update _ _ _ _) as [(s2, y)| |] eqn:Et; cbn [bind] in E; try discriminate. apply tk_points in Et. cbn [sp_p0 sp_p1] in Et. destruct Et as (q0 & q1).
    destruct (_ && _); [destruct (less_recent _ _ _); [|discriminate]|]; injection E as <- <-; cbn [sp_p0 sp_p1]; rewrite q0, q1; auto.
  - injection hs as <-. auto.
  - injection hs as <-. auto.
Qed.
Lemma all_P c t0 : (forall x, x <= sc_scale c x) -> instant t0 -> sc_avoid c = true -> forall h s, sensible h -> sp_after_all c t0 h = Ok s -> P h s.
Proof.
  intros hsc ht hav. induction h as [|e h IH]; intros s hs h0; [cbn in h0; injection h0 as <-; split; reflexivity|]. pose proof (all_J c t0 _ hsc ht hs) as j'. rewrite h0 in j'. cbn [sp_after_all] in h0.
  pose proof (sensible_tl _ _ hs) as hs1. pose proof (all_J c t0 h hsc ht hs1) as j. destruct (sp_after_all c t0 h) as [s1| |]; cbn [bind] in h0; try discriminate. eapply P_step; eauto.
Qed.
Lemma less_before f l : match less_recent f (nth_error l 1) (nth_error l 0) with Some a => point_before f l = Some a | None => l = [] end.
Proof.
  destruct l as [|x [|y l]]; cbn [nth_error less_recent point_before]; auto. destruct f; cbn [andb]; auto. destruct (0 <? ap_bytes y) eqn:E; [replace (ap_bytes y <=? 0) with false by lia|replace (ap_bytes y <=? 0) with true by lia]; auto.
Qed.
