(** What else a congestion event reports: the largest rates, the largest amount in
    flight, and the state of the last packet. *)
Require Import Verif.Base Verif.BwModel Verif.SampModel Verif.SampSpec Verif.SampProofs Verif.SampOrder.

(** The samples of the acknowledgments in order, each with the packet's number and
    the bytes acknowledged up to then *)
Fixpoint traced (c : scfg) (now : Z) (acked : list Z) (h : list sev) (s : sampler) : list (Z * bsample * Z) :=
  match acked with
  | [] => []
  | n :: acked =>
      match sp_on_acked c now n s with
      | Ok (s, Some r) => (n, r, acked_total (SAcked now n :: h)) :: traced c now acked (SAcked now n :: h) s
      | Ok (s, None) => traced c now acked (SAcked now n :: h) s
      | _ => []
      end
  end.
(** The packets a list of losses ends, in order, as they were sent *)
Fixpoint lost_states (t0 : Z) (lost : list (Z * Z)) (h : list sev) : list (Z * bpkt) :=
  match lost with
  | [] => []
  | (n, b) :: lost =>
      match open_ n h with Some q => (n, describe t0 q) :: lost_states t0 lost (SLost n b :: h) | None => lost_states t0 lost (SLost n b :: h) end
  end.
Definition last_of {A} (l : list A) (d : option A) : option A := fold_left (fun _ x => Some x) l d.
(** [m] is the largest of the values in [l], if there are any *)
Definition largest (l : list (option Z)) (m : option Z) : Prop :=
  match m with None => forall x, In x l -> x = None | Some v => In (Some v) l /\ forall w, In (Some w) l -> w <= v end.

Lemma largest_step a b l m : largest (omax a b :: l) m -> largest (a :: b :: l) m.
Proof.
  unfold omax. intros h. destruct m as [v|]; cbn [largest] in *.
  - destruct h as (h1 & h2). split; [destruct (olt a b); cbn [In] in *; tauto|]. intros w [e|[e|hw]].
    + subst a. destruct (olt (Some w) b) eqn:E; [|apply h2; left; auto]. destruct b as [y|]; [|discriminate]. cbn in E. specialize (h2 y (or_introl eq_refl)). lia.
    + subst b. destruct (olt a (Some w)) eqn:E; [apply h2; left; auto|]. destruct a as [y|]; [|discriminate]. cbn in E. specialize (h2 y (or_introl eq_refl)). lia.
    + apply h2. right. auto.
  - intros x hx. pose proof (h _ (or_introl eq_refl)) as h1. destruct hx as [->|[->|hx]]; [| |apply h; right; auto].
    + destruct (olt x b) eqn:E; auto. subst b. destruct x; auto; discriminate.
    + destruct (olt a x) eqn:E; auto. subst a. destruct x; auto; discriminate.
Qed.
Lemma largest_none l m : largest (None :: l) m -> largest l m.
Proof. destruct m as [v|]; cbn; intros h; [|auto]. destruct h as ([e|e] & h2); [discriminate|auto]. Qed.

Definition inflight (x : Z * bsample * Z) : Z := snd x - bp_acked (bs_state (snd (fst x))).
Lemma acks_rest c t0 now acked : instant t0 -> instant now -> forall h l e s s' l' e', J c t0 h s -> sensible h -> sp_acks c now acked l e s = Ok (s', l', e') ->
  let tr := traced c now acked h s in
  largest (es_send e :: map (fun x => bs_send (snd (fst x))) tr) (es_send e') /\
  largest (es_ack e :: map (fun x => Some (bs_ack (snd (fst x)))) tr) (es_ack e') /\
  (In (es_inflight e') (es_inflight e :: map inflight tr) /\ forall w, In w (es_inflight e :: map inflight tr) -> w <= es_inflight e') /\
  l' = last_of (map (fun x => (fst (fst x), bs_state (snd (fst x)))) tr) l /\
  (forall ss rs, samples c now acked s = Ok (ss, rs) -> rs = map (fun x => snd (fst x)) tr).
Proof.
  intros ht hn. induction acked as [|n acked IH]; intros h l e s s' l' e' j hs ea; cbn [sp_acks traced] in *.
  - injection ea as <- <- <-. cbn [map]. unfold largest. split; [destruct (es_send e); [split; [left; auto|intros w [[= ->]|[]]; lia]|intros x [<-|[]]; auto]|].
    split; [destruct (es_ack e); [split; [left; auto|intros w [[= ->]|[]]; lia]|intros x [<-|[]]; auto]|]. split; [split; [left; auto|intros w [<-|[]]; lia]|]. split; [reflexivity|].
    cbn [samples]. intros ss rs [= _ <-]. reflexivity.
  - assert (hs' : sensible (SAcked now n :: h)) by (split; auto). pose proof (acked_J c t0 h s now n j ht hs') as ka.
    destruct (sp_on_acked c now n s) as [(s1, r)| |] eqn:E; cbn [bind] in ea; try discriminate. destruct ka as (j1 & _). destruct r as [r|].
    + destruct (sp_acked s1 <? _); [discriminate|]. rewrite (jacked _ _ _ _ j1) in ea. specialize (IH _ _ _ _ _ _ _ j1 hs' ea). cbv zeta in *. cbn [es_send es_ack es_inflight] in IH.
      destruct IH as (i1 & i2 & (i3 & i3') & i4 & i5). cbn [map fst snd]. split; [apply largest_step; exact i1|]. split; [apply largest_step; exact i2|].
      split; [split|].
      * unfold inflight at 1. cbn [fst snd]. destruct i3 as [i3|i3]; [|right; right; exact i3]. rewrite <- i3. destruct (Z_le_dec (acked_total (SAcked now n :: h) - bp_acked (bs_state r)) (es_inflight e)); [left; lia|right; left; lia].
      * specialize (i3' _ (or_introl eq_refl)) as m. intros w [<-|[<-|hw]]; [lia|unfold inflight; cbn [fst snd]; lia|apply i3'; right; auto].
      * split; [exact i4|]. cbn [samples]. intros ss rs. rewrite E. cbn [bind]. destruct (samples c now acked s1) as [(s2, l2)| |]; cbn [bind]; try discriminate. intros [= _ <-]. rewrite (i5 _ _ eq_refl). reflexivity.
    + specialize (IH _ _ _ _ _ _ _ j1 hs' ea). cbv zeta in *. destruct IH as (i1 & i2 & i3 & i4 & i5). repeat (split; [assumption|]).
      cbn [samples]. intros ss rs. rewrite E. cbn [bind]. destruct (samples c now acked s1) as [(s2, l2)| |]; cbn [bind]; try discriminate. intros [= _ <-]. exact (i5 _ _ eq_refl).
Qed.
Lemma losses_rest c t0 lost : forall h l s s' l', J c t0 h s -> sp_losses lost l s = (s', l') -> l' = last_of (lost_states t0 lost h) l.
Proof.
  induction lost as [|(n, b) lost IH]; intros h l s s' l' j e; cbn [sp_losses lost_states] in *.
  - injection e as _ <-. reflexivity.
  - pose proof (lost_J c t0 h s n b j) as (j1 & e1). destruct (sp_on_lost n b s) as (s1 & p). cbn [fst snd] in *. specialize (IH _ _ _ _ _ j1 e). rewrite IH, e1.
    destruct (open_ n h); reflexivity.
Qed.
