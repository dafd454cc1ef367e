(** Sums over the changes of an operation: what may be sent, what must be answered *)
Require Import Verif.Base Verif.Errors Verif.LifeModel Verif.LifeMicro Verif.LifeMicro2 Verif.LifeMicro3 Verif.LifeMicro4 Verif.LifeSpec.

Lemma sum_sumz {A} (f : A -> Z) l : sum_of f l = sumz f l.
Proof. induction l as [|x l ih]; [reflexivity|]. cbn [sum_of]. rewrite sumz_cons, ih. reflexivity. Qed.
Lemma sum_app {A} (f : A -> Z) l1 l2 : sum_of f (l1 ++ l2) = sum_of f l1 + sum_of f l2.
Proof. rewrite !sum_sumz. apply sumz_app. Qed.
Lemma sum_map {A B} (f : B -> Z) (g : A -> B) l : sum_of f (map g l) = sum_of (fun x => f (g x)) l.
Proof. induction l as [|x l ih]; [reflexivity|]. cbn [map sum_of]. rewrite ih. reflexivity. Qed.
Lemma sum_ext {A} (f g : A -> Z) l : (forall x, In x l -> f x = g x) -> sum_of f l = sum_of g l.
Proof. induction l as [|x l ih]; intros h; [reflexivity|]. cbn [sum_of]. rewrite (h x (or_introl eq_refl)), ih; [reflexivity|]. intros y hy. apply h. right. exact hy. Qed.
Lemma sum_le {A} (f g : A -> Z) l : (forall x, In x l -> f x <= g x) -> sum_of f l <= sum_of g l.
Proof. induction l as [|x l ih]; intros h; [cbn; lia|]. cbn [sum_of]. pose proof (h x (or_introl eq_refl)). assert (sum_of f l <= sum_of g l) by (apply ih; intros y hy; apply h; right; exact hy). lia. Qed.
Lemma sum_nonneg {A} (f : A -> Z) l : (forall x, In x l -> 0 <= f x) -> 0 <= sum_of f l.
Proof. induction l as [|x l ih]; intros h; [cbn; lia|]. cbn [sum_of]. pose proof (h x (or_introl eq_refl)). assert (0 <= sum_of f l) by (apply ih; intros y hy; apply h; right; exact hy). lia. Qed.
Lemma sum_upd {A} (f : A -> Z) (g : A -> A) : forall l i x, nth_error l i = Some x -> sum_of f (upd i g l) = sum_of f l - f x + f (g x).
Proof.
  induction l as [|y l ih]; intros [|i] x h; cbn [nth_error] in h; try discriminate.
  - injection h as ->. cbn [upd sum_of]. lia.
  - cbn [upd sum_of]. rewrite (ih _ _ h). lia.
Qed.
Lemma upd_in {A} (g : A -> A) : forall l i x y, nth_error l i = Some x -> In y (upd i g l) -> In y l \/ y = g x.
Proof.
  induction l as [|z l ih]; intros [|i] x y h hy; cbn [nth_error] in h; try discriminate.
  - injection h as ->. destruct hy as [<-|hy]; [right; reflexivity|left; right; exact hy].
  - destruct hy as [<-|hy]; [left; left; reflexivity|]. destruct (ih _ _ _ h hy) as [h1|h1]; [left; right; exact h1|right; exact h1].
Qed.

(** A measure of paths that only some changes touch *)
Definition plain (w : path -> Z) : Prop :=
  (forall v p, w (set_st v p) = w p) /\ (forall v p, w (set_on v p) = w p) /\ (forall v p, w (set_dcid v p) = w p) /\
  (forall v p, w (set_flight v p) = w p) /\ (forall v p, w (set_maxch v p) = w p) /\ (forall v x p, w (set_lost v x p) = w p) /\
  (forall v p, w (set_ok v p) = w p) /\ (forall v p, w (set_want v p) = w p) /\ (forall v p, w (set_told v p) = w p) /\
  (forall v p, w (set_mig v p) = w p) /\ (forall t o r n p, w (set_rec t o r n p) = w p).

Section plain.
Variable w : path -> Z.
Hypothesis hw : plain w.
Let W c := sum_of w (x_paths c).

Lemma w_promote s p : w (promote_to s p) = w p.
Proof. destruct hw as (h1 & _). unfold promote_to. destruct (_ <? _); [apply h1|reflexivity]. Qed.
Lemma w_add d n t p : w (add_challenge d n t p) = w p.
Proof. destruct hw as (_ & _ & _ & h4 & _ & _ & _ & h8 & _). unfold add_challenge. cbv zeta. rewrite h4, h8. apply w_promote. Qed.
Lemma w_resp d p : w (snd (response_received d p)) = w p.
Proof.
  destruct hw as (_ & _ & _ & h4 & h5 & h6 & h7 & h8 & _). unfold response_received. cbv zeta.
  destruct (rank _ =? rank ValidatingMtu); [destruct (_ <=? _)|]; cbn [snd]; rewrite ?w_promote, ?h8, ?h5, ?w_promote, ?h4, ?h6, ?h7; reflexivity.
Qed.
Lemma w_loss s now t p : w (loss_timeout s now t p) = w p.
Proof.
  destruct hw as (h1 & h2 & _ & h4 & _ & h6 & _ & h8 & _ & _ & h11). unfold loss_timeout. cbv zeta.
  match goal with |- context[match ?l with [] => _ | _ => _ end] => destruct l as [|[[d n] t0] lx] end; [rewrite h4, h11; reflexivity|].
  match goal with |- context[if (MAX_TIMEOUTS <=? p_lost ?q) || _ then _ else _] => set (q0 := q) end.
  assert (hq : w q0 = w p).
  { subst q0. destruct (p_lost_at _); [destruct (_ <=? _)|]; rewrite ?h6, ?h4, ?h11; reflexivity. }
  destruct (_ || _); [rewrite h2, h1|rewrite h8]; exact hq.
Qed.
Lemma w_fire s now : forall ps ts, sum_of w (fire s now ts ps) = sum_of w ps.
Proof.
  induction ps as [|p ps ih]; intros ts; [reflexivity|]. cbn [fire sum_of]. rewrite ih. destruct (due (p_timer p) now); [rewrite w_loss|]; reflexivity.
Qed.
Lemma w_fill : forall ps pool, sum_of w (fst (fill ps pool)) = sum_of w ps.
Proof.
  destruct hw as (_ & _ & h3 & _).
  induction ps as [|p ps ih]; intros pool; [reflexivity|]. cbn [fill]. destruct (is_some (p_dcid p)).
  - specialize (ih pool). destruct (fill ps pool) as [ps' pool']. cbn [fst sum_of] in *. lia.
  - destruct pool as [|q pool]; [reflexivity|]. specialize (ih pool). destruct (fill ps pool) as [ps' pool']. cbn [fst sum_of] in *. rewrite h3. lia.
Qed.
Lemma w_up i f c : (forall p, w (f p) = w p) -> W (up i f c) = W c.
Proof.
  intros h. unfold W, up. cbn [w_paths x_paths]. destruct (nth_error (x_paths c) i) as [p|] eqn:e.
  - rewrite (sum_upd _ _ _ _ _ e), h. lia.
  - rewrite upd_none by exact e. reflexivity.
Qed.
Lemma w_set_active i c : W (snd (set_active i c)) = W c.
Proof.
  destruct hw as (h1 & h2 & _ & _ & _ & _ & _ & h8 & _ & h10 & _).
  unfold set_active. set (c1 := match active_pid (x_paths c) with Some old => up old (set_on false) c | None => c end).
  assert (e : W c1 = W c) by (subst c1; destruct (active_pid (x_paths c)); [apply w_up; intros p; apply h2|reflexivity]).
  destruct (nth_error (x_paths c1) i) as [p|]; [|exact e].
  assert (e2 : W (up i (set_on true) c1) = W c) by (rewrite w_up; [exact e|intros q; apply h2]).
  destruct (server _); [destruct (validated p)|]; cbn [snd]; [exact e2| |exact e2].
  rewrite w_up; [exact e2|]. intros q. destruct (under_validation _); rewrite ?h8, h10; reflexivity.
Qed.
Lemma w_migrated i c : W (snd (peer_migrated i c)) = W c.
Proof.
  unfold peer_migrated. destruct (active_pid (x_paths c)) as [old|]; [|reflexivity]. destruct (Nat.eqb old i); [reflexivity|].
  pose proof (w_set_active i c) as h. destruct (set_active i c) as [r c1]. cbn [snd] in h. destruct r; [|exact h|exact h].
  destruct (nth_error (x_paths c1) i); [|exact h]. destruct (nth_error (x_paths c1) old); [|exact h].
  destruct (_ && _); [|exact h]. cbn [snd]. rewrite w_up; [exact h|]. intros q. apply hw.
Qed.
Lemma w_got d c : W (snd (got_response d c)) = W c.
Proof.
  unfold got_response. destruct (active_pid (x_paths c)) as [act|]; [|reflexivity].
  destruct (index (has_pending d) (x_paths c)) as [i|] eqn:ei; [|reflexivity].
  destruct (index_some _ _ _ ei) as (p & hp & _). rewrite hp. pose proof (w_resp d p) as hr.
  destruct (response_received d p) as [v p'] eqn:e. cbn [snd] in hr.
  destruct v; cbn [snd].
  - assert (e1 : W (up i (fun _ => set_mig false p') c) = W c).
    { unfold W, up. cbn [w_paths x_paths]. rewrite (sum_upd _ _ _ _ _ hp). destruct hw as (_ & _ & _ & _ & _ & _ & _ & _ & _ & h10 & _). rewrite h10, hr. lia. }
    destruct (_ && _); exact e1.
  - unfold W, up. cbn [w_paths x_paths]. rewrite (sum_upd _ _ _ _ _ hp), hr. lia.
Qed.
Lemma w_tell c : W (tell_failures c) = W c.
Proof.
  unfold W, tell_failures. cbn [w_paths x_paths]. rewrite sum_map. apply sum_ext. intros p _. destruct (failure_due p); [|reflexivity]. apply hw.
Qed.
End plain.
