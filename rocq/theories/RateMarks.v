(** The marks the estimator keeps: when the sending of the current flight began,
    and until when packets count as limited by the application. *)
Require Import Verif.Base Verif.Assoc Verif.BwModel Verif.RateModel Verif.RateSpec Verif.RateProofs.

Lemma times_app a b : times (a ++ b) = times a ++ times b.
Proof. induction a as [|e a IH]; auto. destruct e; cbn; rewrite ?IH; auto. Qed.
Lemma numbers_app a b : numbers (a ++ b) = numbers a ++ numbers b.
Proof. induction a as [|e a IH]; auto. destruct e; cbn; rewrite ?IH; auto. Qed.
Lemma times_len a : length (times a) = length (sizes a).
Proof. induction a as [|e a IH]; auto. destruct e; cbn; rewrite ?IH; auto. Qed.
Lemma numbers_len a : length (numbers a) = length (sizes a).
Proof. induction a as [|e a IH]; auto. destruct e; cbn; rewrite ?IH; auto. Qed.
Lemma last_mark_app ts a b t : last_mark ts t (a ++ b) = last_mark ts (last_mark ts t a) b.
Proof. revert t. induction a as [|e a IH]; intros t; cbn; auto. destruct e as [? ? ? []|[]| |]; apply IH. Qed.
Lemma increasing_app a b : increasing (a ++ b) <-> increasing a /\ increasing b /\ forall x y, In x a -> In y b -> x < y.
Proof.
  induction a as [|x a IH]; cbn; [firstorder|]. rewrite IH, Forall_app. rewrite !Forall_forall. split.
  - intros ((h1 & h2) & h3 & h4 & h5). repeat split; auto. intros u v [<-|hu] hv; auto.
  - intros ((h1 & h2) & h3 & h4). repeat split; auto. 
Qed.
Lemma last_in (x : Z) l d : In (last (x :: l) d) (x :: l).
Proof. revert x. induction l as [|y l IH]; intros x; [left; auto|]. right. apply (IH y). Qed.

Lemma last_default (x : Z) l d e : last (x :: l) d = last (x :: l) e.
Proof. revert x. induction l as [|y l IH]; intros x; auto. apply (IH y). Qed.
Lemma last_shift (x : Z) l d : last (x :: l) d = last l x.
Proof. destruct l as [|y l]; auto. apply (last_default y l d x). Qed.

Lemma marked_time t0 evs id p : marked t0 evs id p -> dp_time p = nth (Z.to_nat id) (times evs) 0 /\ dp_num p = nth (Z.to_nat id) (numbers evs) 0.
Proof.
  intros (pre & num & size & t & idle & mid & r0 & e & k & _ & h1 & h2 & h3 & _). subst evs id.
  rewrite times_app, numbers_app. unfold zlen. rewrite Nat2Z.id. split.
  - rewrite app_nth2; rewrite times_len; [|lia]. rewrite Nat.sub_diag. cbn. congruence.
  - rewrite app_nth2; rewrite numbers_len; [|lia]. rewrite Nat.sub_diag. cbn. congruence.
Qed.

(** The extra fields an acknowledgment changes *)
Lemma acks_marks t0 evs ids : forall A t now r r', inv t0 evs A t r -> t <= now -> r_acks ids now r = Ok r' ->
  r_eoal r' = r_eoal r /\ r_last r' = r_last r /\
  r_largest r' = fold_left (fun m id => Z.max m (nth (Z.to_nat id) (numbers evs) 0)) ids (r_largest r) /\
  (increasing (A ++ ids) -> r_first r' = match ids with [] => r_first r | id :: ids => nth (Z.to_nat (last ids id)) (times evs) 0 end).
Proof.
  induction ids as [|id ids IH]; intros A t now r r' h ht e; cbn [r_acks] in e.
  - injection e as <-. auto.
  - destruct (aget id (r_flight r)) as [p|] eqn:E; [|discriminate].
    destruct (update_inv t0 evs A t now id p r h ht E) as (h1 & _ & e1 & l1 & _).
    destruct (IH _ now now _ _ h1 ltac:(lia) e) as (e2 & l2 & g2 & f2).
    destruct (marked_time t0 evs id p ltac:(apply (j_fl _ _ _ _ _ h _ _ E))) as (mt & mn).
    split; [congruence|]. split; [congruence|]. split.
    + rewrite g2. cbn [fold_left]. f_equal. rewrite <- mn. unfold r_update. destruct (match s_ptime r with None => _ | _ => _ end); reflexivity.
    + intros hi. rewrite f2 by (rewrite <- app_assoc; exact hi). destruct ids as [|j ids]; [|].
      * cbn [last]. rewrite <- mt. apply increasing_app in hi. destruct hi as (_ & _ & hi).
        assert (hp : s_prior r <= dp_delivered p) by (apply (j_rule _ _ _ _ _ h id p E); intros a ha; apply hi; auto; left; auto).
        unfold r_update. destruct (s_ptime r); [replace (s_prior r <=? dp_delivered p) with true by lia|]; reflexivity.
      * rewrite last_shift. reflexivity.
Qed.
Lemma gen_marks mr r r' : r_generate mr r = Ok r' ->
  r_last r' = r_last r /\ r_largest r' = r_largest r /\ r_eoal r' = (if r_app_limited r && (r_eoal r <? r_largest r) then 0 else r_eoal r).
Proof.
  unfold r_generate. set (r1 := if r_app_limited r && _ then _ else r).
  assert (k : r_last r1 = r_last r /\ r_largest r1 = r_largest r /\ r_eoal r1 = (if r_app_limited r && (r_eoal r <? r_largest r) then 0 else r_eoal r))
    by (unfold r1; destruct (_ && _); cbn; repeat split; auto).
  clearbody r1. cbv zeta. destruct (s_ptime r1) eqn:E1; [|intros e; injection e as <-; exact k].
  destruct (_ <? s_prior r1); [discriminate|]. destruct (_ <? mr); [intros e; injection e as <-; cbn; exact k|].
  destruct (_ =? 0); [intros e; injection e as <-; cbn; exact k|].
  destruct (r_bandwidth _ _); cbn [bind]; try discriminate. destruct (_ || _); intros e; injection e as <-; cbn; exact k.
Qed.

Lemma last_mark_more ts us t evs : Forall (fun a => 0 <= a < zlen ts) (acked evs) -> last_mark (ts ++ us) t evs = last_mark ts t evs.
Proof.
  revert t. induction evs as [|e evs IH]; intros t h; auto. destruct e as [? ? ? []|[|id ids] ? ?| |]; cbn [last_mark acked] in *; auto.
  apply Forall_app in h. destruct h as (h1 & h2). rewrite IH by exact h2. f_equal. apply app_nth1.
  assert (k : In (last ids id) (id :: ids)).
  { rewrite <- (last_shift id ids 0). apply last_in. }
  rewrite Forall_forall in h1. apply h1 in k. unfold zlen in k. lia.
Qed.
Lemma fold_max_more ns us ids m : Forall (fun a => 0 <= a < zlen ns) ids ->
  fold_left (fun m id => Z.max m (nth (Z.to_nat id) (ns ++ us) 0)) ids m = fold_left (fun m id => Z.max m (nth (Z.to_nat id) ns 0)) ids m.
Proof.
  revert m. induction ids as [|id ids IH]; intros m h; auto. inversion h; subst. cbn. rewrite IH by auto. rewrite app_nth1; auto. unfold zlen in *. lia.
Qed.

Lemma reached_prefix t0 evs ev r' : reached t0 (evs ++ [ev]) r' -> exists r, reached t0 evs r /\ r_step ev r = Ok r' /\ orderly (last_time t0 evs) [ev].
Proof.
  intros (ho & e). rewrite orderly_app in ho. destruct ho as (o1 & o2). rewrite r_run_app in e.
  destruct (r_run evs (r_new t0)) as [r0| |] eqn:E; cbn [bind r_run] in e; try discriminate.
  destruct (r_step ev r0) as [r1| |] eqn:E1; cbn [bind] in e; try discriminate. injection e as <-. exists r0. split; [split; auto|]. auto.
Qed.

Lemma reached_marks t0 evs r : reached t0 evs r ->
  r_last r = last (numbers evs) 0 /\ r_largest r = fold_left (fun m id => Z.max m (nth (Z.to_nat id) (numbers evs) 0)) (acked evs) 0 /\
  (increasing (acked evs) -> r_first r = last_mark (times evs) t0 evs).
Proof.
  revert r. induction evs as [|ev evs IH] using rev_ind; intros r' hr.
  - destruct hr as (_ & e). injection e as <-. cbn. auto.
  - destruct (reached_prefix _ _ _ _ hr) as (r & hr0 & e & o). destruct (IH r hr0) as (l & g & f). destruct (reached_inv _ _ _ hr0) as (h & _).
    pose proof (j_acked _ _ _ _ _ h) as ha. assert (hn : zlen (numbers evs) = zlen (sizes evs)) by (unfold zlen; rewrite numbers_len; auto).
    assert (hts : zlen (times evs) = zlen (sizes evs)) by (unfold zlen; rewrite times_len; auto).
    rewrite numbers_app, acked_app, times_app, last_mark_app.
    destruct ev as [num size t idle|ids t mr|id|v]; cbn [r_step acked numbers times last_mark] in *; rewrite ?app_nil_r.
    + injection e as <-. cbn [r_sent r_last r_largest r_first]. rewrite last_last. split; [auto|]. rewrite fold_max_more by (rewrite hn; auto). split; [auto|].
      intros hi. destruct idle; auto. rewrite last_mark_more by (rewrite hts; auto). auto.
    + destruct (r_acks ids t r) as [r1| |] eqn:E; cbn [bind] in e; try discriminate. destruct o as (o1 & _).
      destruct (acks_marks t0 evs ids _ _ _ _ _ h o1 E) as (_ & l1 & g1 & f1). destruct (gen_marks _ _ _ e) as (l2 & g2 & _).
      destruct (gen_fields _ _ _ e) as (_ & _ & _ & _ & f2 & _). split; [congruence|]. split; [rewrite g2, g1, fold_left_app; congruence|].
      intros hi. rewrite f2, f1 by auto. destruct ids as [|i ids]; auto. apply f. apply increasing_app in hi. tauto.
    + destruct (aget id (r_flight r)); [|discriminate]. injection e as <-. cbn. auto.
    + injection e as <-. cbn. auto.
Qed.

Lemma fold_max_spec ns ids m x : fold_left (fun m id => Z.max m (nth (Z.to_nat id) ns 0)) ids m <= x <-> m <= x /\ Forall (fun id => nth (Z.to_nat id) ns 0 <= x) ids.
Proof.
  revert m. induction ids as [|id ids IH]; intros m; cbn [fold_left]; [split; [auto|tauto]|].
  rewrite IH, Forall_cons_iff, Z.max_lub_iff. tauto.
Qed.
Lemma increasing_last l d x : increasing l -> In x l -> x <= last l d.
Proof.
  induction l as [|y l IH]; [intros _ []|]. intros (h1 & h2) hx. destruct l as [|z l]; [destruct hx as [->|[]]; cbn; lia|].
  change (last (y :: z :: l) d) with (last (z :: l) d). destruct hx as [->|hx]; [|auto].
  rewrite Forall_forall in h1. specialize (h1 _ (last_in z l d)). lia.
Qed.

Lemma limited_marks t0 pre mid r : reached t0 (pre ++ RvApp true :: mid) r -> existsb says_limit mid = false -> increasing (numbers (pre ++ mid)) ->
  let mark := Z.max (last (numbers pre) 0) 1 in
  r_eoal r = if forallb (fun id => nth (Z.to_nat id) (numbers (pre ++ mid)) 0 <=? mark) (acked mid) then mark else 0.
Proof.
  intros hr hs hi. cbv zeta. set (mark := Z.max (last (numbers pre) 0) 1).
  assert (hpre : forall us, Forall (fun a => 0 <= a < zlen (numbers pre)) (acked pre) ->
    increasing (numbers pre) -> Forall (fun id => nth (Z.to_nat id) (numbers pre ++ us) 0 <= mark) (acked pre)).
  { intros us hf hinc. eapply Forall_impl; [|exact hf]. intros a ha. cbv beta in *. unfold zlen in ha. rewrite app_nth1 by lia.
    pose proof (increasing_last (numbers pre) 0 (nth (Z.to_nat a) (numbers pre) 0) hinc ltac:(apply nth_In; lia)). lia. }
  revert r hr hs hi. induction mid as [|ev mid IH] using rev_ind; intros r' hr hs hi.
  - change (pre ++ [RvApp true]) with (pre ++ [RvApp true]) in hr. destruct (reached_prefix _ _ _ _ hr) as (r & hr0 & e & _). cbn [r_step] in e. injection e as <-.
    destruct (reached_marks _ _ _ hr0) as (l & _). cbn [acked forallb r_update_app_limited r_set_eoal r_eoal]. rewrite l. reflexivity.
  - rewrite app_comm_cons, app_assoc in hr. destruct (reached_prefix _ _ _ _ hr) as (r & hr0 & e & o).
    rewrite existsb_app in hs. apply Bool.orb_false_iff in hs. destruct hs as (hs & hs1).
    rewrite app_assoc, numbers_app in hi. pose proof hi as hi0. apply increasing_app in hi. destruct hi as (hi & _).
    specialize (IH r hr0 hs hi). destruct (reached_inv _ _ _ hr0) as (h & _). pose proof (j_acked _ _ _ _ _ h) as ha.
    assert (hnum : numbers (pre ++ RvApp true :: mid) = numbers (pre ++ mid)) by (rewrite !numbers_app; reflexivity).
    assert (hn : zlen (numbers (pre ++ mid)) = zlen (sizes (pre ++ RvApp true :: mid))) by (rewrite <- hnum; unfold zlen; rewrite numbers_len; auto).
    rewrite acked_app in ha. cbn [acked] in ha. apply Forall_app in ha. destruct ha as (ha1 & ha2).
    rewrite app_assoc, numbers_app, acked_app. rewrite forallb_app.
    assert (hm : forall us, forallb (fun id => nth (Z.to_nat id) (numbers (pre ++ mid) ++ us) 0 <=? mark) (acked mid) =
      forallb (fun id => nth (Z.to_nat id) (numbers (pre ++ mid)) 0 <=? mark) (acked mid)).
    { intros us. rewrite <- hn in ha2. clear - ha2. induction (acked mid) as [|a l IHl]; auto. inversion ha2; subst. cbn. rewrite IHl by auto. rewrite app_nth1; auto. unfold zlen in *. lia. }
    destruct ev as [num size t idle|ids t mr|id|v]; cbn [r_step acked numbers] in *; rewrite ?app_nil_r; cbn [forallb]; rewrite ?Bool.andb_true_r.
    + injection e as <-. cbn [r_sent r_eoal]. rewrite IH, hm. reflexivity.
    + destruct (r_acks ids t r) as [r1| |] eqn:E; cbn [bind] in e; try discriminate. destruct o as (o1 & _).
      destruct (acks_marks _ _ ids _ _ _ _ _ h o1 E) as (e1 & l1 & g1 & _). destruct (gen_marks _ _ _ e) as (_ & _ & e2).
      destruct (reached_marks _ _ _ hr0) as (_ & g & _). rewrite acked_app in g. cbn [acked] in g. rewrite hnum in g, g1.
      rewrite e2. unfold r_app_limited. rewrite e1, IH.
      destruct (forallb (fun id => nth (Z.to_nat id) (numbers (pre ++ mid)) 0 <=? mark) (acked mid)) eqn:Em; cbn [andb]; [|reflexivity].
      replace (mark =? 0) with false by (unfold mark; lia). cbn [negb andb].
      assert (hold : r_largest r <= mark).
      { rewrite g. apply fold_max_spec. split; [unfold mark; lia|]. apply Forall_app. split.
        - rewrite numbers_app. apply hpre.
          + assert (hr1 : exists r0, reached t0 pre r0).
            { destruct hr0 as (q1 & q2). rewrite orderly_app in q1. rewrite r_run_app in q2. destruct (r_run pre (r_new t0)) as [r0| |] eqn:E0; cbn [bind] in q2; try discriminate.
              exists r0. split; [tauto|auto]. }
            destruct hr1 as (r0 & hr1). destruct (reached_inv _ _ _ hr1) as (h' & _). unfold zlen. rewrite numbers_len. apply h'.
          + rewrite numbers_app in hi. apply increasing_app in hi. tauto.
        - rewrite forallb_forall in Em. apply Forall_forall. intros a hin. specialize (Em a hin). lia. }
      rewrite app_nil_r in *. destruct (forallb _ ids) eqn:Ei.
      * replace (mark <? r_largest r1) with false; [reflexivity|]. symmetry. apply Z.ltb_ge. rewrite g1. apply fold_max_spec. split; [exact hold|].
        rewrite forallb_forall in Ei. apply Forall_forall. intros a hin. specialize (Ei a hin). lia.
      * replace (mark <? r_largest r1) with true; [reflexivity|]. symmetry. apply Z.ltb_lt. destruct (Z_lt_dec mark (r_largest r1)) as [|k]; auto. exfalso.
        assert (k2 : r_largest r1 <= mark) by lia. rewrite g1 in k2. apply fold_max_spec in k2. destruct k2 as (_ & k2).
        assert (k3 : forallb (fun id => nth (Z.to_nat id) (numbers (pre ++ mid)) 0 <=? mark) ids = true).
        { apply forallb_forall. rewrite Forall_forall in k2. intros a hin. specialize (k2 a hin). lia. }
        congruence.
    + destruct (aget id (r_flight r)); [|discriminate]. injection e as <-. cbn [r_drop r_eoal]. rewrite ?app_nil_r. exact IH.
    + discriminate.
Qed.
