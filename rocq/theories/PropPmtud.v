(** C47: path MTU discovery. *)
Require Import Verif.Base Verif.Errors Verif.PmtudModel Verif.PmtudSpec Verif.PmtudProofs.

(** C47: whatever happens to the probes, nothing panics, every probe is between
    1200 bytes and the maximum, and the MTU reported is 1200 or the size of a
    probe that was acknowledged. *)
Theorem C47_safe max mp ops : valid_config max mp ->
  exists os p out, pm_run ops (pm_new max mp, None) = Ok (os, (p, out)) /\
    Forall (fun n => 1200 <= n <= max) (sizes_sent os) /\
    (pm_current p = 1200 \/ In (pm_current p) (sizes_acked os)) /\
    1200 <= pm_current p <= max /\
    (forall m, pm_pmtu p = Some m -> m = pm_current p).
Proof.
  intros hv. destruct (c47_safe max mp ops hv) as (os & p & out & e & I & hm & h1 & h2).
  exists os, p, out. split; [exact e|]. split; [exact h1|]. unfold pm_current, MIN_PLPMTU. destruct I, hv.
  destruct (pm_success p) as [s|] eqn:E; (split; [auto|]); (split; [lia|]); intros m hp; rewrite hp in *;
    destruct pi_pmtu as (h & _); congruence.
Qed.
Print Assumptions C47_safe.

(** C47: on a path that carries exactly the packets of at most [mtu] bytes, the
    search sends at most [attempts * (k + 2)] probes, where [2^k] covers the
    range searched, and when it stops it has found the MTU exactly. *)
Theorem C47_finds_the_mtu max mp mtu k ops : valid_config max mp -> 1200 <= mtu ->
  0 <= k -> max - 1200 <= 2 ^ k -> ~ In PmRevalidate ops ->
  exists os st, pm_run ops (pm_new max mp, None) = Ok (os, st) /\
  (Forall (true_of_path mtu) os ->
    zlen (sizes_sent os) <= attempts mp * (k + 2) /\
    (finished st -> pm_pmtu (fst st) = Some (Z.min mtu max) /\ pm_current (fst st) = Z.min mtu max) /\
    (pm_pmtu (fst st) = Some (Z.min mtu max) -> finished st)).
Proof. exact (c47_search max mp mtu k ops). Qed.
Print Assumptions C47_finds_the_mtu.

(** C47: after a PMTU was found in whatever way, revalidation on a path whose
    MTU is now the same or smaller finds the new MTU, as fast. *)
Theorem C47_revalidation max mp mtu k ops1 ops2 os1 p1 out1 m : valid_config max mp ->
  pm_run ops1 (pm_new max mp, None) = Ok (os1, (p1, out1)) -> pm_pmtu p1 = Some m ->
  1200 <= mtu <= m -> 0 <= k -> max - 1200 <= 2 ^ k -> ~ In PmRevalidate ops2 ->
  exists os st, pm_run (PmRevalidate :: ops2) (p1, out1) = Ok (os, st) /\
  (Forall (true_of_path mtu) os ->
    zlen (sizes_sent os) <= attempts mp * (k + 2) /\
    (finished st -> pm_pmtu (fst st) = Some mtu /\ pm_current (fst st) = mtu)).
Proof. exact (c47_revalidate max mp mtu k ops1 ops2 os1 p1 out1 m). Qed.
Print Assumptions C47_revalidation.

(** The probes of a path with MTU [mtu], each answered before the next *)
Fixpoint answers (n : nat) (mtu : Z) (st : pmtud * option Z) : list pm_op :=
  match n with
  | O => []
  | S n =>
      let op := match snd st with
                | Some s => if s <=? mtu then PmAcked else PmLost
                | None => PmProbe
                end in
      op :: match pm_step op st with Ok (_, st) => answers n mtu st | _ => [] end
  end.
Definition p_new := (pm_new 1500 3, @None Z).
Definition p_ops := Eval vm_compute in answers 60 1337 p_new.
Definition p_found := Eval vm_compute in
  match pm_run p_ops p_new with Ok (_, st) => st | _ => p_new end.
Definition p_again := Eval vm_compute in
  match pm_step PmRevalidate p_found with Ok (_, st) => PmRevalidate :: answers 60 1500 st | _ => [] end.
Definition p_less := Eval vm_compute in
  match pm_step PmRevalidate p_found with Ok (_, st) => answers 90 1250 st | _ => [] end.

Definition true_b (mtu : Z) (o : pm_out) : bool :=
  match o with PoAcked n => n <=? mtu | PoLost n => mtu <? n | _ => true end.
Lemma true_b_ok mtu os : forallb (true_b mtu) os = true -> Forall (true_of_path mtu) os.
Proof.
  intros h. apply Forall_forall. intros o ho. rewrite forallb_forall in h. apply h in ho.
  destruct o; cbn in *; auto; lia.
Qed.

Example C47_witness : valid_config 1500 3 /\ 1500 - 1200 <= 2 ^ 9 /\ ~ In PmRevalidate p_ops /\
  exists os, pm_run p_ops p_new = Ok (os, p_found) /\ Forall (true_of_path 1337) os /\
  finished p_found /\ pm_pmtu (fst p_found) = Some 1337 /\ zlen (sizes_sent os) = 17.
Proof.
  split; [unfold valid_config; lia|]. split; [vm_compute; discriminate|].
  split; [vm_compute; intros h; repeat destruct h as [h|h]; try discriminate h; exact h|].
  eexists. split; [vm_compute; reflexivity|]. split; [apply true_b_ok; vm_compute; reflexivity|].
  vm_compute. auto.
Qed.

Example C47_revalidation_witness : 1200 <= 1250 <= 1337 /\ ~ In PmRevalidate p_less /\
  exists os st, pm_run (PmRevalidate :: p_less) p_found = Ok (os, st) /\ Forall (true_of_path 1250) os /\
  finished st /\ pm_pmtu (fst st) = Some 1250.
Proof.
  split; [lia|].
  split; [vm_compute; intros h; repeat destruct h as [h|h]; try discriminate h; exact h|].
  do 2 eexists. split; [vm_compute; reflexivity|]. split; [apply true_b_ok; vm_compute; reflexivity|].
  vm_compute. auto.
Qed.

(** Revalidation does not find an MTU that has grown: the smallest failed probe
    size is kept, so the old value is reported again and never searched above. *)
Theorem C47_revalidation_finds_larger_mtu_refuted :
  ~ (forall max mp mtu ops1 ops2 os1 os p1 out1 st, valid_config max mp -> 1200 <= mtu <= max ->
     pm_run ops1 (pm_new max mp, None) = Ok (os1, (p1, out1)) -> finished (p1, out1) ->
     pm_run (PmRevalidate :: ops2) (p1, out1) = Ok (os, st) -> Forall (true_of_path mtu) os ->
     finished st -> pm_pmtu (fst st) = Some mtu).
Proof.
  intros h.
  assert (C : exists os1 os st, pm_run p_ops (pm_new 1500 3, None) = Ok (os1, p_found) /\ finished p_found /\
    pm_run p_again p_found = Ok (os, st) /\ Forall (true_of_path 1500) os /\ finished st /\ pm_pmtu (fst st) = Some 1337).
  { do 3 eexists. split; [vm_compute; reflexivity|]. split; [vm_compute; auto|].
    split; [vm_compute; reflexivity|]. split; [apply true_b_ok; vm_compute; reflexivity|]. vm_compute. auto. }
  destruct C as (os1 & os & st & h1 & h2 & h3 & h4 & h5 & h6).
  destruct p_found as [p1 out1] eqn:Ep.
  assert (Ea : exists tl, p_again = PmRevalidate :: tl) by (eexists; reflexivity). destruct Ea as (tl & Ea). rewrite Ea in h3.
  assert (e : pm_pmtu (fst st) = Some 1500); [|congruence].
  refine (h 1500 3 1500 p_ops tl os1 os p1 out1 st _ _ h1 h2 h3 h4 h5); [unfold valid_config|]; lia.
Qed.
Print Assumptions C47_revalidation_finds_larger_mtu_refuted.
