(** The pool of buffers: every step keeps the counters in step with the queues. *)
Require Import Verif.Base Verif.Assoc Verif.BufModel Verif.BufSpec Verif.PoolModel Verif.PoolSpec.
From Coq Require Import Lia FinFun.

Definition w_cnt (ph : phase) : Z := match ph with BPush _ | BPopped _ | BOver => 1 | _ => 0 end.
Definition w_idle (ph : phase) : Z := match ph with BPush _ | BPopped _ => 1 | _ => 0 end.
Definition w_push (ph : phase) : Z := match ph with BPush _ => 1 | _ => 0 end.
Definition w_bytes (ph : phase) : Z := match ph with BPush x | BPopped x => cap_of x | _ => 0 end.
Definition tot (f : phase -> Z) (i : Z) (ops : list (Z * (Z * phase))) : Z :=
  asum (fun o => if fst o =? i then f (snd o) else 0) ops.
Fixpoint caps (q : list item) : Z := match q with [] => 0 | x :: q => cap_of x + caps q end.
Fixpoint occ (t : Z) (q : list item) : Z := match q with [] => 0 | x :: q => (if fst x =? t then 1 else 0) + occ t q end.

Definition clean (trim : Z) (x : item) : Prop :=
  cb_head (snd x) = 0 /\ v_len (cb_inner (snd x)) = 0 /\ 0 < cap_of x <= trim.
Definition ph_clean (trim : Z) (ph : phase) : Prop :=
  match ph with BPopped x | BReturn x | BPush x => clean trim x | _ => True end.

Definition shard_inv (mx trim i : Z) (ops : list (Z * (Z * phase))) (sh : shard) : Prop :=
  sh_cnt sh = zlen (sh_queue sh) + tot w_cnt i ops /\
  sh_idle sh = zlen (sh_queue sh) + tot w_idle i ops /\
  sh_idle_bytes sh = caps (sh_queue sh) + tot w_bytes i ops /\
  zlen (sh_queue sh) + tot w_push i ops <= mx /\
  Forall (clean trim) (sh_queue sh).
Definition tags (t : Z) (s : pool) : Z :=
  asum (fun sh => occ t (sh_queue sh)) (p_shards s) + asum (fun o => occ t (in_hand (snd o))) (p_ops s).

Record inv (s : pool) : Prop := {
  i_n : 1 <= p_n s;
  i_keys : akeys (p_shards s) = map Z.of_nat (seq 0 (Z.to_nat (p_n s)));
  i_ops : forall id i ph, aget id (p_ops s) = Some (i, ph) -> 0 <= i < p_n s /\ ph_clean (p_trim s) ph /\ id < p_op s;
  i_nodup : NoDup (akeys (p_ops s));
  i_sh : forall i sh, aget i (p_shards s) = Some sh -> shard_inv (p_max s) (p_trim s) i (p_ops s) sh;
  i_tags : forall t, tags t s <= (if t <? p_fresh s then 1 else 0) }.

Lemma keys_get {A} (m : list (Z * A)) k : In k (akeys m) -> exists v, aget k m = Some v.
Proof. intros h. destruct (aget k m) eqn:E; eauto. apply aget_none_key in E. tauto. Qed.
Lemma shard_there s i : inv s -> 0 <= i < p_n s -> aget i (p_shards s) = Some (get_shard i s).
Proof.
  intros h hi. destruct (keys_get (p_shards s) i) as (sh & e).
  - rewrite (i_keys s h). apply in_map_iff. exists (Z.to_nat i). split; [lia|]. apply in_seq. lia.
  - unfold get_shard. rewrite e. reflexivity.
Qed.

Definition old_ph (id : Z) (ops : list (Z * (Z * phase))) : phase := match aget id ops with Some (_, ph) => ph | None => BGone end.
Definition old_at (id i : Z) (ops : list (Z * (Z * phase))) : Prop := match aget id ops with Some (j, _) => j = i | None => True end.

Lemma tot_aset f id i j ph ops : f BGone = 0 -> old_at id i ops ->
  tot f j (aset id (i, ph) ops) = tot f j ops + (if i =? j then f ph - f (old_ph id ops) else 0).
Proof.
  intros hf ho. unfold tot. rewrite asum_aset. unfold old_at, old_ph in *. destruct (aget id ops) as [[k p]|]; cbn [fst snd]; [subst k|];
    destruct (i =? j); lia.
Qed.

(** One step: user [id] of shard [i] goes to phase [ph], the shard becomes
    [sh']. *)
Lemma upd s id i ph sh' next' op' fresh' :
  inv s -> 0 <= i < p_n s -> old_at id i (p_ops s) -> ph_clean (p_trim s) ph -> id < op' -> p_op s <= op' -> p_fresh s <= fresh' ->
  let sh := get_shard i s in
  let o := old_ph id (p_ops s) in
  sh_cnt sh' - sh_cnt sh = zlen (sh_queue sh') - zlen (sh_queue sh) + w_cnt ph - w_cnt o ->
  sh_idle sh' - sh_idle sh = zlen (sh_queue sh') - zlen (sh_queue sh) + w_idle ph - w_idle o ->
  sh_idle_bytes sh' - sh_idle_bytes sh = caps (sh_queue sh') - caps (sh_queue sh) + w_bytes ph - w_bytes o ->
  (zlen (sh_queue sh) + tot w_push i (p_ops s) <= p_max s -> zlen (sh_queue sh') + tot w_push i (p_ops s) + w_push ph - w_push o <= p_max s) ->
  (Forall (clean (p_trim s)) (sh_queue sh) -> Forall (clean (p_trim s)) (sh_queue sh')) ->
  (forall t, occ t (sh_queue sh') - occ t (sh_queue sh) + occ t (in_hand ph) - occ t (in_hand o) <=
             (if t <? fresh' then 1 else 0) - (if t <? p_fresh s then 1 else 0)) ->
  inv (mkPool (aset i sh' (p_shards s)) (p_n s) (p_max s) (p_trim s) next' (aset id (i, ph) (p_ops s)) op' fresh').
Proof.
  intros h hi ho hc hid hop hfr sh o e1 e2 e3 e4 e5 e6. pose proof (shard_there s i h hi) as hsh. fold sh in hsh.
  constructor; cbn [p_n p_shards p_ops p_op p_trim p_max p_fresh].
  - apply h.
  - rewrite akeys_aset, hsh. apply h.
  - intros id' i' ph' hg. destruct (Z.eq_dec id id') as [<-|n].
    + rewrite aget_aset_same in hg. injection hg as <- <-. auto.
    + rewrite aget_aset_other in hg by auto. destruct (i_ops s h _ _ _ hg) as (q1 & q2 & q3). repeat split; auto; lia.
  - apply nodup_aset. apply h.
  - intros j shj hg. destruct (Z.eq_dec i j) as [<-|n].
    + rewrite aget_aset_same in hg. injection hg as <-. pose proof (i_sh s h i sh hsh) as (q1 & q2 & q3 & q4 & q5).
      unfold shard_inv. rewrite !tot_aset by auto. rewrite Z.eqb_refl. fold o. specialize (e4 q4). repeat split; try lia. auto.
    + rewrite aget_aset_other in hg by auto. pose proof (i_sh s h j shj hg) as q.
      unfold shard_inv in *. rewrite !tot_aset by auto. replace (i =? j) with false by lia. rewrite !Z.add_0_r. exact q.
  - intros t. unfold tags. cbn [p_shards p_ops]. rewrite !asum_aset, hsh. pose proof (i_tags s h t) as q. unfold tags in q.
    specialize (e6 t). unfold o, old_ph in e6. cbn [snd]. destruct (aget id (p_ops s)) as [[k p]|]; cbn [snd in_hand occ] in *; lia.
Qed.

Lemma aset_id {A} k (v : A) m : aget k m = Some v -> aset k v m = m.
Proof.
  induction m as [|[k' v'] m IH]; cbn; [discriminate|]. destruct (k =? k') eqn:E; intros e; [injection e as ->; f_equal; f_equal; lia|].
  f_equal. auto.
Qed.
Lemma upd0 s id i ph next' op' fresh' :
  inv s -> 0 <= i < p_n s -> old_at id i (p_ops s) -> ph_clean (p_trim s) ph -> id < op' -> p_op s <= op' -> p_fresh s <= fresh' ->
  let o := old_ph id (p_ops s) in
  w_cnt ph = w_cnt o -> w_idle ph = w_idle o -> w_bytes ph = w_bytes o -> w_push ph = w_push o ->
  (forall t, occ t (in_hand ph) - occ t (in_hand o) <= (if t <? fresh' then 1 else 0) - (if t <? p_fresh s then 1 else 0)) ->
  inv (mkPool (p_shards s) (p_n s) (p_max s) (p_trim s) next' (aset id (i, ph) (p_ops s)) op' fresh').
Proof.
  intros h hi ho hc hid hop hfr o e1 e2 e3 e4 e6. pose proof (shard_there s i h hi) as hsh.
  rewrite <- (aset_id _ _ _ hsh) at 1. apply upd; auto; fold o; try lia; intros t; specialize (e6 t); lia.
Qed.

Lemma tot_nonneg f i ops : (forall ph, 0 <= f ph) -> 0 <= tot f i ops.
Proof. intros h. apply asum_nonneg. intros k [j ph] _. cbn. destruct (j =? i); [apply h|lia]. Qed.
Lemma tot_get f id i ph ops : (forall ph, 0 <= f ph) -> aget id ops = Some (i, ph) -> f ph <= tot f i ops.
Proof.
  intros h hg. pose proof (asum_get_le (fun o => if fst o =? i then f (snd o) else 0) id (i, ph) ops) as q. cbn [fst snd] in q.
  rewrite Z.eqb_refl in q. apply q; auto. intros k [j p] _. cbn. destruct (j =? i); [apply h|lia].
Qed.
Lemma cap_nonneg x : 0 <= cap_of x.
Proof. unfold cap_of, v_cap. apply zlen_nonneg. Qed.
Lemma caps_nonneg q : 0 <= caps q.
Proof. induction q as [|x q IH]; cbn; [lia|]. pose proof (cap_nonneg x). lia. Qed.
Lemma caps_app a b : caps (a ++ b) = caps a + caps b.
Proof. induction a as [|x a IH]; cbn; [lia|]. lia. Qed.
Lemma occ_app t a b : occ t (a ++ b) = occ t a + occ t b.
Proof. induction a as [|x a IH]; cbn; [lia|]. lia. Qed.
Lemma occ_nonneg t q : 0 <= occ t q.
Proof. induction q as [|x a IH]; cbn; [lia|]. destruct (fst x =? t); lia. Qed.
Lemma w_cnt_nonneg ph : 0 <= w_cnt ph. Proof. destruct ph; cbn; lia. Qed.
Lemma w_idle_nonneg ph : 0 <= w_idle ph. Proof. destruct ph; cbn; lia. Qed.
Lemma w_push_nonneg ph : 0 <= w_push ph. Proof. destruct ph; cbn; lia. Qed.
Lemma w_bytes_nonneg ph : 0 <= w_bytes ph. Proof. destruct ph; cbn; try lia; apply cap_nonneg. Qed.

Lemma reuse_clean t x : 0 <= t ->
  let '(k, b) := cb_reuse t (snd x) in
  cb_head b = 0 /\ v_len (cb_inner b) = 0 /\ v_cap (cb_inner b) = Z.min t (cap_of x) /\ k = (0 <? v_cap (cb_inner b)).
Proof.
  intros ht. unfold cb_reuse. cbn [cb_head cb_inner]. repeat split. unfold v_cap, v_shrink_to, v_clear, cap_of, v_cap. cbn [v_mem v_len].
  unfold take, zlen. rewrite firstn_length. lia.
Qed.

Lemma fresh_occ s t x : inv s -> fst x = p_fresh s ->
  occ t [x] <= (if t <? p_fresh s + 1 then 1 else 0) - (if t <? p_fresh s then 1 else 0).
Proof. intros h e. cbn. rewrite e. destruct (p_fresh s =? t) eqn:E; destruct (t <? p_fresh s + 1) eqn:E1; destruct (t <? p_fresh s) eqn:E2; lia. Qed.
Lemma at_range s : inv s -> 0 <= shard_at s < p_n s.
Proof. intros h. pose proof (i_n s h). unfold shard_at. apply Z.mod_pos_bound. lia. Qed.
Lemma new_op s : inv s -> aget (p_op s) (p_ops s) = None.
Proof. intros h. destruct (aget (p_op s) (p_ops s)) as [[i ph]|] eqn:E; auto. apply (i_ops s h) in E. lia. Qed.

Lemma step_inv ev s s' : 0 <= p_trim s -> inv s -> p_step ev s = Ok s' ->
  inv s' /\ p_trim s' = p_trim s /\ p_max s' = p_max s /\ p_n s' = p_n s.
Proof.
  intros htr h e. destruct ev as [|id|id| |b|id b|id|id|id|id|id]; cbn [p_step] in e; unfold set_phase, set_shard, set_ops in e; cbn [p_shards p_n p_max p_trim p_next p_ops p_op p_fresh] in e.
  - injection e as <-. split; [|auto]. unfold start. pose proof (new_op s h) as hn.
    assert (ho : old_ph (p_op s) (p_ops s) = BGone) by (unfold old_ph; rewrite hn; reflexivity).
    apply upd0; auto; rewrite ?ho; cbn; auto; try lia; try (apply at_range; auto). unfold old_at. rewrite hn. exact I.
  - destruct (aget id (p_ops s)) as [[i ph]|] eqn:E; [|discriminate]. destruct ph; try discriminate.
    pose proof (i_ops s h _ _ _ E) as (q1 & q2 & q3). assert (ho : old_ph id (p_ops s) = BGet) by (unfold old_ph; rewrite E; reflexivity).
    assert (ha : old_at id i (p_ops s)) by (unfold old_at; rewrite E; reflexivity).
    pose proof (i_sh s h i _ (shard_there s i h q1)) as (r1 & r2 & r3 & r4 & r5).
    destruct (sh_queue (get_shard i s)) as [|x q] eqn:Eq.
    + injection e as <-. split; [|auto].
      apply upd0; auto; rewrite ?ho; cbn [w_cnt w_idle w_bytes w_push ph_clean]; auto; try lia.
      intros t. pose proof (fresh_occ s t (p_fresh s, cb_default) h eq_refl). cbn [in_hand occ] in *. lia.
    + injection e as <-. split; [|auto]. inversion r5 as [|? ? c1 c2]; subst.
      apply upd; auto; rewrite ?ho, ?Eq; cbn [w_cnt w_idle w_bytes w_push ph_clean sh_cnt sh_idle sh_idle_bytes sh_queue caps]; auto; rewrite ?zlen_cons; try lia.
      intros t. cbn [in_hand occ]. lia.
  - destruct (aget id (p_ops s)) as [[i ph]|] eqn:E; [|discriminate]. destruct ph; try discriminate.
    pose proof (i_ops s h _ _ _ E) as (q1 & q2 & q3). assert (ho : old_ph id (p_ops s) = BPopped x) by (unfold old_ph; rewrite E; reflexivity).
    assert (ha : old_at id i (p_ops s)) by (unfold old_at; rewrite E; reflexivity).
    destruct (_ || _) eqn:Ep; [discriminate|]. injection e as <-. split; [|auto].
    apply upd; auto; rewrite ?ho; cbn [w_cnt w_idle w_bytes w_push ph_clean sh_cnt sh_idle sh_idle_bytes sh_queue caps]; auto; try lia; try (intros t; cbn [in_hand occ]; lia).
  - injection e as <-. split; [|auto]. unfold start. pose proof (new_op s h) as hn.
    assert (ho : old_ph (p_op s) (p_ops s) = BGone) by (unfold old_ph; rewrite hn; reflexivity).
    apply upd0; auto; rewrite ?ho; cbn [w_cnt w_idle w_bytes w_push ph_clean]; auto; try lia; try (apply at_range; auto).
    + unfold old_at. rewrite hn. exact I.
    + intros t. pose proof (fresh_occ s t (p_fresh s, cb_default) h eq_refl). cbn [in_hand occ] in *. lia.
  - injection e as <-. split; [|auto]. unfold start. pose proof (new_op s h) as hn.
    assert (ho : old_ph (p_op s) (p_ops s) = BGone) by (unfold old_ph; rewrite hn; reflexivity).
    apply upd0; auto; rewrite ?ho; cbn [w_cnt w_idle w_bytes w_push ph_clean]; auto; try lia; try (apply at_range; auto).
    + unfold old_at. rewrite hn. exact I.
    + intros t. pose proof (fresh_occ s t (p_fresh s, b) h eq_refl). cbn [in_hand occ] in *. lia.
  - destruct (aget id (p_ops s)) as [[i ph]|] eqn:E; [|discriminate]. destruct ph; try discriminate.
    pose proof (i_ops s h _ _ _ E) as (q1 & q2 & q3). assert (ho : old_ph id (p_ops s) = BHeld x) by (unfold old_ph; rewrite E; reflexivity).
    assert (ha : old_at id i (p_ops s)) by (unfold old_at; rewrite E; reflexivity).
    injection e as <-. split; [|auto]. apply upd0; auto; rewrite ?ho; cbn [w_cnt w_idle w_bytes w_push ph_clean]; auto; try lia.
    intros t. cbn [in_hand occ fst]. lia.
  - destruct (aget id (p_ops s)) as [[i ph]|] eqn:E; [|discriminate]. destruct ph; try discriminate.
    pose proof (i_ops s h _ _ _ E) as (q1 & q2 & q3). assert (ho : old_ph id (p_ops s) = BHeld x) by (unfold old_ph; rewrite E; reflexivity).
    assert (ha : old_at id i (p_ops s)) by (unfold old_at; rewrite E; reflexivity).
    injection e as <-. split; [|auto]. apply upd0; auto; rewrite ?ho; cbn [w_cnt w_idle w_bytes w_push ph_clean]; auto; try lia.
    intros t. pose proof (occ_nonneg t (in_hand (BHeld x))). cbn [in_hand occ fst] in *. lia.
  - destruct (aget id (p_ops s)) as [[i ph]|] eqn:E; [|discriminate]. destruct ph; try discriminate.
    pose proof (i_ops s h _ _ _ E) as (q1 & q2 & q3). assert (ho : old_ph id (p_ops s) = BHeld x) by (unfold old_ph; rewrite E; reflexivity).
    assert (ha : old_at id i (p_ops s)) by (unfold old_at; rewrite E; reflexivity).
    pose proof (reuse_clean (p_trim s) x htr) as hr. destruct (cb_reuse (p_trim s) (snd x)) as [k b]. destruct hr as (k1 & k2 & k3 & k4).
    injection e as <-. split; [|destruct k; auto]. destruct k.
    + apply upd0; auto; rewrite ?ho; cbn [w_cnt w_idle w_bytes w_push ph_clean]; auto; try lia.
      * unfold clean, cap_of. cbn [snd]. rewrite k1, k2. repeat split; lia.
      * intros t. cbn [in_hand occ fst]. lia.
    + apply upd0; auto; rewrite ?ho; cbn [w_cnt w_idle w_bytes w_push ph_clean]; auto; try lia.
      intros t. pose proof (occ_nonneg t (in_hand (BHeld x))). cbn [in_hand occ fst] in *. lia.
  - destruct (aget id (p_ops s)) as [[i ph]|] eqn:E; [|discriminate]. destruct ph; try discriminate.
    pose proof (i_ops s h _ _ _ E) as (q1 & q2 & q3). assert (ho : old_ph id (p_ops s) = BReturn x) by (unfold old_ph; rewrite E; reflexivity).
    assert (ha : old_at id i (p_ops s)) by (unfold old_at; rewrite E; reflexivity).
    pose proof (i_sh s h i _ (shard_there s i h q1)) as (r1 & r2 & r3 & r4 & r5).
    assert (hle : tot w_push i (p_ops s) <= tot w_cnt i (p_ops s)).
    { apply asum_le. intros k [j p] _. cbn. destruct (j =? i); [|lia]. destruct p; cbn; lia. }
    destruct (sh_cnt _ <? p_max s) eqn:Em; injection e as <-; (split; [|auto]).
    + apply upd; auto; rewrite ?ho; cbn [w_cnt w_idle w_bytes w_push ph_clean sh_cnt sh_idle sh_idle_bytes sh_queue caps]; auto; try lia; try (intros t; cbn [in_hand occ]; lia).
    + apply upd; auto; rewrite ?ho; cbn [w_cnt w_idle w_bytes w_push ph_clean sh_cnt sh_idle sh_idle_bytes sh_queue caps]; auto; try lia; try (intros t; cbn [in_hand occ]; lia).
      intros t. pose proof (occ_nonneg t (in_hand (BHeld x))). cbn [in_hand occ fst] in *. lia.
  - destruct (aget id (p_ops s)) as [[i ph]|] eqn:E; [|discriminate]. destruct ph; try discriminate.
    pose proof (i_ops s h _ _ _ E) as (q1 & q2 & q3). assert (ho : old_ph id (p_ops s) = BPush x) by (unfold old_ph; rewrite E; reflexivity).
    assert (ha : old_at id i (p_ops s)) by (unfold old_at; rewrite E; reflexivity).
    injection e as <-. split; [|auto].
    apply upd; auto; rewrite ?ho; cbn [w_cnt w_idle w_bytes w_push ph_clean sh_cnt sh_idle sh_idle_bytes sh_queue caps]; auto; rewrite ?zlen_app, ?caps_app; cbn [zlen length caps]; rewrite ?zlen_cons; try (unfold zlen; cbn [length]; lia).
    + intros hf. apply Forall_app. split; auto.
    + intros t. rewrite occ_app. cbn [in_hand occ]. lia.
  - destruct (aget id (p_ops s)) as [[i ph]|] eqn:E; [|discriminate]. destruct ph; try discriminate.
    pose proof (i_ops s h _ _ _ E) as (q1 & q2 & q3). assert (ho : old_ph id (p_ops s) = BOver) by (unfold old_ph; rewrite E; reflexivity).
    assert (ha : old_at id i (p_ops s)) by (unfold old_at; rewrite E; reflexivity).
    destruct (sh_cnt _ <? 1) eqn:Ep; [discriminate|]. injection e as <-. split; [|auto].
    apply upd; auto; rewrite ?ho; cbn [w_cnt w_idle w_bytes w_push ph_clean sh_cnt sh_idle sh_idle_bytes sh_queue caps]; auto; try lia; try (intros t; cbn [in_hand occ]; lia).
Qed.

Lemma step_no_panic ev s : inv s -> p_step ev s <> Panic.
Proof.
  intros h. destruct ev as [|id|id| |b|id b|id|id|id|id|id]; cbn [p_step]; try discriminate;
    destruct (aget id (p_ops s)) as [[i ph]|] eqn:E; try discriminate; destruct ph; try discriminate.
  - destruct (sh_queue _); discriminate.
  - pose proof (i_ops s h _ _ _ E) as (q1 & q2 & q3). pose proof (i_sh s h i _ (shard_there s i h q1)) as (r1 & r2 & r3 & r4 & r5).
    pose proof (tot_get w_cnt _ _ _ _ w_cnt_nonneg E) as t1. pose proof (tot_get w_idle _ _ _ _ w_idle_nonneg E) as t2.
    pose proof (tot_get w_bytes _ _ _ _ w_bytes_nonneg E) as t3. cbn [w_cnt w_idle w_bytes] in *.
    pose proof (zlen_nonneg (sh_queue (get_shard i s))). pose proof (caps_nonneg (sh_queue (get_shard i s))).
    replace (_ || _) with false; [discriminate|]. symmetry. lia.
  - cbv zeta. destruct (sh_cnt _ <? _); discriminate.
  - pose proof (i_ops s h _ _ _ E) as (q1 & q2 & q3). pose proof (i_sh s h i _ (shard_there s i h q1)) as (r1 & r2 & r3 & r4 & r5).
    pose proof (tot_get w_cnt _ _ _ _ w_cnt_nonneg E) as t1. cbn [w_cnt] in *. pose proof (zlen_nonneg (sh_queue (get_shard i s))).
    replace (_ <? _) with false by lia. discriminate.
Qed.

Lemma new_inv n limit trim : 1 <= n -> 0 <= limit -> inv (p_new n limit trim).
Proof.
  intros hn hl. unfold p_new.
  assert (hg : forall l i sh, aget i (map (fun i => (Z.of_nat i, empty_shard)) l) = Some sh -> sh = empty_shard).
  { induction l as [|k l IH]; intros i sh; cbn; [discriminate|]. destruct (i =? Z.of_nat k); [intros e; congruence|apply IH]. }
  constructor; cbn [p_n p_shards p_ops p_op p_trim p_max p_fresh].
  - lia.
  - unfold akeys. rewrite map_map. reflexivity.
  - cbn. discriminate.
  - constructor.
  - intros i sh e. apply hg in e. subst. unfold shard_inv, tot. cbn. pose proof (Z.div_pos limit n hl ltac:(lia)). repeat split; auto.
  - intros t. unfold tags. cbn [p_shards p_ops]. assert (e : forall l, asum (fun sh => occ t (sh_queue sh)) (map (fun i => (Z.of_nat i, empty_shard)) l) = 0).
    { induction l as [|k l IH]; cbn; auto. } rewrite e. cbn. destruct (t <? 0); lia.
Qed.

Lemma run_inv evs : forall s s', 0 <= p_trim s -> inv s -> p_run evs s = Ok s' ->
  inv s' /\ p_trim s' = p_trim s /\ p_max s' = p_max s /\ p_n s' = p_n s.
Proof.
  induction evs as [|ev evs IH]; intros s s' ht h e; cbn [p_run] in e; [injection e as <-; auto|].
  destruct (p_step ev s) as [s1| |] eqn:E; cbn [bind] in e; try discriminate.
  destruct (step_inv ev s s1 ht h E) as (h1 & a1 & a2 & a3). destruct (IH s1 s' ltac:(lia) h1 e) as (h2 & b1 & b2 & b3).
  split; [exact h2|]. repeat split; congruence.
Qed.
Lemma reached_inv n limit trim evs s : reached n limit trim evs s -> inv s /\ p_trim s = trim /\ p_max s = limit / n /\ p_n s = n.
Proof.
  intros (h1 & h2 & h3 & e). pose proof (run_inv evs (p_new n limit trim) s h3 (new_inv n limit trim h1 h2) e) as (k & a & b & c). auto.
Qed.

(** Nothing stored twice: counting gives NoDup. *)
Lemma occ_in t q : In t (map fst q) -> 1 <= occ t q.
Proof. induction q as [|x q IH]; cbn; [tauto|]. pose proof (occ_nonneg t q). intros [e|hi]; [replace (fst x =? t) with true by lia; lia|specialize (IH hi); destruct (fst x =? t); lia]. Qed.
Lemma occ_nodup q : (forall t, occ t q <= 1) -> NoDup (map fst q).
Proof.
  induction q as [|x q IH]; cbn; [constructor|]. intros h. constructor.
  - intros hi. apply occ_in in hi. specialize (h (fst x)). rewrite Z.eqb_refl in h. lia.
  - apply IH. intros t. specialize (h t). destruct (fst x =? t); lia.
Qed.
Lemma occ_flat {A} (f : A -> list item) t (m : list (Z * A)) : occ t (flat_map (fun p => f (snd p)) m) = asum (fun a => occ t (f a)) m.
Proof. induction m as [|[k a] m IH]; cbn; auto. rewrite occ_app, IH. reflexivity. Qed.
Lemma occ_all t s : occ t (all_items s) = tags t s.
Proof. unfold all_items, tags. rewrite occ_app. rewrite (occ_flat sh_queue). rewrite (occ_flat (fun o : Z * phase => in_hand (snd o))). reflexivity. Qed.

Lemma tot_quiet f i s : f BGone = 0 -> (forall x, f (BHeld x) = 0) -> inv s -> quiet s -> tot f i (p_ops s) = 0.
Proof.
  intros h1 h2 hi hq. unfold tot. pose proof (i_nodup s hi) as nd. unfold quiet in hq.
  assert (k : forall id o, In (id, o) (p_ops s) -> f (snd o) = 0).
  { intros id [j ph] hin. apply in_aget in hin; auto. specialize (hq _ _ _ hin). cbn. destruct ph; tauto || auto. }
  revert k. generalize (p_ops s). induction l as [|[id o] l IH]; intros k; cbn [asum]; auto.
  rewrite (k id o) by (left; auto). rewrite IH by (intros; eapply k; right; eauto). destruct (fst o =? i); reflexivity.
Qed.

Lemma stored_le mx (m : list (Z * shard)) : (forall k sh, In (k, sh) m -> zlen (sh_queue sh) <= mx) ->
  asum (fun sh => zlen (sh_queue sh)) m <= zlen m * mx.
Proof.
  induction m as [|[k sh] m IH]; intros h; cbn [asum]; [cbn; lia|]. rewrite zlen_cons.
  pose proof (h k sh (or_introl eq_refl)). specialize (IH (fun k sh q => h k sh (or_intror q))). lia.
Qed.
Lemma stored_bound s : inv s -> 0 <= p_max s -> stored s <= p_n s * p_max s.
Proof.
  intros h hm. unfold stored. replace (p_n s) with (zlen (p_shards s)).
  - apply stored_le. intros k sh hin. apply in_aget in hin.
    + destruct (i_sh s h _ _ hin) as (_ & _ & _ & q & _). pose proof (tot_nonneg w_push k (p_ops s) w_push_nonneg). lia.
    + rewrite (i_keys s h). apply FinFun.Injective_map_NoDup; [intros a b; lia|apply seq_NoDup].
  - pose proof (f_equal (@length Z) (i_keys s h)) as e. unfold akeys in e. rewrite !map_length, seq_length in e. unfold zlen. rewrite e. pose proof (i_n s h). lia.
Qed.
