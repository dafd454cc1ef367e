(** C84: the pool of byte buffers, over every interleaving of the steps of any
    number of threads. *)
Require Import Verif.Base Verif.Assoc Verif.BufModel Verif.BufSpec Verif.BufProofs Verif.PoolModel Verif.PoolSpec Verif.PoolProofs.

(** C84: the pool never stores more buffers than its limit, not even for a
    moment. *)
Theorem C84_bounded n limit trim evs s : reached n limit trim evs s -> stored s <= limit.
Proof.
  intros h. destruct (reached_inv _ _ _ _ _ h) as (hi & a & b & c). destruct h as (h1 & h2 & h3 & _).
  pose proof (Z.div_pos limit n h2 ltac:(lia)). pose proof (stored_bound s hi ltac:(lia)) as q. rewrite b, c in q.
  pose proof (Z.mul_div_le limit n ltac:(lia)). lia.
Qed.
Print Assumptions C84_bounded.

(** C84: no buffer is with two users at once, or with a user and in the pool. *)
Theorem C84_one_owner n limit trim evs s : reached n limit trim evs s -> NoDup (map fst (all_items s)).
Proof.
  intros h. destruct (reached_inv _ _ _ _ _ h) as (hi & _). apply occ_nodup. intros t. rewrite occ_all. pose proof (i_tags s hi t).
  destruct (t <? p_fresh s); lia.
Qed.
Print Assumptions C84_one_owner.

(** C84: a buffer that get returns reads as empty and has no room, whatever was
    done with it before, and has no more memory than the pool lets buffers keep. *)
Theorem C84_clean n limit trim evs s ev s' id i x : reached n limit trim evs s -> ev = PvPop id \/ ev = PvSub id ->
  p_step ev s = Ok s' -> aget id (p_ops s') = Some (i, BHeld x) ->
  cb_shows (snd x) (mkView 0 []) /\ v_cap (cb_inner (snd x)) <= trim.
Proof.
  intros h hev e hg. destruct (reached_inv _ _ _ _ _ h) as (hi & ht & _). destruct h as (_ & _ & h3 & _).
  destruct hev as [->| ->]; cbn [p_step] in e; destruct (aget id (p_ops s)) as [[j ph]|] eqn:E; try discriminate; destruct ph; try discriminate; cbv zeta in e.
  - destruct (sh_queue (get_shard j s)) as [|y q]; injection e as <-; cbn [set_phase set_ops set_shard p_ops] in hg; rewrite aget_aset_same in hg; [|discriminate].
    injection hg as _ <-. cbn. split; [split; reflexivity|exact h3].
  - destruct (_ || _); [discriminate|]. injection e as <-. cbn [set_phase set_ops set_shard p_ops] in hg. rewrite aget_aset_same in hg. injection hg as _ ->.
    destruct (i_ops s hi _ _ _ E) as (_ & (c1 & c2 & c3) & _). rewrite ht in c3. split; [|unfold cap_of in c3; lia].
    split; [exact c1|]. unfold cb_read. rewrite c1, c2. cbn. unfold v_bytes. rewrite c2. reflexivity.
Qed.
Print Assumptions C84_clean.

(** C84: no step panics: no counter or gauge goes below zero. *)
Theorem C84_no_panic n limit trim evs s ev : reached n limit trim evs s -> p_step ev s <> Panic.
Proof. intros h. destruct (reached_inv _ _ _ _ _ h) as (hi & _). apply step_no_panic. exact hi. Qed.
Print Assumptions C84_no_panic.

(** C84: when no get or drop is under way, the counter and the gauges of every
    shard are exact: no place is lost. *)
Theorem C84_exact_when_quiet n limit trim evs s i : reached n limit trim evs s -> quiet s -> 0 <= i < n ->
  exists sh, aget i (p_shards s) = Some sh /\ sh_cnt sh = zlen (sh_queue sh) /\ sh_idle sh = zlen (sh_queue sh) /\
    sh_idle_bytes sh = fold_right (fun x a => v_cap (cb_inner (snd x)) + a) 0 (sh_queue sh).
Proof.
  intros h hq hr. destruct (reached_inv _ _ _ _ _ h) as (hi & _ & _ & hn). pose proof (shard_there s i hi ltac:(lia)) as e.
  exists (get_shard i s). split; [exact e|]. destruct (i_sh s hi _ _ e) as (q1 & q2 & q3 & _).
  rewrite (tot_quiet w_cnt) in q1; auto. rewrite (tot_quiet w_idle) in q2; auto. rewrite (tot_quiet w_bytes) in q3; auto.
  split; [lia|]. split; [lia|]. rewrite q3, Z.add_0_r. generalize (sh_queue (get_shard i s)). induction l as [|x l IH]; cbn; auto.
Qed.
Print Assumptions C84_exact_when_quiet.

(** C84: a buffer with memory that is dropped while nothing else goes on, its shard
    not full, is stored; otherwise the memory would be given away. *)
Theorem C84_kept n limit trim evs s id i x : reached n limit trim evs s -> quiet s -> aget id (p_ops s) = Some (i, BHeld x) ->
  0 < trim -> 0 < v_cap (cb_inner (snd x)) -> (forall sh, aget i (p_shards s) = Some sh -> zlen (sh_queue sh) < limit / n) ->
  exists s' b, p_run [PvDrop id; PvAdd id; PvPush id] s = Ok s' /\ stored s' = stored s + 1 /\ In (fst x, b) (all_items s').
Proof.
  intros h hq hg htr hc hf. destruct (reached_inv _ _ _ _ _ h) as (hi & ht & hm & hn).
  destruct (i_ops s hi _ _ _ hg) as (r1 & _). pose proof (shard_there s i hi r1) as hs. specialize (hf _ hs).
  destruct (i_sh s hi _ _ hs) as (q1 & _). rewrite (tot_quiet w_cnt) in q1; auto. set (sh := get_shard i s) in *.
  cbn [p_run]. cbn [p_step]. rewrite hg. pose proof (reuse_clean (p_trim s) x ltac:(lia)) as hr.
  destruct (cb_reuse (p_trim s) (snd x)) as [k b]. destruct hr as (k1 & k2 & k3 & k4). unfold cap_of in k3. replace k with true by lia.
  cbn [bind]. cbn [p_step set_phase set_ops p_ops]. rewrite aget_aset_same. cbv zeta.
  change (get_shard i (set_phase id i (BReturn (fst x, b)) s)) with sh.
  change (p_max (set_phase id i (BReturn (fst x, b)) s)) with (p_max s).
  replace (sh_cnt sh <? p_max s) with true by lia. cbn [bind]. unfold set_phase, set_ops, set_shard. cbn [p_ops]. rewrite aget_aset_same. cbn [bind].
  unfold get_shard, set_shard, set_ops. cbn [p_shards p_n p_max p_trim p_next p_ops p_op p_fresh]. rewrite aget_aset_same. cbn [sh_queue sh_cnt sh_idle sh_idle_bytes].
  eexists. exists b. split; [reflexivity|]. unfold stored. cbn [p_shards]. rewrite asum_aset, aget_aset_same, asum_aset, hs. cbn [sh_queue].
  rewrite zlen_app. change (zlen [(fst x, b)]) with 1. split; [lia|].
  unfold all_items. cbn [p_shards]. apply in_or_app. left. apply in_flat_map. eexists (i, _). cbn [snd]. split; [apply aget_in; apply aget_aset_same|].
  cbn [sh_queue]. apply in_or_app. right. left. reflexivity.
Qed.
Print Assumptions C84_kept.

(** The theorems are not vacuous: with two shards of two, buffers are made,
    filled, given back and fetched again, one of them while another is given
    back. *)
Definition C84_evs : list pool_event :=
  [PvOwned (cb_from_vec [1; 2; 3]); PvGet; PvEmpty; PvUse 2 (cb_from_vec [4; 5]); PvPop 1; PvDrop 0; PvAdd 0; PvPush 0;
   PvUse 1 (cb_from_vec [6]); PvGet; PvDrop 2; PvPop 3; PvAdd 2; PvSub 3; PvPush 2].
Definition C84_state : pool := Eval vm_compute in match p_run C84_evs (p_new 2 4 2) with Ok s => s | _ => p_new 2 4 2 end.
Example C84_witness : reached 2 4 2 C84_evs C84_state /\ quiet C84_state /\ stored C84_state = 1 /\
  aget 3 (p_ops C84_state) = Some (0, BHeld (0, mkCb (mkV [1; 2] 0) 0)) /\
  aget 1 (p_ops C84_state) = Some (1, BHeld (2, cb_from_vec [6])).
Proof.
  split; [split; [lia|split; [lia|split; [lia|vm_compute; reflexivity]]]|]. split; [|split; [|split]; vm_compute; reflexivity].
  intros id i ph h. apply aget_in in h. repeat (destruct h as [h|h]; [injection h as <- <- <-; exact I|]). destruct h.
Qed.

(** A finding: a buffer is thrown away although the shard stores nothing, because
    the counter still counts a buffer another thread has just fetched. *)
Theorem C84_thrown_away_refuted :
  exists n limit trim evs s s' id i x, reached n limit trim evs s /\ 1 <= limit / n /\ stored s = 0 /\
    aget id (p_ops s) = Some (i, BHeld x) /\ 0 < v_cap (cb_inner (snd x)) /\ 0 < trim /\
    p_run [PvDrop id; PvAdd id; PvUndo id] s = Ok s' /\ stored s' = 0.
Proof.
  exists 1, 1, 8, [PvOwned (cb_from_vec [1]); PvOwned (cb_from_vec [2]); PvDrop 0; PvAdd 0; PvPush 0; PvGet; PvPop 2].
  eexists. eexists. exists 1, 0, (1, cb_from_vec [2]).
  split; [split; [lia|split; [lia|split; [lia|vm_compute; reflexivity]]]|].
  split; [vm_compute; discriminate|]. split; [vm_compute; reflexivity|]. split; [vm_compute; reflexivity|].
  split; [vm_compute; reflexivity|]. split; [lia|]. split; [vm_compute; reflexivity|]. vm_compute. reflexivity.
Qed.
Print Assumptions C84_thrown_away_refuted.

(** A finding: a pool whose limit is below its number of shards never stores
    anything. *)
Theorem C84_small_limit_refuted :
  exists n limit trim, 1 <= limit /\ forall evs s, reached n limit trim evs s -> stored s <= 0.
Proof.
  exists 4, 3, 8. split; [lia|]. intros evs s h. destruct (reached_inv _ _ _ _ _ h) as (hi & a & b & c).
  change (3 / 4) with 0 in b. pose proof (stored_bound s hi ltac:(lia)). rewrite b in *. lia.
Qed.
Print Assumptions C84_small_limit_refuted.
