(** C48: the windowed minimum filter.  C49: RTT estimates. *)
Require Import Verif.Base Verif.RttModel Verif.RttSpec Verif.RttProofs.

(** C48: the estimate is a real sample of the last window and nothing received
    since is smaller, the newest sample included; for any sub-window settings. *)
Theorem C48_recent_minimum win quarter half x l : 0 <= win -> Sorted before (x :: l) ->
  recent_minimum win (mm_get (mm_after win quarter half x l)) x l.
Proof. exact (c48 win quarter half x l). Qed.
Print Assumptions C48_recent_minimum.

(** C48: within one window of the first sample it is the minimum of all. *)
Theorem C48_exact_in_first_window win quarter half x l : 0 <= win -> Sorted before (x :: l) ->
  sm_time (last l x) - sm_time x <= win ->
  smallest (mm_get (mm_after win quarter half x l)) (map sm_value (x :: l)).
Proof. exact (c48_min win quarter half x l). Qed.
Print Assumptions C48_exact_in_first_window.

Definition m_x := mkSample 0 1.
Definition m_l := [mkSample 990 10; mkSample 995 11; mkSample 1001 12; mkSample 1980 20;
                   mkSample 1991 30; mkSample 1996 31; mkSample 2002 32].
Definition m_t := Eval vm_compute in firstn 2 m_l.

(** The estimate need not be the minimum of the window, not even of its last
    fortieth: the filter keeps three samples and drops one (20, taken 22 of 1000
    time units ago) that is smaller than all it still reports (30). *)
Theorem C48_window_minimum_refuted :
  ~ (forall win x l, 0 <= win -> Sorted before (x :: l) ->
     forall s, In s l -> sm_time (last l x) - sm_time s <= win / 40 ->
     mm_get (mm_after win (win / 4) (win / 2) x l) <= sm_value s).
Proof.
  intros h. assert (Sorted before (m_x :: m_l)) by (unfold m_x, m_l; repeat constructor; unfold before; cbn; lia).
  specialize (h 1000 m_x m_l ltac:(lia) H (mkSample 1980 20)). 
  assert (E : mm_get (mm_after 1000 (1000 / 4) (1000 / 2) m_x m_l) = 30) by (vm_compute; reflexivity).
  rewrite E in h. assert (30 <= 20); [|lia]. apply h; [cbn; tauto|vm_compute; discriminate].
Qed.
Print Assumptions C48_window_minimum_refuted.

Example C48_witness : Sorted before (m_x :: m_l) /\ sm_time (last m_t m_x) - sm_time m_x <= 1000 /\
  mm_get (mm_after 1000 250 500 m_x m_l) = 30 /\ mm_get (mm_after 1000 250 500 m_x m_t) = 1.
Proof.
  split; [unfold m_x, m_l; repeat constructor; unfold before; cbn; lia|].
  vm_compute. repeat split; discriminate.
Qed.

(** C49: min_rtt is a sample of the last 300 s, at most every later sample; in
    the first 300 s it is the minimum of all samples. *)
Theorem C49_min_rtt t initial mad x l :
  Sorted before (map as_sample (x :: l)) ->
  let r := rtt_run (x :: l) (rtt_new t initial mad) in
  exists v, rtt_min r = Some v /\ recent_minimum RTT_WINDOW v (as_sample x) (map as_sample l) /\
    (in_now (last l x) - in_now x <= RTT_WINDOW -> smallest v (map in_rtt (x :: l))).
Proof. exact (c49_min t initial mad x l). Qed.
Print Assumptions C49_min_rtt.

(** C49: max_rtt is the maximum of all samples. *)
Theorem C49_max_rtt t initial mad x l :
  exists v, rtt_max (rtt_run (x :: l) (rtt_new t initial mad)) = Some v /\ largest v (map in_rtt (x :: l)).
Proof. exact (c49_max t initial mad x l). Qed.
Print Assumptions C49_max_rtt.

(** C49: whatever delays the peer reports, the smoothed RTT lies between the
    samples, up to 14 ns of rounding, and the variance between 0 and the largest. *)
Theorem C49_smoothed_rtt t initial mad lo hi x l :
  Sorted before (map as_sample (x :: l)) -> 0 <= lo -> 0 <= mad ->
  Forall (fun y => lo <= in_rtt y <= hi /\ 0 <= in_delay y) (x :: l) ->
  let r := rtt_run (x :: l) (rtt_new t initial mad) in
  lo - 14 <= r_srtt r <= hi /\ 0 <= r_srtt r /\ 0 <= r_var r <= hi.
Proof. exact (c49_srtt t initial mad lo hi x l). Qed.
Print Assumptions C49_smoothed_rtt.

(** C49: the first sample is the smoothed RTT, and half of it the variance.  A later one
    counts for an eighth, and its distance for a quarter, once the delay is taken off. *)
Theorem C49_weights t initial mad hi x l y :
  Sorted before (map as_sample (x :: l ++ [y])) -> 0 <= mad -> hi < 2 ^ 64 ->
  Forall (fun z => 0 <= in_rtt z <= hi /\ 0 <= in_delay z) (x :: l ++ [y]) ->
  let r := rtt_run (x :: l) (rtt_new t initial mad) in let r' := rtt_run (x :: l ++ [y]) (rtt_new t initial mad) in
  (l = [] -> r_srtt r = in_rtt x /\ r_var r = in_rtt x / 2) /\
  exists mn a, rtt_min r' = Some mn /\ less_delay mad mn y a /\
    7 * r_srtt r + a - 14 <= 8 * r_srtt r' <= 7 * r_srtt r + a /\
    3 * r_var r + Z.abs (r_srtt r - a) - 6 <= 4 * r_var r' <= 3 * r_var r + Z.abs (r_srtt r - a).
Proof.
  intros hs hm hh hf. cbv zeta. split; [intros ->; split; reflexivity|].
  assert (hf1 : Forall (fun z => 0 <= in_rtt z <= hi /\ 0 <= in_delay z) (x :: l)) by (inversion hf as [|? ? h1 h2]; subst; constructor; [exact h1|]; apply Forall_app in h2; exact (proj1 h2)).
  assert (hy : 0 <= in_rtt y <= hi /\ 0 <= in_delay y) by (inversion hf as [|? ? h1 h2]; subst; apply Forall_app in h2; destruct h2 as (_ & h2); inversion h2; auto).
  assert (hs1 : Sorted before (map as_sample (x :: l))) by (rewrite app_comm_cons, map_app in hs; exact (proj1 (sorted_front (as_sample x) (map as_sample l) (as_sample y) hs))).
  destruct (c49_srtt t initial mad 0 hi x l hs1 ltac:(lia) hm hf1) as (b1 & b2 & b3).
  change (x :: l ++ [y]) with ((x :: l) ++ [y]). rewrite rtt_run_app. destruct (c49_max t initial mad x l) as (v & hv & _). unfold rtt_max in hv. set (r := rtt_run (x :: l) (rtt_new t initial mad)) in *.
  assert (hmad : r_max_ack_delay r = mad).
  { assert (K : forall l r, r_max_ack_delay (rtt_run l r) = r_max_ack_delay r) by (clear; induction l as [|z l ih]; intros r; cbn [rtt_run]; [reflexivity|]; rewrite ih; unfold rtt_update; destruct (negb (r_has r)); reflexivity). unfold r. rewrite K. reflexivity. }
  destruct (r_has r) eqn:ehas; [|discriminate]. cbn [rtt_run]. unfold rtt_update. rewrite ehas. cbn [negb]. unfold rtt_min. cbn [r_has r_min r_srtt r_var].
  set (mm := mm_min _ _ _ _ _). eexists. exists (rtt_adjust y (r_max_ack_delay r) (mm_get mm)). split; [reflexivity|]. rewrite hmad.
  assert (hmn : 0 <= mm_get mm <= in_rtt y).
  { destruct (c49_min t initial mad x (l ++ [y]) hs) as (v0 & h1 & (pre & s & post & h2 & h3 & _ & h4) & _). change (x :: l ++ [y]) with ((x :: l) ++ [y]) in h1. rewrite rtt_run_app in h1. fold r in h1. cbn [rtt_run] in h1. unfold rtt_update in h1. rewrite ehas in h1. cbn [negb] in h1.
    unfold rtt_min in h1. cbn [r_has r_min] in h1. fold mm in h1. assert (hv0 : mm_get mm = v0) by congruence. rewrite hv0, h3. rewrite Forall_forall in hf, h4.
    assert (hin : forall z, In z (pre ++ s :: post) -> exists w, In w (x :: l ++ [y]) /\ z = as_sample w) by (intros z hz; rewrite <- h2 in hz; change (as_sample x :: map as_sample (l ++ [y])) with (map as_sample (x :: l ++ [y])) in hz; apply in_map_iff in hz; destruct hz as (w & <- & hw); eauto).
    split.
    - destruct (hin s ltac:(apply in_or_app; right; left; reflexivity)) as (w & hw & ->). apply (hf w hw).
    - assert (hlast : In (as_sample y) (s :: post)).
      { rewrite map_app in h2. cbn [map] in h2. rewrite app_comm_cons in h2. destruct (exists_last (l := s :: post) ltac:(discriminate)) as (q & z & hq). rewrite hq in h2 |- *. rewrite app_assoc in h2. apply app_inj_tail in h2. destruct h2 as (_ & ->). apply in_or_app. right. left. reflexivity. }
      exact (h4 _ hlast). }
  split.
  - unfold less_delay, rtt_adjust. exists (if in_confirmed y then Z.min (in_delay y) mad else in_delay y). split; [destruct (in_confirmed y); lia|]. set (d := if in_confirmed y then _ else _). clear - d. destruct (Z.leb_spec (mm_get mm + d) (in_rtt y)); [left|right]; lia.
  - pose proof (rtt_adjust_range y mad (mm_get mm) ltac:(lia) ltac:(lia) hm) as hr. set (a := rtt_adjust y mad (mm_get mm)) in *. clearbody a. clear - b1 b2 b3 hr hmn hy hh.
    rewrite (Z.mod_small (Z.abs (r_srtt r - a))) by lia. pose proof (Z.mul_div_le (r_srtt r * 7) 8). pose proof (Z.mul_div_le a 8). pose proof (Z.mul_div_le (r_var r * 3) 4). pose proof (Z.mul_div_le (Z.abs (r_srtt r - a)) 4).
    pose proof (Z.mod_pos_bound (r_srtt r * 7) 8). pose proof (Z.mod_pos_bound a 8). pose proof (Z.mod_pos_bound (r_var r * 3) 4). pose proof (Z.mod_pos_bound (Z.abs (r_srtt r - a)) 4).
    pose proof (Z.div_mod (r_srtt r * 7) 8). pose proof (Z.div_mod a 8). pose proof (Z.div_mod (r_var r * 3) 4). pose proof (Z.div_mod (Z.abs (r_srtt r - a)) 4). lia.
Qed.
Print Assumptions C49_weights.
(** C49: the probe timeout exceeds the smoothed RTT by, and the loss delay is,
    at least the timer granularity of 1 ms. *)
Theorem C49_granularity scale r :
  rtt_pto r >= r_srtt r + 1000000 /\ rtt_loss_delay scale r >= 1000000.
Proof. unfold rtt_pto, rtt_loss_delay, GRANULARITY. lia. Qed.
Print Assumptions C49_granularity.

Definition c_x := mkIn 7 0 0 true.
Definition c_l := repeat c_x 7.

(** The smoothed RTT can fall below every sample: both quotients of the update
    are rounded down, and samples of 7 ns take it to 0. *)
Theorem C49_smoothed_at_least_minimum_refuted :
  ~ (forall t initial mad lo x l, Sorted before (map as_sample (x :: l)) -> 0 <= lo -> 0 <= mad ->
     Forall (fun y => lo <= in_rtt y /\ 0 <= in_delay y) (x :: l) ->
     lo <= r_srtt (rtt_run (x :: l) (rtt_new t initial mad))).
Proof.
  intros h. assert (E : r_srtt (rtt_run (c_x :: c_l) (rtt_new 0 333 25)) = 0) by (vm_compute; reflexivity).
  specialize (h 0 333 25 7 c_x c_l). rewrite E in h. assert (7 <= 0); [|lia].
  apply h; [unfold c_l; cbn; repeat constructor; unfold before; cbn; lia|lia|lia|].
  unfold c_l; cbn; repeat constructor; cbn; lia.
Qed.
Print Assumptions C49_smoothed_at_least_minimum_refuted.

Definition d_l := [mkIn 50000000 20000000 60000000 false; mkIn 80000000 40000000 150000000 true].
Definition d_x := mkIn 40000000 0 0 false.
Example C49_witness :
  Sorted before (map as_sample (d_x :: d_l)) /\ in_now (last d_l d_x) - in_now d_x <= RTT_WINDOW /\
  Forall (fun y => 40000000 <= in_rtt y <= 80000000 /\ 0 <= in_delay y) (d_x :: d_l) /\
  (let r := rtt_run (d_x :: d_l) (rtt_new 0 333000000 25000000) in
   rtt_min r = Some 40000000 /\ rtt_max r = Some 80000000 /\ r_srtt r = 42968750).
Proof.
  split; [unfold d_x, d_l; repeat constructor; unfold before; cbn; lia|].
  split; [vm_compute; discriminate|].
  split; [unfold d_x, d_l; repeat constructor; cbn; lia|].
  vm_compute. auto.
Qed.
