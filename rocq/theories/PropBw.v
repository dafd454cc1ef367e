(** C86: conversions between rates, amounts and times, over all values. *)
Require Import Verif.Base Verif.BwModel Verif.BwSpec.

Lemma div_largest a b (P : Z -> Prop) : 0 < b -> 0 <= a -> (forall m, 0 <= m -> P m <-> m * b <= a) -> (forall m, P m -> 0 <= m) -> largest P (a / b).
Proof.
  intros hb ha h1 h2. pose proof (Z.div_pos a b ha hb) as hd. split.
  - apply h1; auto. pose proof (Z.mul_div_le a b hb). lia.
  - intros m hm. pose proof (h2 m hm) as h3. apply h1 in hm; auto. apply Z.div_le_lower_bound; lia.
Qed.

(** C86: the bytes that fit in a period are the most that can be sent in it, up to
    the largest representable number, and however the intermediate products
    overflow. *)
Theorem C86_bytes_exact r nanos : 0 <= r < u64_max -> 0 <= nanos <= duration_max ->
  largest (fun n => 0 <= n <= u64_max /\ sent_by r n nanos) (bw_to_bytes r nanos).
Proof.
  intros hr hn. unfold bw_to_bytes, sent_by. replace (r =? u64_max) with false by lia. set (p := r * nanos) in *.
  assert (hp : 0 <= p) by (apply Z.mul_nonneg_nonneg; lia).
  assert (e : bw_to_bytes r nanos = Z.min (p / (8 * nanos_per_second)) u64_max).
  { unfold bw_to_bytes. replace (r =? u64_max) with false by lia. fold p. destruct (_ && _) eqn:E.
    - rewrite Z.min_l; auto. apply Z.div_le_upper_bound; unfold nanos_per_second, u64_max in *; lia.
    - destruct (Z_le_dec p u128_max) as [l|l]; [rewrite (Z.min_l p) by lia; reflexivity|]. rewrite (Z.min_r p) by lia.
      rewrite !Z.min_r; auto; unfold nanos_per_second, u64_max, u128_max in *; [|vm_compute; discriminate].
      apply Z.div_le_lower_bound; lia. }
  unfold bw_to_bytes in e. replace (r =? u64_max) with false in e by lia. fold p in e. rewrite e. clear e.
  assert (hd : 0 <= p / (8 * nanos_per_second)) by (apply Z.div_pos; auto; unfold nanos_per_second; lia).
  pose proof (Z.mul_div_le p (8 * nanos_per_second) ltac:(unfold nanos_per_second; lia)) as hm. split.
  - split; [unfold u64_max; lia|]. unfold nanos_per_second in *. lia.
  - intros m ((m1 & m2) & m3). apply Z.min_glb; [|lia]. apply Z.div_le_lower_bound; unfold nanos_per_second; lia.
Qed.
Print Assumptions C86_bytes_exact.

(** C86: the time to transfer is exact to the nanosecond, rounded down: that many
    bytes are not sent a nanosecond before it, and are a nanosecond after it;
    up to the largest representable number. *)
Theorem C86_time_exact r bytes : 0 < r < u64_max -> 0 <= bytes <= u64_max ->
  let t := bw_transfer_time r bytes in
  0 <= t <= u64_max /\ (forall t', t' < t -> ~ sent_by r bytes t') /\ (t < u64_max -> sent_by r bytes (t + 1)).
Proof.
  intros hr hb. unfold bw_transfer_time, sent_by. replace (r =? u64_max) with false by lia. replace (r =? 0) with false by lia.
  set (p := bytes * (8 * nanos_per_second)).
  assert (hp : p = 8 * bytes * 1000000000) by (unfold p, nanos_per_second; lia). assert (hp0 : 0 <= p) by lia.
  assert (hd : 0 <= p / r) by (apply Z.div_pos; lia). pose proof (Z.mul_div_le p r ltac:(lia)) as hm. pose proof (Z.mul_succ_div_gt p r ltac:(lia)) as hs.
  assert (e : (if p <=? u64_max then p / r else Z.min (p / r) u64_max) = Z.min (p / r) u64_max).
  { destruct (p <=? u64_max) eqn:E; auto. rewrite Z.min_l; auto. apply Z.div_le_upper_bound; try lia. clear - E hp0 hr. assert (1 <= r) by lia. nia. }
  rewrite e. clear e. rewrite <- hp. cbv zeta. split; [unfold u64_max; lia|]. split.
  - intros t' ht hle. assert (t' <= p / r - 1) by lia. assert (r * t' <= r * (p / r) - r) by (clear - H hr; nia). lia.
  - intros hl. rewrite Z.min_l by lia. lia.
Qed.
Print Assumptions C86_time_exact.

(** C86: sending for the time it takes never sends more than asked. *)
Theorem C86_never_more r bytes : 0 < r < u64_max -> 0 <= bytes <= u64_max -> bw_to_bytes r (bw_transfer_time r bytes) <= bytes.
Proof.
  intros hr hb. destruct (C86_time_exact r bytes hr hb) as (t1 & t2 & _). set (t := bw_transfer_time r bytes) in *.
  destruct (C86_bytes_exact r t ltac:(lia) ltac:(unfold duration_max, u64_max, nanos_per_second in *; lia)) as (((b1 & b2) & b3) & _).
  set (n := bw_to_bytes r t) in *. destruct (Z_le_dec n bytes); auto. exfalso.
  destruct (Z.eq_dec t 0) as [e|e]; [unfold sent_by in b3; rewrite e in b3; lia|].
  assert (hm : t <= bytes * (8 * nanos_per_second) / r).
  { unfold t, bw_transfer_time. replace (r =? u64_max) with false by lia. replace (r =? 0) with false by lia. destruct (_ <=? u64_max); lia. }
  pose proof (Z.mul_div_le (bytes * (8 * nanos_per_second)) r ltac:(lia)) as hd.
  assert (r * t <= bytes * (8 * nanos_per_second)) by (clear - hm hd hr; nia). unfold sent_by, nanos_per_second in *. lia.
Qed.
Print Assumptions C86_never_more.

(** C86: the rate measured from an amount and a time is the largest that sends no
    more than that amount in that time, but at least one bit per second. *)
Theorem C86_rate_exact bytes nanos : 0 < bytes -> 8 * bytes * 1000000000 <= u64_max -> 0 < nanos <= u64_max ->
  exists r, bw_from_bytes bytes nanos = Ok r /\
    ((1 < r -> r * nanos <= 8 * bytes * 1000000000) /\ 8 * bytes * 1000000000 < (r + 1) * nanos) /\ 1 <= r <= u64_max.
Proof.
  intros hb hs hn. unfold bw_from_bytes. replace (bytes =? 0) with false by lia. rewrite Z.mod_small by lia. replace (nanos =? 0) with false by lia.
  unfold mul64, nanos_per_second. replace (u64_max <? 8 * bytes) with false by lia. cbn [bind]. replace (u64_max <? 8 * bytes * 1000000000) with false by lia. cbn [bind].
  set (p := 8 * bytes * 1000000000) in *. assert (hp : 0 < p) by lia. clearbody p. destruct (p <? nanos) eqn:E.
  - exists 1. split; [reflexivity|]. split; [split; lia|unfold u64_max; lia].
  - exists (p / nanos). pose proof (Z.mul_div_le p nanos ltac:(lia)). pose proof (Z.mul_succ_div_gt p nanos ltac:(lia)).
    assert (1 <= p / nanos) by (apply Z.div_le_lower_bound; lia). assert (p / nanos <= u64_max) by (apply Z.div_le_upper_bound; clear - hn hs; nia).
    split; [reflexivity|]. split; [split; lia|lia].
Qed.
Print Assumptions C86_rate_exact.

(** C86: more time, more bytes; a higher rate, more bytes and less time. *)
Theorem C86_monotone r r' nanos nanos' bytes bytes' : 0 < r <= r' -> r' < u64_max -> 0 <= nanos <= nanos' -> nanos' <= duration_max -> 0 <= bytes <= bytes' -> bytes' <= u64_max ->
  bw_to_bytes r nanos <= bw_to_bytes r' nanos' /\ bw_transfer_time r' bytes <= bw_transfer_time r bytes'.
Proof.
  intros h1 h2 h3 h4 h5 h6. split.
  - destruct (C86_bytes_exact r nanos ltac:(lia) ltac:(lia)) as ((a1 & a2) & _). destruct (C86_bytes_exact r' nanos' ltac:(lia) ltac:(lia)) as (_ & b).
    apply b. split; [exact a1|]. unfold sent_by in *. assert (r * nanos <= r' * nanos') by (apply Z.mul_le_mono_nonneg; lia). lia.
  - destruct (C86_time_exact r' bytes ltac:(lia) ltac:(lia)) as (a1 & a2 & a3). destruct (C86_time_exact r bytes' ltac:(lia) ltac:(lia)) as (b1 & b2 & b3).
    set (t' := bw_transfer_time r' bytes) in *. set (t := bw_transfer_time r bytes') in *. destruct (Z_le_dec t' t) as [l|l]; auto. exfalso.
    specialize (b3 ltac:(lia)). unfold sent_by in *.
    assert (r * (t + 1) <= r' * (t + 1)) by (apply Z.mul_le_mono_nonneg; lia).
    assert (hm : t' <= bytes * (8 * nanos_per_second) / r').
    { unfold t', bw_transfer_time. replace (r' =? u64_max) with false by lia. replace (r' =? 0) with false by lia. destruct (_ <=? u64_max); lia. }
    assert (ht : bw_transfer_time r bytes' >= Z.min (bytes' * (8 * nanos_per_second) / r) u64_max).
    { unfold bw_transfer_time. replace (r =? u64_max) with false by lia. replace (r =? 0) with false by lia. destruct (_ <=? u64_max); lia. }
    fold t in ht. assert (hq : bytes * (8 * nanos_per_second) / r' <= bytes' * (8 * nanos_per_second) / r).
    { transitivity (bytes' * (8 * nanos_per_second) / r'); [apply Z.div_le_mono; unfold nanos_per_second; lia|].
      apply Z.div_le_compat_l; [unfold nanos_per_second; lia|lia]. }
    lia.
Qed.
Print Assumptions C86_monotone.

(** C86: an amount delivered in no time counts as delivered in a nanosecond, as
    does any time whose nanoseconds are a multiple of two to the 64. *)
Theorem C86_rate_instant bytes nanos : 0 < bytes -> 8 * bytes * 1000000000 <= u64_max -> nanos mod (u64_max + 1) = 0 ->
  bw_from_bytes bytes nanos = Ok (8 * bytes * 1000000000).
Proof.
  intros hb hm hn. unfold bw_from_bytes, mul64, nanos_per_second. replace (bytes =? 0) with false by lia. rewrite hn. cbn [Z.eqb].
  replace (u64_max <? 8 * bytes) with false by lia. cbn [bind]. replace (u64_max <? 8 * bytes * 1000000000) with false by lia. cbn [bind].
  replace (8 * bytes * 1000000000 <? 1) with false by lia. rewrite Z.div_1_r. reflexivity.
Qed.
Print Assumptions C86_rate_instant.
Example C86_rate_instant_witness : bw_from_bytes 1200 0 = Ok 9600000000000 /\ bw_from_bytes 1200 (u64_max + 1) = Ok 9600000000000.
Proof. vm_compute. auto. Qed.

(** C86: a difference of rates is what must be added to the smaller, and there is
    none of a smaller and a larger; a sum is exact, and panics only when it
    cannot be represented. *)
Theorem C86_difference a b d : 0 <= a <= u64_max -> 0 <= b <= u64_max ->
  (bw_sub a b = Some d <-> 0 <= d /\ bw_add b d = Ok a) /\ (bw_sub a b = None <-> a < b) /\
  (bw_add a b = Panic <-> u64_max < a + b) /\ (bw_add a b = Ok d <-> d = a + b /\ d <= u64_max).
Proof.
  intros ha hb. unfold bw_sub, bw_add. split; [|split; [|split]].
  - destruct (a <? b) eqn:E; split.
    + discriminate.
    + intros (h & k). destruct (u64_max <? b + d) eqn:E2; [discriminate|]. injection k as k. exfalso. lia.
    + intros k. injection k as <-. split; [lia|]. replace (b + (a - b)) with a by lia. replace (u64_max <? a) with false by lia. reflexivity.
    + intros (h & k). destruct (u64_max <? b + d) eqn:E2; [discriminate|]. injection k as k. f_equal. lia.
  - destruct (a <? b) eqn:E; split; try discriminate; auto; lia.
  - destruct (u64_max <? a + b) eqn:E; split; try discriminate; auto; lia.
  - destruct (u64_max <? a + b) eqn:E; split; try discriminate.
    + intros (-> & k). lia.
    + intros k. injection k as <-. lia.
    + intros (-> & k). reflexivity.
Qed.
Print Assumptions C86_difference.
Example C86_difference_witness : bw_sub 5 5 = Some 0 /\ bw_sub 5 6 = None /\ bw_add u64_max 1 = Panic.
Proof. vm_compute. auto. Qed.

(** The theorems are not vacuous: ten gigabits per second for a minute, and a case
    that overflows 64 bits on the way. *)
Example C86_witness : bw_to_bytes 10000000000 60000000000 = 75000000000 /\ bw_transfer_time 10000000000 75000000000 = 60000000000 /\
  bw_from_bytes 1200 1000000 = Ok 9600000 /\ u64_max < 75000000000 * (8 * nanos_per_second).
Proof. vm_compute. auto. Qed.

(** A finding: an amount of 2.4 gigabytes measured over any time panics (with
    overflow checks off, gives a rate far too small). *)
Theorem C86_rate_overflow_refuted : exists bytes, bytes <= 2400000000 /\ forall nanos, 0 < nanos <= u64_max -> bw_from_bytes bytes nanos = Panic.
Proof. exists 2400000000. split; [lia|]. intros nanos h. reflexivity. Qed.
Print Assumptions C86_rate_overflow_refuted.

(** A finding: a slow rate is reported as one bit per second although less was
    sent. *)
Theorem C86_slow_rate_refuted : exists bytes nanos, 0 < bytes /\ 0 < nanos <= u64_max /\
  exists r, bw_from_bytes bytes nanos = Ok r /\ 8 * bytes * 1000000000 < r * nanos.
Proof. exists 1, 9000000000. split; [lia|]. split; [unfold u64_max; lia|]. exists 1. split; vm_compute; reflexivity. Qed.
Print Assumptions C86_slow_rate_refuted.

(** A finding: at rate zero the time to transfer anything is zero. *)
Theorem C86_zero_rate_refuted : forall bytes, 0 < bytes -> bw_transfer_time 0 bytes = 0 /\ ~ sent_by 0 bytes (bw_transfer_time 0 bytes + 1).
Proof. intros bytes h. split; [reflexivity|]. unfold sent_by. lia. Qed.
Print Assumptions C86_zero_rate_refuted.
