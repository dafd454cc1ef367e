(** The queues of sent packets against the ledger. *)
Require Import Verif.Base Verif.Errors Verif.RttModel Verif.RecoveryModel Verif.RecoverySpec.
Require Import Verif.RecoveryProofs Verif.RecoveryInv Verif.RecoveryMain Verif.RecoverySteps Verif.RecoveryRun Verif.GRecModel Verif.GRecSpec.
Require Import Sorted.

Definition grel (x : entry) (q : Z * gstat) : Prop :=
  en_num x = fst q /\
  match snd q with GSent p => is_out x = true /\ en_p x = p /\ en_at x = p_sent p | _ => is_out x = false end.

Definition tin (lo hi : Z) (x : entry) : bool := is_out x && ((lo <=? en_num x) && (en_num x <? hi)).

Lemma grel_acked x n : is_out x = true -> en_num x = n -> grel (set_fate Acked x) (n, GAcked).
Proof. intros h <-. split; reflexivity. Qed.

Lemma number_cons f x L : number f (x :: L) = (if f x then 1 else 0) + number f L.
Proof. unfold number. cbn [fold_right]. destruct (f x); lia. Qed.
Lemma number_pos f L : 0 <= number f L.
Proof. induction L as [|x L IH]; [reflexivity|]. rewrite number_cons. destruct (f x); lia. Qed.

Lemma gack_range_ok largest lo hi : hi - 1 <= largest -> forall suf l, Forall2 grel suf l -> StronglySorted en_lt suf ->
  forall a, number in_flight suf <= ga_inf a -> exists l' a' new, gack_range largest lo hi l a = Ok (l', a') /\
    Forall2 grel (settle (tin lo hi) Acked suf) l' /\
    ga_inf a' = ga_inf a - esum inf1 (tin lo hi) suf /\ ga_bytes a' = ga_bytes a + esum infsz (tin lo hi) suf /\
    ga_new a' = ga_new a ++ new /\ ga_frames a' = ga_frames a ++ flat_map p_frames new /\
    (forall g, psum g new = esum g (tin lo hi) suf) /\
    (forall p, In p new -> exists x, In x suf /\ tin lo hi x = true /\ en_p x = p) /\
    ga_el a' = ga_el a || existsb p_el new /\ StronglySorted plt new.
Proof.
  intros hl. induction 1 as [|x [n st] suf l hr hf IH]; intros hs a hi'.
  { exists [], a, []. cbn. rewrite !app_nil_r, Bool.orb_false_r. repeat split; try lia; auto; constructor. }
  inversion hs as [|? ? hs1 hs2]; subst. destruct hr as [hn hst]. cbn [fst snd] in hn, hst.
  cbn [gack_range fst]. rewrite number_cons in hi'. pose proof (number_pos in_flight suf) as hp.
  assert (sc : settle (tin lo hi) Acked (x :: suf) = (if tin lo hi x then set_fate Acked x else x) :: settle (tin lo hi) Acked suf) by reflexivity.
  rewrite sc. clear sc.
  assert (skip : tin lo hi x = false -> forall st', grel x (n, st') -> forall a0, ga_inf a0 = ga_inf a -> ga_bytes a0 = ga_bytes a -> ga_new a0 = ga_new a -> ga_frames a0 = ga_frames a -> ga_el a0 = ga_el a -> exists l' a' new,
    (let* '(tl, a) := gack_range largest lo hi l a0 in Ok ((n, st') :: tl, a)) = Ok (l', a') /\
    Forall2 grel ((if tin lo hi x then set_fate Acked x else x) :: settle (tin lo hi) Acked suf) l' /\
    ga_inf a' = ga_inf a - esum inf1 (tin lo hi) (x :: suf) /\ ga_bytes a' = ga_bytes a + esum infsz (tin lo hi) (x :: suf) /\
    ga_new a' = ga_new a ++ new /\ ga_frames a' = ga_frames a ++ flat_map p_frames new /\
    (forall g, psum g new = esum g (tin lo hi) (x :: suf)) /\
    (forall p, In p new -> exists y, In y (x :: suf) /\ tin lo hi y = true /\ en_p y = p) /\
    ga_el a' = ga_el a || existsb p_el new /\ StronglySorted plt new).
  { intros ht st' hg a0 q1 q2 q3 q4 q5. destruct (IH hs1 a0) as (l' & a' & new & e1 & e2 & e3 & e4 & e5 & e6 & e7 & e8 & e9 & e10); [rewrite q1; destruct (in_flight x); lia|].
    rewrite e1. cbn [bind]. exists ((n, st') :: l'), a', new. rewrite ht. rewrite q1 in e3. rewrite q2 in e4. rewrite q3 in e5. rewrite q4 in e6. rewrite q5 in e9.
    split; [reflexivity|]. split; [constructor; assumption|]. rewrite !esum_cons, ht.
    split; [exact e3|]. split; [lia|]. split; [exact e5|]. split; [exact e6|]. split; [intros g; rewrite esum_cons, ht; apply e7|]. split; [|split; [exact e9|exact e10]].
    intros p hp'. destruct (e8 p hp') as (y & y1 & y2). exists y. split; [right; exact y1|exact y2]. }
  destruct (n <? lo) eqn:elo.
  - apply skip; auto; [unfold tin; rewrite hn; replace (lo <=? n) with false by lia; apply Bool.andb_false_r|]. split; assumption.
  - destruct (n <? hi) eqn:ehi.
    2:{ (* beyond the range *)
      assert (hno : Forall (fun y => tin lo hi y = false) (x :: suf)).
      { constructor; [unfold tin; rewrite hn; replace (n <? hi) with false by lia; rewrite Bool.andb_false_r; apply Bool.andb_false_r|].
        eapply Forall_impl; [|exact hs2]. intros y hy. unfold en_lt in hy. unfold tin. replace (en_num y <? hi) with false by lia.
        rewrite Bool.andb_false_r. apply Bool.andb_false_r. }
      exists ((n, st) :: l), a, []. split; [reflexivity|].
      change (Forall2 grel (settle (tin lo hi) Acked (x :: suf)) ((n, st) :: l) /\ ga_inf a = ga_inf a - esum inf1 (tin lo hi) (x :: suf) /\
        ga_bytes a = ga_bytes a + esum infsz (tin lo hi) (x :: suf) /\ ga_new a = ga_new a ++ [] /\ ga_frames a = ga_frames a ++ flat_map p_frames [] /\
        (forall g, psum g [] = esum g (tin lo hi) (x :: suf)) /\ (forall p : pkt, In p [] -> exists y, In y (x :: suf) /\ tin lo hi y = true /\ en_p y = p) /\
        ga_el a = ga_el a || existsb p_el [] /\ StronglySorted plt []).
      rewrite settle_none by (intros y hy; rewrite Forall_forall in hno; auto). rewrite !(esum_none _ _ _ hno).
      cbn [psum flat_map existsb]. rewrite !app_nil_r, Bool.orb_false_r.
      split; [constructor; [split; assumption|exact hf]|]. split; [lia|]. split; [lia|]. split; [reflexivity|]. split; [reflexivity|].
      split; [intros g; rewrite (esum_none _ _ _ hno); reflexivity|]. split; [intros p []|split; [reflexivity|constructor]]. }
    unfold gack_one. cbn [fst snd]. destruct st as [p| |].
    + destruct hst as (ho & hp' & hat). assert (ht : tin lo hi x = true) by (unfold tin; rewrite ho, hn; replace (lo <=? n) with true by lia; rewrite ehi; reflexivity).
      assert (e0 : in_flight x = p_inf p) by (unfold in_flight; rewrite ho, hp'; reflexivity). rewrite e0 in hi'.
      replace (p_inf p && (ga_inf a <? 1)) with false by (destruct (p_inf p); cbn [andb]; lia). cbn [bind].
      match goal with |- context [gack_range largest lo hi l ?b] => set (a0 := b) end.
      destruct (IH hs1 a0) as (l' & a' & new & e1 & e2 & e3 & e4 & e5 & e6 & e7 & e8 & e9 & e10); [unfold a0; cbn [ga_inf]; destruct (p_inf p); lia|].
      rewrite e1. cbn [bind]. exists ((n, GAcked) :: l'), a', (p :: new). rewrite ht, !esum_cons, ht.
      split; [reflexivity|]. split; [constructor; [apply grel_acked; assumption|exact e2]|].
      unfold a0 in e3, e4, e5, e6, e9. cbn [ga_inf ga_bytes ga_new ga_frames ga_el] in e3, e4, e5, e6, e9. rewrite hp'.
      split; [unfold inf1 at 1; destruct (p_inf p); lia|]. split; [unfold infsz at 1; destruct (p_inf p); lia|].
      split; [rewrite e5, <- app_assoc; reflexivity|]. split; [rewrite e6; cbn [flat_map]; rewrite <- app_assoc; reflexivity|].
      split; [intros g; cbn [psum]; rewrite esum_cons, ht, e7, hp'; reflexivity|]. split.
      * intros q [<-|hq]; [exists x; split; [left; reflexivity|split; assumption]|]. destruct (e8 q hq) as (y & y1 & y2). exists y. split; [right; exact y1|exact y2].
      * split; [rewrite e9; cbn [existsb]; rewrite Bool.orb_assoc; reflexivity|]. constructor; [exact e10|]. apply Forall_forall. intros q hq.
        destruct (e8 q hq) as (y & y1 & _ & y3). rewrite Forall_forall in hs2. specialize (hs2 y y1). unfold en_lt, en_num in hs2. unfold plt. rewrite <- y3, <- hp'. exact hs2.
    + cbn [bind]. apply (skip ltac:(unfold tin; rewrite hst; reflexivity) GAcked); auto. split; assumption.
    + replace (largest <? n) with false by lia. cbn [bind]. apply (skip ltac:(unfold tin; rewrite hst; reflexivity) GAcked); auto. split; assumption.
Qed.

Lemma settle_ranges lo hi rs x : (if tack rs (if tin lo hi x then set_fate Acked x else x) then set_fate Acked (if tin lo hi x then set_fate Acked x else x) else (if tin lo hi x then set_fate Acked x else x)) =
  if tack ((lo, hi) :: rs) x then set_fate Acked x else x.
Proof.
  unfold tin, tack, covered. cbn [existsb fst snd]. destruct (is_out x) eqn:e; cbn [andb]; [|rewrite e; reflexivity].
  destruct ((lo <=? en_num x) && (en_num x <? hi)); cbn [orb]; [reflexivity|]. rewrite e. reflexivity.
Qed.
Lemma esum_ranges g lo hi rs L : esum g (tin lo hi) L + esum g (tack rs) (settle (tin lo hi) Acked L) = esum g (tack ((lo, hi) :: rs)) L.
Proof.
  induction L as [|x L IH]; [reflexivity|]. unfold settle in *. cbn [map]. rewrite !esum_cons, <- IH.
  unfold tin, tack, covered. cbn [existsb fst snd]. destruct (is_out x) eqn:e; cbn [andb]; [|rewrite e; cbn [andb]; lia].
  destruct ((lo <=? en_num x) && (en_num x <? hi)); cbn [orb]; [cbn; lia|]. rewrite e. cbn [andb]. lia.
Qed.

Definition rlt (r r' : Z * Z) : Prop := snd r <= fst r'.
Lemma valid_ranges_sorted rs : valid_ranges rs -> StronglySorted rlt rs /\ Forall (fun r => fst r < snd r) rs.
Proof.
  induction rs as [|[lo hi] rs IH]; intros h; [destruct h|]. destruct rs as [|[lo2 hi2] rs].
  - cbn in h. split; repeat constructor. exact h.
  - cbn [valid_ranges] in h. destruct h as (h1 & h2 & h3). destruct (IH h3) as [q1 q2]. split; [|constructor; [exact h1|exact q2]].
    constructor; [exact q1|]. inversion q1 as [|? ? q3 q4]; subst. inversion q2 as [|? ? q5 q6]; subst. constructor; [unfold rlt; cbn in *; lia|].
    eapply Forall_impl; [|exact q4]. intros r hr. unfold rlt in *. cbn [fst snd] in *. lia.
Qed.

Lemma sorted_app {A} (R : A -> A -> Prop) l1 l2 : StronglySorted R l1 -> StronglySorted R l2 -> (forall x y, In x l1 -> In y l2 -> R x y) -> StronglySorted R (l1 ++ l2).
Proof.
  intros h1 h2 h. induction h1 as [|x l1 h1 IH hx]; [exact h2|]. cbn. constructor; [apply IH; intros; apply h; [right|]; assumption|].
  apply Forall_app. split; [exact hx|]. apply Forall_forall. intros y hy. apply h; [left; reflexivity|exact hy].
Qed.

Lemma gack_ranges_ok largest skip rs : (forall lo hi, In (lo, hi) rs -> hi - 1 <= largest) -> StronglySorted rlt rs -> forall suf l, Forall2 grel suf l -> StronglySorted en_lt suf ->
  forall a, number in_flight suf <= ga_inf a ->
  (skip_hit skip rs = true /\ gack_ranges largest skip rs l a = Err OptimisticAckDetected) \/
  (skip_hit skip rs = false /\ exists l' a' new, gack_ranges largest skip rs l a = Ok (l', a') /\
    Forall2 grel (settle (tack rs) Acked suf) l' /\
    ga_inf a' = ga_inf a - esum inf1 (tack rs) suf /\ ga_bytes a' = ga_bytes a + esum infsz (tack rs) suf /\
    ga_new a' = ga_new a ++ new /\ ga_frames a' = ga_frames a ++ flat_map p_frames new /\
    (forall g, psum g new = esum g (tack rs) suf) /\
    (forall p, In p new -> exists x, In x suf /\ tack rs x = true /\ en_p x = p) /\
    ga_el a' = ga_el a || existsb p_el new /\ StronglySorted plt new).
Proof.
  induction rs as [|[lo hi] rs IH]; intros hm hrs suf l hf hs a hi'.
  - right. split; [destruct skip; reflexivity|]. exists l, a, []. 
    assert (hno : Forall (fun y => tack [] y = false) suf) by (apply Forall_forall; intros; apply Bool.andb_false_r).
    rewrite settle_none by (intros; apply Bool.andb_false_r). rewrite !(esum_none _ _ _ hno). cbn [psum flat_map existsb]. rewrite !app_nil_r, Bool.orb_false_r.
    repeat split; try lia; auto; [intros g; rewrite (esum_none _ _ _ hno); reflexivity|intros p []|constructor].
  - cbn [gack_ranges]. assert (hk : skip_hit skip ((lo, hi) :: rs) = (match skip with Some s => (lo <=? s) && (s <? hi) | None => false end) || skip_hit skip rs).
    { destruct skip; reflexivity. }
    rewrite hk. destruct (match skip with Some s => (lo <=? s) && (s <? hi) | None => false end); [left; auto|]. cbn [orb].
    destruct (gack_range_ok largest lo hi (hm lo hi (or_introl eq_refl)) suf l hf hs a hi') as (l1 & a1 & n1 & e1 & e2 & e3 & e4 & e5 & e6 & e7 & e8 & e9 & e10). inversion hrs as [|? ? hrs1 hrs2]; subst.
    rewrite e1. cbn [bind].
    assert (hle : number in_flight (settle (tin lo hi) Acked suf) <= ga_inf a1).
    { rewrite number_esum, settle_sum; [|discriminate|intros x hx; apply Bool.andb_true_iff in hx; apply hx]. rewrite e3, <- number_esum.
      assert (q : esum inf1 (tin lo hi) suf = esum (fun _ => 1) (fun x => tin lo hi x && p_inf (en_p x)) suf).
      { clear. induction suf as [|x L IH]; [reflexivity|]. rewrite !esum_cons, IH. unfold inf1. destruct (tin lo hi x), (p_inf (en_p x)); reflexivity. }
      lia. }
    destruct (IH (fun lo' hi' h => hm lo' hi' (or_intror h)) hrs1 _ _ e2 (sorted_settle _ _ _ hs) a1 hle) as [[k1 k2]|(k1 & l2 & a2 & n2 & f1 & f2 & f3 & f4 & f5 & f6 & f7 & f8 & f9 & f10)];
      [left; auto|right]. split; [exact k1|]. exists l2, a2, (n1 ++ n2).
    split; [exact f1|]. split.
    { replace (settle (tack ((lo, hi) :: rs)) Acked suf) with (settle (tack rs) Acked (settle (tin lo hi) Acked suf)); [exact f2|].
      unfold settle. rewrite map_map. apply map_ext. intros x. apply settle_ranges. }
    split; [rewrite f3, e3, <- (esum_ranges inf1 lo hi rs suf); lia|].
    split; [rewrite f4, e4, <- (esum_ranges infsz lo hi rs suf); lia|].
    split; [rewrite f5, e5, <- app_assoc; reflexivity|].
    split; [rewrite f6, e6, flat_map_app, <- app_assoc; reflexivity|].
    split; [intros g; rewrite psum_app, e7, f7; apply esum_ranges|]. split.
    + intros p hp. apply in_app_or in hp. destruct hp as [hp|hp].
      * destruct (e8 p hp) as (x & x1 & x2 & x3). exists x. split; [exact x1|split; [|exact x3]]. unfold tin in x2. unfold tack, covered. cbn [existsb fst snd].
        apply Bool.andb_true_iff in x2. destruct x2 as [-> ->]. reflexivity.
      * destruct (f8 p hp) as (y & x1 & x2 & x3). unfold settle in x1. apply in_map_iff in x1. destruct x1 as (x & ex & hx). exists x. split; [exact hx|].
        destruct (tin lo hi x) eqn:et; [subst y; discriminate x2|]. subst y. split; [|exact x3]. unfold tack, covered in x2 |- *. cbn [existsb fst snd].
        apply Bool.andb_true_iff in x2. destruct x2 as [-> ->]. rewrite Bool.orb_true_r. reflexivity.
    + split; [rewrite f9, e9, existsb_app, Bool.orb_assoc; reflexivity|]. apply sorted_app; [exact e10|exact f10|].
      intros p q hp hq. destruct (e8 p hp) as (x & _ & x2 & x3). destruct (f8 q hq) as (y & _ & y2 & y3). unfold plt. rewrite <- x3, <- y3.
      change (en_num x < en_num y). unfold tin in x2. unfold tack, covered in y2. apply Bool.andb_true_iff in x2, y2. destruct x2 as [_ x2]. destruct y2 as [_ y2].
      apply existsb_exists in y2. destruct y2 as (r & hr & y2). rewrite Forall_forall in hrs2. specialize (hrs2 r hr). unfold rlt in hrs2. cbn [snd] in hrs2. lia.
Qed.

Lemma gdrain_split l : exists pre, l = pre ++ gdrain l /\ Forall (fun q => match snd q with GSent _ => False | _ => True end) pre.
Proof.
  induction l as [|[n [p| |]] l IH]; [exists []; split; [reflexivity|constructor]|exists []; split; [reflexivity|constructor]|..];
    destruct IH as (pre & e & h); cbn [gdrain]; [exists ((n, GAcked) :: pre)|exists ((n, GLost) :: pre)]; (split; [cbn; rewrite <- e; reflexivity|constructor; [exact I|exact h]]).
Qed.

(** * One space *)
Record gcore (s : gspace) (L : ledger) : Prop := mkGcore {
  gco_queue : exists pre suf, L = pre ++ suf /\ Forall (fun x => is_out x = false) pre /\ Forall2 grel suf (gs_q s);
  gco_inf : gs_inf s = number in_flight L;
  gco_sorted : StronglySorted en_lt L;
  gco_ok : Forall en_ok L }.

(** The fields shared with the other implementation *)
Definition view (s : gspace) : space :=
  mkSpace (gs_last_el s) (gs_largest s) (gs_loss_time s) [] (gs_probes s) (gs_inf s) (gs_facked s) (gs_flost s) (gs_fpto s).

Lemma number_pre pre suf : Forall (fun x => is_out x = false) pre -> number in_flight (pre ++ suf) = number in_flight suf.
Proof.
  intros h. change (esum (fun _ => 1) in_flight (pre ++ suf) = esum (fun _ => 1) in_flight suf). rewrite esum_app, (esum_none (fun _ => 1) in_flight pre); [apply Z.add_0_l|]. eapply Forall_impl; [|exact h]. intros x hx. unfold in_flight. rewrite hx. reflexivity.
Qed.
Lemma esum_pre g T pre suf : (forall x, T x = true -> is_out x = true) -> Forall (fun x => is_out x = false) pre -> esum g T (pre ++ suf) = esum g T suf.
Proof.
  intros ht h. rewrite esum_app, (esum_none g T pre); [lia|]. eapply Forall_impl; [|exact h]. intros x hx. cbv beta in *. destruct (T x) eqn:e; [|reflexivity].
  rewrite (ht x e) in hx. discriminate hx.
Qed.
Lemma settle_pre T F pre suf : (forall x, T x = true -> is_out x = true) -> Forall (fun x => is_out x = false) pre -> settle T F (pre ++ suf) = pre ++ settle T F suf.
Proof.
  intros ht h. unfold settle. rewrite map_app. f_equal. apply (settle_none T F). intros x hx. rewrite Forall_forall in h. specialize (h x hx). destruct (T x) eqn:e; [|reflexivity].
  rewrite (ht x e) in h. discriminate h.
Qed.
Lemma inf_settle T F L : F <> Out -> (forall x, T x = true -> is_out x = true) -> number in_flight (settle T F L) = number in_flight L - esum inf1 T L.
Proof.
  intros hF ht. change (esum (fun _ => 1) in_flight (settle T F L) = esum (fun _ => 1) in_flight L - esum inf1 T L). rewrite settle_sum by assumption.
  assert (q : esum inf1 T L = esum (fun _ => 1) (fun x => T x && p_inf (en_p x)) L).
  { clear. induction L as [|x L IH]; [reflexivity|]. rewrite !esum_cons, IH. unfold inf1. destruct (T x), (p_inf (en_p x)); reflexivity. }
  lia.
Qed.

Lemma gspace_ack_ok rs skip s L : gcore s L -> valid_ranges rs ->
  (skip_hit skip rs = true /\ gspace_ack rs skip s = Err OptimisticAckDetected) \/
  (skip_hit skip rs = false /\ exists s' a, gspace_ack rs skip s = Ok (s', a) /\
    gcore s' (settle (tack rs) Acked L) /\
    gs_largest s' = gs_largest s /\ gs_loss_time s' = gs_loss_time s /\ gs_last_el s' = gs_last_el s /\
    gs_probes s' = gs_probes s /\ gs_flost s' = gs_flost s /\ gs_fpto s' = gs_fpto s /\
    gs_facked s' = gs_facked s ++ flat_map p_frames (ga_new a) /\
    ga_bytes a = esum infsz (tack rs) L /\
    (forall g, psum g (ga_new a) = esum g (tack rs) L) /\
    (forall p, In p (ga_new a) -> exists x, In x L /\ tack rs x = true /\ en_p x = p) /\
    ga_el a = existsb p_el (ga_new a) /\ StronglySorted plt (ga_new a)).
Proof.
  intros [(pre & suf & -> & hpre & hf) hi hs ho] hv. unfold gspace_ack. destruct (valid_ranges_last rs hv) as (m & -> & hm).
  assert (ht : forall x, tack rs x = true -> is_out x = true) by (intros x hx; apply Bool.andb_true_iff in hx; apply hx).
  destruct (gack_ranges_ok (Z.max (or0 (gs_largest s)) m) skip rs ltac:(intros lo h hin; specialize (hm lo h hin); lia) (proj1 (valid_ranges_sorted rs hv)) suf (gs_q s) hf (sorted_app_r _ _ _ hs)
    (mkGa (gs_inf s) 0 0 None false [] [])) as [[k1 k2]|(k1 & l & a & new & e1 & e2 & e3 & e4 & e5 & e6 & e7 & e8 & e9 & e10)].
  { cbn [ga_inf]. rewrite hi, number_pre by exact hpre. lia. }
  - left. rewrite k2. split; [exact k1|reflexivity].
  - right. split; [exact k1|]. rewrite e1. cbn [bind]. eexists _, a. split; [reflexivity|].
    cbn [ga_inf ga_bytes ga_new ga_frames ga_el app orb] in e3, e4, e5, e6, e9. rewrite e5.
    cbn [gs_largest gs_loss_time gs_last_el gs_probes gs_flost gs_fpto gs_facked].
    split.
    { destruct (gdrain_split l) as (p0 & el & h0). rewrite el in e2. apply Forall2_app_inv_r in e2. destruct e2 as (s1 & s2 & r1 & r2 & es).
      split; cbn [gs_q gs_inf].
      - exists (pre ++ s1), s2. rewrite settle_pre, es, app_assoc by assumption. split; [reflexivity|]. split; [|exact r2]. apply Forall_app. split; [exact hpre|].
        clear - r1 h0. induction r1 as [|x [n st] s1 p0 hr r1 IH]; [constructor|]. inversion h0 as [|? ? q1 q2]; subst. constructor; [|auto].
        destruct hr as [_ hr]. cbn [snd] in *. destruct st; (contradiction || exact hr).
      - rewrite e3, hi, inf_settle by (discriminate || exact ht). rewrite (esum_pre inf1) by assumption. reflexivity.
      - apply sorted_settle. exact hs.
      - apply ok_settle. exact ho. }
    split; [reflexivity|]. split; [reflexivity|]. split; [reflexivity|]. split; [reflexivity|]. split; [reflexivity|]. split; [reflexivity|].
    split; [rewrite e6; reflexivity|]. split; [rewrite e4, (esum_pre infsz) by assumption; reflexivity|].
    split; [intros g; rewrite e7, esum_pre by assumption; reflexivity|]. split; [|split; [exact e9|exact e10]].
    intros p hp. destruct (e8 p hp) as (x & x1 & x2). exists x. split; [apply in_or_app; right; exact x1|exact x2].
Qed.

(** * Loss *)
Definition due (now delay : Z) (thresh : option Z) (largest : Z) (x : entry) : Prop :=
  en_at x <= now - delay \/ exists t, thresh = Some t /\ en_num x + t <= largest.
Definition below (k n : Z) : bool := n <? k.

Lemma glose_ok now delay thresh largest : forall suf l, Forall2 grel suf l -> StronglySorted en_lt suf -> Forall en_ok suf ->
  forall a, number in_flight suf <= gl_inf a -> exists k l' a' new, glose now delay thresh largest l a = Ok (l', a') /\
    let T := tlost (below k) in
    Forall2 grel (settle T Lost suf) l' /\
    gl_inf a' = gl_inf a - esum inf1 T suf /\ gl_n a' = gl_n a + esum lost1 T suf /\
    gl_bytes a' = gl_bytes a + esum lostsz T suf /\ gl_pm a' = gl_pm a + esum probesz T suf /\
    gl_frames a' = gl_frames a ++ flat_map p_frames new /\ (forall g, psum g new = esum g T suf) /\
    k <= largest + 1 /\
    (forall x, In x suf -> T x = true -> due now delay thresh largest x) /\
    ((k = largest + 1 /\ gl_time a' = gl_time a) \/
     exists y, In y suf /\ is_out y = true /\ en_num y = k /\ ~ due now delay thresh largest y /\ gl_time a' = Some (en_at y + delay)).
Proof.
  induction 1 as [|x [n st] suf l hr hf IH]; intros hs hok a hi'.
  { exists (largest + 1), [], a, []. cbn. rewrite !app_nil_r. split; [reflexivity|]. split; [constructor|]. repeat match goal with |- _ /\ _ => split end; try lia; try reflexivity; left; auto. }
  inversion hs as [|? ? hs1 hs2]; subst. inversion hok as [|? ? ho1 ho2]; subst. pose proof hr as [hn hst]. cbn [fst snd] in hn, hst.
  cbn [glose]. rewrite number_cons in hi'. pose proof (number_pos in_flight suf) as hp.
  assert (stop : forall k a', gl_inf a' = gl_inf a -> gl_n a' = gl_n a -> gl_bytes a' = gl_bytes a -> gl_pm a' = gl_pm a -> gl_frames a' = gl_frames a ->
    k <= n -> k <= largest + 1 ->
    ((k = largest + 1 /\ gl_time a' = gl_time a) \/
     exists y, In y (x :: suf) /\ is_out y = true /\ en_num y = k /\ ~ due now delay thresh largest y /\ gl_time a' = Some (en_at y + delay)) ->
    exists k l' a'' new, @Ok error _ ((n, st) :: l, a') = Ok (l', a'') /\
    let T := tlost (below k) in
    Forall2 grel (settle T Lost (x :: suf)) l' /\
    gl_inf a'' = gl_inf a - esum inf1 T (x :: suf) /\ gl_n a'' = gl_n a + esum lost1 T (x :: suf) /\
    gl_bytes a'' = gl_bytes a + esum lostsz T (x :: suf) /\ gl_pm a'' = gl_pm a + esum probesz T (x :: suf) /\
    gl_frames a'' = gl_frames a ++ flat_map p_frames new /\ (forall g, psum g new = esum g T (x :: suf)) /\
    k <= largest + 1 /\
    (forall y, In y (x :: suf) -> T y = true -> due now delay thresh largest y) /\
    ((k = largest + 1 /\ gl_time a'' = gl_time a) \/
     exists y, In y (x :: suf) /\ is_out y = true /\ en_num y = k /\ ~ due now delay thresh largest y /\ gl_time a'' = Some (en_at y + delay))).
  { intros k a' q1 q2 q3 q4 q5 hk hk2 htime. exists k, ((n, st) :: l), a', []. split; [reflexivity|]. cbv zeta.
    assert (hno : Forall (fun y => tlost (below k) y = false) (x :: suf)).
    { assert (gen : forall y, n <= en_num y -> tlost (below k) y = false) by (intros y hy; unfold tlost, below; replace (en_num y <? k) with false by lia; apply Bool.andb_false_r).
      constructor; [apply gen; lia|]. eapply Forall_impl; [|exact hs2]. intros y hy. unfold en_lt in hy. apply gen. lia. }
    rewrite settle_none by (intros y hy; rewrite Forall_forall in hno; auto). rewrite !(esum_none _ _ _ hno). cbn [psum flat_map]. rewrite app_nil_r, q1, q2, q3, q4, q5.
    split; [constructor; assumption|]. repeat match goal with |- _ /\ _ => split end; try lia; auto.
    - intros g. rewrite (esum_none _ _ _ hno). reflexivity.
    - intros y hy hT. rewrite Forall_forall in hno. rewrite (hno y hy) in hT. discriminate hT. }
  destruct (largest <? n) eqn:el; [apply (stop (largest + 1)); auto; lia|].
  assert (pass : forall (st' : gstat) (a0 : glacc) (b : bool) (fs : list pkt), grel (if b then set_fate Lost x else x) (n, st') ->
    (b = true -> is_out x = true) -> (is_out x = true -> b = true) ->
    number in_flight suf <= gl_inf a0 -> (b = true -> due now delay thresh largest x) ->
    gl_inf a0 = gl_inf a - (if b then inf1 (en_p x) else 0) -> gl_n a0 = gl_n a + (if b then lost1 (en_p x) else 0) ->
    gl_bytes a0 = gl_bytes a + (if b then lostsz (en_p x) else 0) -> gl_pm a0 = gl_pm a + (if b then probesz (en_p x) else 0) ->
    gl_frames a0 = gl_frames a ++ flat_map p_frames fs -> (forall g, psum g fs = if b then g (en_p x) else 0) -> gl_time a0 = gl_time a ->
    exists k l' a'' new, (let* '(tl, a) := glose now delay thresh largest l a0 in Ok ((n, st') :: tl, a)) = Ok (l', a'') /\
    let T := tlost (below k) in
    Forall2 grel (settle T Lost (x :: suf)) l' /\
    gl_inf a'' = gl_inf a - esum inf1 T (x :: suf) /\ gl_n a'' = gl_n a + esum lost1 T (x :: suf) /\
    gl_bytes a'' = gl_bytes a + esum lostsz T (x :: suf) /\ gl_pm a'' = gl_pm a + esum probesz T (x :: suf) /\
    gl_frames a'' = gl_frames a ++ flat_map p_frames new /\ (forall g, psum g new = esum g T (x :: suf)) /\
    k <= largest + 1 /\
    (forall y, In y (x :: suf) -> T y = true -> due now delay thresh largest y) /\
    ((k = largest + 1 /\ gl_time a'' = gl_time a) \/
     exists y, In y (x :: suf) /\ is_out y = true /\ en_num y = k /\ ~ due now delay thresh largest y /\ gl_time a'' = Some (en_at y + delay))).
  { intros st' a0 b fs hg hb1 hb2 hinf hdue q1 q2 q3 q4 q5 q6 q7.
    destruct (IH hs1 ho2 a0 hinf) as (k & l' & a' & new & e1 & e2 & e3 & e4 & e5 & e6 & e7 & e8 & e9 & e10 & e11). cbv zeta in *.
    rewrite e1. cbn [bind]. exists k, ((n, st') :: l'), a', (fs ++ new). split; [reflexivity|].
    assert (hk : n < k).
    { destruct e11 as [[-> _]|(y & hy & _ & <- & _)]; [lia|]. rewrite Forall_forall in hs2. specialize (hs2 y hy). unfold en_lt in hs2. lia. }
    assert (hT : tlost (below k) x = b).
    { unfold tlost, below. rewrite hn. replace (n <? k) with true by lia. rewrite Bool.andb_true_r. destruct b; [auto|]. destruct (is_out x); [symmetry; auto|reflexivity]. }
    cbv zeta. change (settle (tlost (below k)) Lost (x :: suf)) with ((if tlost (below k) x then set_fate Lost x else x) :: settle (tlost (below k)) Lost suf).
    rewrite hT, !esum_cons, hT. split; [constructor; assumption|].
    split; [lia|]. split; [lia|]. split; [lia|]. split; [lia|]. split; [rewrite e7, q5, flat_map_app, app_assoc; reflexivity|].
    split; [intros g; rewrite psum_app, q6, e8, esum_cons, hT; reflexivity|]. split; [exact e9|]. split.
    - intros y [<-|hy] hTy; [rewrite hT in hTy; auto|auto].
    - destruct e11 as [[z1 z2]|(y & hy & z)]; [left; split; [exact z1|congruence]|right]. exists y. split; [right; exact hy|exact z]. }
  destruct st as [p| |].
  - destruct hst as (ho & hpp & hat).
    assert (hd : (p_sent p <=? now - delay) || (match thresh with Some t => n + t <=? largest | None => false end) = true <-> due now delay thresh largest x).
    { unfold due. rewrite hat, hn, Bool.orb_true_iff. split.
      - intros [h|h]; [left; lia|right]. destruct thresh as [t|]; [|discriminate h]. exists t. split; [reflexivity|lia].
      - intros [h|(t & -> & h)]; [left|right]; lia. }
    destruct ((p_sent p <=? now - delay) || (match thresh with Some t => n + t <=? largest | None => false end)).
    + assert (hdue : due now delay thresh largest x) by (apply hd; reflexivity). clear hd.
      assert (e0 : in_flight x = p_inf p) by (unfold in_flight; rewrite ho, hpp; reflexivity). rewrite e0 in hi'.
      assert (hg : grel (set_fate Lost x) (n, GLost)) by (split; [exact hn|reflexivity]).
      destruct ho1 as (_ & _ & ho1). rewrite hpp in ho1.
      destruct (p_inf p) eqn:ei.
      * replace (gl_inf a <? 1) with false by lia. cbv zeta.
        apply (pass GLost _ true [p]); auto; rewrite ?hpp; unfold inf1, lost1, lostsz, probesz, infsz; rewrite ?ei;
          try (destruct (p_probe p); cbn [gl_inf gl_n gl_bytes gl_pm gl_frames gl_time flat_map]; rewrite ?app_nil_r; (lia || reflexivity)).
        intros g. cbn [psum]. lia.
      * assert (ep : p_probe p = false) by (destruct (p_probe p); [discriminate (ho1 eq_refl)|reflexivity]).
        apply (pass GLost _ true [p]); auto; rewrite ?hpp; unfold inf1, lost1, lostsz, probesz, infsz; rewrite ?ei, ?ep;
          cbn [gl_inf gl_n gl_bytes gl_pm gl_frames gl_time flat_map]; rewrite ?app_nil_r; try (lia || reflexivity).
        intros g. cbn [psum]. lia.
    + assert (hnd : ~ due now delay thresh largest x) by (intros h; apply hd in h; discriminate h).
      apply (stop n); auto; try lia. right. exists x. split; [left; reflexivity|]. cbn [gl_time]. rewrite <- hat. auto.
  - apply (pass GAcked a false []); auto; try congruence; try lia; rewrite ?Z.sub_0_r, ?Z.add_0_r; auto.
    + destruct (in_flight x); lia.
    + cbn. rewrite app_nil_r. reflexivity.
  - apply (pass GLost a false []); auto; try congruence; try lia; rewrite ?Z.sub_0_r, ?Z.add_0_r; auto.
    + destruct (in_flight x); lia.
    + cbn. rewrite app_nil_r. reflexivity.
Qed.
