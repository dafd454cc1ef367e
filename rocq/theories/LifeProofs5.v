(** Closing and draining *)
Require Import Verif.Base Verif.Errors Verif.LifeModel Verif.LifeMicro Verif.LifeMicro2 Verif.LifeMicro3 Verif.LifeMicro4 Verif.LifeSpec Verif.LifeProofs1 Verif.LifeProofs2 Verif.LifeProofs3.

Definition life_of (g : tag) (c : conn) : life :=
  match g with
  | GErr e => set_err (Some e) (x_life c)
  | GPeer e => set_perr (Some e) (x_life c)
  | GDrain t => set_drain (Some t) (x_life c)
  | GRestart now => match idle_timeout c with Some v => set_idle (Some (now + v)) (x_life c) | None => x_life c end
  | GKu o => set_ku o (x_life c)
  | GTimed => set_timed true (x_life c)
  | GClosed => set_closed true (x_life c)
  | _ => x_life c
  end.
Lemma tapply_life g c : x_life (tapply g c) = life_of g c.
Proof.
  destruct g; cbn [tapply life_of]; try reflexivity.
  - apply (credit_same a n c).
  - apply (insert_same p tell c).
  - destruct (_ && _); [reflexivity|]. apply (credit_same a (k_len k) (w_held (tl (x_held c)) c)).
  - unfold restart_idle. destruct (idle_timeout c); reflexivity.
  - apply (response_same d c).
  - apply (set_active_same i c).
  - apply (migrated_same i c).
Qed.
Lemma via_closed l c c' : via l c c' -> is_closed c = true -> is_closed c' = true.
Proof.
  induction 1 as [|g l c c' hg hv ih]; intros h; [exact h|]. apply ih. unfold is_closed in *. rewrite tapply_life.
  destruct g; cbn [life_of]; try exact h; try reflexivity. destruct (idle_timeout c); exact h.
Qed.
Lemma via_err l c c' e : via l c c' -> l_err (x_life c) = Some e -> l_err (x_life c') = Some e.
Proof.
  induction 1 as [|g l c c' hg hv ih]; intros h; [exact h|]. apply ih. rewrite tapply_life.
  destruct g; cbn [life_of]; try exact h; [cbn in hg; congruence|]. destruct (idle_timeout c); exact h.
Qed.
Lemma step_closed o c y c' : step o c = (y, c') -> zheld c -> is_closed c = true -> is_closed c' = true.
Proof. intros h hz. destruct (step_via _ _ _ _ h hz) as (_ & l & hv & _). apply (via_closed _ _ _ hv). Qed.
Lemma step_err o c y c' e : step o c = (y, c') -> zheld c -> l_err (x_life c) = Some e -> l_err (x_life c') = Some e.
Proof. intros h hz. destruct (step_via _ _ _ _ h hz) as (_ & l & hv & _). apply (via_err _ _ _ _ hv). Qed.

(** A connection that no longer processes packets *)
Definition halted (c : conn) : bool := is_closed c || is_draining c || is_some (l_err (x_life c)).
(** All that may still happen to it on receipt *)
Definition untouched (c c' : conn) : Prop :=
  x_cfg c' = x_cfg c /\ x_hs c' = x_hs c /\ x_recv c' = x_recv c /\ x_aes c' = x_aes c /\ x_np c' = x_np c /\ x_events c' = x_events c /\ x_pool c' = x_pool c /\
  x_life c' = set_closed (is_closed c') (x_life c) /\ (is_closed c = true -> is_closed c' = true) /\
  map (set_budget 0) (x_paths c') = map (set_budget 0) (x_paths c).
Lemma untouched_refl c : untouched c c.
Proof. unfold untouched. repeat (split; [reflexivity|]). split; [destruct c as [? ? [] ? ? ? ? ? ? ?]; reflexivity|]. auto. Qed.
Lemma untouched_trans c1 c2 c3 : untouched c1 c2 -> untouched c2 c3 -> untouched c1 c3.
Proof.
  intros (a1 & a2 & a3 & a4 & a5 & a6 & a7 & a8 & a9 & a10) (b1 & b2 & b3 & b4 & b5 & b6 & b7 & b8 & b9 & b10). unfold untouched.
  repeat (split; [congruence|]). split; [rewrite b8, a8; reflexivity|]. split; [auto|congruence].
Qed.
Lemma untouched_halted c c' : untouched c c' -> halted c = true -> halted c' = true.
Proof.
  intros (_ & _ & _ & _ & _ & _ & _ & h & hc & _) hh. unfold halted, is_draining in *. rewrite h. cbn [set_closed l_drain l_err].
  destruct (is_closed c) eqn:e; [rewrite hc by reflexivity; reflexivity|]. cbn [orb] in hh. rewrite <- orb_assoc. rewrite hh. apply orb_true_r.
Qed.
Lemma untouched_closed c : untouched c (mark_closed c).
Proof. unfold untouched. cbn. auto 14. Qed.
Lemma untouched_held h c : untouched c (w_held h c).
Proof. unfold untouched. cbn. repeat (split; [reflexivity|]). split; [destruct c as [? ? [] ? ? ? ? ? ? ?]; reflexivity|]. auto. Qed.
Lemma untouched_credit a n c : untouched c (credit a n c).
Proof.
  destruct (credit_same a n c) as (_ & h2 & h3 & h4 & h5). unfold untouched, is_closed. rewrite (credit_cfg a n c), h2, h3, h4, h5.
  assert (e : x_aes (credit a n c) = x_aes c /\ x_np (credit a n c) = x_np c /\ x_events (credit a n c) = x_events c /\ map (set_budget 0) (x_paths (credit a n c)) = map (set_budget 0) (x_paths c)).
  { unfold credit. destruct (by_addr a (x_paths c)); [|auto]. split; [reflexivity|]. split; [reflexivity|]. split; [reflexivity|]. cbn [up w_paths x_paths]. apply map_upd. intros p. destruct (_ && _); reflexivity. }
  destruct e as (e1 & e2 & e3 & e4). rewrite e1, e2, e3, e4. repeat (split; [reflexivity|]). split; [destruct c as [? ? [] ? ? ? ? ? ? ?]; reflexivity|]. auto.
Qed.
Lemma halted_single now a pid k c : halted c = true -> recv_single now a pid k c = (Err Done, c).
Proof.
  unfold halted, recv_single. intros h. destruct (is_closed c || is_draining c); [reflexivity|]. cbn [orb] in h. rewrite h. reflexivity.
Qed.
Lemma halted_loop now a pid ks c : halted c = true -> exists c', recv_loop now a pid ks c = (Ok tt, c') /\ untouched c c'.
Proof.
  intros h. destruct ks as [|k ks]; cbn [recv_loop]; [exists c; split; [reflexivity|apply untouched_refl]|]. rewrite halted_single by exact h.
  eexists. split; [reflexivity|]. destruct (k_reset k); [apply untouched_closed|apply untouched_refl].
Qed.
Lemma halted_packets now a ks c : halted c = true -> exists c', recv_packets now a ks c = (Ok tt, c') /\ untouched c c'.
Proof.
  intros h. unfold recv_packets. destruct (_ && _); [exists c; split; [reflexivity|apply untouched_refl]|].
  destruct (halted_loop now a (by_addr a (x_paths c)) ks (credit a (total ks) c)) as (c' & h1 & h2).
  { eapply untouched_halted; [apply untouched_credit|exact h]. }
  exists c'. split; [exact h1|]. eapply untouched_trans; [apply untouched_credit|exact h2].
Qed.
Lemma packets_held now a ks c r c' : recv_packets now a ks c = (r, c') -> halted c = true -> x_held c' = x_held c.
Proof.
  intros h hh. unfold recv_packets in h. destruct (_ && _) in h; [injection h as _ <-; reflexivity|].
  assert (hc : halted (credit a (total ks) c) = true) by (eapply untouched_halted; [apply untouched_credit|exact hh]).
  rewrite <- (held_credit a (total ks) c).
  destruct ks as [|k ks]; cbn [recv_loop] in h; [injection h as _ <-; reflexivity|]. rewrite halted_single in h by exact hc.
  injection h as _ <-. destruct (k_reset k); reflexivity.
Qed.
Lemma halted_replay now : forall fuel c, halted c = true -> (length (x_held c) <= fuel)%nat -> exists c', replay fuel now c = (Ok tt, c') /\ untouched c c'.
Proof.
  induction fuel as [|fuel ih]; intros c h hl; cbn [replay]; (destruct (negb _); [exists c; split; [reflexivity|apply untouched_refl]|]);
    destruct (x_held c) as [|[k a] q] eqn:eh; try (exists c; split; [reflexivity|apply untouched_refl]); [cbn in hl; lia|].
  assert (hw : halted (w_held q c) = true) by (eapply untouched_halted; [apply untouched_held|exact h]).
  destruct (halted_packets now a [k] (w_held q c) hw) as (c1 & h1 & h2). rewrite h1.
  pose proof (packets_held _ _ _ _ _ _ h1 hw) as e. cbn [w_held x_held] in e.
  destruct (ih c1) as (c2 & h3 & h4); [eapply untouched_halted; eassumption|rewrite e; cbn in hl; lia|].
  exists c2. split; [exact h3|]. eapply untouched_trans; [apply untouched_held|]. eapply untouched_trans; eassumption.
Qed.
Lemma halted_recv now a ks c r c' : halted c = true -> recv now a ks c = (r, c') -> (r = Ok tt \/ r = Err BufferTooShort) /\ untouched c c'.
Proof.
  intros h hr. unfold recv in hr. destruct (total ks =? 0); [injection hr as <- <-; split; [auto|apply untouched_refl]|].
  destruct (_ && _) in hr; [injection hr as <- <-; split; [auto|apply untouched_refl]|].
  destruct (halted_packets now a ks c h) as (c1 & h1 & h2). rewrite h1 in hr.
  destruct (halted_replay now (length (x_held c1)) c1) as (c2 & h3 & h4); [eapply untouched_halted; eassumption|lia|].
  rewrite h3 in hr. injection hr as <- <-. split; [auto|]. eapply untouched_trans; eassumption.
Qed.
Lemma ended_send now from to max hso os c : is_closed c || is_draining c = true ->
  snd (send now from to max hso os c) = c /\ (fst (send now from to max hso os c) = Err Done \/ fst (send now from to max hso os c) = Err BufferTooShort).
Proof. intros h. unfold send. destruct (max <=? 0); [auto|]. rewrite h. auto. Qed.

Lemma ended_out o c y c' : step o c = (y, c') -> is_closed c || is_draining c = true -> y_sent y = [].
Proof.
  intros h he. destruct o as [now b ks|now from to max hso os|now timers|app code reason|b scid|b scid|q| |i t pto rtt|i d]; cbn [step] in h.
  - destruct (recv now b ks c). injection h as <- <-. reflexivity.
  - destruct (ended_send now from to max hso os c he) as (_ & h2). destruct (send now from to max hso os c) as [r c1]. cbn [fst] in h2. injection h as <- <-. destruct h2 as [-> | ->]; reflexivity.
  - injection h as <- <-. reflexivity.
  - destruct (close app code reason c). injection h as <- <-. reflexivity.
  - destruct (probe_path b scid c). injection h as <- <-. reflexivity.
  - destruct (migrate b scid c). injection h as <- <-. reflexivity.
  - destruct (retire_dcid q c). injection h as <- <-. reflexivity.
  - destruct (x_events c); injection h as <- <-; reflexivity.
  - injection h as <- <-. reflexivity.
  - injection h as <- <-. reflexivity.
Qed.
Definition undrained (g : tag) : Prop := match g with GDrain _ => False | _ => True end.
Lemma via_drain l c c' : via l c c' -> Forall undrained l -> l_drain (x_life c') = l_drain (x_life c).
Proof.
  induction 1 as [|g l c c' hg hv ih]; intros hl; [reflexivity|]. inversion hl as [|? ? h1 h2]; subst. rewrite (ih h2), tapply_life.
  destruct g; cbn [life_of]; try reflexivity; [destruct h1|]. destruct (idle_timeout c); reflexivity.
Qed.
Lemma step_drain o c y c' t : step o c = (y, c') -> zheld c -> l_drain (x_life c) = Some t -> l_drain (x_life c') = Some t.
Proof.
  intros h hz hd. assert (hh : halted c = true) by (unfold halted, is_draining; rewrite hd; cbn [is_some]; rewrite orb_true_r; reflexivity).
  destruct (step_via _ _ _ _ h hz) as (_ & l & hv & ho & _).
  destruct o as [now b ks|now from to max hso os|now timers|app code reason|b scid|b scid|q| |i tt0 pto rtt|i d]; cbn [otag] in ho.
  - cbn [step] in h. destruct (recv now b ks c) as [r c1] eqn:er. injection h as <- <-. destruct (halted_recv _ _ _ _ _ _ hh er) as (_ & _ & _ & _ & _ & _ & _ & _ & e & _). rewrite e. exact hd.
  - cbn [step] in h. destruct (ended_send now from to max hso os c) as (h2 & _); [unfold is_draining; rewrite hd; apply orb_true_r|]. destruct (send now from to max hso os c) as [r c1]. cbn [snd] in h2. injection h as <- <-. rewrite h2. exact hd.
  - rewrite (via_drain _ _ _ hv); [exact hd|]. revert ho. apply Forall_impl. intros g. destruct g; cbn; tauto.
  - rewrite (via_drain _ _ _ hv); [exact hd|]. revert ho. apply Forall_impl. intros g. destruct g; cbn; tauto.
  - rewrite (via_drain _ _ _ hv); [exact hd|]. revert ho. apply Forall_impl. intros g. destruct g; cbn; tauto.
  - rewrite (via_drain _ _ _ hv); [exact hd|]. revert ho. apply Forall_impl. intros g. destruct g; cbn; tauto.
  - rewrite (via_drain _ _ _ hv); [exact hd|]. revert ho. apply Forall_impl. intros g. destruct g; cbn; tauto.
  - rewrite (via_drain _ _ _ hv); [exact hd|]. revert ho. apply Forall_impl. intros g ->. exact I.
  - rewrite (via_drain _ _ _ hv); [exact hd|]. revert ho. apply Forall_impl. intros g ->. exact I.
  - rewrite (via_drain _ _ _ hv); [exact hd|]. revert ho. apply Forall_impl. intros g ->. exact I.
Qed.

Lemma run_zheld : forall ops c t c', run ops c = (t, c') -> zheld c -> zheld c'.
Proof.
  induction ops as [|o ops ih]; intros c t c' h hz; cbn [run] in h; [injection h as <- <-; exact hz|].
  destruct (step o c) as [y c1] eqn:e1. destruct (run ops c1) as [t2 c2] eqn:e2. injection h as <- <-. exact (ih _ _ _ e2 (step_zheld _ _ _ _ e1 hz)).
Qed.
Lemma run_closed : forall ops c t c', run ops c = (t, c') -> zheld c -> is_closed c = true -> is_closed c' = true /\ all_out t = [].
Proof.
  induction ops as [|o ops ih]; intros c t c' h hz hc; cbn [run] in h; [injection h as <- <-; auto|].
  destruct (step o c) as [y c1] eqn:e1. destruct (run ops c1) as [t2 c2] eqn:e2. injection h as <- <-.
  destruct (ih _ _ _ e2 (step_zheld _ _ _ _ e1 hz) (step_closed _ _ _ _ e1 hz hc)) as (h1 & h2). split; [exact h1|].
  change ((o, y) :: t2) with ([(o, y)] ++ t2). rewrite all_out_app, h2, out_one, (ended_out _ _ _ _ e1); [reflexivity|]. rewrite hc. reflexivity.
Qed.
Lemma run_drain x : forall ops c t c', run ops c = (t, c') -> zheld c -> l_drain (x_life c) = Some x -> l_drain (x_life c') = Some x /\ all_out t = [].
Proof.
  induction ops as [|o ops ih]; intros c t c' h hz hc; cbn [run] in h; [injection h as <- <-; auto|].
  destruct (step o c) as [y c1] eqn:e1. destruct (run ops c1) as [t2 c2] eqn:e2. injection h as <- <-.
  destruct (ih _ _ _ e2 (step_zheld _ _ _ _ e1 hz) (step_drain _ _ _ _ _ e1 hz hc)) as (h1 & h2). split; [exact h1|].
  change ((o, y) :: t2) with ([(o, y)] ++ t2). rewrite all_out_app, h2, out_one, (ended_out _ _ _ _ e1); [reflexivity|]. unfold is_draining. rewrite hc. apply orb_true_r.
Qed.
Lemma run_err x : forall ops c t c', run ops c = (t, c') -> zheld c -> l_err (x_life c) = Some x -> l_err (x_life c') = Some x.
Proof.
  induction ops as [|o ops ih]; intros c t c' h hz hc; cbn [run] in h; [injection h as <- <-; auto|].
  destruct (step o c) as [y c1] eqn:e1. destruct (run ops c1) as [t2 c2] eqn:e2. injection h as <- <-.
  exact (ih _ _ _ e2 (step_zheld _ _ _ _ e1 hz) (step_err _ _ _ _ _ e1 hz hc)).
Qed.
Lemma closes_app t1 t2 : closes (t1 ++ t2) = closes t1 ++ closes t2.
Proof. unfold closes. rewrite all_out_app. apply flat_map_app. Qed.
Lemma run_closes : forall ops c t c', run ops c = (t, c') -> zheld c ->
  closes t = [] \/ exists e, closes t = [e] /\ l_err (x_life c') = Some e /\ is_draining c' = true.
Proof.
  induction ops as [|o ops ih]; intros c t c' h hz; cbn [run] in h; [injection h as <- <-; auto|].
  destruct (step o c) as [y c1] eqn:e1. destruct (run ops c1) as [t2 c2] eqn:e2. injection h as <- <-.
  change ((o, y) :: t2) with ([(o, y)] ++ t2). rewrite closes_app. pose proof (step_zheld _ _ _ _ e1 hz) as hz1.
  assert (e0 : closes [(o, y)] = flat_map (fun x => close_of (snd x)) (y_sent y)) by (unfold closes; rewrite out_one; reflexivity). rewrite e0.
  destruct (step_via _ _ _ _ e1 hz) as (_ & l & _ & _ & _ & _ & _ & _ & _ & _ & [-> | (e & -> & he & hd)]).
  - exact (ih _ _ _ e2 hz1).
  - right. exists e. unfold is_draining in hd |- *. destruct (l_drain (x_life c1)) as [x|] eqn:ed; [|discriminate].
    destruct (run_drain x _ _ _ _ e2 hz1 ed) as (h1 & h2). rewrite h1. unfold closes. rewrite h2. split; [reflexivity|]. split; [exact (run_err _ _ _ _ _ e2 hz1 he)|reflexivity].
Qed.

(** Errors *)
Lemma close_halts app code reason c : halted (snd (close app code reason c)) = true.
Proof.
  unfold close, halted. destruct (is_closed c || is_draining c) eqn:e; cbn [snd]; [rewrite e; reflexivity|].
  destruct (is_some (l_err (x_life c))) eqn:e2; cbn [snd]; [rewrite e2; apply orb_true_r|]. destruct (_ =? 0); cbn; rewrite ?orb_true_r; reflexivity.
Qed.
Lemma loop_err now a pid : forall ks c e c', recv_loop now a pid ks c = (Err e, c') -> halted c' = true.
Proof.
  induction ks as [|k ks ih]; intros c e c' h; cbn [recv_loop] in h; [discriminate|].
  destruct (recv_single now a pid k c) as [[n|e1|] c1] eqn:e2; [destruct (k_ty k); try exact (ih _ _ _ h); discriminate| |discriminate].
  pose proof (close_halts false (to_wire e1) [] c1) as hc.
  destruct e1; try (injection h as <- <-; exact hc); discriminate.
Qed.
Lemma packets_err now a ks c e c' : recv_packets now a ks c = (Err e, c') -> halted c' = true.
Proof. unfold recv_packets. destruct (_ && _); [discriminate|]. apply loop_err. Qed.
Lemma replay_err now : forall fuel c e c', replay fuel now c = (Err e, c') -> halted c' = true.
Proof.
  induction fuel as [|fuel ih]; intros c e c' h; cbn [replay] in h; (destruct (negb _); [discriminate|]); destruct (x_held c) as [|[k a] q]; try discriminate.
  destruct (recv_packets now a [k] (w_held q c)) as [[u|e1|] c1] eqn:e2; [exact (ih _ _ _ h)| |discriminate]. injection h as <- <-.
  eapply untouched_halted; [apply untouched_held|]. exact (packets_err _ _ _ _ _ _ e2).
Qed.
Lemma recv_err now a ks c e c' : recv now a ks c = (Err e, c') -> total ks = 0 /\ e = BufferTooShort /\ c' = c \/ halted c' = true.
Proof.
  unfold recv. destruct (Z.eqb_spec (total ks) 0); [intros h; injection h as <- <-; auto|]. destruct (_ && _); [discriminate|]. intros h. right.
  destruct (recv_packets now a ks c) as [[u|e1|] c1] eqn:e2; [exact (replay_err _ _ _ _ _ h)| |discriminate]. injection h as <- <-. exact (packets_err _ _ _ _ _ _ e2).
Qed.

(** The error is sent by the first packet with room for it. *)
Lemma close_sent now i avail o c s c' p e : send_single now i avail o c = (Ok s, c') -> nth_error (x_paths c) i = Some p -> active p = true ->
  l_err (x_life c) = Some e -> (fst (fst e) = true -> s_ty s = TShort) -> 9 * zlen (p_queue p) + 9 + o_mid o + o_clen o <= o_room o ->
  s_close s = Some e /\ l_drain (x_life c') = Some (now + p_pto p * 3).
Proof.
  intros h hp ha he hty hroom. unfold send_single in h. destruct (avail <=? 0); [discriminate|]. destruct (is_draining c); [discriminate|]. rewrite hp in h.
  destruct (pkt_type o p c) as [t| |]; try discriminate. destruct (negb _); [discriminate|]. destruct (_ || _) in h; [discriminate|]. destruct (o_fail o); [discriminate|].
  set (x := if match t with TShort => true | _ => false end then responses (o_room o) (p_queue p) else ([], p_queue p, o_room o)) in h.
  assert (hx : o_room o - 9 * zlen (p_queue p) <= snd x).
  { subst x. pose proof (zlen_nonneg (p_queue p)). destruct t; cbn [snd]; try lia. clear.
    generalize (o_room o). induction (p_queue p) as [|d q ih]; intros r; cbn [responses]; [unfold zlen; cbn; lia|]. unfold zlen in *. cbn [length].
    destruct (9 <=? r); [|cbn; lia]. specialize (ih (r - 9)). destruct (responses (r - 9) q) as [[ds q'] r']. cbn [snd] in *. lia. }
  destruct x as [[rs q] room]. cbn [snd] in hx. rewrite ha in h. cbn [orb] in h. cbn [up w_paths x_life] in h. rewrite he in h.
  set (ch := if _ && _ && _ then Some (o_data o) else None) in h.
  assert (hcl : negb (fst (fst e)) || (match t with TShort => true | _ => false end) = true -> (negb (fst (fst e)) || (match t with TShort => true | _ => false end)) && (o_clen o <=? room - (if is_some ch then 9 else 0) - o_mid o) = true).
  { intros ->. cbn [andb]. destruct (is_some ch); lia. }
  destruct (negb (fst (fst e)) || match t with TShort => true | _ => false end) eqn:eb.
  - rewrite hcl in h by reflexivity. cbn [is_some] in h. rewrite orb_true_r in h. cbn [orb negb] in h.
    injection h as <- <-. cbn [s_close]. split; [reflexivity|].
    assert (hr : forall n c, l_drain (x_life (restart_idle n c)) = l_drain (x_life c)) by (intros n c9; unfold restart_idle; destruct (idle_timeout c9); reflexivity).
    clearbody ch. destruct ch; cbn [andb]; (match goal with |- context[if ?b then restart_idle _ _ else _] => destruct b end); cbn [w_aes x_life]; rewrite ?hr; reflexivity.
  - exfalso. apply orb_false_elim in eb. destruct eb as (e1 & e2). destruct (fst (fst e)); [|discriminate].
    cbn [andb is_some] in h.
    match type of h with (if ?b then _ else _) = _ => destruct b end; [discriminate|]. injection h as <- _. specialize (hty eq_refl). cbn [s_ty] in hty. subst t. discriminate.
Qed.
