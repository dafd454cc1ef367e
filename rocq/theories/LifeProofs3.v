(** Anti-amplification and path responses: sums over operations and runs *)
Require Import Verif.Base Verif.Errors Verif.LifeModel Verif.LifeMicro Verif.LifeMicro2 Verif.LifeMicro3 Verif.LifeMicro4 Verif.LifeSpec Verif.LifeProofs1 Verif.LifeProofs2.

Lemma insert_sum (w : path -> Z) q tell c : (forall p, 0 <= w p) -> sum_of w (x_paths (snd (insert_path q tell c))) <= sum_of w (x_paths c) + w q.
Proof.
  intros hw. unfold insert_path. destruct (zlen (x_paths c) <? g_maxp (x_cfg c)).
  - assert (e : x_paths (snd (Ok (length (x_paths c)) : res error nat, if tell then notify (EvNew (p_addr q)) (w_paths (x_paths c ++ [q]) c) else w_paths (x_paths c ++ [q]) c)) = x_paths c ++ [q]) by (destruct tell; reflexivity).
    rewrite e, sum_app. cbn [sum_of]. lia.
  - destruct (index unused (x_paths c)) as [i|] eqn:ei; [|cbn [snd]; pose proof (hw q); lia].
    destruct (index_some _ _ _ ei) as (p & hp & _).
    match goal with |- sum_of w (x_paths (snd ?x)) <= _ => assert (e : x_paths (snd x) = upd i (fun _ => q) (x_paths c)) by (destruct tell; reflexivity) end.
    rewrite e, (sum_upd _ _ _ _ _ hp). pose proof (hw p). lia.
Qed.

(** * What an address may still be sent *)
Definition wb (a : addr) (p : path) : Z := if aeqb (p_addr p) a then p_budget p else 0.
Lemma wb_plain a : plain (wb a). Proof. unfold plain. auto 12. Qed.
Definition held_bytes (a : addr) (c : conn) : Z := sum_of (fun x : packet * addr => if aeqb (snd x) a then k_len (fst x) else 0) (x_held c).
Definition phi (f : Z) (a : addr) (c : conn) : Z := sum_of (wb a) (x_paths c) + held_bytes a c * f.
Definition spent_at (a : addr) (g : tag) : Z := match g with GPath _ (PDebit b n) => if aeqb b a then n else 0 | _ => 0 end.

Definition pok (a : addr) (D : Z -> Prop) (p : path) : Prop :=
  p_addr p = a -> 0 <= p_budget p /\ p_ok p = false /\ forall x, In x (p_flight p) -> D (fst (fst x)).
Definition hok (c : conn) : Prop := Forall (fun x => 0 <= k_len (fst x)) (x_held c).
Definition inv41 (a : addr) (D : Z -> Prop) (c : conn) : Prop := (forall i p, nth_error (x_paths c) i = Some p -> pok a D p) /\ hok c.
Definition ok41 (f : Z) (a : addr) (D : Z -> Prop) (g : tag) : Prop :=
  match g with
  | GPath _ POk => False
  | GPath _ (PSent b d _ _) => b = a -> D d
  | GResp d => ~ D d
  | GCredit _ n => 0 <= n
  | GHold k _ => 0 <= k_len k
  | GNew _ n _ => 0 <= n
  | _ => True
  end.

Lemma flight_add d n t p : p_flight (add_challenge d n t p) = p_flight p ++ [(d, n, t)].
Proof. unfold add_challenge, promote_to. destruct (_ <? _); reflexivity. Qed.
Lemma resp_same d p v q : response_received d p = (v, q) -> p_addr q = p_addr p /\ p_budget q = p_budget p.
Proof.
  unfold response_received, promote_to. cbv zeta. intros h.
  destruct (_ =? _) in h; [destruct (_ <=? _) in h|]; injection h as _ <-;
    repeat match goal with |- context[if ?b then _ else _] => destruct b end; auto.
Qed.
Lemma pending_in d p : has_pending d p = true -> exists x, In x (p_flight p) /\ fst (fst x) = d.
Proof. unfold has_pending. intros h. apply existsb_exists in h. destruct h as (x & h1 & h2). exists x. split; [exact h1|lia]. Qed.

Lemma pch41 f a D c g p p' : 0 <= f -> g_factor (x_cfg c) = f -> ok41 f a D g -> tguard g c -> hok c -> pok a D p -> pch g c p p' -> pok a D p'.
Proof.
  intros hf hfac ho hg hh ha hc. destruct g; cbn [pch ok41] in hc, ho; try (subst p'; exact ha).
  - destruct hc as [->|[hpg ->]]; [exact ha|]. destruct m; cbn [pap pguard] in *; try exact ha.
    + unfold challenge_received. destruct (_ =? _); exact ha.
    + destruct ho.
    + destruct (add_challenge_same d n now p) as (h1 & h2 & h3). unfold pok. rewrite h1, h2, h3. intros h4. destruct (ha h4) as (h0 & h5 & h6). split; [exact h0|]. split; [exact h5|].
      intros x hx. rewrite flight_add in hx. apply in_app_or in hx. destruct hx as [hx|[<-|[]]]; [exact (h6 _ hx)|]. cbn [fst]. apply ho. destruct hpg as (<- & _). exact h4.
    + intros e. destruct (ha e) as (h1 & h2). split; [unfold sat_sub; cbn; lia|exact h2].
  - destruct hc as [->|(h1 & h2 & h3 & ->)]; [exact ha|]. intros e. destruct (ha e) as (hb & hr). split; [|exact hr]. cbn. rewrite hfac. pose proof (Z.mul_nonneg_nonneg _ _ ho hf). lia.
  - destruct hc as [->|(h1 & h2 & h3 & ->)]; [exact ha|]. intros e. destruct (ha e) as (hb & hr). split; [|exact hr]. cbn. rewrite hfac.
    destruct hg as (_ & q & hq). unfold hok in hh. rewrite hq in hh. inversion hh as [|? ? hk hr2]; subst. cbn in hk. pose proof (Z.mul_nonneg_nonneg _ _ hk hf). lia.
  - destruct (soft_keeps _ _ hc) as (h1 & _ & h3 & _ & _ & h6 & h7 & _). unfold pok. rewrite h1, h3, h6, h7. exact ha.
  - destruct hc as [->|(h1 & v & q & h2 & h3)]; [exact ha|]. destruct (resp_same _ _ _ _ h2) as (h4 & h5).
    assert (h6 : p_addr p' = p_addr p) by (destruct h3 as [->|[_ ->]]; auto).
    intros h8. rewrite h6 in h8. destruct (ha h8) as (_ & _ & h9). destruct (pending_in _ _ h1) as (x & h10 & <-). destruct (ho (h9 _ h10)).
  - destruct (soft_keeps _ _ hc) as (h1 & _ & h3 & _ & _ & h6 & h7 & _). unfold pok. rewrite h1, h3, h6, h7. exact ha.
  - destruct (soft_keeps _ _ hc) as (h1 & _ & h3 & _ & _ & h6 & h7 & _). unfold pok. rewrite h1, h3, h6, h7. exact ha.
  - destruct (fired_keeps _ _ _ _ hc) as (h1 & h2 & _ & _ & h5 & h6 & _). unfold pok. rewrite h1, h5, h6. intros h7. destruct (ha h7) as (hb & h8 & h9). split; [exact hb|]. split; [exact h8|]. intros x hx. apply h9. apply h2. exact hx.
Qed.

Lemma held_credit a n c : x_held (credit a n c) = x_held c.
Proof. apply (credit_same a n c). Qed.
Lemma phi_credit f a b n c : 0 <= n -> 0 <= f -> g_factor (x_cfg c) = f -> sum_of (wb a) (x_paths (credit b n c)) <= sum_of (wb a) (x_paths c) + if aeqb b a then n * f else 0.
Proof.
  intros hn hf hfac. pose proof (Z.mul_nonneg_nonneg _ _ hn hf) as hnf. unfold credit. destruct (by_addr b (x_paths c)) as [i|] eqn:e; [|destruct (aeqb b a); lia].
  destruct (by_addr_some _ _ _ e) as (p & hp & ha). cbn [up w_paths x_paths]. rewrite (sum_upd _ _ _ _ _ hp).
  destruct (server c && negb (p_ok p)); [|destruct (aeqb b a); lia]. unfold wb. cbn [set_budget p_addr p_budget]. rewrite ha, hfac. destruct (aeqb b a); lia.
Qed.

Lemma tapply_hok f a D g c : ok41 f a D g -> hok c -> hok (tapply g c).
Proof.
  unfold hok. intros hg h. destruct g; try (match goal with |- context[tapply ?g c] => rewrite (proj1 (tapply_keeps g c (I : keeps g))); exact h end); cbn [tapply].
  - cbn [w_held x_held]. apply Forall_app. split; [exact h|]. constructor; [exact hg|constructor].
  - assert (ht : Forall (fun x => 0 <= k_len (fst x)) (tl (x_held c))) by (destruct (x_held c); [constructor|inversion h; assumption]).
    destruct (_ && _); [exact ht|]. rewrite held_credit. exact ht.
  - constructor.
  - exact h.
  - exact h.
Qed.

Lemma phi_tag f a D g c : 0 <= f -> g_factor (x_cfg c) = f -> server c = true -> ok41 f a D g -> tguard g c -> inv41 a D c ->
  inv41 a D (tapply g c) /\ phi f a (tapply g c) + spent_at a g <= phi f a c + gain f a g.
Proof.
  intros hf hfac hs ho hg (hp & hh). split.
  { split; [|eapply tapply_hok; eassumption]. intros i p' h. destruct (tapply_nth _ _ _ _ hg h) as [(p & h1 & h2)|(q & n & tell & -> & ->)].
    - exact (pch41 _ _ _ _ _ _ _ hf hfac ho hg hh (hp _ _ h1) h2).
    - destruct hg as (_ & (b & d & w & m & ->) & hbud & _). intros _. split; [rewrite hbud, hfac; apply Z.mul_nonneg_nonneg; assumption|]. split; [reflexivity|]. intros x []. }
  assert (hpl := wb_plain a).
  assert (same : x_held (tapply g c) = x_held c -> sum_of (wb a) (x_paths (tapply g c)) = sum_of (wb a) (x_paths c) -> spent_at a g = 0 -> gain f a g = 0 ->
     phi f a (tapply g c) + spent_at a g <= phi f a c + gain f a g).
  { intros h1 h2 h3 h4. unfold phi, held_bytes. rewrite h1, h2, h3, h4. lia. }
  destruct g; try (apply same; reflexivity).
  - destruct hg as (p & hpn & hpg). destruct m; try (apply same; [reflexivity| |reflexivity|reflexivity]; cbn [tapply up w_paths x_paths]; rewrite (sum_upd _ _ _ _ _ hpn); cbn [pap]).
    + unfold challenge_received. destruct (_ =? _); [lia|]. change (wb a (set_queue _ p)) with (wb a p). lia.
    + change (wb a (set_queue q p)) with (wb a p). lia.
    + change (wb a (set_ok true p)) with (wb a p). lia.
    + rewrite (w_add _ hpl). lia.
    + unfold phi, held_bytes. cbn [tapply up w_paths x_paths x_held gain spent_at pap]. rewrite (sum_upd _ _ _ _ _ hpn). unfold wb at 2 3. cbn [pap set_budget p_addr p_budget].
      destruct hpg as (<- & hn & hle). destruct (aeqb (p_addr p) a) eqn:ea; [|lia]. apply aeqb_eq in ea.
      destruct (hp _ _ hpn ea) as (_ & hok0 & _). specialize (hle hs hok0). unfold sat_sub. lia.
    + change (wb a (set_rec t o r (p_ptos p) p)) with (wb a p). lia.
    + change (wb a (set_dcid d p)) with (wb a p). lia.
    + change (wb a (set_want true p)) with (wb a p). lia.
  - unfold phi, held_bytes. cbn [tapply spent_at gain]. rewrite held_credit. pose proof (phi_credit f a a0 n c ho hf hfac). lia.
  - unfold phi, held_bytes. assert (e : x_held (tapply (GNew p n tell) c) = x_held c) by (apply tapply_keeps; exact I). rewrite e. cbn [tapply spent_at gain].
    assert (h : sum_of (wb a) (x_paths (snd (insert_path p tell c))) <= sum_of (wb a) (x_paths c) + wb a p); [|unfold wb in h at 3; lia].
    unfold insert_path. destruct (zlen (x_paths c) <? g_maxp (x_cfg c)).
    + match goal with |- sum_of _ (x_paths (snd ?x)) <= _ => assert (e2 : x_paths (snd x) = x_paths c ++ [p]) by (destruct tell; reflexivity) end. rewrite e2, sum_app. cbn [sum_of]. lia.
    + destruct (index unused (x_paths c)) as [i|] eqn:ei; [|cbn [snd]; unfold wb at 3; destruct hg as (_ & _ & hbud & _); pose proof (Z.mul_nonneg_nonneg _ _ ho hf); rewrite hbud, hfac; destruct (aeqb _ _); lia].
      destruct (index_some _ _ _ ei) as (q & hq & _).
      match goal with |- sum_of _ (x_paths (snd ?x)) <= _ => assert (e2 : x_paths (snd x) = upd i (fun _ => p) (x_paths c)) by (destruct tell; reflexivity) end.
      rewrite e2, (sum_upd _ _ _ _ _ hq). assert (0 <= wb a q) by (unfold wb; destruct (aeqb (p_addr q) a) eqn:ea; [apply (hp _ _ hq); apply aeqb_eq; exact ea|lia]). lia.
  - unfold phi, held_bytes. cbn [tapply w_held x_held x_paths spent_at gain]. rewrite sum_app. cbn [sum_of fst snd]. destruct (aeqb a0 a); lia.
  - destruct hg as (_ & q & hq). unfold phi, held_bytes. unfold hok in hh. rewrite hq in hh |- *. inversion hh as [|? ? hk hr]; subst. cbn [fst] in hk.
    cbn [spent_at gain sum_of fst snd tapply]. rewrite hq. cbn [tl].
    assert (hkf : 0 <= k_len k * g_factor (x_cfg c)) by (apply Z.mul_nonneg_nonneg; lia).
    destruct (_ && _).
    + cbn [w_held x_held x_paths]. destruct (aeqb a0 a); lia.
    + rewrite held_credit. cbn [w_held x_held]. pose proof (phi_credit (g_factor (x_cfg c)) a a0 (k_len k) (w_held q c) hk hf eq_refl) as h. cbn [w_held x_paths] in h. destruct (aeqb a0 a); lia.
  - unfold phi, held_bytes. cbn [tapply w_held x_held x_paths sum_of spent_at gain].
    assert (0 <= sum_of (fun x : packet * addr => if aeqb (snd x) a then k_len (fst x) else 0) (x_held c) * f); [|lia].
    apply Z.mul_nonneg_nonneg; [|exact hf]. apply sum_nonneg. intros x hx. unfold hok in hh. rewrite Forall_forall in hh. specialize (hh x hx). destruct (aeqb (snd x) a); lia.
  - apply same; [apply tapply_keeps; exact I| |reflexivity|reflexivity]. cbn [tapply]. rewrite restart_paths. reflexivity.
  - apply same; [reflexivity| |reflexivity|reflexivity]. cbn [tapply w_pool w_paths x_paths]. apply w_fill. exact hpl.
  - apply same; [apply tapply_keeps; exact I|apply (w_got _ hpl)|reflexivity|reflexivity].
  - apply same; [apply tapply_keeps; exact I|apply (w_set_active _ hpl)|reflexivity|reflexivity].
  - apply same; [apply tapply_keeps; exact I|apply (w_migrated _ hpl)|reflexivity|reflexivity].
  - apply same; [reflexivity| |reflexivity|reflexivity]. cbn [tapply]. rewrite (w_tell _ hpl). cbn [w_paths x_paths]. apply w_fire. exact hpl.
Qed.

Lemma phi_via f a D : forall l c c', via l c c' -> 0 <= f -> g_factor (x_cfg c) = f -> server c = true -> Forall (ok41 f a D) l -> inv41 a D c ->
  inv41 a D c' /\ phi f a c' + sumz (spent_at a) l <= phi f a c + sumz (gain f a) l.
Proof.
  induction 1 as [|g l c c' hg hv ih]; intros hf hfac hs hl hi.
  - split; [exact hi|]. rewrite !sumz_nil. lia.
  - inversion hl as [|? ? hl1 hl2]; subst. destruct (phi_tag _ _ D _ _ hf eq_refl hs hl1 hg hi) as (h1 & h2).
    assert (hc : x_cfg (tapply g c) = x_cfg c) by apply tapply_cfg.
    destruct (ih hf ltac:(rewrite hc; reflexivity) ltac:(unfold server; rewrite hc; exact hs) hl2 h1) as (h3 & h4). split; [exact h3|]. rewrite !sumz_cons. lia.
Qed.

(** One operation *)
Lemma sum_const_if {A} (b : bool) (f : A -> Z) l : sum_of (fun x => if b then f x else 0) l = if b then sum_of f l else 0.
Proof. destruct b; [reflexivity|]. induction l as [|x l ih]; [reflexivity|]. cbn [sum_of]. rewrite ih. reflexivity. Qed.
Lemma rx_one a o y : rx a [(o, y)] = match o with ORecv _ b ks => if aeqb b a then total ks else 0 | _ => 0 end.
Proof.
  unfold rx, all_in. cbn [flat_map]. rewrite app_nil_r. unfold packets_in. cbn [fst]. destruct o; try reflexivity.
  rewrite sum_map. cbn [fst snd]. rewrite sum_const_if. destruct (aeqb a0 a); [|reflexivity]. rewrite sum_sumz. reflexivity.
Qed.
Lemma rx_zero_one a o y : rx_zero a [(o, y)] = match o with ORecv _ b ks => if aeqb b a then zeros ks else 0 | _ => 0 end.
Proof.
  unfold rx_zero, all_in. cbn [flat_map]. rewrite app_nil_r. unfold packets_in. cbn [fst]. destruct o; try reflexivity.
  rewrite sum_map. cbn [fst snd]. rewrite sum_const_if. destruct (aeqb a0 a); [|reflexivity]. unfold zeros. rewrite <- sum_sumz. apply sum_ext. intros k _. unfold is_zero. destruct (k_ty k); reflexivity.
Qed.
Lemma out_one o y : all_out [(o, y)] = y_sent y.
Proof. unfold all_out. cbn [flat_map]. rewrite app_nil_r. reflexivity. Qed.
Lemma in_one o y : all_in [(o, y)] = match o with ORecv _ a ks => map (pair a) ks | _ => [] end.
Proof. unfold all_in. cbn [flat_map]. rewrite app_nil_r. reflexivity. Qed.
Lemma opened_accepted k : opened k <-> accepted k.
Proof.
  unfold opened, accepted. destruct (k_in k) as [| |kn pn ku fs].
  - split; [intros []|intros (a & b & d & e & h); discriminate h].
  - split; [intros []|intros (a & b & d & g & h); discriminate h].
  - split; [intros _; exists kn, pn, ku, fs; reflexivity|intros _; exact I].
Qed.
Lemma frames_same k : frames_in k = frames_of k. Proof. reflexivity. Qed.

Lemma spent_sum a l : sumz (spent_at a) l = sum_of (fun x => if aeqb (fst x) a then snd x else 0) (flat_map spent l).
Proof.
  induction l as [|g l ih]; [reflexivity|]. rewrite sumz_cons, ih. cbn [flat_map]. rewrite sum_app.
  destruct g as [i m| | | | | | | | | | | | | | | | | | | | | | | |]; cbn [spent_at spent sum_of]; try lia. destruct m; cbn [sum_of fst snd]; lia.
Qed.

Lemma step41 f a (D : Z -> Prop) o c y c' : step o c = (y, c') -> zheld c -> 0 <= f -> g_factor (x_cfg c) = f -> server c = true -> sane [o] ->
  no_handshake [(o, y)] -> (forall d, heard [(o, y)] d -> ~ D d) -> (forall d n, asked [(o, y)] a d n -> D d) -> inv41 a D c ->
  inv41 a D c' /\ phi f a c' + tx a [(o, y)] <= phi f a c + (rx a [(o, y)] + rx_zero a [(o, y)]) * f.
Proof.
  intros h hz hf hfac hs hsane hnh hhe has hinv.
  destruct (step_via _ _ _ _ h hz) as (_ & l & hv & ho & _ & hgain & hsp & hpr & _ & hpos & _).
  assert (hlen : Forall (fun k => 0 <= k_len k) (op_packets o)) by (inversion hsane; subst; destruct o; cbn [op_packets]; try constructor; assumption).
  assert (hzh : forall k b, In (k, b) (x_held c) -> k_ty k = TZero) by (intros k b hk; unfold zheld in hz; rewrite Forall_forall in hz; exact (hz _ hk)).
  assert (hhl : forall k b, In (k, b) (x_held c) -> 0 <= k_len k) by (intros k b hk; destruct hinv as (_ & hh); unfold hok in hh; rewrite Forall_forall in hh; exact (hh _ hk)).
  assert (hok : Forall (ok41 f a D) l).
  { rewrite Forall_forall in *. intros g hg. specialize (ho g hg).
    assert (hin : forall g', g' = g -> forall x, In x (probes g') -> In x (flat_map probes l)) by (intros g' -> x hx; apply in_flat_map; exists g; auto).
    assert (hptag : forall now b k, ptag now b k g -> (k_ty k = THandshake -> ~ opened k) -> (k_ty k <> TZero -> forall d, In (FResponse d) (frames_in k) -> ~ D d) -> 0 <= k_len k -> ok41 f a D g).
    { intros now b k hp h1 h2 h3. destruct g; cbn in hp |- *; try tauto.
      - destruct m; try tauto.
      - destruct hp as (_ & _ & ->). exact h3.
      - destruct hp as (-> & _). exact h3.
      - destruct hp as (h4 & h5). exact (h2 h5 _ h4). }
    destruct o as [now b ks|now from to max hso os|now timers|app code reason|b scid|b scid|q| |i t pto rtt|i d]; cbn [otag] in ho.
    - assert (hk1 : forall k, In k ks -> (k_ty k = THandshake -> ~ opened k) /\ (k_ty k <> TZero -> forall d, In (FResponse d) (frames_in k) -> ~ D d) /\ 0 <= k_len k).
      { intros k hk. assert (hki : In (b, k) (all_in [(ORecv now b ks, y)])) by (rewrite in_one; apply in_map; exact hk).
        split; [intros ht; rewrite opened_accepted; exact (hnh _ _ hki ht)|]. split; [|exact (hlen _ hk)].
        intros ht d hd. apply hhe. exists b, k. auto. }
      assert (hk2 : forall k b0, In (k, b0) (x_held c) -> (k_ty k = THandshake -> ~ opened k) /\ (k_ty k <> TZero -> forall d, In (FResponse d) (frames_in k) -> ~ D d) /\ 0 <= k_len k).
      { intros k b0 hk. rewrite (hzh _ _ hk). split; [discriminate|]. split; [congruence|exact (hhl _ _ hk)]. }
      assert (hgen : endtag g \/ (exists k, In k ks /\ ptag now b k g) \/ (exists k b0, In (k, b0) (x_held c) /\ ptag now b0 k g) -> ok41 f a D g).
      { intros [he|[(k & h1 & h2)|(k & b0 & h1 & h2)]].
        - destruct g; cbn in he |- *; tauto.
        - destruct (hk1 k h1) as (h3 & h4 & h5). exact (hptag _ _ _ h2 h3 h4 h5).
        - destruct (hk2 k b0 h1) as (h3 & h4 & h5). exact (hptag _ _ _ h2 h3 h4 h5). }
      destruct g; cbn [rectag] in ho; try (exact (hgen ho)); try exact I.
      destruct ho as (-> & ->). cbn. change total with (sumz k_len). apply sumz_nonneg. rewrite Forall_forall. exact hlen.
    - destruct ho as [ho|[ho|ho]].
      + destruct g; cbn in ho |- *; tauto.
      + assert (hr9 : (exists k9 b9, In (k9, b9) (x_held c) /\ ptag now b9 k9 g) -> ok41 f a D g).
        { intros (k9 & b9 & h1 & h2). refine (hptag now b9 k9 h2 _ _ (hhl _ _ h1)); rewrite (hzh _ _ h1); congruence. }
        unfold rtag in ho. destruct g; cbn [ok41]; try exact I; first [exact (hr9 ho) | (destruct ho as [ho|ho]; [cbn in ho; tauto|exact (hr9 ho)]) | (cbn in ho; tauto)].
      + destruct g; cbn in ho |- *; try tauto. destruct m; try tauto. intros ->.
        assert (hx : In (a, d, n, now0) (flat_map probes l)) by (apply (hin (GPath i (PSent a d n now0)) eq_refl); left; reflexivity).
        rewrite hpr in hx. apply in_flat_map in hx. destruct hx as ([b s] & h1 & h2). cbn [fst snd] in h2. unfold chal_of in h2. destruct (s_chal s) as [d0|] eqn:ed; [|destruct h2].
        destruct h2 as [h2|[]]. injection h2 as -> -> _ _. apply (has d (s_size s)). exists s. rewrite out_one. auto.
    - destruct g; cbn in ho |- *; tauto.
    - destruct g; cbn in ho |- *; tauto.
    - destruct g; cbn in ho |- *; try tauto; [destruct m; tauto|]. destruct ho as (_ & _ & ->). lia.
    - destruct g; cbn in ho |- *; try tauto; [destruct m; tauto|]. destruct ho as (_ & _ & ->). lia.
    - destruct g; cbn in ho |- *; try tauto. destruct m; tauto.
    - subst g. exact I.
    - subst g. exact I.
    - subst g. exact I. }
  destruct (phi_via f a D _ _ _ hv hf hfac hs hok hinv) as (h1 & h2). split; [exact h1|].
  assert (htx : tx a [(o, y)] <= sumz (spent_at a) l).
  { unfold tx. rewrite out_one, spent_sum. destruct (y_sent y) as [|x xs] eqn:ey.
    - cbn [sum_of]. apply sum_nonneg. intros x hx. destruct (aeqb (fst x) a); [|lia].
      apply in_flat_map in hx. destruct hx as (g & hg1 & hg2). destruct g; cbn in hg2; try tauto. destruct m; cbn in hg2; try tauto. destruct hg2 as [<-|[]]. cbn [snd].
      assert (hpd : forall l c c', via l c c' -> forall i b n, In (GPath i (PDebit b n)) l -> 0 < n).
      { clear. induction 1 as [|g l c c' hg hv ih]; intros i b n [] ; [|eapply ih; eassumption]. subst g. destruct hg as (p & _ & (_ & hn & _)). exact hn. }
      specialize (hpd _ _ _ hv _ _ _ hg1). lia.
    - rewrite hsp by discriminate. rewrite sum_map. cbn [fst snd]. lia. }
  specialize (hgain a hlen ltac:(rewrite hfac; exact hf)). rewrite hfac in hgain.
  rewrite rx_one, rx_zero_one. unfold op_gain in hgain. destruct o; try (rewrite Z.add_0_l, Z.mul_0_l in *; lia).
  destruct (aeqb a0 a); lia.
Qed.

(** A run *)
Lemma all_in_app t1 t2 : all_in (t1 ++ t2) = all_in t1 ++ all_in t2. Proof. apply flat_map_app. Qed.
Lemma all_out_app t1 t2 : all_out (t1 ++ t2) = all_out t1 ++ all_out t2. Proof. apply flat_map_app. Qed.
Lemma rx_app a t1 t2 : rx a (t1 ++ t2) = rx a t1 + rx a t2. Proof. unfold rx. rewrite all_in_app. apply sum_app. Qed.
Lemma rx_zero_app a t1 t2 : rx_zero a (t1 ++ t2) = rx_zero a t1 + rx_zero a t2. Proof. unfold rx_zero. rewrite all_in_app. apply sum_app. Qed.
Lemma tx_app a t1 t2 : tx a (t1 ++ t2) = tx a t1 + tx a t2. Proof. unfold tx. rewrite all_out_app. apply sum_app. Qed.
Lemma step_cfg o c y c' : step o c = (y, c') -> zheld c -> x_cfg c' = x_cfg c.
Proof. intros h hz. destruct (step_via _ _ _ _ h hz) as (_ & l & hv & _). exact (via_cfg _ _ _ hv). Qed.
Lemma step_zheld o c y c' : step o c = (y, c') -> zheld c -> zheld c'.
Proof. intros h hz. destruct (step_via _ _ _ _ h hz) as (_ & l & hv & _). exact (via_zheld _ _ _ hv hz). Qed.

Lemma run41 f a (D : Z -> Prop) : forall ops c t c', run ops c = (t, c') -> zheld c -> 0 <= f -> g_factor (x_cfg c) = f -> server c = true -> sane ops ->
  no_handshake t -> (forall d, heard t d -> ~ D d) -> (forall d n, asked t a d n -> D d) -> inv41 a D c ->
  inv41 a D c' /\ phi f a c' + tx a t <= phi f a c + (rx a t + rx_zero a t) * f.
Proof.
  induction ops as [|o ops ih]; intros c t c' h hz hf hfac hs hsane hnh hhe has hinv; cbn [run] in h.
  - injection h as <- <-. split; [exact hinv|]. unfold tx, rx, rx_zero. cbn. lia.
  - destruct (step o c) as [y c1] eqn:e1. destruct (run ops c1) as [t2 c2] eqn:e2. injection h as <- <-.
    inversion hsane as [|? ? hs1 hs2]; subst.
    change ((o, y) :: t2) with ([(o, y)] ++ t2) in *.
    assert (hin1 : incl (all_in [(o, y)]) (all_in ([(o, y)] ++ t2))) by (rewrite all_in_app; apply incl_appl, incl_refl).
    assert (hin2 : incl (all_in t2) (all_in ([(o, y)] ++ t2))) by (rewrite all_in_app; apply incl_appr, incl_refl).
    assert (hou1 : incl (all_out [(o, y)]) (all_out ([(o, y)] ++ t2))) by (rewrite all_out_app; apply incl_appl, incl_refl).
    assert (hou2 : incl (all_out t2) (all_out ([(o, y)] ++ t2))) by (rewrite all_out_app; apply incl_appr, incl_refl).
    destruct (step41 (g_factor (x_cfg c)) a D o c y c1 e1 hz hf eq_refl hs) as (i1 & p1); auto.
    { constructor; [exact hs1|constructor]. }
    { intros b k hk. exact (hnh _ _ (hin1 _ hk)). }
    { intros d (b & k & hk & h1). apply hhe. exists b, k. split; [exact (hin1 _ hk)|exact h1]. }
    { intros d n (s & hk & h1). apply (has d n). exists s. split; [exact (hou1 _ hk)|exact h1]. }
    assert (hc1 : x_cfg c1 = x_cfg c) by exact (step_cfg _ _ _ _ e1 hz).
    destruct (ih _ _ _ e2 (step_zheld _ _ _ _ e1 hz) hf ltac:(rewrite hc1; reflexivity) ltac:(unfold server; rewrite hc1; exact hs) hs2) as (i2 & p2); auto.
    { intros b k hk. exact (hnh _ _ (hin2 _ hk)). }
    { intros d (b & k & hk & h1). apply hhe. exists b, k. split; [exact (hin2 _ hk)|exact h1]. }
    { intros d n (s & hk & h1). apply (has d n). exists s. split; [exact (hou2 _ hk)|exact h1]. }
    split; [exact i2|]. rewrite tx_app, rx_app, rx_zero_app.
    rewrite !Z.mul_add_distr_r in *. lia.
Qed.
