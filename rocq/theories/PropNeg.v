(** C69: Version Negotiation and Retry. *)
Require Import Verif.Base Verif.Errors Verif.NegModel Verif.NegSpec.

Lemma same_eq : forall a b, same a b = true <-> a = b.
Proof.
  induction a as [|x a ih]; intros b; destruct b as [|y b]; cbn; split; intros h; try discriminate; try reflexivity.
  - apply andb_true_iff in h. destruct h as (h1 & h2). apply Z.eqb_eq in h1. apply ih in h2. congruence.
  - injection h as -> ->. rewrite Z.eqb_refl. apply ih. reflexivity.
Qed.
Lemma pick_v1 : forall l v, pick l v = if existsb supported l then V1 else v.
Proof.
  induction l as [|x l ih]; intros v; cbn [pick existsb]; [reflexivity|]. unfold supported at 1 2. destruct (Z.eqb_spec x V1) as [->|h]; cbn [orb]; [reflexivity|apply ih].
Qed.

(** ** One packet *)
(** A Version Negotiation packet changes something only for a client that has processed no
    packet and no such packet before, only if it carries the ids of the client's packets
    and does not list the client's version but one the client knows, which is then used. *)
Theorem C69_vn dcid scid vs c r c' : on_vn dcid scid vs c = (r, c') -> c' <> c ->
  r = Err Done /\ g_srv c = false /\ g_vn c = false /\ g_count c <= 0 /\ dcid = g_scid c /\ scid = g_dcid c /\
  (exists l, vs = Some l /\ ~ In (g_v c) l /\ In V1 l) /\
  g_v c' = V1 /\ g_vn c' = true /\ g_keys c' = Some (g_dcid c, V1) /\ g_starts c' = g_starts c + 1 /\ g_dcid c' = g_dcid c /\ g_retry c' = g_retry c /\ g_token c' = g_token c.
Proof.
  unfold on_vn. intros h hn. destruct (g_srv c) eqn:es; [injection h as <- <-; congruence|]. destruct (g_vn c) eqn:ev; [injection h as <- <-; congruence|].
  destruct (Z.ltb_spec 0 (g_count c)); [injection h as <- <-; congruence|]. destruct (same dcid (g_scid c)) eqn:e1; cbn [negb] in h; [|injection h as <- <-; congruence]. destruct (same scid (g_dcid c)) eqn:e2; cbn [negb] in h; [|injection h as <- <-; congruence].
  destruct vs as [l|]; [|injection h as <- <-; congruence]. destruct (existsb (Z.eqb (g_v c)) l) eqn:e3; [injection h as <- <-; congruence|]. rewrite pick_v1 in h. destruct (existsb supported l) eqn:e4.
  - injection h as <- <-. apply same_eq in e1, e2. cbn. repeat split; auto. exists l. split; [reflexivity|]. split.
    + intros hin. assert (existsb (Z.eqb (g_v c)) l = true) by (apply existsb_exists; exists (g_v c); split; [exact hin|apply Z.eqb_refl]). congruence.
    + apply existsb_exists in e4. destruct e4 as (x & h1 & h2). apply Z.eqb_eq in h2. subst x. exact h1.
  - injection h as <- <-. exfalso. apply hn. destruct c; cbn in *; subst; reflexivity.
Qed.
Print Assumptions C69_vn.
(** One that lists no version the client knows is reported as an error; nothing else is. *)
Theorem C69_vn_error dcid scid vs c r c' : on_vn dcid scid vs c = (r, c') ->
  r = Err Done \/ r = Err UnknownVersion /\ c' = c /\ g_count c <= 0 /\ g_vn c = false /\ dcid = g_scid c /\ scid = g_dcid c /\ exists l, vs = Some l /\ ~ In V1 l /\ ~ In (g_v c) l.
Proof.
  unfold on_vn. intros h. destruct (g_srv c) eqn:es; [injection h as <- <-; auto|]. destruct (g_vn c) eqn:ev; [injection h as <- <-; auto|].
  destruct (Z.ltb_spec 0 (g_count c)); [injection h as <- <-; auto|]. destruct (same dcid (g_scid c)) eqn:e1; cbn [negb] in h; [|injection h as <- <-; auto]. destruct (same scid (g_dcid c)) eqn:e2; cbn [negb] in h; [|injection h as <- <-; auto].
  destruct vs as [l|]; [|injection h as <- <-; auto]. destruct (existsb (Z.eqb (g_v c)) l) eqn:e3; [injection h as <- <-; auto|]. rewrite pick_v1 in h. destruct (existsb supported l) eqn:e4; [injection h as <- <-; auto|].
  injection h as <- <-. right. apply same_eq in e1, e2. split; [reflexivity|]. split; [destruct c; cbn in *; subst; reflexivity|]. repeat split; auto. exists l. split; [reflexivity|].
  assert (hno : forall f, existsb f l = false -> forall x, In x l -> f x = false) by (intros f hf x hx; destruct (f x) eqn:ef; [|reflexivity]; rewrite <- hf; symmetry; apply existsb_exists; eauto).
  split; intros hin; [pose proof (hno _ e4 _ hin) as hx; discriminate|pose proof (hno _ e3 _ hin) as hx; rewrite Z.eqb_refl in hx; discriminate].
Qed.
Print Assumptions C69_vn_error.
(** A Retry packet changes something only for a client that has followed none before, and
    only if its tag is the one for the id the client uses; from then on the client uses
    its id and token, and starts over. *)
Theorem C69_retry mac scid token body tag c r c' : on_retry mac scid token body tag c = (r, c') ->
  r = Err Done /\ (c' <> c -> g_srv c = false /\ g_retry c = false /\ tag = mac (zlen (g_dcid c) mod 256 :: g_dcid c ++ body) /\
    g_retry c' = true /\ g_dcid c' = scid /\ g_rscid c' = Some scid /\ g_odcid c' = Some (g_dcid c) /\ g_token c' = Some token /\ g_keys c' = Some (scid, g_v c) /\ g_starts c' = g_starts c + 1 /\ g_v c' = g_v c).
Proof.
  unfold on_retry. intros h. destruct (g_srv c) eqn:es; [injection h as <- <-; split; [reflexivity|congruence]|]. destruct (g_retry c) eqn:er; [injection h as <- <-; split; [reflexivity|congruence]|].
  destruct (retry_ok mac (g_dcid c) body tag) eqn:eo; cbn [negb] in h; injection h as <- <-; (split; [reflexivity|]); intros hn; [|congruence]. apply same_eq in eo. cbn. auto 12.
Qed.
Print Assumptions C69_retry.

(** ** Any sequence of packets *)
Lemma on_pkt_kept hdcid short v scid s rest c r c' : on_pkt hdcid short v scid s rest c = (r, c') -> g_starts c' = g_starts c /\ g_retry c' = g_retry c /\ g_srv c' = g_srv c /\ g_scid c' = g_scid c /\ g_rscid c' = g_rscid c /\ g_token c' = g_token c /\
  (g_srv c = false -> g_v c' = g_v c /\ g_vn c' = g_vn c) /\ g_count c <= g_count c' /\ (r = Ok tt -> 0 <= g_count c -> 0 < g_count c') /\ (g_count c' <> g_count c -> r = Ok tt) /\ (g_vn c = true -> g_vn c' = true /\ g_v c' = g_v c) /\
  (g_srv c = true -> g_vn c = false -> g_vn c' = true -> g_v c' = V1).
Proof.
  unfold on_pkt. intros h.
  destruct (g_srv c && negb (g_vn c) && negb (supported v)) eqn:e0; [injection h as <- <-; repeat split; intros; try congruence; try lia|].
  set (c1 := if g_srv c && negb (g_vn c) then _ else c) in h. cbv zeta in h.
  assert (k1 : g_starts c1 = g_starts c /\ g_retry c1 = g_retry c /\ g_srv c1 = g_srv c /\ g_scid c1 = g_scid c /\ g_rscid c1 = g_rscid c /\ g_token c1 = g_token c /\ g_count c1 = g_count c /\
     (g_srv c = false -> g_v c1 = g_v c /\ g_vn c1 = g_vn c) /\ (g_vn c = true -> g_vn c1 = true /\ g_v c1 = g_v c) /\ (g_srv c = true -> g_vn c = false -> g_v c1 = V1)).
  { unfold c1. destruct (g_srv c) eqn:es; destruct (g_vn c) eqn:ev; cbn [andb negb] in *; cbn; rewrite ?es, ?ev; repeat split; auto; try discriminate. intros _ _. destruct (supported v) eqn:esup; [apply Z.eqb_eq in esup; exact esup|discriminate]. }
  clearbody c1. destruct k1 as (a1 & a2 & a3 & a4 & a5 & a6 & a7 & a8 & a9 & a10).
  assert (fin : forall c3 r3, g_starts c3 = g_starts c1 /\ g_retry c3 = g_retry c1 /\ g_srv c3 = g_srv c1 /\ g_scid c3 = g_scid c1 /\ g_rscid c3 = g_rscid c1 /\ g_token c3 = g_token c1 /\ g_v c3 = g_v c1 /\ g_vn c3 = g_vn c1 /\
     (g_count c3 = g_count c1 /\ r3 <> Ok tt \/ g_count c3 = g_count c1 + 1 /\ r3 = Ok tt) -> (r3, c3) = (r, c') ->
     g_starts c' = g_starts c /\ g_retry c' = g_retry c /\ g_srv c' = g_srv c /\ g_scid c' = g_scid c /\ g_rscid c' = g_rscid c /\ g_token c' = g_token c /\
     (g_srv c = false -> g_v c' = g_v c /\ g_vn c' = g_vn c) /\ g_count c <= g_count c' /\ (r = Ok tt -> 0 <= g_count c -> 0 < g_count c') /\ (g_count c' <> g_count c -> r = Ok tt) /\ (g_vn c = true -> g_vn c' = true /\ g_v c' = g_v c) /\
     (g_srv c = true -> g_vn c = false -> g_vn c' = true -> g_v c' = V1)).
  { intros c3 r3 (b1 & b2 & b3 & b4 & b5 & b6 & b7 & b8 & b9) hx. injection hx as <- <-. rewrite b1, b2, b3, b4, b5, b6, b7, b8. clear h e0.
    refine (conj a1 (conj a2 (conj a3 (conj a4 (conj a5 (conj a6 (conj a8 (conj _ (conj _ (conj _ (conj a9 _))))))))))); [| | |intros q1 q2 _; exact (a10 q1 q2)]; clear - a7 b9; destruct b9 as [(b9 & b10)|(b9 & b10)].
    - lia. - lia. - intros; congruence. - intros; lia. - intros; congruence. - auto. }
  destruct (negb short && negb (v =? g_v c1)); [refine (fin _ _ _ h); repeat split; left; split; [reflexivity|discriminate]|].
  set (c2 := match g_keys c1 with None => _ | Some _ => c1 end) in h.
  assert (k2 : g_starts c2 = g_starts c1 /\ g_retry c2 = g_retry c1 /\ g_srv c2 = g_srv c1 /\ g_scid c2 = g_scid c1 /\ g_rscid c2 = g_rscid c1 /\ g_token c2 = g_token c1 /\ g_v c2 = g_v c1 /\ g_vn c2 = g_vn c1 /\ g_count c2 = g_count c1) by (unfold c2; destruct (g_keys c1); cbn; auto 10).
  clearbody c2. destruct k2 as (d1 & d2 & d3 & d4 & d5 & d6 & d7 & d8 & d9).
  destruct (negb (match s with ByInitial _ _ => _ | ByOther _ => _ end)); [refine (fin _ _ _ h); repeat split; auto; left; split; [exact d9|discriminate]|].
  destruct rest; destruct (g_got c2); refine (fin _ _ _ h); cbn [g_starts g_retry g_srv g_scid g_rscid g_token g_v g_vn g_count]; (do 8 (split; [assumption|])); [right|right|left|left]; (split; [congruence|reflexivity || discriminate]).
Qed.

Lemma gstep_cases mac x c r c' : gstep mac x c = (r, c') ->
  (g_starts c' = g_starts c /\ g_retry c' = g_retry c /\ (g_srv c = false -> g_vn c' = g_vn c /\ g_v c' = g_v c)) /\ (r = Ok tt -> by_vn (mkM (snd x) r c c') \/ by_retry (mkM (snd x) r c c') -> False) \/
  by_vn (mkM (snd x) r c c') /\ g_starts c' = g_starts c + 1 /\ g_vn c = false /\ g_vn c' = true /\ g_retry c' = g_retry c /\ g_v c' = V1 /\ r = Err Done \/
  by_retry (mkM (snd x) r c c') /\ g_starts c' = g_starts c + 1 /\ g_retry c = false /\ g_retry c' = true /\ g_vn c' = g_vn c /\ g_v c' = g_v c /\ r = Err Done.
Proof.
  unfold gstep, by_vn, by_retry. cbn [m_pkt]. destruct (snd x) as [dcid scid vs|scid token body tag|short v scid s rest]; intros h.
  - destruct (C69_vn_error _ _ _ _ _ _ h) as [->|(-> & -> & _)].
    + unfold on_vn in h.
      destruct (g_srv c) eqn:es; [injection h as <-; left; split; [auto|discriminate]|]. destruct (g_vn c) eqn:ev; [injection h as <-; left; split; [auto|discriminate]|].
      destruct (Z.ltb_spec 0 (g_count c)); [injection h as <-; left; split; [auto|discriminate]|]. destruct (same dcid (g_scid c)) eqn:e1; cbn [negb] in h; [|injection h as <-; left; split; [auto|discriminate]]. destruct (same scid (g_dcid c)) eqn:e2; cbn [negb] in h; [|injection h as <-; left; split; [auto|discriminate]].
      destruct vs as [l|]; [|injection h as <-; left; split; [auto|discriminate]]. destruct (existsb (Z.eqb (g_v c)) l) eqn:e3; [injection h as <-; left; split; [auto|discriminate]|]. rewrite pick_v1 in h. destruct (existsb supported l) eqn:e4; [|discriminate].
      injection h as <-. right. left. cbn. split; [eauto|]. auto 10.
    + left. split; [auto|discriminate].
  - unfold on_retry in h. destruct (g_srv c) eqn:es; [injection h as <- <-; left; split; [auto|discriminate]|]. destruct (g_retry c) eqn:er; [injection h as <- <-; left; split; [auto|discriminate]|].
    destruct (negb (retry_ok mac (g_dcid c) body tag)); injection h as <- <-; [left; split; [auto|discriminate]|]. right. right. cbn. split; [eauto 6|]. auto 10.
  - left. destruct (on_pkt_kept _ _ _ _ _ _ _ _ _ h) as (h1 & h2 & _ & _ & _ & _ & h3 & _). split; [split; [exact h1|]; split; [exact h2|]; intros hx; destruct (h3 hx); auto|]. intros _ [(a & b & d & hx)|(a & b & d & e & hx)]; discriminate.
Qed.
Lemma history_srv mac : forall l c m, In m (history mac l c) -> g_srv (m_from m) = g_srv c /\ g_srv (m_to m) = g_srv c.
Proof.
  induction l as [|x l ih]; intros c m h; cbn [history] in h; [destruct h|]. destruct (gstep mac x c) as [r c1] eqn:e1.
  assert (hs : g_srv c1 = g_srv c).
  { unfold gstep in e1. destruct (snd x) as [dcid scid vs|scid token body tag|short v scid s rest].
    - unfold on_vn in e1. destruct (g_srv c) eqn:es; [congruence|]. repeat match type of e1 with (if ?b then _ else _) = _ => destruct b | match ?o with Some _ => _ | None => _ end = _ => destruct o end; injection e1 as _ <-; cbn; auto.
    - unfold on_retry in e1. repeat match type of e1 with (if ?b then _ else _) = _ => destruct b eqn:? end; injection e1 as _ <-; cbn; congruence.
    - exact (proj1 (proj2 (proj2 (on_pkt_kept _ _ _ _ _ _ _ _ _ e1)))). }
  destruct h as [<-|h]; [cbn; auto|]. destruct (ih _ _ h) as (h1 & h2). rewrite h1, h2. auto.
Qed.

(** At most one Retry packet and at most one Version Negotiation packet ever start the
    handshake over, and nothing else does. *)
Theorem C69_once mac l c : forall h1 m h2, history mac l c = h1 ++ m :: h2 -> restarted m ->
  (by_retry m /\ forall m', In m' (h1 ++ h2) -> restarted m' -> by_vn m') \/ (by_vn m /\ forall m', In m' (h1 ++ h2) -> restarted m' -> by_retry m').
Proof.
  assert (K : forall l c, (g_retry c = true -> forall m, In m (history mac l c) -> restarted m -> by_vn m) /\ (g_vn c = true -> forall m, In m (history mac l c) -> restarted m -> by_retry m) /\ (forall m, In m (history mac l c) -> restarted m -> (by_vn m \/ by_retry m) /\ g_srv c = false)).
  { clear. induction l as [|x l ih]; intros c; cbn [history]; [repeat split; intros; cbn in *; tauto|]. destruct (gstep mac x c) as [r c1] eqn:e1.
    assert (hsrv : g_srv c1 = g_srv c) by (destruct (history_srv mac [x] c (mkM (snd x) r c c1)) as (_ & h2); [cbn [history]; rewrite e1; left; reflexivity|exact h2]).
    destruct (ih c1) as (i1 & i2 & i3). rewrite hsrv in i3. unfold restarted.
    assert (hd : g_starts c1 <> g_starts c -> g_srv c = false).
    { intros hx. destruct (g_srv c) eqn:es; [|reflexivity]. exfalso. apply hx. unfold gstep in e1. destruct (snd x) as [dcid scid vs|scid token body tag|short v scid s rest].
      - unfold on_vn in e1. rewrite es in e1. congruence.
      - unfold on_retry in e1. rewrite es in e1. congruence.
      - exact (proj1 (on_pkt_kept _ _ _ _ _ _ _ _ _ e1)). }
    assert (hvn : g_vn c = true -> g_vn c1 = true).
    { intros hx. unfold gstep in e1. destruct (snd x) as [dcid scid vs|scid token body tag|short v scid s rest].
      - unfold on_vn in e1. rewrite hx in e1. destruct (g_srv c); congruence.
      - unfold on_retry in e1. repeat match type of e1 with (if ?b then _ else _) = _ => destruct b eqn:? end; injection e1 as _ <-; cbn; congruence.
      - destruct (on_pkt_kept _ _ _ _ _ _ _ _ _ e1) as (_ & _ & _ & _ & _ & _ & _ & _ & _ & _ & h & _). exact (proj1 (h hx)). }
    destruct (gstep_cases _ _ _ _ _ e1) as [((g1 & g2 & g3) & _)|[(g1 & g2 & g3 & g4 & g5 & _)|(g1 & g2 & g3 & g4 & g5 & _)]].
    - split; [|split].
      + intros hr m [<-|hm] hs; [cbn in hs; congruence|]. apply i1; auto. congruence.
      + intros hv m [<-|hm] hs; [cbn in hs; congruence|]. apply i2; auto.
      + intros m [<-|hm] hs; [cbn in hs; congruence|]. apply i3; auto.
    - split; [|split].
      + intros hr m [<-|hm] hs; [exact g1|]. apply i1; auto. congruence.
      + congruence.
      + intros m [<-|hm] hs; [split; [auto|apply hd; lia]|]. apply i3; auto.
    - split; [|split].
      + congruence.
      + intros hv m [<-|hm] hs; [exact g1|]. apply i2; auto.
      + intros m [<-|hm] hs; [split; [auto|apply hd; lia]|]. apply i3; auto. }
  revert c. induction l as [|x l ih]; intros c h1 m h2 h hs; cbn [history] in h; [destruct h1; discriminate|]. destruct (gstep mac x c) as [r c1] eqn:e1.
  destruct h1 as [|m0 h1]; cbn [app] in h; injection h as hm hl.
  - subst m. unfold restarted in hs. cbn in hs. destruct (K l c1) as (k1 & k2 & _). cbn [app]. rewrite <- hl. destruct (gstep_cases _ _ _ _ _ e1) as [((g1 & g2 & g3) & _)|[(g1 & g2 & g3 & g4 & g5 & _)|(g1 & g2 & g3 & g4 & g5 & _)]]; [congruence|right; split; [exact g1|exact (k2 g4)]|left; split; [exact g1|exact (k1 g4)]].
  - subst m0. assert (hin : In m (history mac l c1)) by (rewrite hl; apply in_or_app; right; left; reflexivity). destruct (K l c1) as (k1 & k2 & _).
    destruct (ih c1 h1 m h2 hl hs) as [(j1 & j2)|(j1 & j2)]; [left|right]; (split; [exact j1|]); intros m' [<-|hm'] hs'; auto; unfold restarted in hs'; cbn in hs';
      (destruct (gstep_cases _ _ _ _ _ e1) as [((g1 & g2 & g3) & _)|[(g1 & g2 & g3 & g4 & g5 & _)|(g1 & g2 & g3 & g4 & g5 & _)]]; [congruence| |]); auto; exfalso.
    + destruct (k1 g4 m hin hs) as (a & b & d & hx). destruct j1 as (a1 & b1 & d1 & e2 & hy). congruence.
    + destruct (k2 g4 m hin hs) as (a & b & d & e2 & hx). destruct j1 as (a1 & b1 & d1 & hy). congruence.
Qed.
Print Assumptions C69_once.

(** A client only ever uses the version it was made with, or version 1 once a Version
    Negotiation packet offered it. *)
Theorem C69_version mac l v scid dcid m : In m (history mac l (client_new v scid dcid)) -> g_v (m_to m) = v \/ g_v (m_to m) = V1 /\ exists m', In m' (history mac l (client_new v scid dcid)) /\ restarted m' /\ by_vn m'.
Proof.
  assert (K : forall l c, g_srv c = false -> forall m, In m (history mac l c) -> g_v (m_to m) = g_v c \/ g_v (m_to m) = V1 /\ exists m', In m' (history mac l c) /\ restarted m' /\ by_vn m').
  2: { intros h. exact (K l (client_new v scid dcid) eq_refl m h). }
  clear. induction l as [|x l ih]; intros c hs m h; cbn [history] in *; [destruct h|]. destruct (gstep mac x c) as [r c1] eqn:e1.
  assert (hsrv : g_srv c1 = false) by (destruct (history_srv mac [x] c (mkM (snd x) r c c1)) as (_ & h2); [cbn [history]; rewrite e1; left; reflexivity|cbn [m_to] in h2; congruence]).
  assert (hone : g_v c1 = g_v c \/ g_v c1 = V1 /\ restarted (mkM (snd x) r c c1) /\ by_vn (mkM (snd x) r c c1)).
  { destruct (gstep_cases _ _ _ _ _ e1) as [((g1 & g2 & g3) & _)|[(g1 & g2 & g3 & g4 & g5 & g6 & _)|(g1 & g2 & g3 & g4 & g5 & g6 & _)]]; auto; [left; apply g3; exact hs|]. right. split; [exact g6|]. split; [unfold restarted; cbn; lia|exact g1]. }
  destruct h as [<-|h].
  - cbn [m_to]. destruct hone as [h1|(h1 & h2 & h3)]; [auto|right; split; [exact h1|]; exists (mkM (snd x) r c c1); split; [left; reflexivity|auto]].
  - destruct (ih c1 hsrv m h) as [h1|(h1 & m' & h2 & h3)]; [|right; split; [exact h1|exists m'; split; [right; exact h2|exact h3]]]. rewrite h1. destruct hone as [h2|(h2 & h3 & h4)]; [auto|right; split; [exact h2|]; exists (mkM (snd x) r c c1); split; [left; reflexivity|auto]].
Qed.
Print Assumptions C69_version.
(** A server takes the version of the first packet, if it knows it, and keeps it. *)
Theorem C69_server_version mac l v scid m : In m (history mac l (server_new v scid)) -> processed m -> g_v (m_to m) = V1.
Proof.
  assert (K : forall l c, g_srv c = true -> (g_vn c = true -> g_v c = V1) -> forall m, In m (history mac l c) -> processed m -> g_v (m_to m) = V1).
  2: { intros h. exact (K l (server_new v scid) eq_refl ltac:(discriminate) m h). }
  clear. induction l as [|x l ih]; intros c hs hv m h hp; cbn [history] in *; [destruct h|]. destruct (gstep mac x c) as [r c1] eqn:e1.
  assert (hsrv : g_srv c1 = true) by (destruct (history_srv mac [x] c (mkM (snd x) r c c1)) as (_ & h2); [cbn [history]; rewrite e1; left; reflexivity|cbn [m_to] in h2; congruence]).
  assert (hk : (g_vn c1 = true -> g_v c1 = V1) /\ (r = Ok tt -> g_v c1 = V1)).
  { unfold gstep in e1. destruct (snd x) as [d1 s1 vs|s1 token body tag|short w s1 s rest].
    - unfold on_vn in e1. rewrite hs in e1. injection e1 as <- <-. split; [exact hv|discriminate].
    - unfold on_retry in e1. rewrite hs in e1. injection e1 as <- <-. split; [exact hv|discriminate].
    - destruct (on_pkt_kept _ _ _ _ _ _ _ _ _ e1) as (_ & _ & _ & _ & _ & _ & _ & _ & _ & _ & k1 & k2). assert (kk : g_vn c1 = true -> g_v c1 = V1) by (destruct (g_vn c) eqn:ev; [intros _; destruct (k1 eq_refl) as (_ & ->); auto|exact (k2 hs eq_refl)]).
      split; [exact kk|]. intros hr. apply kk. unfold on_pkt in e1. rewrite hs in e1. destruct (g_vn c) eqn:ev; [exact (proj1 (k1 eq_refl))|]. cbn [andb negb] in e1. destruct (negb (supported w)); [congruence|]. cbv zeta in e1. cbn [g_v g_vn] in e1.
      destruct (negb short && negb (w =? w)); [congruence|]. cbn [g_keys] in e1. destruct (g_keys c); cbn [g_keys] in e1;
        (destruct (negb (match s with ByInitial _ _ => _ | ByOther _ => _ end)); [congruence|]); cbn [g_got] in e1; destruct (g_got c); destruct rest; injection e1 as <- <-; try reflexivity; congruence. }
  destruct hk as (k1 & k2). destruct h as [<-|h]; [exact (k2 hp)|exact (ih c1 hsrv k1 m h hp)].
Qed.
Print Assumptions C69_server_version.

(** The number of packets processed *)
Lemma history_count mac : forall l c h1 m h2, history mac l c = h1 ++ m :: h2 -> g_count c <= g_count (m_from m) /\ (0 <= g_count c -> Exists processed h1 -> 0 < g_count (m_from m)).
Proof.
  induction l as [|x l ih]; intros c h1 m h2 h; cbn [history] in h; [destruct h1; discriminate|]. destruct (gstep mac x c) as [r c1] eqn:e1. destruct h1 as [|m0 h1]; cbn [app] in h; injection h as hm hl.
  - subst m. cbn. split; [lia|]. intros _ he. inversion he.
  - assert (hk : g_count c <= g_count c1 /\ (r = Ok tt -> 0 <= g_count c -> 0 < g_count c1)).
    { unfold gstep in e1. destruct (snd x) as [dcid scid vs|scid token body tag|short v scid s rest].
      - unfold on_vn in e1. repeat match type of e1 with (if ?b then _ else _) = _ => destruct b | match ?o with Some _ => _ | None => _ end = _ => destruct o end; injection e1 as <- <-; cbn; split; try lia; discriminate.
      - unfold on_retry in e1. repeat match type of e1 with (if ?b then _ else _) = _ => destruct b end; injection e1 as <- <-; cbn; split; try lia; discriminate.
      - destruct (on_pkt_kept _ _ _ _ _ _ _ _ _ e1) as (_ & _ & _ & _ & _ & _ & _ & k1 & k2 & _). auto. }
    destruct hk as (k1 & k2). destruct (ih c1 h1 m h2 hl) as (i1 & i2). split; [lia|]. intros h0 he. inversion he as [? ? hp|? ? hp]; subst; [|apply i2; [lia|exact hp]]. unfold processed in hp. cbn in hp. specialize (k2 hp h0). lia.
Qed.
(** The claim for both kinds of packets *)
Definition first (by_ : moment -> Prop) : Prop := forall mac l v scid dcid h1 m h2, history mac l (client_new v scid dcid) = h1 ++ m :: h2 -> restarted m -> by_ m -> forall m', In m' h1 -> ~ processed m'.
(** A Version Negotiation packet is followed only if no packet was processed before. *)
Theorem C69_vn_first : first by_vn.
Proof.
  intros mac l v scid dcid h1 m h2 h hs (d & s & vs & hm) m' hin hp. destruct (history_count _ _ _ _ _ _ h) as (_ & k).
  assert (hc : 0 < g_count (m_from m)) by (apply k; [cbn; lia|]; apply Exists_exists; eauto).
  assert (hin2 : In m (history mac l (client_new v scid dcid))) by (rewrite h; apply in_or_app; right; left; reflexivity).
  assert (hst : exists r x, gstep mac x (m_from m) = (r, m_to m) /\ snd x = m_pkt m).
  { clear - hin2. revert hin2. generalize (client_new v scid dcid). induction l as [|x l ih]; intros c hin; cbn [history] in hin; [destruct hin|]. destruct (gstep mac x c) as [r c1] eqn:e1. destruct hin as [<-|hin]; [cbn; eauto|exact (ih _ hin)]. }
  destruct hst as (r & x & hx & hp2). unfold gstep in hx. rewrite hp2, hm in hx. destruct (C69_vn _ _ _ _ _ _ hx) as (_ & _ & _ & hle & _); [intros he; unfold restarted in hs; rewrite he in hs; congruence|lia].
Qed.
Print Assumptions C69_vn_first.
(** For Retry packets this is what is missing: that a Retry is followed is all that is
    known after it (C69_retry_partial), not that nothing was processed before. *)
Theorem C69_retry_partial mac l v scid dcid h1 m h2 : history mac l (client_new v scid dcid) = h1 ++ m :: h2 -> restarted m -> by_retry m -> forall m', In m' (h1 ++ h2) -> restarted m' -> by_vn m'.
Proof.
  intros h hs hr. destruct (C69_once mac l _ h1 m h2 h hs) as [(_ & k)|((a & b & d & hx) & _)]; [exact k|]. destruct hr as (a1 & b1 & d1 & e1 & hy). congruence.
Qed.
Print Assumptions C69_retry_partial.

(** The ids a client compares with the server's transport parameters, as long as no packet
    had any effect before the Retry: the first id it chose, and the id of the Retry. *)
Theorem C69_ids mac l v scid d0 : let h := history mac l (client_new v scid d0) in
  (forall h1 m h2, h = h1 ++ m :: h2 -> restarted m -> by_retry m -> forall m', In m' h1 -> by_vn m' \/ by_retry m' \/ m_to m' = m_from m') ->
  forall m, In m h -> (g_odcid (m_to m) = None \/ g_odcid (m_to m) = Some d0) /\
    (g_rscid (m_to m) = None \/ exists m' scid1 token body tag, In m' h /\ restarted m' /\ m_pkt m' = GRetry scid1 token body tag /\ g_rscid (m_to m) = Some scid1).
Proof.
  cbv zeta. 
  assert (K : forall l c, g_srv c = false -> (g_odcid c = None /\ g_dcid c = d0 \/ g_odcid c = Some d0) ->
    (forall h1 m h2, history mac l c = h1 ++ m :: h2 -> restarted m -> by_retry m -> g_odcid c = None /\ forall m', In m' h1 -> by_vn m' \/ by_retry m' \/ m_to m' = m_from m') ->
    forall m, In m (history mac l c) -> (g_odcid (m_to m) = None \/ g_odcid (m_to m) = Some d0) /\
      (g_rscid (m_to m) = g_rscid c \/ exists m' scid1 token body tag, In m' (history mac l c) /\ restarted m' /\ m_pkt m' = GRetry scid1 token body tag /\ g_rscid (m_to m) = Some scid1)).
  2: { intros hc m hm. refine (K l (client_new v scid d0) eq_refl (or_introl (conj eq_refl eq_refl)) _ m hm). intros h1 m1 h2 e1 e2 e3. split; [reflexivity|]. exact (hc h1 m1 h2 e1 e2 e3). }
  clear. induction l as [|x l ih]; intros c hs hj hc m h; cbn [history] in *; [destruct h|]. destruct (gstep mac x c) as [r c1] eqn:e1.
  assert (hsrv : g_srv c1 = false) by (destruct (history_srv mac [x] c (mkM (snd x) r c c1)) as (_ & h2); [cbn [history]; rewrite e1; left; reflexivity|cbn [m_to] in h2; congruence]).
  set (m0 := mkM (snd x) r c c1) in *.
  assert (hcase : (by_retry m0 /\ restarted m0 /\ exists scid1 token body tag, snd x = GRetry scid1 token body tag /\ g_rscid c1 = Some scid1 /\ g_odcid c1 = Some (g_dcid c) /\ g_retry c1 = true) \/
     g_rscid c1 = g_rscid c /\ (g_odcid c1 = g_odcid c /\ g_dcid c1 = g_dcid c \/ ~ by_vn m0 /\ ~ by_retry m0 /\ c1 <> c /\ (g_odcid c1 = g_odcid c /\ g_odcid c <> None \/ g_odcid c = None /\ g_odcid c1 = Some (g_dcid c)))).
  { unfold m0, by_retry, by_vn, restarted in *. cbn [m_pkt m_to m_from] in *. unfold gstep in e1. destruct (snd x) as [dcid scid1 vs|scid1 token body tag|short w scid1 s rest].
    - right. unfold on_vn in e1. repeat match type of e1 with (if ?b then _ else _) = _ => destruct b | match ?o with Some _ => _ | None => _ end = _ => destruct o end; injection e1 as <- <-; cbn; auto.
    - unfold on_retry in e1. repeat match type of e1 with (if ?b then _ else _) = _ => destruct b end; injection e1 as <- <-; cbn; auto. left. split; [eauto 6|]. split; [lia|]. eauto 10.
    - right. destruct (on_pkt_kept _ _ _ _ _ _ _ _ _ e1) as (_ & _ & _ & _ & k5 & _). split; [exact k5|]. unfold on_pkt in e1. rewrite hs in e1. cbn [andb] in e1. cbv zeta in e1.
      destruct (negb short && negb (w =? g_v c)); [injection e1 as <- <-; auto|]. set (c2 := match g_keys c with None => _ | Some _ => c end) in e1.
      assert (k2 : g_odcid c2 = g_odcid c /\ g_dcid c2 = g_dcid c /\ g_got c2 = g_got c /\ g_srv c2 = false) by (unfold c2; destruct (g_keys c); cbn; auto). clearbody c2. destruct k2 as (d1 & d2 & d3 & d4).
      destruct (negb (match s with ByInitial _ _ => _ | ByOther _ => _ end)); [injection e1 as <- <-; auto|]. rewrite d3, d4 in e1. destruct (g_got c) eqn:eg; [destruct rest; injection e1 as <- <-; cbn; auto|].
      right. split; [intros (a & b & d & hx); discriminate|]. split; [intros (a & b & d & e & hx); discriminate|]. assert (hne : g_got c1 = true) by (destruct rest; injection e1 as <- <-; reflexivity). split; [intros hx; congruence|].
      assert (hod : g_odcid c1 = match g_odcid c2 with None => Some (g_dcid c2) | o => o end) by (destruct rest; injection e1 as <- <-; reflexivity). rewrite d1, d2 in hod. destruct (g_odcid c); [left; split; [exact hod|discriminate]|right; auto]. }
  assert (hj1 : g_odcid c1 = None /\ g_dcid c1 = d0 \/ g_odcid c1 = Some d0).
  { destruct hcase as [(k1 & k2 & a & b & d & e & _ & _ & k3 & _)|(_ & [(k1 & k2)|(_ & _ & _ & [(k1 & k2)|(k1 & k2)])])].
    - destruct (hc [] m0 (history mac l c1) eq_refl k2 k1) as (k4 & _). destruct hj as [(_ & hj)|hj]; [right; congruence|congruence].
    - rewrite k1, k2. exact hj.
    - destruct hj as [(hj & _)|hj]; [congruence|]. right. congruence.
    - destruct hj as [(_ & hj)|hj]; [right; congruence|congruence]. }
  assert (hc1 : forall h1 m1 h2, history mac l c1 = h1 ++ m1 :: h2 -> restarted m1 -> by_retry m1 -> g_odcid c1 = None /\ forall m', In m' h1 -> by_vn m' \/ by_retry m' \/ m_to m' = m_from m').
  { intros h1 m1 h2 k1 k2 k3. destruct (hc (m0 :: h1) m1 h2 ltac:(cbn [app]; rewrite k1; reflexivity) k2 k3) as (k4 & k5). split; [|intros m' hm'; apply k5; right; exact hm'].
    destruct hcase as [(j1 & j2 & a & b & d & e & _ & _ & _ & j3)|(_ & [(j1 & j2)|(j1 & j2 & j3 & _)])]; [|congruence|].
    - exfalso. destruct (C69_once mac (x :: l) c [] m0 (history mac l c1)) as [(_ & q)|((q1 & q2 & q3 & q4) & _)]; [cbn [history]; rewrite e1; reflexivity|exact j2| |].
      + destruct (q m1 ltac:(cbn [app]; rewrite k1; apply in_or_app; right; left; reflexivity) k2) as (q1 & q2 & q3 & q4). destruct k3 as (p1 & p2 & p3 & p4 & p5). congruence.
      + destruct j1 as (p1 & p2 & p3 & p4 & p5). congruence.
    - exfalso. destruct (k5 m0 ltac:(left; reflexivity)) as [q|[q|q]]; [exact (j1 q)|exact (j2 q)|exact (j3 q)]. }
  destruct h as [<-|h].
  - unfold m0. cbn [m_to]. split; [destruct hj1 as [(q & _)|q]; auto|]. destruct hcase as [(k1 & k2 & a & b & d & e & k3 & k4 & _)|(k1 & _)]; [right|left; exact k1]. exists m0, a, b, d, e. repeat split; auto. left. reflexivity.
  - destruct (ih c1 hsrv hj1 hc1 m h) as (k1 & [k2|(m' & a & b & d & e & k2 & k3 & k4 & k5)]); (split; [exact k1|]).
    + destruct hcase as [(j1 & j2 & a & b & d & e & j3 & j4 & _)|(j1 & _)]; [right|left; congruence]. exists m0, a, b, d, e. split; [left; reflexivity|]. split; [exact j2|]. split; [exact j3|congruence].
    + right. exists m', a, b, d, e. split; [right; exact k2|auto].
Qed.
Print Assumptions C69_ids.

(** ** Cases *)
Definition tmac (l : list Z) : list Z := [fold_right Z.add 0 l mod 256].
Definition c_new := client_new 0xbabababa [1] [7; 8].
Example C69_witness : let h := history tmac [([], GVn [1] [7; 8] (Some [5; 1])); ([], GRetry [9] [33] [100] (tmac [2; 7; 8; 100])); ([1], GPkt false 1 [11; 12] (ByInitial [9] 1) true)] c_new in
  map (fun m => (m_res m, g_v (m_to m), g_dcid (m_to m), g_starts (m_to m))) h = [(Err Done, 1, [7; 8], 2); (Err Done, 1, [9], 3); (Ok tt, 1, [11; 12], 3)] /\
  map (fun m => (g_odcid (m_to m), g_rscid (m_to m), g_token (m_to m))) h = [(None, None, None); (Some [7; 8], Some [9], Some [33]); (Some [7; 8], Some [9], Some [33])].
Proof. vm_compute. auto. Qed.
Example C69_server_witness : let h := history tmac [([7; 8], GPkt false 1 [1] (ByInitial [7; 8] 1) true)] (server_new 1 [9]) in map (fun m => (m_res m, g_v (m_to m), g_dcid (m_to m))) h = [(Ok tt, 1, [1])].
Proof. vm_compute. reflexivity. Qed.

Definition late : list (list Z * gpkt) := [([1], GPkt false 1 [11] (ByInitial [7; 8] 1) true); ([1], GPkt true 1 [] (ByOther true) true); ([1], GRetry [9] [33] [100] (tmac [1; 11; 100]))].
Definition late_history := Eval vm_compute in history tmac late (client_new 1 [1] [7; 8]).
(** A Retry is followed at any time, if its tag is right for the id in use, which anyone on
    the path sees: long after the handshake too, and the connection starts over. *)
Theorem C69_late_retry_refuted : ~ first by_retry.
Proof.
  intros h. assert (e : history tmac late (client_new 1 [1] [7; 8]) = late_history) by (vm_compute; reflexivity). specialize (h tmac late 1 [1] [7; 8]). rewrite e in h. unfold late_history in h.
  match type of h with forall _ _ _, [?a; ?b; ?d] = _ -> _ => refine (h [a; b] d [] eq_refl _ _ a _ _) end; [unfold restarted; cbn; discriminate|unfold by_retry; cbn; eauto 6|left; reflexivity|reflexivity].
Qed.
(** A Version Negotiation packet is followed after a Retry was, although the Retry is a
    packet the client has acted on. *)
Theorem C69_vn_after_retry_refuted : exists l, map g_starts (map m_to (history tmac l c_new)) = [2; 3] /\ map m_pkt (history tmac l c_new) = [GRetry [9] [33] [100] (tmac [2; 7; 8; 100]); GVn [1] [9] (Some [1])].
Proof. exists [([], GRetry [9] [33] [100] (tmac [2; 7; 8; 100])); ([], GVn [1] [9] (Some [1]))]. vm_compute. auto. Qed.
(** A Retry packet without a token, or with the id the client already uses, is followed
    too; both must be discarded (RFC 9000, 17.2.5). *)
Theorem C69_useless_retry_refuted : exists c, c = snd (on_retry tmac [7; 8] [] [100] (tmac [2; 7; 8; 100]) c_new) /\ g_dcid c = g_dcid c_new /\ g_token c = Some [] /\ g_starts c = g_starts c_new + 1.
Proof. eexists. split; [reflexivity|]. vm_compute. auto. Qed.
