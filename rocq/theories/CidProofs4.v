Require Import Verif.Base Verif.Errors Verif.TpModel Verif.CidModel Verif.CidSpec Verif.CidProofs Verif.CidProofs2.

(** ** Destination ids *)
Definition key (e : ent) := (e_seq e, e_cid e, e_tok e).
Definition kpart (s : cids) := (map key (c_d s), c_dcap s, c_ret s, c_rcap s, c_lrpt s, c_zd s).

Lemma link_key q pid l : map key (link q pid l) = map key l.
Proof. induction l as [|e l IH]; cbn [link map]; auto. destruct (_ =? _); cbn [map]; auto. rewrite IH. auto. Qed.
Lemma reassign_k pid x : kpart (x_ids (reassign pid x)) = kpart (x_ids x).
Proof. unfold reassign. destruct (lowest_available (x_ids x)) as [q|]; cbn; auto. unfold kpart. cbn. rewrite link_key. auto. Qed.
Lemma reassign_all_k l : forall x, kpart (x_ids (reassign_all l x)) = kpart (x_ids x).
Proof.
  induction l as [|[q pid] l IH]; intros x; cbn [reassign_all]; auto.
  rewrite IH. destruct (path_seq x pid); auto. destruct (_ =? _); auto. apply reassign_k.
Qed.
Lemma fill_k l : forall x, kpart (x_ids (fill l x)) = kpart (x_ids x).
Proof.
  induction l as [|pid l IH]; intros x; cbn [fill]; auto.
  destruct (path_seq x pid); auto. destruct (c_zd (x_ids x)); [rewrite IH; auto|].
  destruct (lowest_available (x_ids x)); auto. rewrite IH. apply reassign_k.
Qed.

Lemma set_insert_spec x cap l :
  (cap <= zlen l /\ set_insert x cap l = Err IdLimit) \/
  (zlen l < cap /\ exists l', set_insert x cap l = Ok l' /\ (forall y, In y l' <-> y = x \/ In y l) /\ zlen l' <= zlen l + 1).
Proof.
  unfold set_insert. destruct (Z.leb_spec cap (zlen l)); [left; auto|right]. split; auto.
  destruct (existsb (Z.eqb x) l) eqn:E.
  - eexists. split; [reflexivity|]. split; [|lia]. intros y. apply existsb_exists in E. destruct E as (z & h1 & h2). apply Z.eqb_eq in h2. subst z.
    split; [auto|]. intros [->|]; auto.
  - eexists. split; [reflexivity|]. split; [|rewrite zlen_app, zlen_cons, zlen_nil; lia]. intros y. rewrite in_app_iff. cbn. split; [intros [|[|[]]]; auto|intros [|]; auto].
Qed.

Lemma retire_loop_spec r cap l : forall ret,
  exists p ret' err, retire_loop r cap l ret = (filter (fun e => r <=? e_seq e) l, p, ret', err) /\
    (forall y, In y ret -> In y ret') /\
    (forall y, In y ret' -> In y ret \/ exists e, In e l /\ e_seq e = y /\ y < r) /\
    (err = None -> forall e, In e l -> e_seq e < r -> In (e_seq e) ret') /\
    (err = None \/ err = Some IdLimit) /\
    (zlen ret + zlen l <= cap -> err = None) /\
    (forall e pid, In e l -> e_seq e < r -> e_pid e = Some pid -> In (e_seq e, pid) p) /\
    (forall q pid, In (q, pid) p -> exists e, In e l /\ e_seq e = q /\ q < r /\ e_pid e = Some pid).
Proof.
  induction l as [|e l IH]; intros ret; cbn [retire_loop filter].
  - exists [], ret, None. ands; auto; cbn; intros; tauto.
  - destruct (Z.ltb_spec (e_seq e) r) as [hlt|hge].
    + replace (r <=? e_seq e) with false by lia.
      assert (forall (ret1 : list Z) p1, (forall e0 pid, In e0 l -> e_seq e0 < r -> e_pid e0 = Some pid -> In (e_seq e0, pid) p1) ->
        (forall q pid, In (q, pid) p1 -> exists e0, In e0 l /\ e_seq e0 = q /\ q < r /\ e_pid e0 = Some pid) ->
        let p := match e_pid e with Some pid => (e_seq e, pid) :: p1 | None => p1 end in
        ret1 = ret1 /\ (forall e0 pid, In e0 (e :: l) -> e_seq e0 < r -> e_pid e0 = Some pid -> In (e_seq e0, pid) p) /\
        (forall q pid, In (q, pid) p -> exists e0, In e0 (e :: l) /\ e_seq e0 = q /\ q < r /\ e_pid e0 = Some pid)) as hp.
      { intros ret1 p1 h1 h2 p. split; [auto|]. split.
        - intros e0 pid [<-|hi] hlt' hpid; unfold p.
          + rewrite hpid. left. auto.
          + specialize (h1 e0 pid hi hlt' hpid). destruct (e_pid e); [right|]; auto.
        - intros q pid hi. unfold p in hi. destruct (e_pid e) as [pd|] eqn:Ep.
          + destruct hi as [hi|hi].
            * injection hi as <- <-. exists e. ands; auto. left; auto.
            * destruct (h2 _ _ hi) as (e0 & a & b). exists e0. split; [right; auto|auto].
          + destruct (h2 _ _ hi) as (e0 & a & b). exists e0. split; [right; auto|auto]. }
      destruct (set_insert_spec (e_seq e) cap ret) as [[hfull ->]|(_ & l' & -> & hl' & hll)].
      * destruct (IH ret) as (p & ret' & err & -> & h1 & h2 & h3 & h4 & h4b & h5 & h6).
        destruct (hp ret' p h5 h6) as (_ & hp1 & hp2).
        eexists _, ret', (Some IdLimit). split; [reflexivity|]. ands; auto.
        -- intros y hy. destruct (h2 y hy) as [|(e0 & a & b)]; auto. right. exists e0. split; [right; auto|auto].
        -- discriminate.
        -- rewrite zlen_cons. pose proof (zlen_nonneg l). lia.
      * destruct (IH l') as (p & ret' & err & -> & h1 & h2 & h3 & h4 & h4b & h5 & h6).
        destruct (hp ret' p h5 h6) as (_ & hp1 & hp2).
        eexists _, ret', err. split; [reflexivity|]. ands; auto.
        -- intros y hy. apply h1. apply hl'. auto.
        -- intros y hy. destruct (h2 y hy) as [hy'|(e0 & a & b)].
           ++ apply hl' in hy'. destruct hy' as [->|]; auto. right. exists e. split; [left; auto|auto].
           ++ right. exists e0. split; [right; auto|auto].
        -- intros he e0 [<-|hi] hlt'; auto. apply h1. apply hl'. auto.
        -- rewrite zlen_cons. intros. apply h4b. lia.
    + replace (r <=? e_seq e) with true by lia.
      destruct (IH ret) as (p & ret' & err & -> & h1 & h2 & h3 & h4 & h4b & h5 & h6).
      exists p, ret', err. split; [reflexivity|]. ands; auto.
      * intros y hy. destruct (h2 y hy) as [|(e0 & a & b)]; auto. right. exists e0. split; [right; auto|auto].
      * intros he e0 [<-|hi] hlt'; [lia|auto].
      * rewrite zlen_cons. intros. apply h4b. lia.
      * intros e0 pid [<-|hi] hlt' hpid; [lia|auto].
      * intros q pid hi. destruct (h6 _ _ hi) as (e0 & a & b). exists e0. split; [right; auto|auto].
Qed.

Section D.
Variables (dl : Z) (dc : list Z) (dt : option Z).

Definition known_d (h : trace) (e : ent) : Prop :=
  key e = (0, dc, dt) \/ exists t r o, e_tok e = Some t /\ In (GotNewCid (e_cid e) (e_seq e) t r, o) h.
Definition offered0 (h : trace) (n : Z) : Prop := n = 0 \/ In n (offered h).

Record dinv (h : trace) (s : cids) : Prop := {
  di_cap : c_dcap s = Z.max dl 2;
  di_rcap : c_rcap s = 3 * Z.max dl 2;
  di_nds : NoDup (map e_seq (c_d s));
  di_ndc : NoDup (map e_cid (c_d s));
  di_len : 1 <= zlen (c_d s) <= c_dcap s;
  di_known : forall e, In e (c_d s) -> known_d h e;
  di_lrpt : Forall (fun e => c_lrpt s <= e_seq e) (c_d s);
  di_src : lost_sent [] h -> forall n, In n (c_ret s) \/ retire_sent h n -> offered0 h n;
  di_acc : d_clean h -> forall n, n = 0 \/ accepted h n -> In n (map e_seq (c_d s)) \/ In n (c_ret s) \/ retire_sent h n;
  di_disj : lost_sent [] h -> NoDup (0 :: offered h) -> forall n, In n (map e_seq (c_d s)) -> ~ In n (c_ret s) /\ ~ retire_sent h n;
  di_rpt : NoDup (0 :: offered h) -> forall c n t r, In (GotNewCid c n t r, OUnit) h -> r <= c_lrpt s
}.

Lemma key_maps l l' : map key l = map key l' -> map e_seq l = map e_seq l' /\ map e_cid l = map e_cid l' /\ zlen l = zlen l' /\
  (forall e, In e l -> exists e', In e' l' /\ key e' = key e).
Proof.
  intros h. ands.
  - replace (map e_seq l) with (map (fun k => fst (fst k)) (map key l)) by (rewrite map_map; reflexivity). rewrite h, map_map. auto.
  - replace (map e_cid l) with (map (fun k => snd (fst k)) (map key l)) by (rewrite map_map; reflexivity). rewrite h, map_map. auto.
  - unfold zlen. rewrite <- (map_length key l), h, map_length. auto.
  - intros e he. apply (in_map key) in he. rewrite h in he. apply in_map_iff in he. destruct he as (e' & h1 & h2). eauto.
Qed.

Lemma dinv_k h s s' : kpart s' = kpart s -> dinv h s -> dinv h s'.
Proof.
  intros he hd. unfold kpart in he. injection he as e1 e2 e3 e4 e5 e6.
  destruct (key_maps _ _ e1) as (m1 & m2 & m3 & m4).
  destruct hd. constructor; rewrite ?m1, ?m2, ?m3, ?e2, ?e3, ?e4, ?e5; auto.
  - intros e he. destruct (m4 e he) as (e' & h1 & h2). specialize (di_known0 e' h1).
    unfold known_d in *. unfold key in *. injection h2 as <- <- <-. auto.
  - rewrite Forall_forall in *. intros e he. destruct (m4 e he) as (e' & h1 & h2). unfold key in h2. injection h2 as <- _ _. auto.
Qed.

Lemma dinv_init sc st : dinv [] (cids_new dl sc st dc dt).
Proof.
  constructor; cbn [cids_new c_dcap c_rcap c_d c_ret c_lrpt map e_seq e_cid].
  - destruct (Z.ltb_spec dl 2); lia.
  - destruct (Z.ltb_spec dl 2); lia.
  - constructor; auto. constructor.
  - constructor; auto. constructor.
  - rewrite zlen_cons, zlen_nil. destruct (Z.ltb_spec dl 2); lia.
  - intros e [<-|[]]. left. reflexivity.
  - constructor; [cbn; lia|constructor].
  - intros _ n [[]|(pid & [])].
  - intros _ n [->|(c & t & r & [])]. left. cbn. auto.
  - intros _ _ n _. split; [tauto|]. intros (pid & []).
  - intros _ c n t r [].
Qed.

Lemma lost_sent_app a : forall b p, lost_sent b (a ++ [p]) -> lost_sent b a /\ (forall n, fst p = LostRetire n -> retire_sent (b ++ a) n).
Proof.
  induction a as [|[op o] a IH]; intros b [op' o'] h; cbn [app lost_sent] in *.
  - split; auto. intros n hn. cbn in hn. subst op'. rewrite app_nil_r. apply h.
  - destruct op; try (apply IH in h; destruct h as [h1 h2]; split; auto; rewrite <- app_assoc in h2; exact h2).
    destruct h as [h0 h]. apply IH in h. destruct h as [h1 h2]. split; auto. rewrite <- app_assoc in h2. exact h2.
Qed.
Lemma lost_sent_snoc a p : lost_sent [] (a ++ [p]) -> lost_sent [] a /\ (forall n, fst p = LostRetire n -> retire_sent a n).
Proof. apply (lost_sent_app a []). Qed.

Lemma clean_app h p : d_clean (h ++ [p]) -> d_clean h /\ d_clean [p].
Proof. unfold d_clean. rewrite Forall_app. auto. Qed.
Lemma acc_app h p n : accepted (h ++ [p]) n <-> accepted h n \/ accepted [p] n.
Proof.
  unfold accepted. split.
  - intros (c & t & r & hi). apply in_app_iff in hi. destruct hi; eauto 6.
  - intros [(c & t & r & hi)|(c & t & r & hi)]; exists c, t, r; apply in_or_app; auto.
Qed.
Lemma rs_app h p n : retire_sent (h ++ [p]) n <-> retire_sent h n \/ retire_sent [p] n.
Proof.
  unfold retire_sent. split.
  - intros (c & hi). apply in_app_iff in hi. destruct hi; eauto.
  - intros [(c & hi)|(c & hi)]; exists c; apply in_or_app; auto.
Qed.
Lemma nd_app h p : NoDup (0 :: offered (h ++ [p])) -> NoDup (0 :: offered h).
Proof.
  rewrite offered_app. intros hn. inversion hn as [|? ? h1 h2]; subst. constructor.
  - intros hi. apply h1. apply in_or_app. auto.
  - clear h1 hn. induction (offered h) as [|x l IH]; [constructor|]. cbn in h2. inversion h2 as [|? ? h3 h4]; subst.
    constructor; auto. intros hi. apply h3. apply in_or_app. auto.
Qed.
Lemma known_app h p e : known_d h e -> known_d (h ++ [p]) e.
Proof. intros [hk|(t & r & o & h1 & h2)]; [left; auto|right]. exists t, r, o. split; auto. apply in_or_app. auto. Qed.
Lemma off_app h p n : offered0 h n -> offered0 (h ++ [p]) n.
Proof. intros [->|hi]; [left; auto|right]. rewrite offered_app. apply in_or_app. auto. Qed.

(** Operations that neither receive nor send frames about destination ids. *)
Lemma dinv_quiet h s p : dinv h s -> offered [p] = [] -> (forall n, ~ retire_sent [p] n) -> dinv (h ++ [p]) s.
Proof.
  intros hd ho hr.
  assert (offered (h ++ [p]) = offered h) as eo by (rewrite offered_app, ho, app_nil_r; auto).
  assert (forall c n t r o, p <> (GotNewCid c n t r, o)) as hp by (intros c n t r o ->; discriminate ho).
  destruct hd. constructor; auto.
  - intros e he. apply known_app; auto.
  - intros hl n hn. apply off_app. apply lost_sent_snoc in hl. destruct hl as [hl _]. apply di_src0; auto.
    destruct hn as [|hn]; auto. apply rs_app in hn. destruct hn as [|hn]; auto. exfalso. eapply hr; eauto.
  - intros hc n hn. apply clean_app in hc. destruct hc as [hc _].
    destruct (di_acc0 hc n) as [|[|]]; auto.
    + destruct hn as [->|hn]; auto. apply acc_app in hn. destruct hn as [|(c & t & r & [hn|[]])]; auto. exfalso. eapply hp; eauto.
    + right. right. apply rs_app. auto.
  - intros hl hn n hi. apply nd_app in hn. apply lost_sent_snoc in hl. destruct hl as [hl _]. destruct (di_disj0 hl hn n hi) as [a b]. split; auto.
    intros hx. apply rs_app in hx. destruct hx as [|hx]; auto. eapply hr; eauto.
  - intros hn c n t r hi. apply nd_app in hn. apply in_app_iff in hi. destruct hi as [hi|[hi|[]]]; [eapply di_rpt0; eauto|]. exfalso. eapply hp; eauto.
Qed.

(** Refused NEW_CONNECTION_ID, state unchanged. *)
Lemma dinv_refused h s c n t r e : dinv h s -> dinv (h ++ [(GotNewCid c n t r, OFail e)]) s.
Proof.
  intros hd. destruct hd. constructor; auto.
  - intros x hx. apply known_app; auto.
  - intros hl k hk. apply off_app. apply lost_sent_snoc in hl. destruct hl as [hl _]. apply di_src0; auto.
    destruct hk as [|hk]; auto. apply rs_app in hk. destruct hk as [|(pid & [hk|[]])]; auto. discriminate.
  - intros hc. apply clean_app in hc. destruct hc as [_ hc]. inversion hc as [|? ? h1 _]; subst. discriminate h1.
  - intros hl hn k hi. apply nd_app in hn. apply lost_sent_snoc in hl. destruct hl as [hl _]. destruct (di_disj0 hl hn k hi) as [a b]. split; auto.
    intros hx. apply rs_app in hx. destruct hx as [|(pid & [hk|[]])]; auto. discriminate.
  - intros hn c' n' t' r' hi. apply nd_app in hn. apply in_app_iff in hi. destruct hi as [hi|[hi|[]]]; [eapply di_rpt0; eauto|discriminate].
Qed.
End D.
