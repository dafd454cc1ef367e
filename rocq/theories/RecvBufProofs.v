(** Proofs about RecvBufModel: functional specification of each operation. *)
Require Import Verif.Base Verif.Errors Verif.FlowControlModel Verif.RangeBufModel
  Verif.RangeBufProofs Verif.RecvBufModel.

Fixpoint look (l : list rangebuf) (o : Z) : option Z :=
  match l with
  | [] => None
  | b :: tl => match bget b o with Some x => Some x | None => look tl o end
  end.

Fixpoint chain (lo : Z) (l : list rangebuf) : Prop :=
  match l with
  | [] => True
  | b :: tl => rb_wf b /\ lo <= rbO b /\ (rbL b = 0 -> tl = []) /\
               (forall c, In c tl -> rbM b < rbM c) /\ chain (rbM b) tl
  end.

Lemma chain_weaken lo lo' l : lo' <= lo -> chain lo l -> chain lo' l.
Proof. destruct l; cbn; intuition lia. Qed.

Lemma chain_wf lo l b : chain lo l -> In b l -> rb_wf b /\ lo <= rbO b.
Proof.
  revert lo; induction l as [|x tl IH]; cbn; [tauto|].
  intros lo (h1 & h2 & h3 & h4 & h5) [-> | h]; [auto|].
  destruct (IH _ h5 h). split; auto. pose proof (rbO_le_M x h1). lia.
Qed.

Lemma chain_filter f lo l : chain lo l -> chain lo (filter f l).
Proof.
  revert lo; induction l as [|b tl IH]; cbn; auto.
  intros lo (h1 & h2 & h3 & h4 & h5).
  destr_if; cbn.
  - repeat split; auto; try apply h1.
    + intros h; rewrite (h3 h); auto.
    + intros c hc. apply filter_In in hc. apply h4; tauto.
  - apply (chain_weaken (rbM b)); auto. pose proof (rbO_le_M b h1). lia.
Qed.

Lemma look_none lo l o :
  chain lo l -> (forall b, In b l -> o < rbO b \/ rbM b <= o) -> look l o = None.
Proof.
  revert lo; induction l as [|b tl IH]; cbn; auto.
  intros lo (h1 & h2 & h3 & h4 & h5) h. rewrite bget_none; auto.
  apply (IH _ h5). auto.
Qed.

Lemma look_some_in lo l o x :
  chain lo l -> look l o = Some x -> exists b, In b l /\ rbO b <= o < rbM b /\ bget b o = Some x.
Proof.
  revert lo; induction l as [|b tl IH]; cbn; [discriminate|].
  intros lo (h1 & h2 & h3 & h4 & h5) h. destruct (bget b o) eqn:E.
  - inv h. exists b. split; auto. split; auto. apply (bget_range b o x); auto.
  - destruct (IH _ h5 h) as (b' & i1 & i2). eauto.
Qed.

Lemma look_range lo l o x hi :
  chain lo l -> (forall b, In b l -> rbM b <= hi) -> look l o = Some x -> lo <= o < hi.
Proof.
  intros h1 h2 h3. destruct (look_some_in _ _ _ _ h1 h3) as (b & i1 & i2 & _).
  specialize (h2 b i1). destruct (chain_wf _ _ _ h1 i1). lia.
Qed.

Lemma look_in lo l b o x :
  chain lo l -> In b l -> bget b o = Some x -> look l o = Some x.
Proof.
  revert lo; induction l as [|c tl IH]; cbn; [tauto|].
  intros lo (h1 & h2 & h3 & h4 & h5) [-> | h] hb.
  - now rewrite hb.
  - destruct (chain_wf _ _ _ h5 h) as (w1 & w2).
    rewrite bget_none; eauto. right. apply bget_range in hb; auto. lia.
Qed.

Lemma look_filter k lo l o :
  chain lo l -> k <= o -> look (data_range k l) o = look l o.
Proof.
  revert lo; induction l as [|b tl IH]; cbn; auto.
  intros lo (h1 & h2 & h3 & h4 & h5) h. unfold data_range in *. cbn [filter]. destr_if; cbn [look].
  - now rewrite (IH _ h5).
  - rewrite (IH _ h5) by auto. rewrite (bget_none b) by (auto; lia). reflexivity.
Qed.

(** ** The overlap scan *)
Lemma overlap_scan_spec bs : forall lo buf pushed,
  chain lo bs -> (forall b, In b bs -> rbO buf <= rbM b) ->
  rb_wf buf -> rb_fresh buf ->
  (forall b, In b bs -> rbL b = 0 -> rbM buf <= rbM b) ->
  (rbL buf = 0 -> forall b, In b bs -> rbM b <= rbM buf) ->
  exists r ps, overlap_scan bs buf pushed = Ok (r, pushed ++ ps) /\
  match r with
  | None => ps = [] /\ (exists b, In b bs /\ rbM buf <= rbM b) /\
      forall o, rbO buf <= o < rbM buf -> exists x, look bs o = Some x
  | Some buf' =>
      rb_wf buf' /\ rb_fresh buf' /\ rbO buf <= rbO buf' /\ rbM buf' <= rbM buf /\
      (0 < rbL buf -> 0 < rbL buf') /\ (rbL buf = 0 -> bs = [] /\ rbL buf' = 0) /\
      (forall o, rbO buf' <= o < rbM buf' -> bget buf' o = bget buf o) /\
      (forall o, rbO buf <= o < rbO buf' -> exists x, look bs o = Some x) /\
      (forall b, In b bs -> rbM b <= rbO buf' \/ rbM buf' <= rbO b) /\
      ((ps = [] /\ rbM buf' = rbM buf) \/
       exists hi, ps = [hi] /\ rb_wf hi /\ rb_fresh hi /\ rbO hi = rbM buf' /\
         rbM hi = rbM buf /\ 0 < rbL hi < rbL buf /\
         forall o, rbO hi <= o -> bget hi o = bget buf o)
  end.
Proof.
  induction bs as [|b tl IH]; intros lo buf pushed hc hr hw hf he hz.
  - exists (Some buf), []. cbn [overlap_scan]. rewrite app_nil_r. split; auto.
    split; auto. split; auto. split; [lia|]. split; [lia|]. split; [auto|]. split; [auto|].
    split; [auto|]. split; [intros; lia|]. split; [intros ? []|]. left; auto.
  - destruct hc as (w & hlo & hlast & hmono & hc).
    pose proof (rbO_le_M b w) as hbm. pose proof (rbL_nonneg buf hw) as hbl.
    assert (hOM : rbM buf = rbO buf + rbL buf) by reflexivity.
    assert (hbM : rbM b = rbO b + rbL b) by reflexivity.
    cbn [overlap_scan]. cbv zeta.
    assert (hrb : rbO buf <= rbM b) by (apply hr; cbn; auto).
    destruct (rbM buf <? rbO b) eqn:E1.
    { exists (Some buf), []. rewrite app_nil_r. split; auto.
      split; auto. split; auto. split; [lia|]. split; [lia|]. split; [auto|].
      split; [intros hz0; exfalso; specialize (hz hz0 b (or_introl eq_refl)); lia|].
      split; [auto|]. split; [intros; lia|].
      split; [|left; auto].
      intros c [<- | hin]; [right; lia|]. destruct (chain_wf _ _ _ hc hin). right; lia. }
    destruct ((rbO b <=? rbO buf) && (rbM buf <=? rbM b)) eqn:E2.
    { exists None, []. rewrite app_nil_r. split; auto. split; auto.
      split; [exists b; split; [cbn; auto | lia]|].
      intros o ho. destruct (bget_some b o w) as (x & hx); [lia|].
      exists x. cbn [look]. now rewrite hx. }
    assert (hne : 0 < rbL buf).
    { destruct (Z.eq_dec (rbL buf) 0) as [z|z]; [|lia].
      specialize (hz z b (or_introl eq_refl)). lia. }
    destruct ((rbO b <=? rbO buf) && (rbO buf <? rbM b)) eqn:E3.
    + (* start overlap *)
      destruct (rb_split_fresh (rbM b - rbO buf) buf hw hf) as
        (l1 & hi & hs & _ & _ & whi & fhi & _ & _ & _ & _ & o1 & o2 & o3 & _); [lia|].
      rewrite hs. cbn [bind].
      replace ((rbO buf <? rbO b) && (rbO b <? rbM hi)) with false by lia.
      assert (hiM : rbM hi = rbM buf) by (unfold rbM; lia).
      destruct (IH (rbM b) hi pushed hc) as (r & ps & hq & hspec); auto.
      { intros c hin. specialize (hmono c hin). lia. }
      { intros c hin hz0. rewrite hiM. apply he; cbn; auto. }
      { intros hz0. lia. }
      exists r, ps. split; [exact hq|].
      assert (bhi : forall o, rbO hi <= o -> bget hi o = bget buf o).
      { intros o ho. apply (bget_hi buf hi (rbM b - rbO buf)); auto; lia. }
      assert (bb : forall o, rbO buf <= o < rbO hi -> exists x, look (b :: tl) o = Some x).
      { intros o ho. destruct (bget_some b o w) as (x & hx); [lia|].
        exists x; cbn [look]; now rewrite hx. }
      assert (lk : forall o, (exists x, look tl o = Some x) -> exists x, look (b :: tl) o = Some x).
      { intros o (x & hx). cbn [look]. destruct (bget b o); eauto. }
      destruct r as [buf'|].
      * destruct hspec as (s1 & s2 & s3 & s4 & s5 & s6 & s7 & s8 & s9 & s10).
        split; [auto|]. split; [auto|]. split; [lia|]. split; [lia|]. split; [intros; apply s5; lia|].
        split; [lia|].
        split; [intros o ho; rewrite s7 by lia; apply bhi; lia|].
        split; [intros o ho; destruct (Z_lt_ge_dec o (rbO hi)); [apply bb; lia | apply lk, s8; lia]|].
        split; [intros c [<- | hin]; [left; lia | auto]|].
        destruct s10 as [[-> s10] | (h2 & -> & k1 & k2 & k3 & k4 & k5 & k6)]; [left; split; auto; lia|].
        right; exists h2. split; [auto|]. split; [auto|]. split; [auto|]. split; [auto|].
        split; [lia|]. split; [lia|]. intros o ho. rewrite k6 by auto. apply bhi.
        assert (rbO buf' <= rbM buf') by (apply rbO_le_M; auto). lia.
      * destruct hspec as (-> & (c & hc1 & hc2) & s). split; auto.
        split; [exists c; split; [cbn; auto | lia]|].
        intros o ho. destruct (Z_lt_ge_dec o (rbO hi)); [apply bb; lia | apply lk, s; lia].
    + cbn [bind].
      destruct ((rbO buf <? rbO b) && (rbO b <? rbM buf)) eqn:E4.
      * (* end overlap: truncate and push the rest *)
        destruct (rb_split_fresh (rbO b - rbO buf) buf hw hf) as
          (l1 & hi & hs & wl & fl & whi & fhi & p1 & p2 & p3 & _ & o1 & o2 & o3 & _); [lia|].
        rewrite hs. cbn [bind].
        assert (hl1 : rbM l1 = rbO b) by (unfold rbM; lia).
        assert (hhiM : rbM hi = rbM buf) by (unfold rbM; lia).
        assert (hscan : overlap_scan tl l1 (pushed ++ [hi]) = Ok (Some l1, pushed ++ [hi])).
        { destruct (Z.eq_dec (rbL b) 0) as [z|z].
          - rewrite (hlast z). reflexivity.
          - destruct tl as [|c tl]; [reflexivity|]. cbn [overlap_scan].
            destruct hc as (_ & hc & _).
            pose proof (rbL_nonneg b w).
            replace (rbM l1 <? rbO c) with true by lia. reflexivity. }
        rewrite hscan. exists (Some l1), [hi]. split; auto.
        split; [auto|]. split; [auto|]. split; [lia|]. split; [lia|]. split; [lia|]. split; [lia|].
        split; [intros o ho; apply (bget_lo buf l1 (rbO b - rbO buf)); auto; lia|].
        split; [intros; lia|].
        split; [intros c [<- | hin]; [right; lia | destruct (chain_wf _ _ _ hc hin); right; lia]|].
        right; exists hi. repeat split; auto; try lia; try apply whi.
        intros o ho. apply (bget_hi buf hi (rbO b - rbO buf)); auto; lia.
      * (* touching: rbO buf = rbM b, or rbM buf = rbO b *)
        assert (tch : rbO buf = rbM b \/ rbM buf = rbO b) by lia.
        destruct (IH (rbM b) buf pushed hc) as (r & ps & hq & hspec); auto.
        { intros c hin; apply hr; cbn; auto. }
        { intros c hin; apply he; cbn; auto. }
        { intros hz0; lia. }
        exists r, ps. split; [exact hq|].
        assert (lk : forall o, (exists x, look tl o = Some x) -> exists x, look (b :: tl) o = Some x).
        { intros o (x & hx). cbn [look]. destruct (bget b o); eauto. }
        destruct r as [buf'|].
        -- destruct hspec as (s1 & s2 & s3 & s4 & s5 & s6 & s7 & s8 & s9 & s10).
           split; [auto|]. split; [auto|]. split; [lia|]. split; [lia|]. split; [auto|].
           split; [lia|]. split; [auto|]. split; [auto|]. split; [|auto].
           intros c [<- | hin]; [|auto]. destruct tch; [left; lia | right; lia].
        -- destruct hspec as (-> & (c & hc1 & hc2) & s). split; auto. split; auto.
           exists c; split; [cbn; auto | lia].
Qed.

(** ** Insertion into the ordered map *)
Lemma data_insert_in b l c : In c (data_insert b l) -> c = b \/ In c l.
Proof.
  induction l as [|x tl IH]; cbn; [intuition|].
  repeat destr_if; cbn; intuition.
Qed.

Lemma data_insert_spec b : forall l lo,
  chain lo l -> rb_wf b -> lo <= rbO b ->
  (forall c, In c l -> rbM c <= rbO b \/ rbM b <= rbO c) ->
  (forall c, In c l -> rbL c = 0 -> rbM b <= rbM c) ->
  (rbL b = 0 -> forall c, In c l -> rbM c < rbM b) ->
  chain lo (data_insert b l) /\
  forall o, look (data_insert b l) o = match look l o with Some x => Some x | None => bget b o end.
Proof.
  induction l as [|x tl IH]; intros lo hc hw hlo hd he hz.
  - cbn. repeat split; auto; try apply hw.
    + intros ? [].
    + intros o; destruct (bget b o); auto.
  - destruct hc as (w & h2 & h3 & h4 & h5).
    pose proof (rbO_le_M x w). pose proof (rbO_le_M b hw).
    pose proof (rbL_nonneg b hw). pose proof (rbL_nonneg x w).
    assert (rbM b = rbO b + rbL b) by reflexivity.
    assert (rbM x = rbO x + rbL x) by reflexivity.
    pose proof (hd x (or_introl eq_refl)) as hdx.
    cbn [data_insert].
    destruct (rbM b <? rbM x) eqn:E1.
    { split.
      - cbn [chain]. split; [auto|]. split; [auto|]. split.
        { intros z. specialize (hz z x (or_introl eq_refl)). lia. }
        split. { intros c [<- | hin]; [lia|]. specialize (h4 c hin); lia. }
        split; [auto|]. split; [lia|]. auto.
      - intros o. cbn [look]. destruct (bget b o) eqn:Eb.
        + apply bget_range in Eb as Er; auto.
          rewrite (bget_none x) by (auto; lia).
          assert (look tl o = None) as ->; auto.
          apply (look_none (rbM x)); auto. intros c hin.
          destruct (chain_wf _ _ _ h5 hin). left; lia.
        + destruct (bget x o); auto. destruct (look tl o); auto. }
    destruct (rbM b =? rbM x) eqn:E2.
    { assert (rbL x = 0).
      { destruct (Z.eq_dec (rbL b) 0) as [z|z]; [specialize (hz z x (or_introl eq_refl)); lia|lia]. }
      rewrite (h3 H5) in *. split.
      - cbn. repeat split; auto; try apply hw; try tauto.
      - intros o. cbn [look]. rewrite (bget_none x) by (auto; lia). destruct (bget b o); auto. }
    assert (rbM x <= rbO b) by lia.
    destruct (IH (rbM x)) as (i1 & i2); auto.
    { intros c hin; apply hd; cbn; auto. }
    { intros c hin; apply he; cbn; auto. }
    { intros z c hin; apply hz; cbn; auto. }
    split.
    + cbn [chain]. split; [auto|]. split; [auto|]. split.
      { intros z. specialize (he x (or_introl eq_refl) z). lia. }
      split; [|auto]. intros c hin. apply data_insert_in in hin. destruct hin as [-> | hin]; auto; lia.
    + intros o. cbn [look]. rewrite i2. destruct (bget x o); auto.
Qed.

(** ** The write loop *)
Lemma write_loop_spec : forall fuel buf st,
  (Z.to_nat (rbL buf) < fuel)%nat ->
  rv_drain st = false ->
  chain (rv_off st) (rv_data st) ->
  (forall b, In b (rv_data st) -> rbM b <= rv_len st) ->
  (forall b, In b (rv_data st) -> rbL b = 0 -> rv_fin_off st = Some (rbM b)) ->
  (forall f, rv_fin_off st = Some f -> rbM buf <= f /\ rv_len st <= f) ->
  rb_wf buf -> rb_fresh buf -> rv_off st <= rbM buf ->
  (0 < rbL buf -> rv_off st < rbM buf) ->
  (rbL buf = 0 -> rv_fin_off st = Some (rbM buf)) ->
  exists data', write_loop fuel [buf] st =
      Ok (mkRecv data' (rv_off st) (Z.max (rv_len st) (rbM buf)) (rv_fc st)
                 (rv_fin_off st) (rv_error st) false) /\
    chain (rv_off st) data' /\
    (forall b, In b data' -> rbM b <= Z.max (rv_len st) (rbM buf)) /\
    (forall b, In b data' -> rbL b = 0 -> rv_fin_off st = Some (rbM b)) /\
    (forall o, rv_off st <= o -> look data' o =
       match look (rv_data st) o with Some x => Some x | None => bget buf o end).
Proof.
  induction fuel as [|fuel IH]; intros buf st hfuel hd hc hlen hemp hfin hw hfr hoff hoff' hbz; [lia|].
  cbn [write_loop].
  assert (hfront : exists b1,
     (if rbO buf <? rv_off st
      then let* '(_, hi) := rb_split_off (rv_off st - rbO buf) buf in Ok hi
      else Ok buf) = @Ok error _ b1 /\ rb_wf b1 /\ rb_fresh b1 /\ rbM b1 = rbM buf /\
      rv_off st <= rbO b1 /\ rbL b1 <= rbL buf /\ (rbL b1 = 0 <-> rbL buf = 0) /\
      forall o, rv_off st <= o -> bget b1 o = bget buf o).
  { assert (rbM buf = rbO buf + rbL buf) by reflexivity.
    pose proof (rbL_nonneg buf hw).
    destruct (rbO buf <? rv_off st) eqn:E.
    - destruct (rb_split_fresh (rv_off st - rbO buf) buf hw hfr) as
        (l1 & hi & hs & _ & _ & whi & fhi & _ & _ & _ & _ & o1 & o2 & o3 & _); [lia|].
      rewrite hs. cbn [bind]. exists hi. split; auto. split; auto. split; auto.
      split; [unfold rbM; lia|]. split; [lia|]. split; [lia|]. split; [lia|].
      intros o ho. apply (bget_hi buf hi (rv_off st - rbO buf)); auto; lia.
    - exists buf. repeat split; auto; try apply hw; lia. }
  destruct hfront as (b1 & hb1 & w1 & f1 & m1 & off1 & l1 & z1 & g1).
  rewrite hb1. cbn [bind]. clear hb1.
  pose proof (rbL_nonneg b1 w1) as l1n.
  assert (hM1 : rbM b1 = rbO b1 + rbL b1) by reflexivity.
  set (bs := data_range (rbO b1) (rv_data st)).
  assert (hbs : chain (rv_off st) bs) by (apply chain_filter; auto).
  assert (hbs_in : forall b, In b bs -> In b (rv_data st) /\ rbO b1 <= rbM b).
  { intros b hin. unfold bs, data_range in hin. apply filter_In in hin. split; [tauto | lia]. }
  assert (hscan : exists r ps,
    (if (rbO b1 <? rv_len st) || rb_is_empty b1
     then overlap_scan bs b1 [] else Ok (Some b1, [])) = Ok (r, ps) /\
    match r with
    | None => ps = [] /\ (exists b, In b bs /\ rbM b1 <= rbM b) /\
        forall o, rbO b1 <= o < rbM b1 -> exists x, look bs o = Some x
    | Some buf' =>
      rb_wf buf' /\ rb_fresh buf' /\ rbO b1 <= rbO buf' /\ rbM buf' <= rbM b1 /\
      (0 < rbL b1 -> 0 < rbL buf') /\ (rbL b1 = 0 -> bs = [] /\ rbL buf' = 0) /\
      (forall o, rbO buf' <= o < rbM buf' -> bget buf' o = bget b1 o) /\
      (forall o, rbO b1 <= o < rbO buf' -> exists x, look bs o = Some x) /\
      (forall b, In b bs -> rbM b <= rbO buf' \/ rbM buf' <= rbO b) /\
      ((ps = [] /\ rbM buf' = rbM b1) \/
       exists hi, ps = [hi] /\ rb_wf hi /\ rb_fresh hi /\ rbO hi = rbM buf' /\
         rbM hi = rbM b1 /\ 0 < rbL hi < rbL b1 /\
         forall o, rbO hi <= o -> bget hi o = bget b1 o)
    end).
  { destruct ((rbO b1 <? rv_len st) || rb_is_empty b1) eqn:E.
    - destruct (overlap_scan_spec bs (rv_off st) b1 [] hbs) as (r & ps & hq & hs); auto.
      + intros b hin; apply (hbs_in b hin).
      + intros b hin hz. destruct (hbs_in b hin) as [hin' _].
        specialize (hemp b hin' hz). destruct (hfin _ hemp). lia.
      + intros hz b hin. destruct (hbs_in b hin) as [hin' _].
        specialize (hlen b hin'). assert (hz' : rbL buf = 0) by tauto.
        destruct (hfin _ (hbz hz')). lia.
      + exists r, ps. split; auto.
    - exists (Some b1), []. split; auto. unfold rb_is_empty in E.
      split; [auto|]. split; [auto|]. split; [lia|]. split; [lia|]. split; [auto|]. split; [lia|].
      split; [auto|]. split; [intros; lia|]. split; [|left; auto].
      intros b hin. destruct (hbs_in b hin) as [hin' _]. specialize (hlen b hin'). left; lia. }
  destruct hscan as (r & ps & hq & hs). fold bs. rewrite hq. cbn [bind]. clear hq.
  assert (lkbs : forall o, rbO b1 <= o -> look bs o = look (rv_data st) o).
  { intros o ho. unfold bs. apply (look_filter _ (rv_off st)); auto. }
  destruct r as [buf'|].
  - destruct hs as (s1 & s2 & s3 & s4 & s5 & s6 & s7 & s8 & s9 & s10).
    rewrite hd. cbn [app].
    assert (hMp : rbM buf' = rbO buf' + rbL buf') by reflexivity.
    pose proof (rbL_nonneg buf' s1) as lpn.
    destruct (data_insert_spec buf' (rv_data st) (rv_off st)) as (i1 & i2); auto.
    { lia. }
    { intros c hin. destruct (Z_le_gt_dec (rbO b1) (rbM c)).
      - apply s9. unfold bs, data_range. apply filter_In. split; auto; lia.
      - left; lia. }
    { intros c hin hz. specialize (hemp c hin hz). destruct (hfin _ hemp). lia. }
    { intros hz c hin. assert (hz1 : rbL b1 = 0).
      { destruct (Z.eq_dec (rbL b1) 0); auto. assert (0 < rbL buf') by (apply s5; lia). lia. }
      destruct (s6 hz1) as (hnil & _).
      destruct (Z_le_gt_dec (rbO b1) (rbM c)); [|lia].
      assert (In c bs) by (unfold bs, data_range; apply filter_In; split; auto; lia).
      rewrite hnil in H. destruct H. }
    destruct s10 as [[-> hm] | (hi & -> & k1 & k2 & k3 & k4 & k5 & k6)].
    + (* whole buffer inserted *)
      assert (heq : forall st2, write_loop fuel [] st2 = Ok st2) by (destruct fuel; reflexivity).
      rewrite heq. rewrite <- m1, <- hm.
      exists (data_insert buf' (rv_data st)). split; auto. split; auto. split.
      { intros c hin. apply data_insert_in in hin. destruct hin as [-> | hin]; [lia|].
        specialize (hlen c hin). lia. }
      split.
      { intros c hin hz. apply data_insert_in in hin. destruct hin as [-> | hin]; auto.
        rewrite hm, m1. apply hbz. apply z1. destruct (Z.eq_dec (rbL b1) 0); auto.
        assert (0 < rbL buf') by (apply s5; lia). lia. }
      intros o ho. rewrite i2. destruct (look (rv_data st) o) eqn:El; auto.
      rewrite <- g1 by auto.
      destruct (Z_lt_ge_dec o (rbO b1)).
      { rewrite !bget_none; auto; lia. }
      destruct (Z_lt_ge_dec o (rbO buf')).
      { destruct (s8 o) as (x & hx); [lia|]. rewrite lkbs in hx by lia. congruence. }
      destruct (Z_lt_ge_dec o (rbM buf')).
      { apply s7; lia. }
      rewrite !bget_none; auto; lia.
    + (* a remainder is processed in the next iteration *)
      cbn [app].
      set (st2 := mkRecv (data_insert buf' (rv_data st)) (rv_off st)
                   (Z.max (rv_len st) (rbM buf')) (rv_fc st) (rv_fin_off st) (rv_error st) false).
      destruct (IH hi st2) as (data' & e1 & e2 & e3 & e4 & e5); auto.
      * lia.
      * cbn. intros c hin. apply data_insert_in in hin. destruct hin as [-> | hin]; [lia|].
        specialize (hlen c hin). lia.
      * cbn. intros c hin hz. apply data_insert_in in hin. destruct hin as [-> | hin]; auto.
        assert (0 < rbL buf') by (apply s5; lia). lia.
      * cbn. intros f hf. destruct (hfin f hf). lia.
      * cbn. lia.
      * cbn. intros _. assert (rbM hi = rbO hi + rbL hi) by reflexivity. lia.
      * cbn. lia.
      * unfold st2 in *; cbn [rv_off rv_len rv_fc rv_fin_off rv_error rv_data] in *.
        exists data'. rewrite e1.
        replace (Z.max (Z.max (rv_len st) (rbM buf')) (rbM hi))
          with (Z.max (rv_len st) (rbM buf)) in * by lia.
        split; auto. split; auto. split; auto. split; auto.
        intros o ho. rewrite e5 by auto. rewrite i2.
        destruct (look (rv_data st) o) eqn:El; auto.
        rewrite <- g1 by auto.
        destruct (Z_lt_ge_dec o (rbO b1)).
        { assert (rbM hi = rbO hi + rbL hi) by reflexivity.
          rewrite !bget_none; auto; lia. }
        destruct (Z_lt_ge_dec o (rbO buf')).
        { destruct (s8 o) as (x & hx); [lia|]. rewrite lkbs in hx by lia. congruence. }
        destruct (Z_lt_ge_dec o (rbM buf')).
        { rewrite s7 by lia. destruct (bget_some b1 o w1) as (x & hx); [lia|]. now rewrite hx. }
        rewrite (bget_none buf') by (auto; lia). apply k6; lia.
  - (* fully contained *)
    destruct hs as (-> & (c & hc1 & hc2) & s). cbn [app].
    assert (heq : write_loop fuel [] st = Ok st) by (destruct fuel; reflexivity).
    rewrite heq.
    destruct (hbs_in c hc1) as (hc3 & _). specialize (hlen c hc3) as hlc.
    exists (rv_data st). split.
    { destruct st as [d of ln fc fo er dr]; cbn in *. subst dr. do 2 f_equal. lia. }
    split; auto. split; [intros b hin; specialize (hlen b hin); lia|]. split; auto.
    intros o ho. destruct (look (rv_data st) o) eqn:El; auto.
    rewrite <- g1 by auto. symmetry. apply bget_none; auto.
    destruct (Z_lt_ge_dec o (rbO b1)); auto. destruct (Z_lt_ge_dec o (rbM b1)); [|lia].
    destruct (s o) as (x & hx); [lia|]. rewrite lkbs in hx by lia. congruence.
Qed.
