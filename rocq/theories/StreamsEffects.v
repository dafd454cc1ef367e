(** What each operation on a connection's streams does to its state, one
    lemma per operation. *)
Require Import Verif.Base Verif.Errors Verif.Assoc Verif.OctetsModel Verif.FlowControlModel Verif.RangeBufModel
  Verif.RecvBufModel Verif.SendBufModel Verif.StreamsModel Verif.StreamsProofs.

(** The state once [sid], in state [s], is collected. *)
Definition coll (sid : Z) (s : stream) (c : conn) : conn :=
  set_c_fq (q_remove sid (c_fq c))
   (set_c_wq (q_remove sid (c_wq c))
    (set_c_rq (q_remove sid (c_rq c))
     (set_c_streams (aset sid (s, true) (c_streams c))
      (if st_local s then c
       else set_kind (is_bidi sid)
              (set_l_local_next (Z.min u64_max (l_local_next (kind sid c) + 1)) (kind sid c)) c)))).

Lemma collect_ok sid c c' : cn_collect sid c = Ok c' ->
  exists s, ent sid c = Some (s, false) /\ c' = coll sid s c.
Proof.
  unfold cn_collect. destruct (cn_get sid c) as [s|] eqn:E; [|discriminate].
  intros h. injection h as <-. exists s. split; [apply get_ent; auto|].
  unfold coll, set_kind. destruct (st_local s), (is_bidi sid); reflexivity.
Qed.

Definition mcoll (b : bool) (sid : Z) (s : stream) (c : conn) : conn := if b then coll sid s c else c.

Lemma mcollect_ok (b : bool) sid s c c' : ent sid c = Some (s, false) ->
  (if b then cn_collect sid c else Ok c) = Ok c' -> c' = mcoll b sid s c.
Proof.
  intros he h. unfold mcoll. destruct b; [|congruence].
  apply collect_ok in h as (s' & h1 & ->). congruence.
Qed.

Lemma ent_put_same sid s c : ent sid (cn_put sid s c) = Some (s, false).
Proof. unfold ent. cn. apply aget_aset_same. Qed.
Lemma ent_put_other sid s c x : x <> sid -> ent x (cn_put sid s c) = ent x c.
Proof. intros n. unfold ent. cn. apply aget_aset_other. congruence. Qed.

Lemma conn_eta c : c = mkConn (c_streams c) (c_bidi c) (c_uni c) (c_rq c) (c_wq c) (c_fq c)
  (c_almost c) (c_blocked c) (c_reset c) (c_stopped c) (c_txbuf c) (c_rx c) (c_fc c) (c_maxdata c)
  (c_max_tx c) (c_tx c) (c_txcap c) (c_blk c) (c_sent c).
Proof. destruct c; reflexivity. Qed.

Lemma if_rq (b : bool) q c : (if b then set_c_rq q c else c) = set_c_rq (if b then q else c_rq c) c.
Proof. destruct b, c; reflexivity. Qed.
Lemma if_wq (b : bool) q c : (if b then set_c_wq q c else c) = set_c_wq (if b then q else c_wq c) c.
Proof. destruct b, c; reflexivity. Qed.
Lemma if_fq (b : bool) q c : (if b then set_c_fq q c else c) = set_c_fq (if b then q else c_fq c) c.
Proof. destruct b, c; reflexivity. Qed.
Lemma if_fc (b : bool) q c : (if b then set_c_fc q c else c) = set_c_fc (if b then q else c_fc c) c.
Proof. destruct b, c; reflexivity. Qed.
Lemma if_blk (b : bool) q c : (if b then set_c_blk q c else c) = set_c_blk (if b then q else c_blk c) c.
Proof. destruct b, c; reflexivity. Qed.
Lemma if_almost (b : bool) q c : (if b then set_c_almost q c else c) = set_c_almost (if b then q else c_almost c) c.
Proof. destruct b, c; reflexivity. Qed.

Ltac dif h := match type of h with (if ?b then _ else _) = _ => let E := fresh "E" in destruct b eqn:E end.

Section P.
Variable P : params.

(** What [cn_get_or_create] leaves alone. *)
Record goc_rest (c c1 : conn) : Prop := {
  gr_rq : c_rq c1 = c_rq c; gr_fq : c_fq c1 = c_fq c;
  gr_almost : c_almost c1 = c_almost c; gr_blocked : c_blocked c1 = c_blocked c;
  gr_reset : c_reset c1 = c_reset c; gr_stopped : c_stopped c1 = c_stopped c;
  gr_txbuf : c_txbuf c1 = c_txbuf c; gr_rx : c_rx c1 = c_rx c; gr_fc : c_fc c1 = c_fc c;
  gr_maxdata : c_maxdata c1 = c_maxdata c; gr_max_tx : c_max_tx c1 = c_max_tx c;
  gr_tx : c_tx c1 = c_tx c; gr_txcap : c_txcap c1 = c_txcap c; gr_blk : c_blk c1 = c_blk c;
  gr_sent : c_sent c1 = c_sent c }.

Lemma create_rest sid c : goc_rest c (create P sid c).
Proof.
  unfold create, set_kind. destruct (st_writable (fresh P sid)), (is_bidi sid); constructor; reflexivity.
Qed.

(** The stream [s] of [sid] in [c1]: there already, or just created. *)
Inductive gocs (sid : Z) (local : bool) (c : conn) (s : stream) : conn -> Prop :=
| gocs_old : ent sid c = Some (s, false) -> gocs sid local c s c
| gocs_new : ent sid c = None -> local = is_local sid (p_server P) -> within P sid (kind sid c) ->
    s = fresh P sid -> gocs sid local c s (create P sid c).

Lemma goc_gocs sid local c s c1 : cn_get_or_create P sid local c = Ok (s, c1) -> gocs sid local c s c1.
Proof.
  intros h. apply goc_ok in h as [(h & ->)|(h1 & h2 & h3 & h4 & ->)]; [apply gocs_old|apply gocs_new]; auto.
Qed.
Lemma gocs_rest sid local c s c1 : gocs sid local c s c1 -> goc_rest c c1.
Proof. intros []; [constructor; auto|apply create_rest]. Qed.

Lemma ent_create_same sid c : ent sid (create P sid c) = Some (fresh P sid, false).
Proof.
  unfold create. destr_if; unfold ent; cn; apply aget_aset_same.
Qed.
Lemma streams_create sid c : c_streams (create P sid c) = aset sid (fresh P sid, false) (c_streams c).
Proof. unfold create, set_kind. destruct (st_writable (fresh P sid)), (is_bidi sid); reflexivity. Qed.
Lemma ent_create_other sid c x : x <> sid -> ent x (create P sid c) = ent x c.
Proof. intros n. unfold ent. rewrite streams_create. apply aget_aset_other. congruence. Qed.
Lemma gocs_ent sid local c s c1 : gocs sid local c s c1 -> ent sid c1 = Some (s, false).
Proof. intros [h|h1 h2 h3 ->]; [auto|apply ent_create_same]. Qed.
Lemma gocs_other sid local c s c1 x : gocs sid local c s c1 -> x <> sid -> ent x c1 = ent x c.
Proof. intros [h|h1 h2 h3 ->] n; [auto|apply ent_create_other; auto]. Qed.

(** Frame on a closed stream: nothing happens. *)
Definition ignored (sid : Z) (c : conn) (o : cn_out) (c' : conn) : Prop :=
  o = CoIgnored /\ c' = c /\ exists s, ent sid c = Some (s, true).

Ltac goc h c1 s hg :=
  match type of h with
  | context [cn_get_or_create P ?sid ?l ?c] =>
      let E := fresh "Eg" in
      destruct (cn_get_or_create P sid l c) as [[s c1]|e|] eqn:E;
      [apply goc_gocs in E as hg
      |destruct e; try discriminate h;
        [left; apply goc_err in E as [(_ & hg)|[(hg & _)|(hg & _)]];
          [injection h as <- <-; split; [reflexivity|split; [reflexivity|exact hg]]
          |discriminate hg|discriminate hg]]
      |discriminate h]
  end.

Lemma stream_ok sid off data fin c o c' : cn_stream P sid off data fin c = Ok (o, c') ->
  ignored sid c o c' \/
  exists s c1 r, gocs sid false c s c1 /\
    (is_bidi sid = true \/ is_local sid (p_server P) = false) /\
    let buf := rb_from data off fin in
    let delta := sat_sub (rbM buf) (rv_len (st_recv s)) in
    rv_write buf (st_recv s) = Ok r /\ delta <= fc_max_data (c_fc c) - c_rx c /\ o = CoOk /\
    c' = set_c_streams (aset sid (set_recv r s, false) (c_streams c1))
         (set_c_rq (if negb (st_readable s) && rv_ready r then q_insert (st_key s) (c_rq c1) else c_rq c1)
         (set_c_rx (c_rx c1 + delta)
         (set_c_fc (if rv_drain (st_recv s) then fc_add_consumed delta (c_fc c1) else c_fc c1) c1))).
Proof.
  unfold cn_stream. intros h.
  destruct (negb (is_bidi sid) && is_local sid (p_server P)) eqn:E1; [discriminate|].
  destruct (fc_max_data (c_fc c) <? c_rx c) eqn:E2; [discriminate|]. cbv zeta in h.
  goc h c1 s hg. right. exists s, c1.
  dif h; [discriminate|]. destruct (rv_write (rb_from data off fin) (st_recv s)) as [r| |] eqn:Ew; try discriminate.
  exists r. cbn [bind] in h. injection h as <- <-. split; [exact hg|]. split; [destruct (is_bidi sid), (is_local sid (p_server P)); auto; discriminate|].
  cbv zeta. ands; auto; [lia|]. unfold st_readable. cn. rewrite if_rq, if_fc. reflexivity.
Qed.

Lemma reset_ok sid code final c o c' : cn_reset P sid code final c = Ok (o, c') ->
  ignored sid c o c' \/
  exists s c1 r delta credit, gocs sid false c s c1 /\
    (is_bidi sid = true \/ is_local sid (p_server P) = false) /\
    rv_reset code final (st_recv s) = (Ok (delta, credit), r) /\
    delta <= fc_max_data (c_fc c) - c_rx c /\ o = CoOk /\
    c' = set_c_streams (aset sid (set_recv r s, false) (c_streams c1))
         (set_c_rq (if negb (st_readable s) && rv_ready r then q_insert (st_key s) (c_rq c1) else c_rq c1)
         (set_c_rx (c_rx c1 + delta)
         (set_c_fc (fc_add_consumed credit (c_fc c1)) c1))).
Proof.
  unfold cn_reset. intros h.
  destruct (negb (is_bidi sid) && is_local sid (p_server P)) eqn:E1; [discriminate|].
  destruct (fc_max_data (c_fc c) <? c_rx c) eqn:E2; [discriminate|]. cbv zeta in h.
  goc h c1 s hg. right.
  destruct (rv_reset code final (st_recv s)) as [[[delta credit]| |] r] eqn:Er; try discriminate.
  dif h; [discriminate|]. exists s, c1, r, delta, credit. injection h as <- <-.
  split; [exact hg|]. split; [destruct (is_bidi sid), (is_local sid (p_server P)); auto; discriminate|].
  ands; auto; [lia|]. unfold st_readable. cn. rewrite if_rq. reflexivity.
Qed.

Lemma stop_ok sid code c o c' : cn_stop P sid code c = Ok (o, c') ->
  ignored sid c o c' \/
  exists s c1, gocs sid false c s c1 /\ o = CoOk /\
    (is_bidi sid = true \/ is_local sid (p_server P) = true) /\
    ((exists e, sb_stop code (st_send s) = Err e /\ c' = c1) \/
     exists final unsent b, sb_stop code (st_send s) = Ok (final, unsent, b) /\
     c' = set_c_streams (aset sid (set_send b s, false) (c_streams c1))
         (set_c_tx (sat_sub (c_tx c1) unsent)
         (set_c_txbuf (sat_sub (c_txbuf c1) (sb_buffered (st_send s)))
         (set_c_reset (aset sid (code, final) (c_reset c1))
         (set_c_wq (if negb (st_writable s) then q_insert (st_key s) (c_wq c1) else c_wq c1) c1))))).
Proof.
  unfold cn_stop. intros h.
  destruct (negb (is_local sid (p_server P)) && negb (is_bidi sid)) eqn:E1; [discriminate|]. cbv zeta in h.
  goc h c1 s hg. right. exists s, c1.
  assert (hk : is_bidi sid = true \/ is_local sid (p_server P) = true)
    by (destruct (is_bidi sid), (is_local sid (p_server P)); auto; discriminate).
  destruct (sb_stop code (st_send s)) as [[[final unsent] b]|e|] eqn:Es; try discriminate.
  - injection h as <- <-. ands; auto. right. exists final, unsent, b. split; auto.
    cn. rewrite if_wq. reflexivity.
  - injection h as <- <-. ands; auto. left. eauto.
Qed.

Lemma max_stream_data_ok sid m c o c' : cn_max_stream_data P sid m c = Ok (o, c') ->
  ignored sid c o c' \/
  exists s c1, gocs sid false c s c1 /\ o = CoOk /\
    (is_bidi sid = true \/ is_local sid (p_server P) = true) /\
    let s' := set_send (sb_update_max_data m (st_send s)) s in
    c' = set_c_streams (aset sid (s', false) (c_streams c1))
         (set_c_fq (if st_flushable s' && negb (st_flushable s) then q_insert (st_key s) (c_fq c1) else c_fq c1)
         (set_c_wq (if st_writable s' then q_insert (st_key s) (c_wq c1) else c_wq c1) c1)).
Proof.
  unfold cn_max_stream_data. intros h.
  destruct (negb (is_bidi sid) && negb (is_local sid (p_server P))) eqn:E1; [discriminate|]. cbv zeta in h.
  goc h c1 s hg. right. exists s, c1. injection h as <- <-. split; [exact hg|]. split; [auto|].
  split; [destruct (is_bidi sid), (is_local sid (p_server P)); auto; discriminate|].
  cbv zeta. cn. rewrite if_fq, if_wq. cn. reflexivity.
Qed.

Lemma recv_ok sid cap c o c' : cn_recv P sid cap c = Ok (o, c') ->
  (exists e, o = CoErr e /\ c' = c /\
     (e = InvalidStreamState sid \/ (e = Done /\ exists s, ent sid c = Some (s, false) /\ st_readable s = false))) \/
  exists s r, ent sid c = Some (s, false) /\ st_readable s = true /\
   ((exists e, rv_emit cap (st_recv s) = (Err e, r) /\ o = CoErr e /\
      let c1 := mcoll (st_complete (set_recv r s)) sid (set_recv r s) (cn_put sid (set_recv r s) c) in
      c' = set_c_rq (q_remove sid (c_rq c1)) c1) \/
    (exists bytes fin full, rv_emit cap (st_recv s) = (Ok (bytes, fin), r) /\ o = CoRead bytes fin /\
      rv_almost_full r = Ok full /\
      let s' := set_recv r s in
      let c1 := mcoll (st_complete s') sid s'
                  (set_c_streams (aset sid (s', false) (c_streams c))
                  (set_c_fc (fc_add_consumed (zlen bytes) (c_fc c))
                  (set_c_almost (if full then set_add sid (c_almost c) else c_almost c)
                  (set_c_rq (if rv_ready r then c_rq c else q_remove sid (c_rq c)) c)))) in
      c' = set_c_rq (if k_inc (st_key s) && rv_ready r
                     then q_insert (st_key s) (q_remove sid (c_rq c1)) else c_rq c1) c1)).
Proof.
  unfold cn_recv. intros h.
  destruct (negb (is_bidi sid) && is_local sid (p_server P)) eqn:E1.
  { injection h as <- <-. left. eauto. }
  destruct (cn_get sid c) as [s|] eqn:Eg.
  2:{ injection h as <- <-. left. eauto. }
  apply get_ent in Eg. destruct (st_readable s) eqn:Er; cbn [negb] in h.
  2:{ injection h as <- <-. left. exists Done. ands; auto. right. eauto. }
  destruct (rv_emit cap (st_recv s)) as [[[bytes fin]|e|] r] eqn:Ee; try discriminate; right; exists s, r;
    (split; [exact Eg|]); (split; [exact Er|]); cbv zeta in h |- *.
  - right. change (st_recv (set_recv r s)) with r in h.
    destruct (rv_almost_full r) as [full| |] eqn:Ef; try discriminate. exists bytes, fin, full.
    cbn [bind] in h. change (st_readable (set_recv r s)) with (rv_ready r) in h.
    match type of h with context [if st_complete _ then cn_collect sid ?x else Ok ?x] =>
      set (c1 := x) in h; assert (he : ent sid c1 = Some (set_recv r s, false)) end.
    { unfold ent, c1. destruct full, (rv_ready r); cn; apply aget_aset_same. }
    destruct (if st_complete (set_recv r s) then cn_collect sid c1 else Ok c1) as [c2| |] eqn:Ec; try discriminate.
    apply (mcollect_ok _ _ (set_recv r s)) in Ec; [|exact he]. cbn [bind] in h. injection h as <- <-.
    ands; auto. cn. rewrite if_rq. subst c2. replace c1 with
      (set_c_streams (aset sid (set_recv r s, false) (c_streams c))
       (set_c_fc (fc_add_consumed (zlen bytes) (c_fc c))
        (set_c_almost (if full then set_add sid (c_almost c) else c_almost c)
          (set_c_rq (if rv_ready r then c_rq c else q_remove sid (c_rq c)) c)))); [reflexivity|].
    unfold c1. destruct full, (rv_ready r), c; reflexivity.
  - left. exists e.
    destruct (if st_complete (set_recv r s) then cn_collect sid (cn_put sid (set_recv r s) c)
              else Ok (cn_put sid (set_recv r s) c)) as [c2| |] eqn:Ec; try discriminate.
    apply (mcollect_ok _ _ (set_recv r s)) in Ec; [|apply ent_put_same]. cbn [bind] in h. injection h as <- <-.
    subst c2. ands; auto.
Qed.

Definition send_len (txcap len : Z) : Z := if txcap <? len then txcap else len.
Definition send_fin (txcap len : Z) (fin : bool) : bool := if txcap <? len then false else fin.

Lemma send_ok zc sid data fin c o c' : cn_send P zc sid data fin c = Ok (o, c') ->
  (o = CoErr (InvalidStreamState sid) /\ c' = c /\ is_bidi sid = false /\ is_local sid (p_server P) = false) \/
  ((is_bidi sid = true \/ is_local sid (p_server P) = true) /\ c_tx c <= c_max_tx c /\
   let c0 := set_c_blk (if c_max_tx c - c_tx c <? zlen data then Some (c_max_tx c) else c_blk c) c in
   (o = CoErr StreamLimit /\ ent sid c = None /\ is_local sid (p_server P) = true /\ ~ within P sid (kind sid c) /\
    c' = (if p_blocked P then set_kind (is_bidi sid) (blk_update_at (l_peer_max (kind sid c)) (kind sid c)) c0 else c0)) \/
   (o = CoErr Done /\ c' = c0 /\ exists s, ent sid c = Some (s, true)) \/
   (o = CoErr (InvalidStreamState sid) /\ c' = c0 /\ ent sid c = None /\ is_local sid (p_server P) = false) \/
   exists s c1, gocs sid true c0 s c1 /\
   ((exists e, sb_cap (st_send s) = Err e /\ o = CoErr e /\
       c' = mcoll (st_complete s && negb (st_readable s)) sid s c1) \/
    (exists n, sb_cap (st_send s) = Ok n /\ c_txcap c = 0 /\ 0 < zlen data /\ o = CoErr Done /\
       c' = set_c_wq (if st_writable s then q_insert (st_key s) (c_wq c1) else c_wq c1) c1) \/
    (exists n, sb_cap (st_send s) = Ok n /\ ~ (c_txcap c = 0 /\ 0 < zlen data) /\
     let cap := send_len (c_txcap c) (zlen data) in
     let fin := send_fin (c_txcap c) (zlen data) fin in
     let w := if zc then sb_write_zc data cap fin (st_send s) else sb_write (take cap data) fin (st_send s) in
     ((exists e, w = Err e /\ o = CoErr e /\ c' = set_c_wq (q_remove sid (c_wq c1)) c1) \/
      (exists sent b, w = Ok (sent, b) /\ sent <= c_txcap c /\
       o = (if (sent =? 0) && (0 <? cap) then CoErr Done else CoWrote sent) /\
       let flushable := sb_is_flushable b in
       let writable := st_writable (set_send b s) in
       let empty_fin := (zlen data =? 0) && fin in
       exists bl blocked,
         (sent < cap /\ sb_blocked b = Some (sb_max_data b) /\ bl = Some (sb_max_data b) /\ blocked = c_blocked c1 \/
          sent < cap /\ sb_blocked b <> Some (sb_max_data b) /\ bl = Some (sb_max_data b) /\
            blocked = aset sid (sb_max_data b) (c_blocked c1) \/
          cap <= sent /\ bl = None /\ blocked = adel sid (c_blocked c1)) /\
       c' = set_c_streams (aset sid (set_send (sb_update_blocked bl b) s, false) (c_streams c1))
            (set_c_blocked blocked
            (set_c_fq (if (flushable || empty_fin) && negb (st_flushable s)
                       then q_insert (st_key s) (c_fq c1) else c_fq c1)
            (set_c_wq (let q := if negb writable then q_remove sid (c_wq c1)
                                else if st_writable s && (c_txcap c <? zlen data)
                                then q_insert (st_key s) (c_wq c1) else c_wq c1 in
                       if negb ((sent =? 0) && (0 <? cap)) && k_inc (st_key s) && writable
                       then q_insert (st_key s) (q_remove sid q) else q)
            (set_c_txcap (c_txcap c - sent)
            (set_c_tx (c_tx c + sent)
            (set_c_txbuf (c_txbuf c + sent) c1))))))))))).
Proof.
  unfold cn_send. intros h.
  destruct (negb (is_bidi sid) && negb (is_local sid (p_server P))) eqn:E1.
  { injection h as <- <-. left. destruct (is_bidi sid), (is_local sid (p_server P)); auto; discriminate. }
  right. split; [destruct (is_bidi sid), (is_local sid (p_server P)); auto; discriminate|]. clear E1.
  destruct (c_max_tx c <? c_tx c) eqn:E2; [discriminate|]. split; [lia|].
  cbv zeta in h. cbv zeta. rewrite if_blk in h.
  set (c0 := set_c_blk (if c_max_tx c - c_tx c <? zlen data then Some (c_max_tx c) else c_blk c) c) in *.
  assert (hx : ent sid c0 = ent sid c /\ kind sid c0 = kind sid c) by (split; reflexivity).
  change (c_txcap c0) with (c_txcap c) in h.
  destruct (cn_get_or_create P sid true c0) as [[s c1]|e|] eqn:Eg; [|clearbody c0|discriminate].
  2:{ apply goc_err in Eg as [(-> & hg)|[(-> & hg1 & hg2)|(-> & hg1 & hg2 & hg3)]].
      - right. left. injection h as <- <-. destruct hx as (hx & _). rewrite hx in hg. auto.
      - right. right. left. injection h as <- <-. destruct hx as (hx & _). rewrite hx in hg1. ands; auto.
        destruct (is_local sid (p_server P)); congruence.
      - left. destruct hx as (hx & hy). rewrite hx in hg1. rewrite hy in hg3. rewrite <- hg2, Bool.andb_true_r in h.
        injection h as <- <-. rewrite hy. ands; auto. }
  right. right. right. apply goc_gocs in Eg. exists s, c1. split; [exact Eg|].
  pose proof (gocs_ent _ _ _ _ _ Eg) as he. pose proof (gocs_rest _ _ _ _ _ Eg) as hr.
  assert (ht : c_txcap c1 = c_txcap c /\ c_tx c1 = c_tx c /\ c_txbuf c1 = c_txbuf c)
    by (rewrite (gr_txcap _ _ hr), (gr_tx _ _ hr), (gr_txbuf _ _ hr); auto).
  destruct ht as (ht1 & ht2 & ht3). clearbody c0.
  destruct (sb_cap (st_send s)) as [n|e|] eqn:Ecap; [| |discriminate].
  2:{ left. exists e. split; auto.
      destruct (if st_complete s && negb (st_readable s) then cn_collect sid c1 else Ok c1) as [c2| |] eqn:Ec;
        try discriminate. apply (mcollect_ok _ _ s) in Ec; [|exact he]. cbn [bind] in h. injection h as <- <-. auto. }
  right. destruct ((c_txcap c =? 0) && (0 <? zlen data)) eqn:E3.
  { left. exists n. injection h as <- <-. ands; auto; try lia. rewrite if_wq. reflexivity. }
  right. exists n. split; [auto|]. split; [lia|]. cbv zeta.
  unfold send_len, send_fin.
  assert (hcl : (if c_txcap c <? zlen data then (c_txcap c, false, true) else (zlen data, fin, false))
            = ((if c_txcap c <? zlen data then c_txcap c else zlen data),
               (if c_txcap c <? zlen data then false else fin), (c_txcap c <? zlen data)))
    by (destruct (c_txcap c <? zlen data); reflexivity).
  rewrite hcl in h. clear hcl.
  set (cap := if c_txcap c <? zlen data then c_txcap c else zlen data) in *.
  set (f := if c_txcap c <? zlen data then false else fin) in *.
  set (bycap := c_txcap c <? zlen data) in *.
  destruct (if zc then sb_write_zc data cap f (st_send s) else sb_write (take cap data) f (st_send s)) as [[sent b]|e|] eqn:Ew;
    [| |discriminate].
  2:{ left. exists e. injection h as <- <-. auto. }
  right. exists sent, b. split; [auto|].
  set (wr := st_writable (set_send b s)) in *. set (fl := sb_is_flushable b) in *.
  assert (hb : exists bl blocked,
     (if sent <? cap
      then if match sb_blocked b with Some o => o =? sb_max_data b | None => false end
           then (b, c_blocked c1)
           else (sb_update_blocked (Some (sb_max_data b)) b, aset sid (sb_max_data b) (c_blocked c1))
      else (sb_update_blocked None b, adel sid (c_blocked c1))) = (sb_update_blocked bl b, blocked) /\
     (sent < cap /\ sb_blocked b = Some (sb_max_data b) /\ bl = Some (sb_max_data b) /\ blocked = c_blocked c1 \/
      sent < cap /\ sb_blocked b <> Some (sb_max_data b) /\ bl = Some (sb_max_data b) /\
            blocked = aset sid (sb_max_data b) (c_blocked c1) \/
      cap <= sent /\ bl = None /\ blocked = adel sid (c_blocked c1))).
  { destruct (sent <? cap) eqn:Ea.
    - destruct (sb_blocked b) as [ob|] eqn:Eb.
      + destruct (ob =? sb_max_data b) eqn:Eo.
        * assert (ob = sb_max_data b) by lia. subst ob. exists (Some (sb_max_data b)), (c_blocked c1). split.
          -- f_equal. rewrite <- Eb. destruct b; reflexivity.
          -- left. ands; auto. lia.
        * eexists _, _. split; [reflexivity|]. right. left. ands; auto; [lia|]. intros q. injection q as q. lia.
      + eexists _, _. split; [reflexivity|]. right. left. ands; auto; [lia|]. discriminate.
    - eexists _, _. split; [reflexivity|]. right. right. ands; auto. lia. }
  destruct hb as (bl & blocked & hb1 & hb2). rewrite hb1 in h. clear hb1.
  match type of h with context [if c_txcap ?x <? 0 then Panic else _] => set (c2 := x) in h end.
  assert (hc2 : c2 =
            set_c_streams (aset sid (set_send (sb_update_blocked bl b) s, false) (c_streams c1))
            (set_c_blocked blocked
            (set_c_fq (if (fl || (zlen data =? 0) && f) && negb (st_flushable s)
                       then q_insert (st_key s) (c_fq c1) else c_fq c1)
            (set_c_wq (if negb wr then q_remove sid (c_wq c1)
                                else if st_writable s && bycap
                                then q_insert (st_key s) (c_wq c1) else c_wq c1)
            (set_c_txcap (c_txcap c - sent)
            (set_c_tx (c_tx c + sent)
            (set_c_txbuf (c_txbuf c + sent) c1))))))).
  { unfold c2. rewrite <- ht1, <- ht2, <- ht3. rewrite if_fq.
    destruct (negb wr); [cn; reflexivity|]. rewrite if_wq. cn. reflexivity. }
  clearbody c2. destruct (c_txcap c2 <? 0) eqn:E4; [discriminate|].
  assert (hcap : c_txcap c2 = c_txcap c - sent) by (rewrite hc2; reflexivity).
  split; [lia|]. split.
  { destruct ((sent =? 0) && (0 <? cap)); injection h as <- <-; reflexivity. }
  exists bl, blocked. split; [exact hb2|].
  destruct ((sent =? 0) && (0 <? cap)) eqn:E5.
  - injection h as <- <-. rewrite hc2. reflexivity.
  - injection h as <- <-. rewrite if_wq. rewrite hc2. cn. reflexivity.
Qed.

Lemma priority_ok sid urg inc c o c' : cn_priority P sid urg inc c = Ok (o, c') ->
  (c' = c /\ exists e, cn_get_or_create P sid true c = Err e /\ (o = CoErr e \/ (e = Done /\ o = CoOk))) \/
  exists s c1, gocs sid true c s c1 /\ o = CoOk /\
    (c' = c1 /\ k_urg (st_key s) = urg /\ k_inc (st_key s) = inc \/
     let k := mkKey urg inc sid in
     c' = set_c_streams (aset sid (set_key k s, false) (c_streams c1))
          (set_c_rq (q_update k (c_rq c1)) (set_c_wq (q_update k (c_wq c1)) (set_c_fq (q_update k (c_fq c1)) c1)))).
Proof.
  unfold cn_priority. intros h.
  destruct (cn_get_or_create P sid true c) as [[s c1]|e|] eqn:E; [|left|discriminate].
  - right. exists s, c1. split; [apply goc_gocs; auto|].
    destruct ((k_urg (st_key s) =? urg) && Bool.eqb (k_inc (st_key s)) inc) eqn:Ek.
    + injection h as <- <-. split; auto. left. split; auto. apply andb_true_iff in Ek as (h1 & h2).
      apply Bool.eqb_prop in h2. split; [lia|auto].
    + injection h as <- <-. split; auto.
  - destruct e; injection h as <- <-; split; auto; eexists; split; eauto.
Qed.

Lemma shutdown_ok sid d code cwnd c o c' : cn_shutdown P sid d code cwnd c = Ok (o, c') ->
  (c' = c /\ exists e, o = CoErr e) \/
  exists s, ent sid c = Some (s, false) /\ o = CoOk /\
  ((exists n r, d = ShutRead /\ rv_shutdown (st_recv s) = Ok (n, r) /\
     c' = set_c_streams (aset sid (set_recv r s, false) (c_streams c))
          (set_c_fc (fc_add_consumed n (c_fc c))
          (set_c_stopped (if rv_is_fin r then c_stopped c else aset sid code (c_stopped c))
          (set_c_rq (q_remove sid (c_rq c)) c)))) \/
   (exists final unsent b cap, d = ShutWrite /\ (is_bidi sid = true \/ is_local sid (p_server P) = true) /\
     sb_shutdown (st_send s) = Ok (final, unsent, b) /\
     let tx := sat_sub (c_tx c) unsent in
     tx <= c_max_tx c /\
     cap = (Z.min cwnd (c_max_tx c - tx) * p_num P + p_den P - 1) / p_den P /\
     c' = set_c_streams (aset sid (set_send b s, false) (c_streams c))
          (set_c_tx tx
          (set_c_txbuf (sat_sub (c_txbuf c) (sb_buffered (st_send s)))
          (set_c_txcap cap
          (set_c_reset (aset sid (code, final) (c_reset c))
          (set_c_wq (q_remove sid (c_wq c)) c))))))).
Proof.
  unfold cn_shutdown. intros h. cbv zeta in h.
  destruct (match d with ShutRead => is_local sid (p_server P) && negb (is_bidi sid)
            | ShutWrite => negb (is_local sid (p_server P)) && negb (is_bidi sid) end) eqn:Ek.
  { injection h as <- <-. left. eauto. }
  destruct (cn_get sid c) as [s|] eqn:Eg.
  2:{ injection h as <- <-. left. eauto. }
  apply get_ent in Eg. destruct d.
  - destruct (rv_shutdown (st_recv s)) as [[n r]|e|] eqn:Er; [| |discriminate].
    + right. exists s. injection h as <- <-. ands; auto. left. exists n, r. ands; auto.
      destruct (rv_is_fin r); destruct c; reflexivity.
    + injection h as <- <-. left. eauto.
  - destruct (sb_shutdown (st_send s)) as [[[final unsent] b]|e|] eqn:Er; [| |discriminate].
    + right. exists s. split; [auto|]. unfold update_tx_cap in h. cn_in h.
      destruct (c_max_tx c <? sat_sub (c_tx c) unsent) eqn:E2; [discriminate|]. cbn [bind] in h.
      injection h as <- <-. split; auto. right. eexists _, _, _, _. split; [reflexivity|].
      split; [destruct (is_bidi sid), (is_local sid (p_server P)); auto; discriminate|].
      split; [exact Er|]. cbv zeta. split; [lia|]. split; [reflexivity|]. reflexivity.
    + injection h as <- <-. left. eauto.
Qed.

Lemma capacity_ok sid c r c' : cn_capacity sid c = Ok (r, c') ->
  (r = Err (InvalidStreamState sid) /\ c' = c /\ (forall s, ent sid c <> Some (s, false))) \/
  exists s, ent sid c = Some (s, false) /\
   ((exists e, sb_cap (st_send s) = Err e /\ r = Err e /\
      c' = mcoll (st_complete s && negb (st_readable s)) sid s c) \/
    (exists n, sb_cap (st_send s) = Ok n /\ r = Ok (Z.min (c_txcap c) n) /\ c' = c)).
Proof.
  unfold cn_capacity. intros h. destruct (cn_get sid c) as [s|] eqn:Eg.
  2:{ injection h as <- <-. left. ands; auto. apply get_none; auto. }
  apply get_ent in Eg. right. exists s. split; auto.
  destruct (sb_cap (st_send s)) as [n|e|] eqn:Ec; [| |discriminate].
  - injection h as <- <-. right. eauto.
  - destruct (if st_complete s && negb (st_readable s) then cn_collect sid c else Ok c) as [c2| |] eqn:E2;
      try discriminate. apply (mcollect_ok _ _ s) in E2; [|auto]. cbn [bind] in h. injection h as <- <-. left. eauto.
Qed.

Lemma writable_ok sid len c o c' : cn_writable sid len c = Ok (o, c') ->
  (o = CoErr (InvalidStreamState sid) /\ c' = c /\ (forall s, ent sid c <> Some (s, false))) \/
  exists s, ent sid c = Some (s, false) /\
   ((exists e, sb_cap (st_send s) = Err e /\ o = CoErr e /\
      c' = mcoll (st_complete s && negb (st_readable s)) sid s c) \/
    (exists n, sb_cap (st_send s) = Ok n /\
      (len <= Z.min (c_txcap c) n /\ o = CoBool true /\ c' = c \/
       Z.min (c_txcap c) n < len /\ o = CoBool false /\ c_tx c <= c_max_tx c /\
       exists bl blocked,
         (n < len /\ sb_blocked (st_send s) = Some (sb_max_data (st_send s)) /\ bl = sb_blocked (st_send s) /\ blocked = c_blocked c \/
          n < len /\ sb_blocked (st_send s) <> Some (sb_max_data (st_send s)) /\
            bl = Some (sb_max_data (st_send s)) /\ blocked = aset sid (sb_max_data (st_send s)) (c_blocked c) \/
          len <= n /\ bl = sb_blocked (st_send s) /\ blocked = c_blocked c) /\
         let s' := set_send (sb_update_blocked bl (st_send s)) (set_lowat (Z.max 1 len) s) in
         c' = set_c_streams (aset sid (s', false) (c_streams c))
              (set_c_blk (if c_max_tx c - c_tx c <? len then Some (c_max_tx c) else c_blk c)
              (set_c_blocked blocked
              (set_c_wq (if (len <=? n) && st_writable s' then q_insert (st_key s) (c_wq c) else c_wq c) c)))))).
Proof.
  unfold cn_writable. intros h.
  destruct (cn_capacity sid c) as [[r c1]| |] eqn:Ec; try discriminate. cbn [bind] in h.
  apply capacity_ok in Ec as [(-> & -> & hn)|(s & he & [(e & h1 & -> & ->)|(n & h1 & -> & ->)])].
  { injection h as <- <-. left. auto. }
  { injection h as <- <-. right. exists s. split; auto. left. eauto. }
  right. exists s. split; auto. right. exists n. split; auto.
  destruct (len <=? Z.min (c_txcap c) n) eqn:El.
  { injection h as <- <-. left. ands; auto. lia. }
  right. assert (hg : cn_get sid c = Some s) by (apply get_ent; auto). rewrite hg in h. cbv zeta in h.
  change (st_send (set_lowat (Z.max 1 len) s)) with (st_send s) in h. rewrite h1 in h.
  destruct (c_max_tx c <? c_tx c) eqn:E2; [discriminate|].
  split; [lia|]. rewrite if_blk in h.
  assert (hid : forall bb, set_send (sb_update_blocked (sb_blocked (st_send s)) (st_send s)) bb = set_send (st_send s) bb).
  { intros bb. f_equal. destruct (st_send s); reflexivity. }
  destruct (n <? len) eqn:E3.
  - replace (len <=? n) with false by lia.
    destruct (sb_blocked (st_send s)) as [ob|] eqn:Eb; [destruct (ob =? sb_max_data (st_send s)) eqn:Eo|].
    + injection h as <- <-. ands; auto; [lia|]. exists (sb_blocked (st_send s)), (c_blocked c). split.
      { left. ands; auto; [lia|]. f_equal. lia. }
      rewrite Eb, hid. destruct c; reflexivity.
    + injection h as <- <-. ands; auto; [lia|]. exists (Some (sb_max_data (st_send s))), (aset sid (sb_max_data (st_send s)) (c_blocked c)).
      split; [right; left; ands; auto; [lia|]; intros q; injection q as q; lia|].
      unfold cn_put. cn. cbv zeta. rewrite aset_aset. destruct c; reflexivity.
    + injection h as <- <-. ands; auto; [lia|]. exists (Some (sb_max_data (st_send s))), (aset sid (sb_max_data (st_send s)) (c_blocked c)).
      split; [right; left; ands; auto; [lia|discriminate]|].
      unfold cn_put. cn. cbv zeta. rewrite aset_aset. destruct c; reflexivity.
  - replace (len <=? n) with true by lia. cbn [andb].
    assert (o = CoBool false) by (destruct (st_writable (set_lowat (Z.max 1 len) s)); injection h as <- <-; reflexivity).
    subst o. ands; auto; [lia|]. exists (sb_blocked (st_send s)), (c_blocked c). split; [right; right; ands; auto; lia|].
    rewrite hid. cbv zeta.
    replace (set_send (st_send s) (set_lowat (Z.max 1 len) s)) with (set_lowat (Z.max 1 len) s) by reflexivity.
    destruct (st_writable (set_lowat (Z.max 1 len) s)); injection h as <-; destruct c; reflexivity.
Qed.

Lemma readable_next_ok c o c' : cn_readable_next c = Ok (o, c') ->
  (o = CoNext None /\ c' = c /\ c_rq c = []) \/
  exists k tl, c_rq c = k :: tl /\ o = CoNext (Some (k_id k)) /\ c' = set_c_rq (q_remove (k_id k) (c_rq c)) c.
Proof.
  unfold cn_readable_next. destruct (c_rq c) as [|k tl] eqn:E; intros h; injection h as <- <-; [left|right]; auto.
  exists k, tl. auto.
Qed.

Lemma writable_next_ok c o c' : cn_writable_next c = Ok (o, c') ->
  (o = CoNext None /\ c' = c) \/
  exists sid, next_writable (c_wq c) c = Ok (Some sid) /\ c_txcap c <> 0 /\
    o = CoNext (Some sid) /\ c' = set_c_wq (q_remove sid (c_wq c)) c.
Proof.
  unfold cn_writable_next. destruct (c_txcap c =? 0) eqn:E; intros h; [injection h as <- <-; auto|].
  destruct (next_writable (c_wq c) c) as [[sid|]| |] eqn:E2; try discriminate; cbn [bind] in h; injection h as <- <-; auto.
  right. exists sid. ands; auto. lia.
Qed.

Lemma send_max_stream_data_ok sid now rtt fits c o c' : cn_send_max_stream_data sid now rtt fits c = Ok (o, c') ->
  (o = CoSent None /\ c' = c) \/
  (o = CoSent None /\ (forall s, ent sid c <> Some (s, false)) /\ c' = set_c_almost (set_del sid (c_almost c)) c) \/
  exists s full, ent sid c = Some (s, false) /\ rv_almost_full (st_recv s) = Ok full /\
   set_mem sid (c_almost c) = true /\
   let r := if full then rv_autotune now rtt (st_recv s) else st_recv s in
   (fits = true /\ o = CoMaxStreamData sid (fc_max_data_next (rv_fc r)) /\
    c' = set_c_streams (aset sid (set_recv (rv_update_max_data now r) s, false) (c_streams c))
         (set_c_almost (set_del sid (c_almost c))
         (set_c_fc (fc_ensure_lower (fc_window (rv_fc r) * 3 / 2) (c_fc c))
         (set_c_sent (c_sent c ++ [SfMaxStreamData sid]) c))) \/
    fits = false /\ o = CoSent None /\
    c' = set_c_streams (aset sid (set_recv r s, false) (c_streams c)) c).
Proof.
  unfold cn_send_max_stream_data. intros h. destruct (set_mem sid (c_almost c)) eqn:Em; cbn [negb] in h.
  2:{ injection h as <- <-. auto. }
  right. destruct (cn_get sid c) as [s|] eqn:E.
  2:{ injection h as <- <-. left. ands; auto. apply get_none; auto. }
  right. apply get_ent in E. destruct (rv_almost_full (st_recv s)) as [full| |] eqn:Ef; try discriminate.
  exists s, full. ands; auto. cbn [bind] in h. cbv zeta in h |- *.
  destruct fits; injection h as <- <-; [left|right]; ands; auto.
Qed.

Lemma send_max_data_ok now rtt fits c o c' : cn_send_max_data now rtt fits c = Ok (o, c') ->
  exists f b, (o = CoSent None /\ c' = set_c_maxdata b (set_c_fc f c)) \/
   (o = CoMaxData (fc_max_data f) /\ c' = set_c_sent (c_sent c ++ [SfMaxData]) (set_c_maxdata b (set_c_fc f c))).
Proof.
  unfold cn_send_max_data. intros h. destruct (fc_should_update (c_fc c)) as [due| |]; try discriminate.
  cbn [bind] in h. cbv zeta in h. dif h; injection h as <- <-; eexists _, _; [right|left]; (split; [|reflexivity]); reflexivity.
Qed.

(** The entries passed over before a frame is sent. *)
Definition unservable (room : Z) (c : conn) (sid : Z) : Prop :=
  match cn_get sid c with
  | None => True
  | Some s => st_stopped s = true \/
              room < 1 + varint_len sid + varint_len (sb_off_front (st_send s)) + 2
  end.
Definition dropq (skips : list Z) (q : list skey) : list skey := fold_left (fun q x => q_remove x q) skips q.

Lemma dropq_app a b q : dropq (a ++ b) q = dropq b (dropq a q).
Proof. apply fold_left_app. Qed.

Lemma in_dropq k skips q : In k (dropq skips q) <-> In k q /\ ~ In (k_id k) skips.
Proof.
  revert q; induction skips as [|x skips IH]; intros q; cbn [dropq fold_left]; [intuition|].
  fold (dropq skips (q_remove x q)). rewrite IH, in_q_remove. cbn [In]. intuition congruence.
Qed.

Lemma send_stream_loop_ok fuel : forall room c o c',
  send_stream_loop fuel room c = Ok (o, c') ->
  exists skips, Forall (unservable room c) skips /\
  let q := dropq skips (c_fq c) in
  (o = CoSent None /\ q = [] /\ c' = set_c_fq q c \/
   exists k tl s bytes fin b, q = k :: tl /\ ent (k_id k) c = Some (s, false) /\ st_stopped s = false /\
    let sid := k_id k in
    let off := sb_off_front (st_send s) in
    let hdr := 1 + varint_len sid + varint_len off + 2 in
    hdr <= room /\ sb_emit (room - hdr) (st_send s) = Ok (bytes, fin, b) /\
    let f := SfStream sid (mkFrame off bytes fin) in
    let s' := set_send b s in
    o = CoSent (Some f) /\
    c' = set_c_streams (aset sid (s', false) (c_streams c))
         (set_c_fq (if negb (st_flushable s') then q_remove sid q
                    else if k_inc (st_key s) then q_insert (st_key s) (q_remove sid q) else q)
         (set_c_txbuf (sat_sub (c_txbuf c) (zlen bytes))
         (set_c_sent (c_sent c ++ [f]) c)))).
Proof.
  induction fuel as [|fuel IH]; intros room c o c' h; cbn [send_stream_loop] in h.
  { destruct (c_fq c) eqn:E; [|discriminate]. injection h as <- <-. exists []. ands; auto. cbn [dropq fold_left].
    left. ands; auto. destruct c; cn_in E; subst; reflexivity. }
  destruct (c_fq c) as [|k tl] eqn:E.
  { injection h as <- <-. exists []. ands; auto. cbn [dropq fold_left].
    left. ands; auto. destruct c; cn_in E; subst; reflexivity. }
  set (skip := set_c_fq (q_remove (k_id k) (k :: tl)) c) in h.
  assert (hskip : send_stream_loop fuel room skip = Ok (o, c') -> unservable room c (k_id k) ->
    exists skips, Forall (unservable room c) skips /\
  let q := dropq skips (k :: tl) in
  (o = CoSent None /\ q = [] /\ c' = set_c_fq q c \/
   exists k tl s bytes fin b, q = k :: tl /\ ent (k_id k) c = Some (s, false) /\ st_stopped s = false /\
    let sid := k_id k in
    let off := sb_off_front (st_send s) in
    let hdr := 1 + varint_len sid + varint_len off + 2 in
    hdr <= room /\ sb_emit (room - hdr) (st_send s) = Ok (bytes, fin, b) /\
    let f := SfStream sid (mkFrame off bytes fin) in
    let s' := set_send b s in
    o = CoSent (Some f) /\
    c' = set_c_streams (aset sid (s', false) (c_streams c))
         (set_c_fq (if negb (st_flushable s') then q_remove sid q
                    else if k_inc (st_key s) then q_insert (st_key s) (q_remove sid q) else q)
         (set_c_txbuf (sat_sub (c_txbuf c) (zlen bytes))
         (set_c_sent (c_sent c ++ [f]) c))))).
  { intros hs hu. apply IH in hs as (skips & h1 & h2). exists (k_id k :: skips).
    split; [constructor; auto|exact h2]. }
  destruct (cn_get (k_id k) c) as [s|] eqn:Eg.
  2:{ apply hskip; auto. unfold unservable. rewrite Eg. exact I. }
  destruct (st_stopped s) eqn:Es.
  { apply hskip; auto. unfold unservable. rewrite Eg. auto. }
  dif h.
  { apply hskip; auto. unfold unservable. rewrite Eg. right. lia. }
  clear hskip skip.
  destruct (sb_emit _ _) as [[[bytes fin] b]| |] eqn:Ee in h; try discriminate. cbn [bind] in h.
  injection h as <- <-. exists []. ands; auto. cbn [dropq fold_left]. right. apply get_ent in Eg.
  exists k, tl, s, bytes, fin, b. ands; auto. cbv zeta. ands; auto; try lia. cn. rewrite E.
  destruct (negb (st_flushable (set_send b s))); [reflexivity|]. rewrite if_fq. cn. rewrite E. reflexivity.
Qed.

Lemma ack_ok i c o c' : cn_ack i c = Ok (o, c') -> o = CoOk /\
  (c' = c \/
   (exists sid f s dropped b, nth_error (c_sent c) i = Some (SfStream sid f) /\ ent sid c = Some (s, false) /\
     sb_ack_and_drop (sf_off f) (zlen (sf_bytes f)) (st_send s) = Ok (dropped, b) /\
     let s' := set_send b s in
     let bb := st_complete s' && negb (st_readable s') && negb (linked sid (c_wq c) && st_stopped s') in
     let c1 := mcoll bb sid s' (set_c_streams (aset sid (s', false) (c_streams c)) c) in
     c' = set_c_txbuf (if 0 <? dropped then sat_sub (c_txbuf c) dropped else c_txbuf c) c1) \/
   (exists sid code final s, nth_error (c_sent c) i = Some (SfReset sid code final) /\ ent sid c = Some (s, false) /\
     c' = mcoll (st_complete s && negb (st_readable s) && negb (linked sid (c_wq c) && st_stopped s)) sid s c)).
Proof.
  unfold cn_ack. intros h. destruct (nth_error (c_sent c) i) as [[sid f|sid code final| | | | | ]|];
    try solve [injection h as <- <-; auto].
  - destruct (cn_get sid c) as [s|] eqn:Eg; [|injection h as <- <-; auto]. apply get_ent in Eg.
    destruct (sb_ack_and_drop _ _ _) as [[dropped b]| |] eqn:Ea; try discriminate. cbn [bind] in h.
    unfold collect_on_ack in h. cbv zeta in h. change (c_wq (cn_put sid (set_send b s) c)) with (c_wq c) in h.
    match type of h with bind ?x _ = _ => destruct x as [c2| |] eqn:Ec; try discriminate end.
    apply (mcollect_ok _ _ (set_send b s)) in Ec; [|apply ent_put_same]. cbn [bind] in h. injection h as <- <-.
    split; auto. right. left. exists sid, f, s, dropped, b. ands; auto. cbv zeta.
    assert (c_txbuf c2 = c_txbuf c).
    { rewrite Ec. unfold mcoll, coll, set_kind. destr_if; cn; auto.
      destruct (st_local s), (is_bidi sid); reflexivity. }
    rewrite Ec in *. unfold sub_txbuf. destruct (0 <? dropped).
    + rewrite H. reflexivity.
    + rewrite <- H. match goal with |- ?x = _ => rewrite (conn_eta x) at 1 end. reflexivity.
  - destruct (cn_get sid c) as [s|] eqn:Eg; [|injection h as <- <-; auto]. apply get_ent in Eg.
    unfold collect_on_ack in h. cbv zeta in h.
    match type of h with bind ?x _ = _ => destruct x as [c2| |] eqn:Ec; try discriminate end.
    apply (mcollect_ok _ _ s) in Ec; [|auto]. cbn [bind] in h. injection h as <- <-.
    split; auto. right. right. exists sid, code, final, s. ands; auto.
Qed.

Lemma lost_ok i c o c' : cn_lost i c = Ok (o, c') -> o = CoOk /\
  (c' = c \/
   (exists sid f s n b, nth_error (c_sent c) i = Some (SfStream sid f) /\ ent sid c = Some (s, false) /\
     st_stopped s = false /\ sb_retransmit (sf_off f) (zlen (sf_bytes f)) (st_send s) = Ok (n, b) /\
     let s' := set_send b s in
     c' = set_c_streams (aset sid (s', false) (c_streams c))
          (set_c_fq (if (st_flushable s' || ((zlen (sf_bytes f) =? 0) && sf_fin f)) && negb (st_flushable s)
                     then q_insert (st_key s) (c_fq c) else c_fq c)
          (set_c_txbuf (c_txbuf c + n) c))) \/
   (exists sid code final, nth_error (c_sent c) i = Some (SfReset sid code final) /\
     c' = set_c_reset (aset sid (code, final) (c_reset c)) c) \/
   (exists sid code s, nth_error (c_sent c) i = Some (SfStop sid code) /\ ent sid c = Some (s, false) /\
     rv_is_fin (st_recv s) = false /\ c' = set_c_stopped (aset sid code (c_stopped c)) c) \/
   (exists sid s, nth_error (c_sent c) i = Some (SfMaxStreamData sid) /\ ent sid c = Some (s, false) /\
     c' = set_c_almost (set_add sid (c_almost c)) c) \/
   (nth_error (c_sent c) i = Some SfMaxData /\ c' = set_c_maxdata true c) \/
   (exists bidi, nth_error (c_sent c) i = Some (SfMaxStreams bidi) /\
     c' = set_kind bidi (set_l_should true (if bidi then c_bidi c else c_uni c)) c) \/
   (exists bidi limit, nth_error (c_sent c) i = Some (SfStreamsBlocked bidi limit) /\
     l_blk_sent (if bidi then c_bidi c else c_uni c) = Some limit /\
     c' = set_kind bidi (set_l_blk_sent None (if bidi then c_bidi c else c_uni c)) c)).
Proof.
  unfold cn_lost. intros h.
  destruct (nth_error (c_sent c) i) as [[sid f|sid code final|sid code|sid| |bidi|bidi limit]|];
    try solve [injection h as <- <-; auto].
  - destruct (cn_get sid c) as [s|] eqn:Eg; [|injection h as <- <-; auto]. apply get_ent in Eg.
    destruct (st_stopped s) eqn:Es; [injection h as <- <-; auto|].
    destruct (sb_retransmit _ _ _) as [[n b]| |] eqn:Er; try discriminate. cbn [bind] in h. cbv zeta in h.
    rewrite if_fq in h. injection h as <- <-. split; auto. right. left. exists sid, f, s, n, b. ands; auto.
  - injection h as <- <-. split; auto. right. right. left. eauto.
  - destruct (cn_get sid c) as [s|] eqn:Eg; [|injection h as <- <-; auto]. apply get_ent in Eg.
    destruct (rv_is_fin (st_recv s)) eqn:Ef; injection h as <- <-; split; auto.
    right. right. right. left. eauto 10.
  - destruct (cn_get sid c) as [s|] eqn:Eg; [|injection h as <- <-; auto]. apply get_ent in Eg.
    injection h as <- <-. split; auto. do 4 right. left. eauto.
  - injection h as <- <-. split; auto. do 5 right. left. auto.
  - injection h as <- <-. split; auto. do 6 right. left. eauto.
  - cbv zeta in h. destruct (l_blk_sent (if bidi then c_bidi c else c_uni c)) as [x|] eqn:Ex; [|injection h as <- <-; auto].
    destruct (x =? limit) eqn:El; injection h as <- <-; split; auto.
    do 7 right. exists bidi, limit. ands; auto. rewrite Ex. f_equal. lia.
Qed.
End P.
