(** End of stream and eventual delivery across the network. *)
Require Import Verif.Base Verif.Errors Verif.FlowControlModel Verif.RecvBufModel Verif.RecvBufProofs2
  Verif.RecvSpec Verif.RecvBufProofs4 Verif.RecvBufProofs5 Verif.SendBufModel Verif.SendBufProofs
  Verif.SendBufProofs2 Verif.SendSpec Verif.SendProofs Verif.SendProofs2 Verif.SendProofs3 Verif.SendProofs4
  Verif.SendProofs5 Verif.NetModel Verif.NetProofs.

(** ** The receiver *)
Section Recv.
Context (md w mw : Z) (hmd : 0 <= md) (hw : 0 <= w) (hmw : 0 <= mw).

Lemma rv_run_split outs1 : forall ops st o outs2 st',
  rv_run ops st = Ok (outs1 ++ o :: outs2, st') ->
  exists ops1 op ops2 s1 s2, ops = ops1 ++ op :: ops2 /\ rv_run ops1 st = Ok (outs1, s1) /\
    rv_step op s1 = Ok (o, s2) /\ rv_run ops2 s2 = Ok (outs2, st').
Proof.
  induction outs1 as [|q outs1 IH]; intros ops st o outs2 st' h;
    (destruct ops as [|op ops]; cbn [rv_run app] in h; [inv h|]);
    (destruct (rv_step op st) as [[o1 s1]| |] eqn:Es; cbn [bind] in h; try discriminate);
    (destruct (rv_run ops s1) as [[os s2]| |] eqn:Er; cbn [bind] in h; try discriminate);
    injection h as e1 e2 e3; subst.
  - exists [], op, ops, st, s1. ands; auto.
  - destruct (IH _ _ _ _ _ Er) as (a & b & c & t1 & t2 & -> & k1 & k2 & k3).
    exists (op :: a), b, c, t1, t2. ands; auto. cbn [rv_run]. rewrite Es. cbn [bind]. rewrite k1. reflexivity.
Qed.

Lemma read_out op s1 r s2 : rv_step op s1 = Ok (ORead r, s2) -> exists cap, op = RvRead cap.
Proof.
  destruct op; cbn [rv_step]; intros h; eauto; exfalso;
    repeat match goal with
           | E : bind ?x _ = _ |- _ => destruct x; cbn [bind] in E
           | E : (let '(_, _) := ?x in _) = _ |- _ => destruct x
           | E : match ?x with _ => _ end = _ |- _ => destruct x
           end; discriminate.
Qed.

(** A read that reports the end has returned everything up to the final size. *)
Lemma recv_fin ops outs st b :
  Forall rv_op_ok ops -> rv_run ops (rv_new md w mw) = Ok (outs, st) ->
  In (ORead (Ok (b, true))) outs ->
  exists op, In op ops /\ final_size_of op (zlen (read_bytes outs)).
Proof.
  intros hok hr hi. pose proof (run_hist md w mw hmd hw hmw _ _ _ hok hr) as H.
  apply in_split in hi as (o1 & o2 & ->).
  destruct (rv_run_split _ _ _ _ _ _ hr) as (ops1 & op & ops2 & s1 & s2 & -> & k1 & k2 & k3).
  destruct (read_out _ _ _ _ k2) as (cap & ->).
  assert (ok1 : Forall rv_op_ok (ops1 ++ [RvRead cap])).
  { apply Forall_app in hok as (a & c). inv c. apply Forall_app; auto. }
  pose proof (rv_run_snoc _ _ _ _ _ _ _ k1 k2) as k12.
  pose proof (run_hist md w mw hmd hw hmw _ _ _ ok1 k12) as H1.
  assert (hcap : 0 <= cap). { apply Forall_app in ok1 as (_ & c). inv c. auto. }
  assert (H0 : rv_hist md ops1 o1 s1).
  { apply (run_hist md w mw hmd hw hmw); auto. apply Forall_app in ok1. tauto. }
  pose proof (rv_emit_spec cap s1 (h_inv _ _ _ _ H0) hcap) as W.
  cbn [rv_step] in k2. destruct (rv_emit cap s1) as [[ [bytes f] | e |] s']; try discriminate.
  injection k2 as -> -> ->.
  destruct W as (w1 & w2 & w3 & w4 & w5 & w6 & w7 & w8 & w9 & w10 & w11 & w12 & _).
  pose proof (h_read_eq _ _ _ _ H1 w10 w9) as e1.
  unfold rv_is_fin in w12. destruct (rv_fin_off s2) as [g|] eqn:Eg; [|discriminate].
  assert (g = rv_off s2) by lia. subst g.
  destruct (h_fin2 _ _ _ _ H1 _ Eg) as (op & p1 & p2).
  exists op. split. { apply in_app_iff in p1 as [p1|[<-|[]]]; apply in_app_iff; cbn; auto. }
  assert (p3 : In op (ops1 ++ RvRead cap :: ops2)).
  { apply in_app_iff in p1 as [p1|[<-|[]]]; apply in_app_iff; cbn; auto. }
  pose proof (h_fin1 _ _ _ _ H _ _ p3 p2) as e2.
  pose proof (i_fin _ (h_inv _ _ _ _ H) _ e2). pose proof (i_off _ (h_inv _ _ _ _ H)).
  pose proof (h_read _ _ _ _ H).
  assert (e3 : read_bytes (o1 ++ ORead (Ok (b, true)) :: o2) =
               read_bytes (o1 ++ [ORead (Ok (b, true))]) ++ read_bytes o2).
  { change (ORead (Ok (b, true)) :: o2) with ([ORead (Ok (b, true))] ++ o2). rewrite app_assoc.
    apply read_bytes_app. }
  assert (e4 : zlen (read_bytes (o1 ++ ORead (Ok (b, true)) :: o2)) = rv_off s2).
  { apply Z.le_antisymm; [lia|]. rewrite e3, zlen_app, e1. pose proof (zlen_nonneg (read_bytes o2)). lia. }
  rewrite e4. auto.
Qed.

(** If every frame with byte [L - 1] ends the stream at [L], having read [L]
    bytes means some read reported the end. *)
Lemma recv_fin_seen L ops : forall outs st,
  Forall rv_op_ok ops -> rv_run ops (rv_new md w mw) = Ok (outs, st) -> 0 < L ->
  (forall op x, In op ops -> carries op (L - 1) x -> final_size_of op L) ->
  zlen (read_bytes outs) = L -> exists b, In (ORead (Ok (b, true))) outs.
Proof.
  induction ops as [|op ops IH] using rev_ind; intros outs st hok hr hL hc hz.
  - cbn in hr. injection hr as <- <-. cbn in hz. change (zlen (@nil Z)) with 0 in hz. lia.
  - rewrite rv_run_app in hr. destruct (rv_run ops (rv_new md w mw)) as [[o1 s1]| |] eqn:E1; cbn [bind] in hr; try discriminate.
    cbn [rv_run] in hr. destruct (rv_step op s1) as [[o s2]| |] eqn:E2; cbn [bind] in hr; try discriminate.
    injection hr as <- <-. pose proof hok as hok0. apply Forall_app in hok as (ok1 & ok2). pose proof (Forall_inv ok2) as H1.
    rewrite read_bytes_app, zlen_app in hz.
    destruct (Z.eq_dec (zlen (read_bytes o1)) L) as [e|n].
    + destruct (IH o1 s1 ok1 eq_refl hL) as (b & hb); auto.
      * intros p x hp. apply hc. apply in_app_iff. auto.
      * exists b. apply in_app_iff. auto.
    + destruct o as [| r | | |]; cbn [read_bytes] in hz; try (change (zlen (@nil Z)) with 0 in hz; lia).
      destruct r as [[bytes f]| |]; try (change (zlen (@nil Z)) with 0 in hz; lia).
      rewrite app_nil_r in hz.
      destruct (read_out _ _ _ _ E2) as (cap & ->). cbn in H1.
      pose proof (run_hist md w mw hmd hw hmw _ _ _ ok1 E1) as H0.
      pose proof (rv_emit_spec cap s1 (h_inv _ _ _ _ H0) H1) as W.
      pose proof (rv_run_snoc _ _ _ _ _ _ _ E1 E2) as E12.
      pose proof (run_hist md w mw hmd hw hmw _ _ _ hok0 E12) as H.
      cbn [rv_step] in E2. destruct (rv_emit cap s1) as [[ [bytes' f'] | e |] s']; try discriminate.
      injection E2 as -> -> ->.
      destruct W as (w1 & w2 & w3 & w4 & w5 & w6 & w7 & w8 & w9 & w10 & w11 & w12 & _).
      pose proof (h_read_eq _ _ _ _ H w10 w9) as e1.
      assert (e0 : zlen (read_bytes (o1 ++ [ORead (Ok (bytes, f))])) = L).
      { rewrite read_bytes_app, zlen_app. cbn [read_bytes]. rewrite app_nil_r. exact hz. }
      destruct (zget (read_bytes (o1 ++ [ORead (Ok (bytes, f))])) (L - 1)) as [x|] eqn:Ex.
      2:{ apply zget_none_range in Ex. lia. }
      destruct (h_bytes _ _ _ _ H _ _ Ex) as (p & p1 & p2).
      pose proof (h_fin1 _ _ _ _ H _ _ p1 (hc p x p1 p2)) as e2.
      exists bytes. rewrite w12. unfold rv_is_fin. rewrite e2.
      replace (L =? rv_off s2) with true by lia. apply in_app_iff. cbn. auto.
Qed.
End Recv.

(** ** Both ends *)
Section Fixed.
Context (md w mw : Z) (hmd : 0 <= md <= max_varint) (hw : 0 <= w) (hmw : 0 <= mw).
Let hmd0 : 0 <= md := proj1 hmd.
Let Nt := Net md w mw.

Lemma reset_sent n c f : Nt n -> In (RvReset c f) (n_rops n) -> was_reset (n_souts n).
Proof.
  intros h hi. apply (t_reset _ _ _ _ h) in hi. apply in_resets in hi as (u & hi). eexists. eauto.
Qed.

Lemma net_fin n b : Nt n -> ~ was_reset (n_souts n) -> In (ORead (Ok (b, true))) (n_routs n) ->
  fin_written (n_sops n) (n_souts n) /\ read_bytes (n_routs n) = written (n_sops n) (n_souts n).
Proof.
  intros h hr hi.
  destruct (recv_fin md w mw hmd0 hw hmw _ _ _ b (t_rok _ _ _ _ h) (t_rrun _ _ _ _ h) hi) as (op & p1 & p2).
  destruct op as [off d fin| |c f| |]; cbn [final_size_of] in p2; try contradiction.
  2:{ destruct hr. eapply reset_sent; eauto. }
  destruct fin; [|contradiction]. apply (t_frame _ _ _ _ h) in p1.
  destruct (send_fin_end md hmd _ _ _ (t_sok _ _ _ _ h) (t_srun _ _ _ _ h) _ p1 eq_refl hr) as (q1 & q2).
  split; auto. destruct (net_prefix md w mw hmd hw hmw n h) as (rest & e).
  unfold frame_end in q2. cbn [sf_off sf_bytes] in q2. rewrite e, zlen_app in q2.
  destruct rest as [|x rest]; [rewrite app_nil_r in e; auto|].
  rewrite zlen_cons in q2. pose proof (zlen_nonneg rest). lia.
Qed.

(** A run of turns to send is a run of the sender. *)
Lemma net_emits ns : forall n, Nt n -> Forall (fun k => 1 <= k) ns ->
  exists n' outs2, nt_run (map (fun k => NtSender (SnEmit k)) ns) n = Ok n' /\ Nt n' /\
    sn_run (map SnEmit ns) (n_snd n) = Ok (outs2, n_snd n') /\
    n_sops n' = n_sops n ++ map SnEmit ns /\ n_souts n' = n_souts n ++ outs2 /\
    n_rcv n' = n_rcv n /\ n_rops n' = n_rops n /\ n_routs n' = n_routs n /\ n_got n' = n_got n.
Proof.
  induction ns as [|k ns IH]; intros n h hns; cbn [map nt_run].
  - exists n, []. cbn [sn_run]. rewrite !app_nil_r. ands; auto.
  - inv hns. cbn [nt_step].
    destruct (net_sender md w mw hmd n (SnEmit k) h) as (n1 & o & k1 & k2 & k3 & k4 & k5 & k6 & k7 & k8 & k9);
      [cbn; lia|intros; discriminate|intros; discriminate|].
    rewrite k1. cbn [bind]. destruct (IH n1 k2 H2) as (n2 & outs2 & m1 & m2 & m3 & m4 & m5 & m6 & m7 & m8 & m9).
    exists n2, (o :: outs2). rewrite m1. cbn [sn_run]. rewrite k5. cbn [bind]. rewrite m3. cbn [bind].
    rewrite m4, m5, m6, m7, m8, m9, k3, k4, k6, k7, k8, k9, <- !app_assoc. ands; auto.
Qed.

Lemma net_deliver n i : Nt n -> exists n', nt_step (NtDeliver i) n = Ok n' /\ Nt n' /\
  n_sops n' = n_sops n /\ n_souts n' = n_souts n /\
  (forall op, In op (n_rops n) -> In op (n_rops n')) /\
  (forall f, nth_error (frames (n_souts n)) i = Some f -> In (to_recv f) (n_rops n')) /\
  (stopped (n_rops n') -> stopped (n_rops n)) /\
  read_bytes (n_routs n') = read_bytes (n_routs n).
Proof.
  intros h. cbn [nt_step]. destruct (nth_error (frames (n_souts n)) i) as [f|] eqn:E.
  2:{ exists n. ands; auto; try tauto. intros f q. discriminate. }
  pose proof (nth_error_In _ _ E) as hi.
  destruct (send_frames md hmd _ _ _ (t_sok _ _ _ _ h) (t_srun _ _ _ _ h) f hi) as (q1 & _).
  destruct (net_receiver md w mw n (to_recv f) [i] h) as (n' & o & k1 & k2 & k3 & k4 & k5 & k6 & k7 & k8 & k9).
  - cbn. auto.
  - apply (accept_frame md w mw); auto.
  - intros off d fin e. unfold to_recv in e. inv e. destruct f; auto.
  - unfold to_recv. intros. discriminate.
  - intros j [<-|[]]. eauto.
  - exists n'. fold (to_recv f). rewrite k1, k3, k4, k7, k8. ands; auto.
    + intros op ho. apply in_app_iff. auto.
    + intros g e. inv e. apply in_app_iff. cbn. auto.
    + intros [s|(op & s & r)].
      * apply in_app_iff in s as [s|[s|[]]]; [left; auto|discriminate].
      * apply in_app_iff in s as [s|[<-|[]]]; [right; eauto|destruct r].
    + rewrite read_bytes_app.
      assert (e : read_bytes [o] = []); [|now rewrite e, app_nil_r].
      unfold to_recv in k6. cbn [rv_step] in k6.
      destruct (rv_write _ _) in k6; cbn [bind] in k6; try discriminate. injection k6 as <- _. reflexivity.
Qed.

Lemma net_delivers ds : forall n, Nt n -> exists n', nt_run (map NtDeliver ds) n = Ok n' /\ Nt n' /\
  n_sops n' = n_sops n /\ n_souts n' = n_souts n /\
  (forall op, In op (n_rops n) -> In op (n_rops n')) /\
  (forall i f, In i ds -> nth_error (frames (n_souts n)) i = Some f -> In (to_recv f) (n_rops n')) /\
  (stopped (n_rops n') -> stopped (n_rops n)) /\
  read_bytes (n_routs n') = read_bytes (n_routs n).
Proof.
  induction ds as [|i ds IH]; intros n h; cbn [map nt_run].
  - exists n. ands; auto. intros i f [].
  - destruct (net_deliver n i h) as (n1 & k1 & k2 & k3 & k4 & k5 & k6 & k7 & k8). rewrite k1. cbn [bind].
    destruct (IH n1 k2) as (n2 & m1 & m2 & m3 & m4 & m5 & m6 & m7 & m8).
    exists n2. rewrite m1, m3, m4, m8, k3, k4, k8. ands; auto.
    intros j f [<-|hj] e; [auto|]. apply (m6 j); auto. congruence.
Qed.

Lemma lost_before ops outs ns i : forall outs2, length ops = length outs -> length ns = length outs2 ->
  frame_lost (ops ++ map SnEmit ns) (outs ++ outs2) i -> frame_lost ops outs i.
Proof.
  induction ns as [|k ns IH] using rev_ind; intros o2 h1 h2 hf.
  - destruct o2; [|discriminate]. cbn in hf. now rewrite !app_nil_r in hf.
  - destruct (list_snoc_case o2) as [->|(o2' & z & ->)]; [rewrite app_length in h2; cbn in h2; lia|].
    rewrite !app_length in h2. cbn in h2. rewrite map_app in hf. cbn [map] in hf.
    rewrite !app_assoc in hf. unfold frame_lost in hf. rewrite happened_snoc in hf.
    2:{ rewrite !app_length, map_length. lia. }
    destruct hf as [hf|(hf & _)]; [|discriminate]. apply (IH o2'); auto. lia.
Qed.

(** Where each written byte is after enough turns to send. *)
Lemma net_byte n ns n2 x : Nt n -> ~ was_reset (n_souts n) -> ~ In SnNoRoom (n_sops n) ->
  0 <= x < zlen (written (n_sops n) (n_souts n)) ->
  Forall (fun k => 1 <= k) ns -> zlen (written (n_sops n) (n_souts n)) <= zlen ns ->
  nt_run (map (fun k => NtSender (SnEmit k)) ns) n = Ok n2 ->
  exists i f, nth_error (frames (n_souts n2)) i = Some f /\ in_frame f x /\
    (In (to_recv f) (n_rops n2) \/ ~ frame_lost (n_sops n2) (n_souts n2) i).
Proof.
  intros h hr hn hx hns hl hrun.
  destruct (net_emits ns n h hns) as (n2' & outs2 & m1 & m2 & m3 & m4 & m5 & m6 & m7 & m8 & m9).
  rewrite hrun in m1. injection m1 as <-.
  pose proof (hist_of md _ _ _ hmd (t_sok _ _ _ _ h) (t_srun _ _ _ _ h)) as H.
  assert (hlen : length (n_sops n) = length (n_souts n)) by apply H.
  assert (hl2 : length ns = length outs2).
  { rewrite <- (map_length SnEmit). eapply sn_run_len; eauto. }
  assert (old_lost : forall i, frame_lost (n_sops n2) (n_souts n2) i -> frame_lost (n_sops n) (n_souts n) i).
  { intros i. rewrite m4, m5. apply lost_before; auto. }
  assert (acked : byte_acked (n_sops n) (n_souts n) x -> exists i f,
    nth_error (frames (n_souts n2)) i = Some f /\ in_frame f x /\
    (In (to_recv f) (n_rops n2) \/ ~ frame_lost (n_sops n2) (n_souts n2) i)).
  { intros (i & f & q1 & q2 & (pre & post & q3 & _)). exists i, f.
    rewrite m5, frames_app, nth_error_app1 by (apply nth_error_Some; congruence).
    ands; auto. left. rewrite m7.
    destruct (t_got _ _ _ _ h i) as (g & g1 & g2); [apply (t_ack _ _ _ _ h); rewrite q3, in_app_iff; cbn; auto|].
    rewrite q1 in g1. injection g1 as <-. auto. }
  rewrite <- (live_off _ _ _ _ H hr) in hx.
  destruct (SendBufProofs3.Sb_cover _ _ x (h_sb _ _ _ _ H) hx) as [k|[k|k]].
  - apply acked, (h_acked _ _ _ _ H hr), k.
  - destruct (ss_gone (n_snd n)) eqn:Eg.
    { apply acked, (h_acked _ _ _ _ H hr). apply (complete_covers _ _ _ (h_sb _ _ _ _ H) (h_gone _ _ _ _ H Eg) hx). }
    destruct (drain md ns _ _ _ x H hn Eg k hns) as (o2 & st' & d1 & f & d2 & d3).
    { pose proof (buffered_le _ _ (h_sb _ _ _ _ H)). lia. }
    rewrite m3 in d1. injection d1 as <- <-. apply In_nth_error in d2 as (j & d2).
    exists (length (frames (n_souts n)) + j)%nat, f. rewrite m5, frames_app, nth_error_app2 by lia.
    replace (length (frames (n_souts n)) + j - length (frames (n_souts n)))%nat with j by lia.
    ands; auto. right. rewrite <- m5. intros q. apply old_lost in q. apply happened_lt in q. lia.
  - destruct (h_cons _ _ _ _ H hr x k) as [(i & f & q1 & q2 & q3)|q]; [|auto].
    exists i, f. rewrite m5, frames_app, nth_error_app1 by (apply nth_error_Some; congruence).
    ands; auto. right. rewrite <- m5. auto.
Qed.

Lemma net_read n cap : Nt n -> 0 <= cap ->
  exists n' o, nt_step (NtReceiver (RvRead cap)) n = Ok n' /\ Nt n' /\
    n_sops n' = n_sops n /\ n_souts n' = n_souts n /\
    rv_step (RvRead cap) (n_rcv n) = Ok (o, n_rcv n') /\
    n_rops n' = n_rops n ++ [RvRead cap] /\ n_routs n' = n_routs n ++ [o].
Proof.
  intros h hc. cbn [nt_step].
  destruct (net_receiver md w mw n (RvRead cap) [] h) as (n' & o & k1 & k2 & k3 & k4 & k5 & k6 & k7 & k8 & k9).
  - cbn; auto.
  - apply (quiet_recv md w mw hmd hw hmw); auto; intros; discriminate.
  - intros; discriminate.
  - intros; discriminate.
  - intros i [].
  - exists n', o. ands; auto.
Qed.

Lemma net_arrives n ns : Nt n -> ~ was_reset (n_souts n) -> ~ In SnNoRoom (n_sops n) ->
  ~ stopped (n_rops n) ->
  Forall (fun k => 1 <= k) ns -> zlen (written (n_sops n) (n_souts n)) <= zlen ns ->
  exists n2, nt_run (map (fun k => NtSender (SnEmit k)) ns) n = Ok n2 /\
    forall ds, (forall i, (i < length (frames (n_souts n2)))%nat ->
                  ~ frame_lost (n_sops n2) (n_souts n2) i -> In i ds) ->
    exists n3, nt_run (map NtDeliver ds) n2 = Ok n3 /\
      forall cap, zlen (written (n_sops n) (n_souts n)) <= cap ->
      exists n4, nt_step (NtReceiver (RvRead cap)) n3 = Ok n4 /\
        read_bytes (n_routs n4) = written (n_sops n) (n_souts n) /\
        (fin_written_with_data (n_sops n) (n_souts n) ->
         exists b, In (ORead (Ok (b, true))) (n_routs n4)).
Proof.
  intros h hr hn hs hns hl. set (W := written (n_sops n) (n_souts n)) in *.
  destruct (net_emits ns n h hns) as (n2 & outs2 & m1 & m2 & m3 & m4 & m5 & m6 & m7 & m8 & m9).
  exists n2. split; auto. intros ds hds.
  destruct (net_delivers ds n2 m2) as (n3 & d1 & d2 & d3 & d4 & d5 & d6 & d7 & d8).
  exists n3. split; auto. intros cap hcap. pose proof (zlen_nonneg W) as hW0.
  destruct (net_read n3 cap d2 ltac:(lia)) as (n4 & o & r1 & r2 & r3 & r4 & r5 & r6 & r7).
  exists n4. split; auto.
  assert (hlen : length (n_sops n) = length (n_souts n)).
  { eapply sn_run_len. apply h. }
  assert (eW : written (n_sops n4) (n_souts n4) = W).
  { rewrite r3, r4, d3, d4, m4, m5. apply written_emits; auto. }
  assert (harr : forall x, 0 <= x < zlen W -> arrived (n_rops n3) x).
  { intros x hx. destruct (net_byte n ns n2 x h hr hn hx hns hl m1) as (i & f & q1 & q2 & q3).
    exists (to_recv f). assert (hin : In (to_recv f) (n_rops n3)).
    { destruct q3 as [q3|q3]; [auto|]. apply (d6 i f); auto. apply hds; auto. apply nth_error_Some. congruence. }
    unfold to_recv at 2. cbn [carries]. unfold in_frame in q2.
    destruct (zget (sf_bytes f) (x - sf_off f)) as [y|] eqn:Ey; [eauto|]. apply zget_none_range in Ey. lia. }
  assert (ns3 : ~ stopped (n_rops n3)) by (intros q; apply d7 in q; rewrite m7 in q; auto).
  assert (eR : zlen (read_bytes (n_routs n4)) = zlen W).
  { destruct (net_prefix md w mw hmd hw hmw n4 r2) as (rest & e). rewrite eW in e.
    assert (zlen (read_bytes (n_routs n4)) <= zlen W) by (rewrite e, zlen_app; pose proof (zlen_nonneg rest); lia).
    rewrite r7, read_bytes_app, zlen_app in *.
    destruct (Z_lt_ge_dec (zlen (read_bytes (n_routs n3))) (zlen W)) as [lt|ge].
    - destruct (recv_complete md w mw hmd0 hw hmw _ _ _ (zlen W) cap (t_rok _ _ _ _ d2) (t_rrun _ _ _ _ d2) ns3 harr lt) as (bytes & fin & st' & k1 & k2).
      { pose proof (zlen_nonneg (read_bytes (n_routs n3))). lia. }
      rewrite r5 in k1. injection k1 as -> _. cbn [read_bytes] in *. rewrite app_nil_r in *. rewrite zlen_app in k2. lia.
    - pose proof (zlen_nonneg (read_bytes [o])). lia. }
  assert (eB : read_bytes (n_routs n4) = W).
  { destruct (net_prefix md w mw hmd hw hmw n4 r2) as (rest & e). rewrite eW in e.
    destruct rest as [|y rest]; [rewrite app_nil_r in e; auto|].
    rewrite e, zlen_app, zlen_cons in eR. pose proof (zlen_nonneg rest). lia. }
  split; auto. intros hfin.
  assert (hL : 0 < zlen W).
  { destruct W as [|y W'] eqn:EW; [|rewrite zlen_cons; pose proof (zlen_nonneg W'); lia].
    exfalso. destruct hfin as (op & oo & i1 & i2 & i3). apply i3. revert i1 EW. unfold W. clear.
    generalize (n_sops n) as a, (n_souts n) as b. induction a as [|p a IH]; intros [|q b] i1 e; cbn in *; try contradiction.
    apply app_eq_nil in e as (e1 & e2). destruct i1 as [i1|i1]; [injection i1 as -> ->; auto|eauto]. }
  assert (hfin4 : fin_written_with_data (n_sops n4) (n_souts n4)).
  { rewrite r3, r4, d3, d4, m4, m5. destruct hfin as (op & oo & i1 & i2). exists op, oo. split; auto.
    clear - i1 hlen. revert hlen i1. generalize (n_sops n) as a, (n_souts n) as b.
    induction a as [|p a IH]; intros [|q b] hlen i1; cbn in *; try contradiction; try discriminate.
    destruct i1 as [i1|i1]; auto. }
  assert (hr4 : ~ was_reset (n_souts n4)).
  { rewrite r4, d4, m5. intros (r & i). apply in_app_iff in i as [i|i]; [apply hr; eexists; eauto|].
    clear - m3 i. revert i m3. generalize (n_snd n) as s, outs2 as l. induction ns as [|k ns IH]; intros s l i e; cbn [map sn_run] in e.
    - inv e. destruct i.
    - destruct (sn_step (SnEmit k) s) as [[o1 s1]| |] eqn:E1; cbn [bind] in e; try discriminate.
      destruct (sn_run (map SnEmit ns) s1) as [[o2 s2]| |] eqn:E2; cbn [bind] in e; try discriminate.
      injection e as <- e. destruct i as [i|i]; [|subst; eapply IH; eauto].
      subst o1. cbn [sn_step] in E1. unfold sn_emit in E1. cbv zeta in E1.
      repeat match goal with
           | E : bind ?x _ = _ |- _ => destruct x as [?| |]; cbn [bind] in E
           | E : (let '(_, _) := ?x in _) = _ |- _ => destruct x
           | E : match ?x with _ => _ end = _ |- _ => destruct x
           end; discriminate. }
  eapply (recv_fin_seen md w mw hmd0 hw hmw (zlen W) (n_rops n4)); [apply r2|apply r2|auto| |auto].
  intros op y hop hy. destruct op as [off d fin| | | |]; cbn [carries] in hy; try contradiction.
  pose proof (t_frame _ _ _ _ r2 _ _ _ hop) as hf.
  pose proof (zget_some_range _ _ _ hy) as hrng.
  pose proof (send_last_byte md hmd _ _ _ (t_sok _ _ _ _ r2) (t_srun _ _ _ _ r2) _ hr4 hfin4 hf) as q.
  rewrite eW in q. unfold in_frame in q. cbn [sf_off sf_bytes sf_fin] in q. specialize (q ltac:(lia)). subst fin.
  cbn [final_size_of]. destruct (send_fin_end md hmd _ _ _ (t_sok _ _ _ _ r2) (t_srun _ _ _ _ r2) _ hf eq_refl hr4) as (_ & e).
  unfold frame_end in e. cbn [sf_off sf_bytes] in e. rewrite eW in e. auto.
Qed.
End Fixed.
