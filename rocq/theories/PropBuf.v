(** C83: the byte buffers with room at the front, over every sequence of calls. *)
Require Import Verif.Base Verif.BufModel Verif.BufSpec Verif.BufProofs.

(** C83: every operation on a DgramBuffer, however it was made, does to its room
    and its readable bytes what it is said to do, and panics exactly when it is
    said to. *)
Theorem C83_datagram_step b op w : db_made b -> db_shows b w -> db_op_ok op -> db_small op w ->
  match db_does op w with
  | None => db_step op b = Panic
  | Some (o, w') => exists b', db_step op b = Ok (o, b') /\ db_shows b' w'
  end.
Proof.
  intros h hs ho hm. pose proof (db_step_view op b w (db_made_ok b h) hs ho hm) as q. destruct (db_does op w) as [[o w']|]; [|exact q].
  destruct q as (b' & e & _ & k). eauto.
Qed.
Print Assumptions C83_datagram_step.

(** C83: a DgramBuffer can be read after every history, and its length is that of
    what is read. *)
Theorem C83_datagram_readable b : db_made b -> exists w, db_shows b w /\ db_len b = Ok (zlen (vw_bytes w)) /\ 0 <= vw_room w.
Proof.
  intros h. pose proof (db_made_ok b h) as hk. destruct (db_view b hk) as (l & hs & hl & _). exists (mkView (db_start b) l). split; [exact hs|].
  destruct hk as (k1 & k2). split; [|cbn; lia]. unfold db_len. replace (_ <? _) with false by lia. cbn. rewrite hl. reflexivity.
Qed.
Print Assumptions C83_datagram_readable.

(** C83: what was put in front is read first, and taking it off again gives back
    what was there. *)
Theorem C83_datagram_prefix_round_trip b w p : db_made b -> db_shows b w -> zlen p <= vw_room w -> vw_room w <= u64_max ->
  exists b1 b2, db_step (DbPrefix p) b = Ok (true, b1) /\ db_read b1 = Ok (p ++ vw_bytes w) /\
    db_step (DbAdvance (zlen p)) b1 = Ok (true, b2) /\ db_shows b2 w.
Proof.
  intros h hs hp hm. pose proof (C83_datagram_step b (DbPrefix p) w h hs I I) as q. destruct w as [r l]. cbn [db_does vw_room vw_bytes] in *.
  replace (zlen p <=? r) with true in q by lia. destruct q as (b1 & e1 & s1).
  pose proof (dm_step b (DbPrefix p) true b1 h I e1) as h1. pose proof (zlen_nonneg p) as hn. pose proof (zlen_nonneg l) as hl.
  pose proof (C83_datagram_step b1 (DbAdvance (zlen p)) _ h1 s1 hn) as q. cbn [db_small vw_room db_does] in q. specialize (q ltac:(lia)).
  rewrite zlen_app in q. replace (zlen p <=? zlen p + zlen l) with true in q by lia. destruct q as (b2 & e2 & s2).
  exists b1, b2. split; [exact e1|]. split; [apply s1|]. split; [exact e2|]. rewrite drop_app_l in s2 by reflexivity.
  replace (r - zlen p + zlen p) with r in s2 by lia. exact s2.
Qed.
Print Assumptions C83_datagram_prefix_round_trip.

(** C83: the same of a ConsumeBuffer, [expand] aside when it leaves no space for
    the room. *)
Theorem C83_consume_step b op w : cb_made b -> cb_shows b w -> cb_op_ok op -> cb_small op w ->
  exists o, cb_does op w o /\
  match o with
  | None => cb_step op b = Panic
  | Some (o, w') => exists b', cb_step op b = Ok (o, b') /\ cb_shows b' w'
  end.
Proof.
  intros h hs ho hm. destruct (cb_step_view op b w (cb_made_ok b h) hs ho hm) as (o & k & q). exists o. split; [exact k|].
  destruct o as [[o w']|]; [|exact q]. destruct q as (b' & e & _ & k'). eauto.
Qed.
Print Assumptions C83_consume_step.

(** C83: a ConsumeBuffer can be read, and turned into a vector of the same bytes. *)
Theorem C83_consume_readable b : cb_made b -> exists w, cb_shows b w /\ cb_into_vec b = Ok (vw_bytes w) /\ 0 <= vw_room w.
Proof.
  intros h. pose proof (cb_made_ok b h) as hk. exists (mkView (cb_head b) (drop (cb_head b) (v_bytes (cb_inner b)))).
  split; [destruct b; apply (cb_shows_mk _ _ hk)|]. destruct hk as (k1 & k2). split; [|cbn; lia].
  unfold cb_into_vec. replace (_ <? _) with false by lia. reflexivity.
Qed.
Print Assumptions C83_consume_readable.

(** C83: a buffer given back to its pool reads as empty and has no room, and keeps
    no more memory than the pool allows. *)
Theorem C83_consume_reuse t b : cb_made b -> 0 <= t ->
  cb_shows (snd (cb_reuse t b)) (mkView 0 []) /\ v_cap (cb_inner (snd (cb_reuse t b))) <= t /\
  (fst (cb_reuse t b) = true <-> 0 < v_cap (cb_inner (snd (cb_reuse t b)))).
Proof.
  intros h ht. destruct (reuse_ok t b (cb_made_ok b h) ht) as (_ & k & e). split; [exact k|]. rewrite e. split; [lia|].
  unfold cb_reuse in *. cbn [fst snd cb_inner] in *. rewrite e. rewrite Z.ltb_lt. reflexivity.
Qed.
Print Assumptions C83_consume_reuse.

(** The theorems are not vacuous: a datagram with four bytes of room is filled,
    prefixed, cut, and its room widened. *)
Example C83_datagram_witness :
  exists b0 b, db_with_headroom 10 4 = Ok b0 /\ db_made b0 /\
    db_run [DbPut [1; 2; 3; 4]; DbPrefix [8; 9]; DbAdvance 1; DbTruncate 4; DbSplice 6; DbWrite 1 [7]; DbPrefix [5]] b0 =
      Ok ([true; true; true; true; true; true; true], b) /\
    db_shows b (mkView 5 [5; 9; 7; 2; 3]).
Proof.
  eexists. eexists. split; [vm_compute; reflexivity|]. split; [apply (dm_room 10 4); [lia|reflexivity]|].
  split; [vm_compute; reflexivity|]. split; reflexivity.
Qed.

Example C83_consume_witness :
  exists b, cb_run [CbPop 2; CbPrefix [9]; CbPrefix [8; 8]; CbTruncate 3; CbExtend [6]; CbExpand 6] (cb_from_vec [1; 2; 3; 4; 5]) =
      Ok ([true; true; false; true; true; true], b) /\ cb_made (cb_from_vec [1; 2; 3; 4; 5]) /\
    exists x, cb_shows b (mkView 1 [9; 3; 4; 6; x]).
Proof. eexists. split; [vm_compute; reflexivity|]. split; [constructor|]. eexists. split; reflexivity. Qed.

(** A finding: expand makes readable what an earlier user of the pooled buffer
    left in it. *)
Theorem C83_expand_shows_old_bytes_refuted :
  exists secret b, cb_made (cb_from_vec secret) /\ fst (cb_reuse 1024 (cb_from_vec secret)) = true /\
    cb_step (CbExpand (zlen secret)) (snd (cb_reuse 1024 (cb_from_vec secret))) = Ok (true, b) /\
    cb_read b = Ok secret /\ secret <> [].
Proof. exists [1; 2; 3]. eexists. split; [constructor|]. split; [reflexivity|]. split; [vm_compute; reflexivity|]. split; [reflexivity|discriminate]. Qed.
Print Assumptions C83_expand_shows_old_bytes_refuted.

(** A finding: expand can cut the buffer short. *)
Theorem C83_expand_shrinks_refuted :
  exists l n b, cb_made (cb_from_vec l) /\ cb_step (CbExpand n) (cb_from_vec l) = Ok (true, b) /\
    exists l', cb_read b = Ok l' /\ zlen l' < zlen l.
Proof. exists [1; 2; 3], 1. eexists. split; [constructor|]. split; [vm_compute; reflexivity|]. exists [1]. split; reflexivity. Qed.
Print Assumptions C83_expand_shrinks_refuted.

(** A finding: after bytes were consumed, expand to fewer than those leaves a
    buffer that cannot be read: reading it panics. *)
Theorem C83_expand_unreadable_refuted :
  exists l b, cb_run [CbPop 2; CbExpand 1] (cb_from_vec l) = Ok ([true; true], b) /\ cb_read b = Panic.
Proof. exists [1; 2; 3]. eexists. split; vm_compute; reflexivity. Qed.
Print Assumptions C83_expand_unreadable_refuted.

(** A finding: truncate is documented to do nothing when asked to keep more than
    there is, but with room at the front the sum overflows. *)
Theorem C83_truncate_overflow_refuted :
  exists b w, db_made b /\ db_shows b w /\ zlen (vw_bytes w) <= u64_max /\ db_step (DbTruncate u64_max) b = Panic.
Proof.
  exists (mkDb (v_of [1; 2]) 1), (mkView 1 [2]). split; [apply (dm_vec [1; 2] 1); [lia|reflexivity]|]. split; [split; reflexivity|].
  split; [vm_compute; discriminate|vm_compute; reflexivity].
Qed.
Print Assumptions C83_truncate_overflow_refuted.
