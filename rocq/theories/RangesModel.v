(** Model of quiche/src/ranges.rs (RangeSet and its two representations).
    A [Range<u64>] [s..e] is the pair [(s, e)].  Both [SmallVec<[(u64,u64);4]>]
    and [BTreeMap<u64,u64>] are lists of pairs; for the BTreeMap the list is in
    key order, which [bt_insert] maintains. *)
Require Import Verif.Base.

Notation range := (Z * Z)%type.

(** ranges.rs:37-38 *)
Definition MAX_INLINE_CAPACITY : Z := 4.
Definition MIN_TO_INLINE : Z := 2.

(** usize::MAX on a 64-bit target (ranges.rs:347-354, Default). *)
Definition usize_max : Z := 18446744073709551615.

(** ranges.rs:41-61: enum RangeSet with InlineRangeSet / BTreeRangeSet. *)
Inductive rangeset : Type :=
| Inline (l : list range) (cap : Z)
| BTree (l : list range) (cap : Z).

(** iter (ranges.rs:124-135): the stored ranges in order. *)
Definition rs_ranges (r : rangeset) : list range :=
  match r with Inline l _ => l | BTree l _ => l end.

Definition rs_cap (r : rangeset) : Z :=
  match r with Inline _ c => c | BTree _ c => c end.

(** RangeSet::new (ranges.rs:68-73) *)
Definition rs_new (cap : Z) : rangeset := Inline [] cap.
(** Default (ranges.rs:347-354) *)
Definition rs_default : rangeset := Inline [] usize_max.

(** len (ranges.rs:76-81) *)
Definition rs_len (r : rangeset) : Z := zlen (rs_ranges r).

(** ** BTreeMap<u64, u64> operations *)

(** BTreeMap::insert: replaces the value of an equal key. *)
Fixpoint bt_insert (k v : Z) (l : list range) : list range :=
  match l with
  | [] => [(k, v)]
  | (k', v') :: tl =>
      if k <? k' then (k, v) :: l
      else if k =? k' then (k, v) :: tl
      else (k', v') :: bt_insert k v tl
  end.

(** BTreeMap::remove *)
Fixpoint bt_remove (k : Z) (l : list range) : list range :=
  match l with
  | [] => []
  | (k', v') :: tl => if k =? k' then tl else (k', v') :: bt_remove k tl
  end.

(** prev_to (ranges.rs:332-337): last entry with key <= item. *)
Fixpoint prev_to (l : list range) (item : Z) : option range :=
  match l with
  | [] => None
  | (k, v) :: tl =>
      if k <=? item then
        match prev_to tl item with Some r => Some r | None => Some (k, v) end
      else None
  end.

(** next_to (ranges.rs:339-344): first entry with key >= item. *)
Fixpoint next_to (l : list range) (item : Z) : option range :=
  match l with
  | [] => None
  | (k, v) :: tl => if item <=? k then Some (k, v) else next_to tl item
  end.

(** range_overlaps (ranges.rs:388-391) *)
Definition range_overlaps (r other : range) : bool :=
  ((fst r <=? fst other) && (fst other <=? snd r))
  || ((fst r <=? snd other) && (snd other <=? snd r)).

(** Range::contains *)
Definition in_range (r : range) (x : Z) : bool :=
  (fst r <=? x) && (x <? snd r).

(** The [while let Some(r) = self.next_to(start)] loop of
    BTreeRangeSet::insert (ranges.rs:289-306).  [fuel] bounds the iterations;
    running out is [Panic] and is proved impossible. *)
Fixpoint bt_absorb (fuel : nat) (item : range) (start fin : Z) (l : list range)
  : res unit (Z * Z * list range) :=
  match fuel with
  | O => Panic
  | S fuel =>
      match next_to l start with
      | None => Ok (start, fin, l)
      | Some r =>
          if in_range item (fst r) && in_range item (snd r) then
            bt_absorb fuel item start fin (bt_remove (fst r) l)
          else if negb (range_overlaps r item) then Ok (start, fin, l)
          else
            bt_absorb fuel item (Z.min start (fst r)) (Z.max fin (snd r))
                      (bt_remove (fst r) l)
      end
  end.

(** BTreeRangeSet::insert (ranges.rs:273-313) *)
Definition btree_insert (item : range) (l : list range) (cap : Z)
  : res unit (list range) :=
  let start := fst item in
  let fin := snd item in
  let '(start, fin, l) :=
    match prev_to l start with
    | Some r =>
        if range_overlaps r item then
          (Z.min start (fst r), Z.max fin (snd r), bt_remove (fst r) l)
        else (start, fin, l)
    | None => (start, fin, l)
    end in
  let* '(start, fin, l) := bt_absorb (S (length l)) item start fin l in
  let l := if cap <=? zlen l then tl l else l in
  Ok (bt_insert start fin l).

(** The trailing merge loop of InlineRangeSet::insert (ranges.rs:239-251);
    the current range is [(s0, fin)] and [post] are the following ranges. *)
Fixpoint inl_merge (s0 fin : Z) (post : list range) : list range :=
  match post with
  | [] => [(s0, fin)]
  | (s, e) :: tl =>
      if fin <? s then (s0, fin) :: post
      else inl_merge s0 (Z.max e fin) tl
  end.

(** The scanning loop of InlineRangeSet::insert (ranges.rs:191-236).
    [pre] is [inner[..pos]] (the ranges skipped), [post] is [inner[pos..]].
    When the set is full, [remove(0)] drops the first element; with [pos = 0]
    the following [pos -= 1] underflows: [Panic]. *)
Fixpoint inl_scan (start fin : Z) (cap : Z) (pre post : list range)
  : res unit (list range) :=
  match post with
  | (s, e) :: tl =>
      if e <? start then inl_scan start fin cap (pre ++ [(s, e)]) tl
      else if fin <? s then
        if zlen (pre ++ post) =? cap then
          match pre with
          | [] => Panic
          | _ :: pre' => Ok (pre' ++ (start, fin) :: post)
          end
        else Ok (pre ++ (start, fin) :: post)
      else
        let s' := if start <? s then start else s in
        if e <? fin then Ok (pre ++ inl_merge s' fin tl)
        else Ok (pre ++ (s', e) :: tl)
  | [] =>
      if zlen pre =? cap then
        match pre with
        | [] => Panic
        | _ :: pre' => Ok (pre' ++ [(start, fin)])
        end
      else Ok (pre ++ [(start, fin)])
  end.

(** InlineRangeSet::insert (ranges.rs:186-252) *)
Definition inline_insert (item : range) (l : list range) (cap : Z)
  : res unit (list range) :=
  inl_scan (fst item) (snd item) cap [] l.

(** InlineRangeSet::remove_until (ranges.rs:254-268) *)
Fixpoint inline_remove_until (largest : Z) (l : list range) : list range :=
  match l with
  | [] => []
  | (s, e) :: tl =>
      if e <=? largest then inline_remove_until largest tl
      else
        let s' := Z.max (largest + 1) s in
        if s' =? e then tl else (s', e) :: tl
  end.

(** The [for r in ranges] loop of BTreeRangeSet::remove_until
    (ranges.rs:322-329). *)
Fixpoint bt_remove_each (largest : Z) (rs : list range) (l : list range) (cap : Z)
  : res unit (list range) :=
  match rs with
  | [] => Ok l
  | r :: rs =>
      let l := bt_remove (fst r) l in
      let* l := if largest + 1 <? snd r
                then btree_insert (largest + 1, snd r) l cap
                else Ok l in
      bt_remove_each largest rs l cap
  end.

(** BTreeRangeSet::remove_until (ranges.rs:315-330) *)
Definition btree_remove_until (largest : Z) (l : list range) (cap : Z)
  : res unit (list range) :=
  bt_remove_each largest (filter (fun r => fst r <=? largest) l) l cap.

(** fixup (ranges.rs:86-107) *)
Definition fixup (r : rangeset) : rangeset :=
  match r with
  | Inline l cap => if zlen l =? MAX_INLINE_CAPACITY then BTree l cap else r
  | BTree l cap => if zlen l <=? MIN_TO_INLINE then Inline l cap else r
  end.

(** insert (ranges.rs:114-121) *)
Definition rs_insert (item : range) (r : rangeset) : res unit rangeset :=
  match r with
  | Inline l cap => let* l := inline_insert item l cap in Ok (fixup (Inline l cap))
  | BTree l cap => let* l := btree_insert item l cap in Ok (fixup (BTree l cap))
  end.

(** push_item (ranges.rs:180-182) *)
Definition rs_push_item (x : Z) (r : rangeset) : res unit rangeset :=
  rs_insert (x, x + 1) r.

(** remove_until (ranges.rs:171-178) *)
Definition rs_remove_until (largest : Z) (r : rangeset) : res unit rangeset :=
  match r with
  | Inline l cap => Ok (fixup (Inline (inline_remove_until largest l) cap))
  | BTree l cap =>
      let* l := btree_remove_until largest l cap in Ok (fixup (BTree l cap))
  end.

(** last (ranges.rs:161-168): [e - 1], which underflows when the only range is
    [0..0]. *)
Definition rs_last (r : rangeset) : res unit (option Z) :=
  match rev (rs_ranges r) with
  | [] => Ok None
  | (_, e) :: _ => if e =? 0 then Panic else Ok (Some (e - 1))
  end.

(** first (ranges.rs:152-158) *)
Definition rs_first (r : rangeset) : option Z :=
  match rs_ranges r with [] => None | (s, _) :: _ => Some s end.

(** impl PartialEq<Range<u64>> (ranges.rs:360-371) *)
Definition rs_eq_range (r : rangeset) (x : range) : bool :=
  match rs_ranges r with
  | [(s, e)] => (s =? fst x) && (e =? snd x)
  | _ => false
  end.

(** flatten (ranges.rs:140-148) *)
Definition rs_flatten (r : rangeset) : list Z :=
  flat_map (fun p => map (fun i => fst p + Z.of_nat i)
                         (seq 0 (Z.to_nat (snd p - fst p)))) (rs_ranges r).

(** A history of calls on one range set. *)
Inductive rs_op : Type :=
| RsInsert (s e : Z)
| RsPush (x : Z)
| RsRemoveUntil (largest : Z).

Definition rs_step (op : rs_op) (r : rangeset) : res unit rangeset :=
  match op with
  | RsInsert s e => rs_insert (s, e) r
  | RsPush x => rs_push_item x r
  | RsRemoveUntil n => rs_remove_until n r
  end.

Fixpoint rs_run (ops : list rs_op) (r : rangeset) : res unit rangeset :=
  match ops with
  | [] => Ok r
  | op :: ops => let* r := rs_step op r in rs_run ops r
  end.
