(** Model of quiche/src/range_buf.rs: a view [pos .. start+len] on shared
    bytes, positioned at stream offset [off]. *)
Require Import Verif.Base Verif.Errors.

(** struct RangeBuf (range_buf.rs:49-76) *)
Record rangebuf : Type := mkRB {
  rb_data : list Z;
  rb_start : Z;
  rb_pos : Z;
  rb_len : Z;
  rb_off : Z;
  rb_fin : bool }.

(** from / from_raw (range_buf.rs:83-97) *)
Definition rb_from (data : list Z) (off : Z) (fin : bool) : rangebuf :=
  mkRB data 0 0 (zlen data) off fin.

(** off() (range_buf.rs:105-107) *)
Definition rbO (b : rangebuf) : Z := (rb_off b - rb_start b) + rb_pos b.
(** len() (range_buf.rs:115-117) *)
Definition rbL (b : rangebuf) : Z := rb_len b - (rb_pos b - rb_start b).
(** max_off() (range_buf.rs:110-112) *)
Definition rbM (b : rangebuf) : Z := rbO b + rbL b.
(** is_empty() (range_buf.rs:120-122) *)
Definition rb_is_empty (b : rangebuf) : bool := rbL b =? 0.
(** deref (range_buf.rs:156-162) *)
Definition rb_bytes (b : rangebuf) : list Z :=
  slice (rb_pos b) (rb_start b + rb_len b) (rb_data b).

(** consume (range_buf.rs:125-127) *)
Definition rb_consume (n : Z) (b : rangebuf) : rangebuf :=
  mkRB (rb_data b) (rb_start b) (rb_pos b + n) (rb_len b) (rb_off b) (rb_fin b).

(** split_off (range_buf.rs:130-154): returns (self afterwards, new buffer);
    the [assert!] is the [Panic]. *)
Definition rb_split_off (at_ : Z) (b : rangebuf) : res error (rangebuf * rangebuf) :=
  if rb_len b <? at_ then Panic
  else
    Ok (mkRB (rb_data b) (rb_start b) (Z.min (rb_pos b) (rb_start b + at_)) at_
             (rb_off b) false,
        mkRB (rb_data b) (rb_start b + at_) (Z.max (rb_pos b) (rb_start b + at_))
             (rb_len b - at_) (rb_off b + at_) (rb_fin b)).
