(** The windowed maximum filter of the bandwidth estimator
    (quiche/src/recovery/gcongestion/bbr/windowed_filter.rs).

    Simplified: samples, times and lengths of time are integers (the type is
    generic; the code uses it with usize rounds and samples ordered by one
    number).  A difference of times below zero is a [Panic], as for [usize];
    an [unwrap] of nothing is a [Panic]. *)
Require Import Verif.Base.

(** Sample (windowed_filter.rs:34-38) *)
Record est : Type := mkEst { e_val : Z; e_time : Z }.
(** WindowedFilter (windowed_filter.rs:40-44) *)
Record filt : Type := mkF { f_win : Z; f_e0 : option est; f_e1 : option est; f_e2 : option est }.

(** new, reset, clear (windowed_filter.rs:52-66, 80-82) *)
Definition f_new (w : Z) : filt := mkF w None None None.
Definition f_reset (v t : Z) (f : filt) : filt :=
  let e := Some (mkEst v t) in mkF (f_win f) e e e.
Definition f_clear (f : filt) : filt := mkF (f_win f) None None None.
(** get_best, get_second_best, get_third_best (windowed_filter.rs:68-78) *)
Definition f_best (f : filt) : option Z := option_map e_val (f_e0 f).

Definition unwrap {A} (o : option A) : res unit A := match o with Some x => Ok x | None => Panic end.
Definition since (t : Z) (e : est) : res unit Z := if t <? e_time e then Panic else Ok (t - e_time e).

(** update (windowed_filter.rs:84-149) *)
Definition f_update (v t : Z) (f : filt) : res unit filt :=
  let w := f_win f in
  let new := mkEst v t in
  let* again :=
    match f_e0 f with
    | None => Ok true
    | Some best =>
        if e_val best <? v then Ok true
        else let* e2 := unwrap (f_e2 f) in let* d := since t e2 in Ok (w <? d)
    end in
  if again : bool then Ok (f_reset v t f)
  else
    let* e1 := unwrap (f_e1 f) in
    let* e2 := unwrap (f_e2 f) in
    let '(e1, e2) := if e_val e1 <? v then (new, new) else if e_val e2 <? v then (e1, new) else (e1, e2) in
    let* e0 := unwrap (f_e0 f) in
    let* d0 := since t e0 in
    if w <? d0 then
      let* d1 := since t e1 in
      if w <? d1 then Ok (mkF w (Some e2) (Some new) (Some new))
      else Ok (mkF w (Some e1) (Some e2) (Some new))
    else
      let* quarter := if e_val e1 =? e_val e0 then let* d1 := since t e1 in Ok (w / 4 <? d1) else Ok false in
      if quarter : bool then Ok (mkF w (Some e0) (Some new) (Some new))
      else
        let* half := if e_val e2 =? e_val e1 then let* d2 := since t e2 in Ok (w / 2 <? d2) else Ok false in
        if half : bool then Ok (mkF w (Some e0) (Some e1) (Some new))
        else Ok (mkF w (Some e0) (Some e1) (Some e2)).

Inductive f_op : Type := FUpdate (v t : Z) | FReset (v t : Z) | FClear.
Definition f_step (op : f_op) (f : filt) : res unit filt :=
  match op with FUpdate v t => f_update v t f | FReset v t => Ok (f_reset v t f) | FClear => Ok (f_clear f) end.
Fixpoint f_run (ops : list f_op) (f : filt) : res unit filt :=
  match ops with [] => Ok f | op :: ops => let* f := f_step op f in f_run ops f end.
