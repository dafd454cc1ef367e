(** Small specifications for what HTTP/3 hands to the application. *)
Require Import Verif.Base Verif.OctetsSpec Verif.H3FrameModel Verif.H3FrameSpec Verif.H3ConnModel Verif.H3ConnSpec.

Definition is_fail (t : tok) : bool := match t with KFail _ => true | _ => false end.
(** Header sections, then bytes of the body, then one more header section.  [st] is 0 at
    the start, 1 after header sections, 2 inside the body, 3 after the trailers.  A failure
    is the last thing. *)
Fixpoint in_order (st : Z) (l : list tok) : bool :=
  match l with
  | [] => true
  | KFail _ :: l => match l with [] => true | _ => false end
  | KHeaders _ :: l => if st =? 2 then in_order 3 l else if st =? 3 then false else in_order 1 l
  | KByte _ :: l => ((st =? 1) || (st =? 2)) && in_order 2 l
  end.
(** The number of header sections *)
Definition headers_in (l : list tok) : Z := zlen (filter (fun t => match t with KHeaders _ => true | _ => false end) l).

(** Whole frames *)
Record wframe : Type := mkWf { w_ty : Z; w_bs : list Z; w_pay : list Z }.
Definition on_wire (f : wframe) : Prop := h3_wire (w_bs f) (w_ty f) (w_pay f).
(** HEADERS, any number of times; then DATA, any number of times; then HEADERS once *)
Fixpoint in_sequence (st : Z) (tys : list Z) : bool :=
  match tys with
  | [] => true
  | ty :: tys =>
      if ty =? 1 then if st =? 2 then in_sequence 3 tys else if st =? 3 then false else in_sequence 1 tys
      else if ty =? 0 then ((st =? 1) || (st =? 2)) && in_sequence 2 tys
      else in_sequence st tys
  end.

(** How much of a frame may be buffered: integers take 8 bytes or less, header sections
    are limited by the setting, priorities by theirs, and nothing exceeds 2^24 - 1 *)
Definition section_limit (mfss : option Z) : Z := let m := match mfss with Some n => n | None => 32768 end in m + m / 2.
Definition buffer_limit (mfss : option Z) (s : hs) : Z :=
  match h_st s with
  | StType | StFrame | StLen => 8
  | StPayload =>
      match h_fty s with
      | Some ty =>
          if ty =? 1 then Z.min (section_limit mfss) 16777215
          else if ty =? 5 then Z.min (section_limit mfss + 8) 16777215
          else if (ty =? 3) || (ty =? 7) || (ty =? 13) then 8
          else if ty =? 4 then 256
          else if (ty =? 984832) || (ty =? 984833) then Z.min (h_maxp s) 16777215
          else 0
      | None => 0
      end
  | _ => 0
  end.
