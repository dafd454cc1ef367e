(** Vocabulary of C48 and C49. *)
Require Import Verif.Base Verif.RttModel.
Require Export Sorted.

(** Samples arrive in time order. *)
Definition before (a b : sample) : Prop := sm_time a <= sm_time b.

(** The filter after the samples [x :: l], the first of which resets it *)
Definition mm_after (win q hf : Z) (x : sample) (l : list sample) : minmax :=
  mm_run win q hf l (mm_new (sm_time x) (sm_value x)).

(** What an RTT update feeds the filter *)
Definition as_sample (x : rtt_in) : sample := mkSample (in_now x) (in_rtt x).

(** [v] is the smallest value in [l] *)
Definition smallest (v : Z) (l : list Z) : Prop := In v l /\ Forall (fun x => v <= x) l.
Definition largest (v : Z) (l : list Z) : Prop := In v l /\ Forall (fun x => x <= v) l.

(** [v] is the value of one of the samples, received no longer than [win]
    before the last one, and no sample received after it is smaller. *)
Definition recent_minimum (win v : Z) (x : sample) (l : list sample) : Prop :=
  exists pre s post, x :: l = pre ++ s :: post /\ v = sm_value s /\
    sm_time (last l x) - sm_time s <= win /\
    Forall (fun z => sm_value s <= sm_value z) (s :: post).

(** [a] is the sample of [y] less the delay the peer reports, of which no more than [mad]
    is believed once the handshake is confirmed; the sample itself if that would be less
    than [mn]. *)
Definition less_delay (mad mn : Z) (y : rtt_in) (a : Z) : Prop :=
  exists d, (if in_confirmed y then d <= mad /\ d <= in_delay y /\ (d = mad \/ d = in_delay y) else d = in_delay y) /\
    (mn + d <= in_rtt y /\ a = in_rtt y - d \/ in_rtt y < mn + d /\ a = in_rtt y).
