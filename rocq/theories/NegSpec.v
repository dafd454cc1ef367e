(** What is said about Version Negotiation and Retry: over any sequence of packets, which
    ones changed something. *)
Require Import Verif.Base Verif.Errors Verif.NegModel.

(** A step of a history: the packet, what was answered, and the state before and after *)
Record moment := mkM { m_pkt : gpkt; m_res : res error unit; m_from : neg; m_to : neg }.
Fixpoint history (mac : list Z -> list Z) (l : list (list Z * gpkt)) (c : neg) : list moment :=
  match l with
  | [] => []
  | x :: tl => let (r, c1) := gstep mac x c in mkM (snd x) r c c1 :: history mac tl c1
  end.
Definition final (c : neg) (h : list moment) : neg := match rev h with [] => c | m :: _ => m_to m end.

(** The handshake was started over. *)
Definition restarted (m : moment) : Prop := g_starts (m_to m) <> g_starts (m_from m).
Definition by_retry (m : moment) : Prop := exists scid token body tag, m_pkt m = GRetry scid token body tag.
Definition by_vn (m : moment) : Prop := exists dcid scid vs, m_pkt m = GVn dcid scid vs.
(** A packet was processed. *)
Definition processed (m : moment) : Prop := m_res m = Ok tt.
