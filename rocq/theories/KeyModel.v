(** Key updates of 1-RTT packets: the code of quiche/src/lib.rs and
    quiche/src/packet.rs that chooses the keys a packet is opened and sealed with.
    The keys are those of generation 0, installed by the handshake, and what
    derive_next_packet_key (crypto/mod.rs:183-198, 274-289) makes of them: generation
    n + 1 from generation n.  Deriving keys is taken not to fail. *)
Require Import Verif.Base Verif.Errors.

(** A 1-RTT packet: its number, once decoded, its key phase bit, the generation of the
    keys it was sealed with, if it is authentic, and whether HANDSHAKE_DONE is in it.
    The AEAD is ideal: a packet is opened with the keys it was sealed with and no
    others. *)
Record kpkt := mkKp { kp_pn : Z; kp_phase : bool; kp_gen : option Z; kp_done : bool }.

(** KeyUpdate (packet.rs:952-960) *)
Record ku := mkKu { u_open : Z; u_pn : Z; u_acked : bool; u_timer : Z }.

(** Of Connection: crypto_open and crypto_seal of the Application epoch, key_phase,
    handshake_confirmed, is_server, key_update. *)
Record kst := mkK { k_open : Z; k_seal : Z; k_phase : bool; k_conf : bool; k_server : bool; k_ku : option ku }.

(** The server has confirmed the handshake before it can open 1-RTT packets
    (lib.rs:8126-8134); the client does when it is told. *)
Definition key_new (server : bool) : kst := mkK 0 0 false server server None.

(** What the rest of recv_single makes of a packet that was opened: whether its number is
    a duplicate, whether it is empty, whether no path can be found for it
    (lib.rs:3319-3341), and the PTO of the path. *)
Record kenv := mkE { e_dup : bool; e_empty : bool; e_pid : option error; e_pto : Z }.

(** Which keys to try, and whether they are the next ones (lib.rs:3275-3308) *)
Definition choose (p : kpkt) (c : kst) : Z * bool :=
  if k_conf c && negb (Bool.eqb (kp_phase p) (k_phase c)) then
    match k_ku c with
    | Some u => if kp_pn p <? u_pn u then (u_open u, false) else (k_open c + 1, true)
    | None => (k_open c + 1, true)
    end
  else (k_open c, false).

Definition opens (g : Z) (p : kpkt) : bool := match kp_gen p with Some x => x =? g | None => false end.

(** HANDSHAKE_DONE (lib.rs:8805-8816) *)
Definition confirm (p : kpkt) (c : kst) : res error unit * kst :=
  if kp_done p then
    if k_server c then (Err InvalidPacket, c) else (Ok tt, mkK (k_open c) (k_seal c) (k_phase c) true (k_server c) (k_ku c))
  else (Ok tt, c).

(** recv_single (lib.rs:3275-3390, 8805-8816).  A packet that cannot be opened is dropped
    without a word: this is not the first packet (lib.rs:9338-9353). *)
Definition krecv (now : Z) (e : kenv) (p : kpkt) (c : kst) : res error unit * kst :=
  let (g, next) := choose p c in
  if negb (opens g p) then (Err Done, c)
  else if e_dup e then (Err Done, c)
  else if e_empty e then (Err InvalidPacket, c)
  else match e_pid e with
  | Some x => (Err x, c)
  | None =>
      if next then
        if match k_ku c with Some u => negb (u_acked u) | None => false end then (Err KeyUpdate, c)
        else confirm p (mkK (k_open c + 1) (k_seal c + 1) (negb (k_phase c)) (k_conf c) (k_server c) (Some (mkKu (k_open c) (kp_pn p) false (now + e_pto e * 3))))
      else confirm p c
  end.

(** send_single (lib.rs:4436, 4683-4685, 5321-5326), once it has chosen to send a 1-RTT
    packet: [some] says whether a frame was put into it.  [pn] and [done] are what it
    sends. *)
Definition ksend (pn : Z) (some done : bool) (c : kst) : option kpkt * kst :=
  let c := match k_ku c with
           | Some u => mkK (k_open c) (k_seal c) (k_phase c) (k_conf c) (k_server c) (Some (mkKu (u_open u) (u_pn u) true (u_timer u)))
           | None => c
           end in
  (if some then Some (mkKp pn (k_phase c) (Some (k_seal c)) done) else None, c).

(** on_timeout (lib.rs:7097-7110) *)
Definition ktimeout (now : Z) (c : kst) : kst :=
  match k_ku c with
  | Some u => if u_timer u <=? now then mkK (k_open c) (k_seal c) (k_phase c) (k_conf c) (k_server c) None else c
  | None => c
  end.

Inductive kop := KRecv (now : Z) (e : kenv) (p : kpkt) | KSend (pn : Z) (some done : bool) | KTimeout (now : Z).
Inductive kout := KoRecv (r : res error unit) | KoSent (p : option kpkt) | KoUnit.
Definition kstep (o : kop) (c : kst) : kout * kst :=
  match o with
  | KRecv now e p => let (r, c) := krecv now e p c in (KoRecv r, c)
  | KSend pn some done => let (p, c) := ksend pn some done c in (KoSent p, c)
  | KTimeout now => (KoUnit, ktimeout now c)
  end.
