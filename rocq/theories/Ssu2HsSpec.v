(** What the SSU2 handshake properties talk about. *)
From Coq Require Import List NArith Bool.
From Verif Require Import Bytes NMap PrimModel NoiseModel Ntcp2Model Ssu2Model HandshakeModel HandshakeSpec Ssu2HsModel.
Import ListNotations.
Open Scope N_scope.

(** The key stream has the length that is asked for, and consists of bytes. *)
Definition stream_ok (ks : list N -> list N -> nat -> list N) : Prop :=
  forall k iv n, length (ks k iv n) = n /\ Forall (fun b => b < 256) (ks k iv n).

(** What a router draws at random for a message: a 32-bit packet number and 1 to 135 bytes of
    padding. *)
Definition rnd_ok (r : rnd) : Prop :=
  r_num r < 2 ^ 32 /\ (1 <= length (r_pad r) <= 135)%nat /\ r_token r < 2 ^ 64.
(** An IPv4 or IPv6 socket address. *)
Definition addr_ok (a : addr) : Prop :=
  (length (fst a) = 4 \/ length (fst a) = 16)%nat /\ snd a < 65536.

(** The router info [r] publishes the keys of the socket [u], and the address [a]. *)
Definition publishes (c : hops) (r : router_info) (u : usock) (a : addr) : Prop :=
  ssu2_intro_key r = Some (us_intro u) /\
  ssu2_static_key r = Some (x_pub (h_ops c) (us_static u)) /\
  exists ra, rf_ssu2 r = Some ra /\ ra_socket ra = Some a.

(** The keys a negotiated session sends with, and those it receives with ([u] is the socket the
    session belongs to, whose intro key unmasks what arrives). *)
Definition send_keys (x : sctx) : skeys := Ssu2Model.mkKeys (sc_intro x) (fst (sc_send x)) (snd (sc_send x)).
Definition recv_keys (u : usock) (x : sctx) : skeys :=
  Ssu2Model.mkKeys (us_intro u) (fst (sc_recv x)) (snd (sc_recv x)).
(** Session [id] of the socket is negotiated. *)
Definition active (u : usock) (id : N) (x : sctx) : Prop := nget id (us_sessions u) = Some (SlotActive x).

(** The datagram [p], read with the socket's own intro key, looks like a packet for one of its
    sessions or like a message, although it is neither: four of the 256 values of one byte
    together with a version byte, or two of the 256 values on their own. *)
Definition own_view (ks : list N -> list N -> nat -> list N) (u : usock) (p : list N) : list N :=
  let iv1 := firstn 12 (skipn (length p - 24) p) in
  let iv2 := skipn (length p - 12) p in
  xor8 (ks (us_intro u) iv1 8%nat) (firstn 8 p) ++ xor8 (ks (us_intro u) iv2 8%nat) (skipn 8 p).
Definition mistaken (ks : list N -> list N -> nat -> list N) (u : usock) (p : list N) : Prop :=
  let v := own_view ks u p in
  nget (le_val (firstn 8 v)) (us_sessions u) <> None \/
  In (nth 12 v 0) [2; 6] \/
  nth 13 v 0 = 2 /\ In (nth 12 v 0) [0; 1; 9; 10].

(** ** Runs of a socket *)
Inductive uop : Type :=
| UDatagram (r : rnd) (now : N) (from : addr) (p : list N)
| UConnect (router : router_info) (src dst : N) (r : rnd) (now : N)
| UTimer (id now : N).
Section Run.
Variables (c : hops) (ks : list N -> list N -> nat -> list N).
Definition ustep_of (u : usock) (o : uop) : ustep :=
  match o with
  | UDatagram r now a p => on_datagram c ks u r now a p
  | UConnect router src dst r now => connect c ks u router src dst r now
  | UTimer id now => on_timer u id now
  end.
(** [urun u ops u' sent events]: the operations take the socket from [u] to [u'], without a
    panic. *)
Inductive urun : usock -> list uop -> usock -> list (addr * list N) -> list uevent -> Prop :=
| urun_nil u : urun u [] u [] []
| urun_cons u o u1 sent ev ops u2 sent' ev' :
    ustep_of u o = Some (u1, sent, ev) -> urun u1 ops u2 sent' ev' ->
    urun u (o :: ops) u2 (sent ++ sent') (ev ++ ev').
End Run.
(** A socket that has just been bound. *)
Definition fresh (u : usock) : Prop := us_sessions u = [] /\ us_outbound u = [].

(** Events of a retransmission timer that is polled at these times. *)
Fixpoint rtx_events (r : rtx) (times : list N) : list (N * rtx_event) :=
  match times with
  | [] => []
  | t :: ts => let '(r', e) := rtx_poll r t in (t, e) :: rtx_events r' ts
  end.
(** Times at which something happens, never going back, from [start] on. *)
Fixpoint times_from (start : N) (times : list N) : Prop :=
  match times with [] => True | t :: ts => start <= t /\ times_from t ts end.
(** ... and never more than [gap] apart. *)
Fixpoint every (gap start : N) (times : list N) : Prop :=
  match times with [] => True | t :: ts => start <= t <= start + gap /\ every gap t ts end.
