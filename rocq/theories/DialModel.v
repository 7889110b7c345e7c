(** Dialing routers, and the messages of the tunnel subsystem that wait for it.

    Models /repo/emissary-core/src/transport/mod.rs ([TransportManager], [TransportService]) and
    the connection handling of tunnel/mod.rs ([TunnelManager]).

    Routers are numbers.  Metrics, router info publishing and the choice between several
    transports (there is none: line 752 always dials with the first) are left out. *)
From Coq Require Import List NArith Bool.
From Verif Require Import NMap Bytes.
Import ListNotations.
Open Scope N_scope.

(** ** The transport manager *)
(** [t_known] are the routers of the profile storage, which never forgets one
    (profile.rs:425-467).  [t_dials] and [t_open] are the handshakes and sessions the transports
    are running: what the transports can still report is about one of these. *)
Record tman : Type := mkTman {
  t_known : list N;
  t_pending : list N;      (** [pending_connections] *)
  t_queries : list N;      (** [pending_queries] *)
  t_routers : list N;      (** [routers] *)
  t_dials : list N;
  t_open : list N }.
Definition t_new : tman := mkTman [] [] [] [] [] [].

Inductive side : Type := DirIn | DirOut.
Inductive tout : Type :=
| TConnect (r : N)       (** a handshake is started *)
| TQuery (r : N)         (** the network database is asked *)
| TAccept (d : side) (r : N)      (** a session is started *)
| TReject (d : side) (r : N)      (** a new connection is closed *)
| TReport (r : N).       (** "cannot be reached" is reported to the subsystems *)

(** transport/mod.rs:715-795 [on_dial_router]; [room]: the query could be sent *)
Definition on_dial (s : tman) (room : bool) (r : N) : tman * list tout :=
  if smem r (t_known s) then
    if smem r (t_pending s) then (s, [])
    else (mkTman (t_known s) (sadd r (t_pending s)) (t_queries s) (t_routers s) (r :: t_dials s) (t_open s), [TConnect r])
  else if smem r (t_queries s) then (s, [])
  else if room then
    (mkTman (t_known s) (sadd r (t_pending s)) (sadd r (t_queries s)) (t_routers s) (t_dials s) (t_open s), [TQuery r])
  else (s, []).

(** Remove one occurrence: a handshake or a session ends. *)
Fixpoint remove_one (r : N) (l : list N) : list N :=
  match l with [] => [] | x :: t => if r =? x then t else x :: remove_one r t end.
Definition end_dial (s : tman) (r : N) : tman :=
  mkTman (t_known s) (t_pending s) (t_queries s) (t_routers s) (remove_one r (t_dials s)) (t_open s).

(** transport/mod.rs:812-863 [ConnectionEstablished] *)
Definition on_established (s : tman) (d : side) (r : N) : tman * list tout :=
  match d, smem r (t_pending s) with
  | DirIn, true => (s, [TReject d r])
  | DirOut, false => (s, [TReject d r])
  | _, _ =>
      if smem r (t_routers s) then (s, [TReject d r])
      else (mkTman (t_known s) (sdel r (t_pending s)) (t_queries s) (sadd r (t_routers s)) (t_dials s) (r :: t_open s),
            [TAccept d r])
  end.

Inductive top : Type :=
| DLearn (r : N)                     (** a router info was stored *)
| DDial (room : bool) (r : N)        (** a subsystem asks for a connection: 949-954 *)
| DEstablished (d : side) (r : N)    (** a handshake succeeded *)
| DFailure (r : N)                   (** a handshake failed: 889-899 *)
| DClosed (r : N)                    (** a session ended: 864-888 *)
| DFound (room : bool) (r : N)       (** a router info query succeeded: 913-923 *)
| DNotFound (r : N).                 (** a router info query failed: 924-942 *)

Definition tstep (s : tman) (o : top) : tman * list tout :=
  match o with
  | DLearn r => (mkTman (sadd r (t_known s)) (t_pending s) (t_queries s) (t_routers s) (t_dials s) (t_open s), [])
  | DDial room r => on_dial s room r
  | DEstablished DirIn r => on_established s DirIn r
  | DEstablished DirOut r =>
      if smem r (t_dials s) then on_established (end_dial s r) DirOut r else (s, [])
  | DFailure r =>
      if smem r (t_dials s) then
        (let s := end_dial s r in
         mkTman (t_known s) (sdel r (t_pending s)) (t_queries s) (t_routers s) (t_dials s) (t_open s), [])
      else (s, [])
  | DClosed r =>
      if smem r (t_open s) then
        (mkTman (t_known s) (t_pending s) (t_queries s) (sdel r (t_routers s)) (t_dials s) (remove_one r (t_open s)), [])
      else (s, [])
  | DFound room r =>
      if smem r (t_queries s) then
        on_dial (mkTman (t_known s) (sdel r (t_pending s)) (sdel r (t_queries s)) (t_routers s) (t_dials s) (t_open s)) room r
      else (s, [])
  | DNotFound r =>
      if smem r (t_queries s) then
        (mkTman (t_known s) (sdel r (t_pending s)) (sdel r (t_queries s)) (t_routers s) (t_dials s) (t_open s), [TReport r])
      else (s, [])
  end.

Fixpoint trun (s : tman) (l : list top) : tman * list tout :=
  match l with
  | [] => (s, [])
  | o :: rest => let '(s1, u) := tstep s o in let '(s2, v) := trun s1 rest in (s2, u ++ v)
  end.

(** ** The tunnel manager and its transport service *)
(** A message and the feedback channel of its sender, if any. *)
Definition letter : Type := (bytes * option N)%type.
(** tunnel/mod.rs:83-95 [RouterState] *)
Inductive rstate : Type := Connected | Dialing (pending : list letter).
(** [u_service] are the routers [TransportService] has a channel to (transport/mod.rs:284-285). *)
Record tunm : Type := mkTunm { u_self : N; u_routers : nmap rstate; u_service : list N }.
Definition u_new (self : N) : tunm := mkTunm self [] [].

Inductive uout : Type :=
| UHanded (r : N) (l : letter)   (** put into the channel of a session with [r]; feedback is sent *)
| ULost (r : N) (l : letter)     (** dropped; so is the feedback channel *)
| UDial (r : N).                 (** the transport manager is asked to dial *)

(** transport/mod.rs:334-359 [send]; [room]: the session's channel has room and is open *)
Definition service_send (s : tunm) (room : bool) (r : N) (l : letter) : uout :=
  if smem r (u_service s) && room then UHanded r l else ULost r l.
(** transport/mod.rs:303-323 [connect]; [cmd]: the command channel has room.  The event pushed to
    [pending_events] is never read: [poll_next] (393-411) reads [event_rx] only. *)
Definition service_connect (s : tunm) (cmd : bool) (r : N) : list uout :=
  if smem r (u_service s) then [] else if cmd then [UDial r] else [].

(** tunnel/mod.rs:249-314 [send_message] *)
Definition send_to (s : tunm) (room cmd : bool) (r : N) (l : letter) : tunm * list uout :=
  match nget r (u_routers s) with
  | Some Connected => (s, [service_send s room r l])
  | Some (Dialing p) => (mkTunm (u_self s) (nput r (Dialing (p ++ [l])) (u_routers s)) (u_service s), [])
  | None =>
      if r =? u_self s then (s, [ULost r l])
      else (mkTunm (u_self s) (nput r (Dialing [l]) (u_routers s)) (u_service s), service_connect s cmd r)
  end.

Inductive uop : Type :=
| USend (room cmd : bool) (r : N) (l : letter)
| UEstablished (room : N -> bool) (r : N)   (** [room i]: there is room for the [i]-th message *)
| UClosed (r : N)
| UFailure (r : N).

Fixpoint flush (s : tunm) (room : N -> bool) (i : N) (r : N) (p : list letter) : list uout :=
  match p with
  | [] => []
  | l :: t => service_send s (room i) r l :: flush s room (i + 1) r t
  end.

Definition drop_pending (r : N) (st : option rstate) : list uout :=
  match st with Some (Dialing p) => map (ULost r) p | _ => [] end.

(** transport/mod.rs:396-404 [poll_next] and tunnel/mod.rs:320-383 *)
Definition ustep (s : tunm) (o : uop) : tunm * list uout :=
  match o with
  | USend room cmd r l => send_to s room cmd r l
  | UEstablished room r =>
      let s1 := mkTunm (u_self s) (nput r Connected (u_routers s)) (sadd r (u_service s)) in
      (s1, match nget r (u_routers s) with Some (Dialing p) => flush s1 room 0 r p | _ => [] end)
  | UClosed r =>
      (mkTunm (u_self s) (ndel r (u_routers s)) (sdel r (u_service s)), drop_pending r (nget r (u_routers s)))
  | UFailure r =>
      (mkTunm (u_self s) (ndel r (u_routers s)) (u_service s), drop_pending r (nget r (u_routers s)))
  end.

Fixpoint urun (s : tunm) (l : list uop) : tunm * list uout :=
  match l with
  | [] => (s, [])
  | o :: rest => let '(s1, u) := ustep s o in let '(s2, v) := urun s1 rest in (s2, u ++ v)
  end.
