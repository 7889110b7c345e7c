(** Model of the life of SSU2 sessions: the socket's table of connections and its sets of tasks
    (/repo/emissary-core/src/transport/ssu2/socket.rs), the sessions that were ended
    (ssu2/session/terminating.rs) and the part of the transport manager that decides about
    connections and dials (transport/mod.rs).

    The messages of handshakes and of active sessions are Ssu2HsModel's and Ssu2Model's: here a
    handshake just succeeds, for some router, or fails, at any time.  What a terminating session
    does with a packet depends on whether it can be read and has a termination block in it.  SSU2
    is the transport that dials ([transports[0]], transport/mod.rs:752).  The transport manager
    decides about a new connection before anything else happens in the socket (mod.rs:811-862), so
    [unvalidated_sessions] is not kept.  Channels have room.  Routers and connection ids are
    numbers, times are seconds. *)
From Coq Require Import List NArith Bool.
Import ListNotations.
Open Scope N_scope.

Definition mem (x : N) (l : list N) : bool := existsb (N.eqb x) l.
Definition add (x : N) (l : list N) : list N := if mem x l then l else x :: l.
Definition del (x : N) (l : list N) : list N := filter (fun y => negb (x =? y)) l.

(** What the task of a connection is doing. *)
Inductive phase : Type :=
| Incoming                        (** [InboundSsu2Session] *)
| Dialed                          (** [OutboundSsu2Session] *)
| Active (router : N)             (** [Ssu2Session] *)
| Ended (reason since : N).       (** [TerminatingSsu2Session] *)

Record state : Type := mkS {
  s_self : N;                     (** id of this router *)
  s_table : list N;               (** keys of [sessions] *)
  s_tasks : list (N * phase);
  s_routers : list N;             (** [TransportManager::routers] *)
  s_pending : list N }.           (** [TransportManager::pending_connections] *)
(** socket.rs:162-207, transport/mod.rs:520-543 *)
Definition start (self : N) : state := mkS self [] [] [] [].

Fixpoint task (id : N) (l : list (N * phase)) : option phase :=
  match l with [] => None | (k, p) :: r => if k =? id then Some p else task id r end.
Definition drop (id : N) (l : list (N * phase)) : list (N * phase) := filter (fun x => negb (fst x =? id)) l.
Definition with_task (s : state) (id : N) (p : phase) : state :=
  mkS (s_self s) (s_table s) ((id, p) :: drop id (s_tasks s)) (s_routers s) (s_pending s).
Definition without_task (s : state) (id : N) : state :=
  mkS (s_self s) (s_table s) (drop id (s_tasks s)) (s_routers s) (s_pending s).

(** What is left of a packet for a session that was ended (terminating.rs:170-211). *)
Inductive packet : Type :=
| Unreadable                      (** a wrong header, key or block: 171-194 *)
| Readable (termination : bool).  (** has a termination block or not *)

Inductive out : Type :=
| Accepted (id router : N)        (** a session is started and the subsystems hear of it *)
| Rejected (id router : N)
| Failed (router : N)             (** dial failure noted for the router: mod.rs:889-899 *)
| Closed (router : N)             (** the subsystems hear that the session ended *)
| SendTermination (id reason : N)
| Gone (id : N).                  (** the task of an ended session is over *)

Definition TERMINATION_RECEIVED : N := 1.   (** transport/mod.rs:169 *)
Definition TERMINATION_TIMEOUT : N := 60.   (** terminating.rs:53 *)

(** transport/mod.rs:812-862.  [inbound]: the direction.  In the last branch, a dial stays
    pending. *)
Definition established (s : state) (inbound : bool) (id router : N) : state * list out :=
  let reject := (without_task s id, [Rejected id router]) in
  match inbound, mem router (s_pending s) with
  | true, true => reject
  | false, false => reject
  | _, _ =>
      if mem router (s_routers s) then reject
      else
        let s1 := with_task s id (Active router) in
        (mkS (s_self s1) (s_table s1) (s_tasks s1) (add router (s_routers s1)) (del router (s_pending s1)),
         [Accepted id router])
  end.

(** terminating.rs:127-164 *)
Definition terminate (s : state) (id reason now : N) : state * list out :=
  (with_task s id (Ended reason now),
   if negb (reason =? TERMINATION_RECEIVED) then [SendTermination id reason] else []).

Inductive op : Type :=
| ODatagram (id : N) (request : bool)     (** to connection [id], read as a TokenRequest or not *)
| ODial (router id : N)                   (** a subsystem wants a connection; [id] is random *)
| ODone (id router : N)                   (** the handshake succeeded; an inbound one with [router] *)
| OFail (id : N)                          (** the handshake failed or timed out *)
| OEnd (id reason now : N)                (** the active session ended *)
| OPacket (id : N) (p : packet)           (** a packet gets to a session that was ended *)
| OTimer (id now : N).                    (** an ended session is polled *)

Definition step (s : state) (o : op) : state * list out :=
  match o with
  (** socket.rs:211-252 [handle_packet]; what tasks do with packets are other operations.  A packet
      for an id of the table is put into its channel (or is lost if the task is over). *)
  | ODatagram id request =>
      if mem id (s_table s) then (s, [])
      else if request then
        (mkS (s_self s) (add id (s_table s)) ((id, Incoming) :: s_tasks s) (s_routers s) (s_pending s), [])
      else (s, [])
  (** transport/mod.rs:715-752, socket.rs:289-345.  The channel of another task with this id is
      replaced, which ends that task. *)
  | ODial router id =>
      if mem router (s_pending s) then (s, [])
      else (mkS (s_self s) (add id (s_table s)) ((id, Dialed) :: drop id (s_tasks s)) (s_routers s)
                (add router (s_pending s)), [])
  (** socket.rs:443-475.  A dialed session is reported under [OutboundSsu2Session::router_id],
      which socket.rs:318, 331 set to the id of this router (Ssu2HsProps.C65_own_name_refuted). *)
  | ODone id router =>
      match task id (s_tasks s) with
      | Some Incoming => established s true id router
      | Some Dialed => established s false id (s_self s)
      | _ => (s, [])
      end
  (** socket.rs:476-519, transport/mod.rs:889-899 *)
  | OFail id =>
      match task id (s_tasks s) with
      | Some Incoming => (without_task s id, [])
      | Some Dialed =>
          let s1 := without_task s id in
          (mkS (s_self s1) (s_table s1) (s_tasks s1) (s_routers s1) (del (s_self s) (s_pending s1)), [Failed (s_self s)])
      | _ => (s, [])
      end
  (** ssu2/session/active/mod.rs:430-454, socket.rs:422-433: nothing is taken out of the table, and
      the transport manager is not told *)
  | OEnd id reason now =>
      match task id (s_tasks s) with
      | Some (Active router) => let '(s1, o) := terminate s id reason now in (s1, Closed router :: o)
      | _ => (s, [])
      end
  (** terminating.rs:170-211 *)
  | OPacket id p =>
      match task id (s_tasks s) with
      | Some (Ended reason _) =>
          (s, match p with Readable false => [SendTermination id reason] | _ => [] end)
      | _ => (s, [])
      end
  (** terminating.rs:236-245.  The result is not looked at: socket.rs has no loop for
      [terminating_session]. *)
  | OTimer id now =>
      match task id (s_tasks s) with
      | Some (Ended _ since) =>
          if since + TERMINATION_TIMEOUT <=? now then (without_task s id, [Gone id]) else (s, [])
      | _ => (s, [])
      end
  end.

Fixpoint run (s : state) (ops : list op) : state * list out :=
  match ops with
  | [] => (s, [])
  | o :: rest => let '(s1, a) := step s o in let '(s2, b) := run s1 rest in (s2, a ++ b)
  end.
