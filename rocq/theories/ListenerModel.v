(** Model of /repo/emissary-core/src/sam/protocol/streaming/listener.rs [StreamListener].
    A SAM socket and its routing path handle are an identifier; TCP connections to a forwarded
    port and the rejection message are not modelled. *)
From Coq Require Import List NArith Bool.
Import ListNotations.
Open Scope N_scope.

(** listener.rs:51-82 [ListenerKind] *)
Inductive listener_kind : Type :=
| LEphemeral (socket : N) (silent : bool)
| LPersistent (socket : N) (port : N) (silent : bool).

(** listener.rs:174-218 [ListenerState], 139-151 [PendingListenerKind] *)
Inductive listener_state : Type :=
| Uninitialized
| InitEphemeral
| InitPersistent (port : N) (silent : bool)
| Ephemeral (sockets : list (N * bool))
| PersistentL (socket : N) (port : N) (silent : bool)
| PoisonedL.

(** listener.rs:240-252: the state and the sockets whose status message is being written. *)
Record listener : Type := mkListener { l_state : listener_state; l_pending : list N }.
(** listener.rs:256-263 *)
Definition listener_new : listener := mkListener Uninitialized [].

(** listener.rs:98-136 [SocketKind] handed out by [pop_socket]; [PopPanic]: the [expect]. *)
Inductive popped : Type :=
| PopAccept (socket : N) (silent : bool)
| PopForward (port : N) (silent : bool)
| PopNone
| PopPanic.

(** listener.rs:273-321 [pop_socket] *)
Definition pop_socket (l : listener) : listener * popped :=
  match l_state l with
  | Ephemeral sockets =>
      match sockets with
      | [] => (l, PopPanic)
      | (s, silent) :: rest =>
          (mkListener (match rest with [] => Uninitialized | _ => Ephemeral rest end) (l_pending l),
           PopAccept s silent)
      end
  | PersistentL _ port silent => (l, PopForward port silent)
  | _ => (l, PopNone)
  end.

(** listener.rs:330-372 [validate_listener]: is the kind allowed now? *)
Definition validate_listener (s : listener_state) (k : listener_kind) : bool :=
  match s, k with
  | (Ephemeral _ | Uninitialized | InitEphemeral), LEphemeral _ _ => true
  | Uninitialized, LPersistent _ _ _ => true
  | _, _ => false
  end.

(** listener.rs:397-557 [register_listener]: [RegMismatch] is the error, [RegPanic] the
    [todo!]; [RegOk now] tells whether the listener is usable at once. *)
Inductive registered : Type := RegOk (now : bool) | RegMismatch | RegPanic.
Definition register_listener (l : listener) (k : listener_kind) : listener * registered :=
  if validate_listener (l_state l) k then
    match l_state l, k with
    | Uninitialized, LEphemeral s silent =>
        if silent then (mkListener (Ephemeral [(s, silent)]) (l_pending l), RegOk true)
        else (mkListener InitEphemeral (l_pending l ++ [s]), RegOk false)
    | InitEphemeral, LEphemeral s silent =>
        if silent then (mkListener (Ephemeral [(s, silent)]) (l_pending l), RegOk true)
        else (mkListener InitEphemeral (l_pending l ++ [s]), RegOk false)
    | Ephemeral sockets, LEphemeral s silent =>
        if silent then (mkListener (Ephemeral (sockets ++ [(s, silent)])) (l_pending l), RegOk true)
        else (mkListener (Ephemeral sockets) (l_pending l ++ [s]), RegOk false)
    | Uninitialized, LPersistent s port silent =>
        (mkListener (InitPersistent port silent) (l_pending l ++ [s]), RegOk false)
    | _, _ => (l, RegPanic)
    end
  else (l, RegMismatch).

(** listener.rs:563-629 [poll_next], when the write of the status message to [s] ended, with
    success or not; the pending sockets are polled in any order.  [PollInvalid]: the
    [debug_assert!(false)] branch, which leaves the state poisoned. *)
Inductive polled : Type := PollReady | PollNothing | PollInvalid.
Definition status_written (l : listener) (s : N) (ok : bool) : listener * polled :=
  if existsb (N.eqb s) (l_pending l) then
    let pending := filter (fun x => negb (x =? s)) (l_pending l) in
    if ok then
      match l_state l with
      | Uninitialized => (mkListener (Ephemeral [(s, false)]) pending, PollReady)
      | Ephemeral sockets => (mkListener (Ephemeral (sockets ++ [(s, false)])) pending, PollReady)
      | InitEphemeral => (mkListener (Ephemeral [(s, false)]) pending, PollReady)
      | InitPersistent port silent => (mkListener (PersistentL s port silent) pending, PollReady)
      | PersistentL _ _ _ | PoisonedL => (mkListener PoisonedL pending, PollInvalid)
      end
    else (mkListener (l_state l) pending, PollNothing)
  else (l, PollNothing).

(** Everything that can happen to a listener. *)
Inductive listener_op : Type :=
| Register (k : listener_kind)
| Pop
| Written (socket : N) (ok : bool).
Inductive listener_out : Type :=
| ORegister (k : listener_kind) (r : registered)
| OPop (p : popped)
| OPoll (socket : N) (p : polled).
Definition listener_step (l : listener) (o : listener_op) : listener * listener_out :=
  match o with
  | Register k => let '(l', r) := register_listener l k in (l', ORegister k r)
  | Pop => let '(l', p) := pop_socket l in (l', OPop p)
  | Written s ok => let '(l', p) := status_written l s ok in (l', OPoll s p)
  end.
Fixpoint listener_run (l : listener) (ops : list listener_op) : listener * list listener_out :=
  match ops with
  | [] => (l, [])
  | o :: t =>
      let '(l', out) := listener_step l o in
      let '(l'', outs) := listener_run l' t in (l'', out :: outs)
  end.
