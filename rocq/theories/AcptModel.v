(** Model of the NTCP2 transport as a task that is polled: its listening socket, its sets of
    handshakes and sessions, and who wakes it
    (/repo/emissary-core/src/transport/ntcp2/{mod,listener}.rs,
    /repo/emissary-util/src/runtime/tokio.rs, and the loop of transport/mod.rs that polls it).

    Wakers: a source that is polled and has nothing remembers the task ("armed") and wakes it, once,
    when something arrives; a source that had something does not remember it.  That is the contract
    of futures which tokio's listener and join set follow.  All events go to one task, the router's.
    Handshakes and sessions run as tasks of their own (tokio.rs:243-254), so they end at any time.
    Routers are numbers. *)
From Coq Require Import List NArith Bool.
Import ListNotations.

(** What the operating system hands to [accept]. *)
Inductive conn : Type :=
| FromGlobal (c : N)     (** a connection from a global address, or of IPv6 *)
| FromLocal (c : N)      (** from a local address *)
| AcceptError.           (** [accept] fails *)
(** How a handshake ends. *)
Inductive hres : Type :=
| HSession (inbound : bool) (r : N)
| HDialFailed (r : N)
| HInboundFailed
| HPanic.
(** How a session ends. *)
Inductive sres : Type := SClosed (r : N) | SPanic.

Record state : Type := mkS {
  s_local : bool;              (** [allow_local] *)
  s_queue : list conn;         (** connections not accepted yet *)
  s_qarmed : bool;
  s_running : nat;             (** handshakes going on *)
  s_hdone : list hres;         (** handshakes that ended and were not collected *)
  s_harmed : bool;
  s_hwaker : bool;             (** second field of [TokioJoinSet], for handshakes *)
  s_sdone : list sres;         (** sessions that ended *)
  s_sarmed : bool;
  s_waker : bool;              (** [Ntcp2Transport::waker] *)
  s_awake : bool;              (** the task will be polled *)
  s_over : bool }.             (** the transport, and so the router, has ended *)

(** transport/ntcp2/mod.rs:106-140; a task is polled once when it is started *)
Definition start (allow_local : bool) : state :=
  mkS allow_local [] false 0 [] false false [] false false true false.

Inductive event : Type :=
| EHandshake (c : N)           (** the handshake with an accepted connection is started *)
| EEstablished (inbound : bool) (r : N)
| EFailed (r : N)
| EClosed (r : N)
| EEnd.                        (** [Poll::Ready(None)] *)

(** transport/ntcp2/listener.rs:63-81, tokio.rs:169-188 *)
Inductive lres : Type := LPending | LEnd | LConn (c : N).
Fixpoint listen (allow_local : bool) (q : list conn) : lres * list conn :=
  match q with
  | [] => (LPending, [])
  | FromLocal c :: rest => if allow_local then (LConn c, rest) else listen allow_local rest
  | FromGlobal c :: rest => (LConn c, rest)
  | AcceptError :: rest => (LEnd, rest)
  end.

(** transport/ntcp2/mod.rs:276-337 [poll_next].  The flag tells [Poll::Ready]. *)
Definition handshakes (s : state) : state * list event * bool :=
  match s_running s, s_hdone s with
  | O, [] => (mkS (s_local s) (s_queue s) (s_qarmed s) O [] (s_harmed s) (s_hwaker s) (s_sdone s) (s_sarmed s) true
                  (s_awake s) (s_over s), [], false)
  | n, [] => (mkS (s_local s) (s_queue s) (s_qarmed s) n [] true true (s_sdone s) (s_sarmed s) true
                  (s_awake s) (s_over s), [], false)
  | n, h :: rest =>
      let s1 w o := mkS (s_local s) (s_queue s) (s_qarmed s) n rest (s_harmed s) (s_hwaker s) (s_sdone s) (s_sarmed s)
                        w (s_awake s) o in
      match h with
      | HSession i r => (s1 (s_waker s) (s_over s), [EEstablished i r], true)
      | HDialFailed r => (s1 (s_waker s) (s_over s), [EFailed r], true)
      | HInboundFailed => (s1 true (s_over s), [], false)
      | HPanic => (s1 (s_waker s) true, [EEnd], true)
      end
  end.
Definition poll_next (s : state) : state * list event * bool :=
  match s_sdone s with
  | SClosed r :: rest =>
      (mkS (s_local s) (s_queue s) (s_qarmed s) (s_running s) (s_hdone s) (s_harmed s) (s_hwaker s) rest (s_sarmed s)
           (s_waker s) (s_awake s) (s_over s), [EClosed r], true)
  | SPanic :: rest =>
      (mkS (s_local s) (s_queue s) (s_qarmed s) (s_running s) (s_hdone s) (s_harmed s) (s_hwaker s) rest (s_sarmed s)
           (s_waker s) (s_awake s) true, [EEnd], true)
  | [] =>
      match listen (s_local s) (s_queue s) with
      | (LPending, q) =>
          handshakes (mkS (s_local s) q true (s_running s) (s_hdone s) (s_harmed s) (s_hwaker s) [] true
                          (s_waker s) (s_awake s) (s_over s))
      | (LEnd, q) =>
          (mkS (s_local s) q (s_qarmed s) (s_running s) (s_hdone s) (s_harmed s) (s_hwaker s) [] true
               (s_waker s) (s_awake s) true, [EEnd], true)
      | (LConn c, q) =>
          (** the handshake is pushed, which wakes the task if the set has a waker *)
          let '(s1, e, ready) :=
            handshakes (mkS (s_local s) q (s_qarmed s) (S (s_running s)) (s_hdone s) (s_harmed s) false [] true
                            (s_waker s) (s_awake s || s_hwaker s) (s_over s)) in
          (s1, EHandshake c :: e, ready)
      end
  end.

(** transport/mod.rs:805-904: polled until there is nothing; a new session is accepted or rejected.
    [accept] (ntcp2/mod.rs:225-249) wakes the task if the transport has its waker. *)
Definition answer (s : state) (e : list event) (accept : bool) : state :=
  if accept && existsb (fun x => match x with EEstablished _ _ => true | _ => false end) e then
    mkS (s_local s) (s_queue s) (s_qarmed s) (s_running s) (s_hdone s) (s_harmed s) (s_hwaker s) (s_sdone s) (s_sarmed s)
        false (s_awake s || s_waker s) (s_over s)
  else s.
Fixpoint poll (fuel : nat) (accept : bool) (s : state) : state * list event :=
  match fuel with
  | O => (s, [])
  | S f =>
      let '(s1, e, ready) := poll_next s in
      if negb ready || s_over s1 then (s1, e)
      else let '(s2, e2) := poll f accept (answer s1 e accept) in (s2, e ++ e2)
  end.
(** Each turn of the loop but the last takes something away. *)
Definition enough (s : state) : nat := S (length (s_queue s) + length (s_hdone s) + length (s_sdone s)).

Inductive op : Type :=
| OArrive (c : conn)
| OHandshake (h : hres)        (** a handshake ends *)
| OSession (x : sres)          (** a session ends *)
| ODial                        (** [connect]: ntcp2/mod.rs:209-223 *)
| OOther                       (** something else of the router wakes the task *)
| ORun (accept : bool).        (** the executor polls the task if it is awake *)

Definition step (s : state) (o : op) : state * list event :=
  if s_over s then (s, []) else
  match o with
  | OArrive c =>
      (mkS (s_local s) (s_queue s ++ [c]) false (s_running s) (s_hdone s) (s_harmed s) (s_hwaker s) (s_sdone s) (s_sarmed s)
           (s_waker s) (s_awake s || s_qarmed s) false, [])
  | OHandshake h =>
      match s_running s with
      | O => (s, [])
      | S n =>
          (mkS (s_local s) (s_queue s) (s_qarmed s) n (s_hdone s ++ [h]) false (s_hwaker s) (s_sdone s) (s_sarmed s)
               (s_waker s) (s_awake s || s_harmed s) false, [])
      end
  | OSession x =>
      (mkS (s_local s) (s_queue s) (s_qarmed s) (s_running s) (s_hdone s) (s_harmed s) (s_hwaker s) (s_sdone s ++ [x]) false
           (s_waker s) (s_awake s || s_sarmed s) false, [])
  | ODial =>
      (mkS (s_local s) (s_queue s) (s_qarmed s) (S (s_running s)) (s_hdone s) (s_harmed s) false (s_sdone s) (s_sarmed s)
           false (s_awake s || s_hwaker s || s_waker s) false, [])
  | OOther =>
      (mkS (s_local s) (s_queue s) (s_qarmed s) (s_running s) (s_hdone s) (s_harmed s) (s_hwaker s) (s_sdone s) (s_sarmed s)
           (s_waker s) true false, [])
  | ORun accept =>
      if s_awake s then
        poll (enough s) accept
          (mkS (s_local s) (s_queue s) (s_qarmed s) (s_running s) (s_hdone s) (s_harmed s) (s_hwaker s) (s_sdone s) (s_sarmed s)
               (s_waker s) false false)
      else (s, [])
  end.
Fixpoint run (s : state) (ops : list op) : state * list event :=
  match ops with
  | [] => (s, [])
  | o :: rest => let '(s1, a) := step s o in let '(s2, b) := run s1 rest in (s2, a ++ b)
  end.
