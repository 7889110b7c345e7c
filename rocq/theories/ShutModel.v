(** * Model of how the router shuts down, what it tells its user while it runs, and which
      subsystem gets a message.

    Sources (all under /repo):
    - emissary-core/src/shutdown.rs                  ShutdownHandle, ShutdownContext
    - emissary-util/src/runtime/tokio.rs:232-270     the join set the context waits on
    - emissary-core/src/tunnel/transit/mod.rs:168-205, 775-885   the one holder of a handle
    - emissary-core/src/router/mod.rs:59-61, 422-443, 462-489    Router::shutdown, Router::poll
    - emissary-core/src/events.rs                    EventHandle, EventManager, EventSubscriber
    - emissary-core/src/subsystem.rs:129-226, i2np/mod.rs:473-480   SubsystemHandle

    Simplifications: tracing and metrics are left out.  A oneshot channel is the state of
    the handle that holds its receiver.  A task spawned on the join set runs when the
    history says so ([WFinish]).  The channels are queues of at most 64 entries. *)
From Coq Require Import List NArith Bool Arith.
From Verif Require Import NMap.
Import ListNotations.
Open Scope nat_scope.

(** ** The shutdown context and its handles *)

(** What has become of a ShutdownHandle (shutdown.rs:37-47): nothing yet; the context's
    sender is waiting in its channel; polled and holding the sender ([shutting_down] is
    set, [tx] is [Some]); [shutdown()] called on it ([tx] taken); dropped. *)
Inductive hst := HIdle | HSent | HTold | HAnswered | HDropped.

(** ShutdownContext (shutdown.rs:85-97) with the tokio join set it uses (tokio.rs:232).
    [c_hs]      every handle ever issued, by number (the far ends of the channels)
    [c_handles] the handles whose sender is still in [handles]
    [c_futs]    spawned tasks that have not finished, by handle number
    [c_fin]     finished tasks the join set has not given out
    [c_sd]      [shutting_down]
    [c_waker]   is [waker] set
    [c_pwaker]  is the waker of TokioJoinSet (its field 1) set
    [c_jwaker]  is the poller registered with tokio's own join set *)
Record ctx := mkCtx {
  c_hs : list hst;
  c_handles : list nat;
  c_futs : list nat;
  c_fin : list nat;
  c_sd : bool;
  c_waker : bool;
  c_pwaker : bool;
  c_jwaker : bool }.

(** ShutdownContext::new (shutdown.rs:101-108) *)
Definition ctx0 : ctx := mkCtx [] [] [] [] false false false false.

(** The state of handle [i]; a number that was never issued is no handle at all. *)
Definition hget (i : nat) (c : ctx) : hst := nth i (c_hs c) HDropped.

(** Replace entry [i] of a list. *)
Fixpoint upd {A} (i : nat) (x : A) (l : list A) : list A :=
  match l, i with
  | [], _ => []
  | _ :: t, O => x :: t
  | y :: t, S j => y :: upd j x t
  end.

Definition hset (i : nat) (x : hst) (c : ctx) : ctx :=
  mkCtx (upd i x (c_hs c)) (c_handles c) (c_futs c) (c_fin c) (c_sd c) (c_waker c)
        (c_pwaker c) (c_jwaker c).

(** ShutdownContext::handle (shutdown.rs:111-120) *)
Definition new_handle (c : ctx) : ctx * nat :=
  (mkCtx (c_hs c ++ [HIdle]) (c_handles c ++ [length (c_hs c)]) (c_futs c) (c_fin c)
         (c_sd c) (c_waker c) (c_pwaker c) (c_jwaker c), length (c_hs c)).

(** One round of the loop of ShutdownContext::shutdown (shutdown.rs:126-136): the sender
    goes through if the handle still has its receiver, and then a task waiting for the
    answer is spawned (tokio.rs:243-254), which wakes whoever polled the join set. The
    second component says whether it woke somebody. *)
Definition notify (cw : ctx * bool) (i : nat) : ctx * bool :=
  let (c, w) := cw in
  match hget i c with
  | HIdle =>
      (mkCtx (upd i HSent (c_hs c)) (c_handles c) (c_futs c ++ [i]) (c_fin c) (c_sd c)
             (c_waker c) false (c_jwaker c), w || c_pwaker c)
  | _ => (c, w)
  end.

(** ShutdownContext::shutdown (shutdown.rs:123-141) *)
Definition ctx_shutdown (c : ctx) : ctx * bool :=
  let c1 := mkCtx (c_hs c) [] (c_futs c) (c_fin c) true (c_waker c) (c_pwaker c)
                  (c_jwaker c) in
  let (c2, w) := fold_left notify (c_handles c) (c1, false) in
  (mkCtx (c_hs c2) (c_handles c2) (c_futs c2) (c_fin c2) (c_sd c2) false (c_pwaker c2)
         (c_jwaker c2), w || c_waker c2).

(** ShutdownContext::poll (shutdown.rs:147-162).  The join set gives out every finished
    task and then says pending, remembering the waker (tokio.rs:257-269); tokio's join set
    registers the poller only if a task is left.  The tasks return unit and do not panic,
    so the [Ready(None)] arm is never taken. *)
Definition ctx_poll (c : ctx) : ctx * bool :=
  let busy := match c_futs c with [] => false | _ => true end in
  if negb busy && c_sd c then
    (mkCtx (c_hs c) (c_handles c) (c_futs c) [] (c_sd c) (c_waker c) true
           (c_jwaker c), true)
  else
    (mkCtx (c_hs c) (c_handles c) (c_futs c) [] (c_sd c) true true
           (busy || c_jwaker c), false).

(** ShutdownHandle::poll (shutdown.rs:66-81).  The context outlives its handles here: its
    being dropped, which the handle ignores, is not modelled. *)
Definition handle_poll (i : nat) (c : ctx) : ctx * bool :=
  match hget i c with
  | HSent => (hset i HTold c, true)
  | _ => (c, false)
  end.

(** ShutdownHandle::shutdown (shutdown.rs:56-60) *)
Definition handle_answer (i : nat) (c : ctx) : ctx :=
  match hget i c with
  | HTold => hset i HAnswered c
  | _ => c
  end.

(** Dropping a handle closes its channel; a sender waiting in it, or held by it, goes with
    it. *)
Definition handle_drop (i : nat) (c : ctx) : ctx := hset i HDropped c.

(** The spawned task of handle [i] (shutdown.rs:132-134) gets to run: it ends when the
    answer was sent or the sender was dropped.  Its end wakes whoever tokio's join set has
    registered. *)
Definition task_run (i : nat) (c : ctx) : ctx * bool :=
  if existsb (Nat.eqb i) (c_futs c) then
    match hget i c with
    | HAnswered | HDropped =>
        (mkCtx (c_hs c) (c_handles c) (filter (fun j => negb (Nat.eqb i j)) (c_futs c))
               (c_fin c ++ [i]) (c_sd c) (c_waker c) (c_pwaker c) false, c_jwaker c)
    | _ => (c, false)
    end
  else (c, false).

Inductive wop :=
| WHandle              (* ShutdownContext::handle *)
| WShut                (* ShutdownContext::shutdown *)
| WPoll                (* the context is polled *)
| WHPoll (i : nat)     (* handle i is polled *)
| WAnswer (i : nat)    (* ShutdownHandle::shutdown on handle i *)
| WDrop (i : nat)      (* handle i is dropped *)
| WFinish (i : nat).   (* the task waiting for handle i runs *)

(** What a call returned, and whether it woke the task that polls the context. *)
Inductive wout := OHandle (i : nat) | ONone (woke : bool) | OReady | OPending.

Definition wstep (c : ctx) (o : wop) : ctx * wout :=
  match o with
  | WHandle => let (c', i) := new_handle c in (c', OHandle i)
  | WShut => let (c', w) := ctx_shutdown c in (c', ONone w)
  | WPoll => let (c', r) := ctx_poll c in (c', if r then OReady else OPending)
  | WHPoll i => let (c', r) := handle_poll i c in (c', if r then OReady else OPending)
  | WAnswer i => (handle_answer i c, ONone false)
  | WDrop i => (handle_drop i c, ONone false)
  | WFinish i => let (c', w) := task_run i c in (c', ONone w)
  end.

Fixpoint wrun (c : ctx) (os : list wop) : ctx * list (wop * wout) :=
  match os with
  | [] => (c, [])
  | o :: t =>
      let (c1, r) := wstep c o in
      let (c2, tr) := wrun c1 t in
      (c2, (o, r) :: tr)
  end.

(** ** What the user is told *)

(** The channels between subsystems, manager and subscriber hold 64 entries
    (events.rs:310-311). *)
Definition CAP : nat := 64.

(** The counters are [usize]: adding wraps (events.rs:128-156). *)
Definition wrap (n : N) : N := (n mod 2 ^ 64)%N.

Section Events.
(** Names and addresses are strings; nothing here looks into them. *)
Context {name : Type}.

(** SubsystemEvent (events.rs:40-55) *)
Inductive started := SClient (n : name) | SServer (n a : name).

(** The counters shared by every handle (events.rs:70-86) *)
Record counters := mkCnt {
  n_transit : N; n_transit_bw : N; n_conn : N; n_bw : N; n_built : N; n_failed : N }.

(** Event (events.rs:240-264) *)
Inductive event :=
| RouterStatus (clients : list name) (servers : list (name * name)) (k : counters)
| ShuttingDown
| ShutDown.

Inductive estate := Active | Closing | Closed.

(** EventManager (events.rs:279-303), the counters of its handle, and the queue of the
    subscriber *)
Record em := mkEm {
  e_rx : list started;
  e_clients : list name;
  e_servers : list (name * name);
  e_state : estate;
  e_status : list event;
  e_cnt : counters }.

(** EventManager::new (events.rs:307-351) *)
Definition em0 : em := mkEm [] [] [] Active [] (mkCnt 0 0 0 0 0 0).

(** try_send on a channel of [CAP] entries *)
Definition push {A} (x : A) (q : list A) : list A * bool :=
  if length q <? CAP then (q ++ [x], true) else (q, false).

(** EventManager::shutdown (events.rs:354-368) *)
Definition em_shutdown (e : em) : em * bool :=
  match e_state e with
  | Active =>
      let (q, b) := push ShuttingDown (e_status e) in
      (mkEm (e_rx e) (e_clients e) (e_servers e) Closing q (e_cnt e), b)
  | Closing =>
      let (q, b) := push ShutDown (e_status e) in
      (mkEm (e_rx e) (e_clients e) (e_servers e) Closed q (e_cnt e), b)
  | Closed => (e, true)
  end.

(** The loop of EventManager::poll (events.rs:375-386), over what waits in the channel *)
Fixpoint drain (q : list started) (cs : list name) (ss : list (name * name))
  : list name * list (name * name) :=
  match q with
  | [] => (cs, ss)
  | SClient n :: t => drain t (cs ++ [n]) ss
  | SServer n a :: t => drain t cs (ss ++ [(n, a)])
  end.

(** EventManager::poll (events.rs:374-420); [fired] says whether the timer is ready.  The
    manager holds a sender of its own channel, so the channel never closes.  The second
    component says whether a status that was due got into the subscriber's queue. *)
Definition em_poll (fired : bool) (e : em) : em * bool :=
  let (cs, ss) := drain (e_rx e) (e_clients e) (e_servers e) in
  if fired then
    let (q, b) := push (RouterStatus cs ss (e_cnt e)) (e_status e) in
    (mkEm [] [] [] (e_state e) q (e_cnt e), b)
  else (mkEm [] cs ss (e_state e) (e_status e) (e_cnt e), true).

(** EventSubscriber::router_status (events.rs:431-433) *)
Definition em_recv (e : em) : em * option event :=
  match e_status e with
  | [] => (e, None)
  | x :: t =>
      (mkEm (e_rx e) (e_clients e) (e_servers e) (e_state e) t (e_cnt e), Some x)
  end.

Inductive eop :=
| EStart (x : started)      (* {client,server}_destination_started *)
| ETransit (n : N)          (* num_transit_tunnels *)
| ETransitBw (n : N)        (* transit_tunnel_bandwidth *)
| EConn (n : N)             (* num_connected_routers *)
| EBw (n : N)               (* transport_bandwidth *)
| ETunnels (b f : N)        (* tunnel_status *)
| EPoll (fired : bool)      (* the manager is polled *)
| EShut                     (* EventManager::shutdown *)
| ERecv.                    (* EventSubscriber::router_status *)

(** [Kept b]: whether what was to be queued got queued; [Got x]: what the subscriber got *)
Inductive eout := Kept (b : bool) | Got (x : option event).

(** EventHandle's setters (events.rs:120-156) *)
Definition set_cnt (e : em) (k : counters) : em :=
  mkEm (e_rx e) (e_clients e) (e_servers e) (e_state e) (e_status e) k.

Definition estep (e : em) (o : eop) : em * eout :=
  let k := e_cnt e in
  match o with
  | EStart x =>
      (* events.rs:159-168 *)
      let (q, b) := push x (e_rx e) in
      (mkEm q (e_clients e) (e_servers e) (e_state e) (e_status e) k, Kept b)
  | ETransit n =>
      (set_cnt e (mkCnt n (n_transit_bw k) (n_conn k) (n_bw k) (n_built k) (n_failed k)),
       Kept true)
  | ETransitBw n =>
      (set_cnt e (mkCnt (n_transit k) (wrap (n_transit_bw k + n)) (n_conn k) (n_bw k)
                        (n_built k) (n_failed k)), Kept true)
  | EConn n =>
      (set_cnt e (mkCnt (n_transit k) (n_transit_bw k) n (n_bw k) (n_built k)
                        (n_failed k)), Kept true)
  | EBw n =>
      (set_cnt e (mkCnt (n_transit k) (n_transit_bw k) (n_conn k) (wrap (n_bw k + n))
                        (n_built k) (n_failed k)), Kept true)
  | ETunnels b f =>
      (set_cnt e (mkCnt (n_transit k) (n_transit_bw k) (n_conn k) (n_bw k)
                        (wrap (n_built k + b)) (wrap (n_failed k + f))), Kept true)
  | EPoll fired => let (e', b) := em_poll fired e in (e', Kept b)
  | EShut => let (e', b) := em_shutdown e in (e', Kept b)
  | ERecv => let (e', x) := em_recv e in (e', Got x)
  end.

Fixpoint erun (e : em) (os : list eop) : em * list (eop * eout) :=
  match os with
  | [] => (e, [])
  | o :: t =>
      let (e1, r) := estep e o in
      let (e2, tr) := erun e1 t in
      (e2, (o, r) :: tr)
  end.

(** ** The router *)

(** TransitTunnelManager as far as shutting down goes (transit/mod.rs:97-130): is its task
    still running, and the tunnels of its join set. *)
Record transit := mkTm { t_alive : bool; t_tunnels : list N }.

(** Router (router/mod.rs:118-143): context, manager and events, how often shutdown was
    asked for, and the transit tunnel manager, whose handle is handle 0
    (router/mod.rs:240-241, 304). *)
Record router := mkR {
  r_ctx : ctx; r_em : em; r_count : nat; r_tm : transit }.

(** Router::new (router/mod.rs:223-241): the context issues one handle. *)
Definition router0 : router := mkR (fst (new_handle ctx0)) em0 0 (mkTm true []).

(** IMMEDIATE_SHUTDOWN_COUNT (router/mod.rs:61) *)
Definition IMMEDIATE : nat := 2.

(** Router::shutdown (router/mod.rs:425-443) *)
Definition r_shutdown (r : router) : router :=
  let n := S (r_count r) in
  if Nat.eqb n 1 then
    mkR (fst (ctx_shutdown (r_ctx r))) (fst (em_shutdown (r_em r))) n (r_tm r)
  else mkR (r_ctx r) (r_em r) n (r_tm r).

(** Router::poll (router/mod.rs:465-488); [fired] is the event timer, [tdone] whether the
    transport manager has ended.  The event manager's poll is never ready. *)
Definition r_poll (fired tdone : bool) (r : router) : router * bool :=
  if IMMEDIATE <=? r_count r then (r, true)
  else
    let (c, ready) := ctx_poll (r_ctx r) in
    if ready then (mkR c (r_em r) (r_count r) (r_tm r), true)
    else (mkR c (fst (em_poll fired (r_em r))) (r_count r) (r_tm r), tdone).

(** ShutdownHandle::is_shutting_down (shutdown.rs:51-53) *)
Definition is_shutting_down (c : ctx) : bool :=
  match hget 0 c with HTold | HAnswered => true | _ => false end.

(** can_accept_transit_tunnel (transit/mod.rs:174-205); [None]: transit tunnels are
    disabled, [Some None]: no limit, [Some (Some m)]: at most [m]. *)
Definition can_accept (conf : option (option nat)) (c : ctx) (tunnels : list N) : bool :=
  if is_shutting_down c then false
  else match conf with
       | None => false
       | Some None => true
       | Some (Some m) => negb (m <=? length tunnels)
       end.

(** The message loop of TransitTunnelManager::poll (transit/mod.rs:779-821), over build
    requests that are in order otherwise: the accepted ones start a tunnel. *)
Fixpoint accept_all (conf : option (option nat)) (c : ctx) (reqs tunnels : list N)
  : list N * list N :=
  match reqs with
  | [] => (tunnels, [])
  | id :: t =>
      if can_accept conf c tunnels then
        let (ts, acc) := accept_all conf c t (tunnels ++ [id]) in (ts, id :: acc)
      else accept_all conf c t tunnels
  end.

(** Remove the first occurrence. *)
Fixpoint del1 (x : N) (l : list N) : list N :=
  match l with
  | [] => []
  | y :: t => if N.eqb x y then t else y :: del1 x t
  end.

(** The second loop of TransitTunnelManager::poll (transit/mod.rs:840-878), over the
    tunnels that have expired or failed to start, in the order the join set gives them
    out.  [Some rest]: the manager goes on with [rest]; [None]: the last one ended while
    shutting down. The second component lists those taken. *)
Fixpoint expire_all (sd : bool) (ends tunnels : list N) : option (list N) * list N :=
  match ends with
  | [] => (Some tunnels, [])
  | id :: t =>
      if existsb (N.eqb id) tunnels then
        let ts := del1 id tunnels in
        match ts, sd with
        | [], true => (None, [id])
        | _, _ => let (r, l) := expire_all sd t ts in (r, id :: l)
        end
      else expire_all sd t tunnels
  end.

(** The task has ended: what it held is dropped. *)
Definition tm_end (c : ctx) : ctx := handle_drop 0 c.

(** TransitTunnelManager::poll (transit/mod.rs:778-885).  Gives the router, the tunnels
    accepted and the tunnels that ended. *)
Definition tm_poll (conf : option (option nat)) (reqs ends : list N) (r : router)
  : router * (list N * list N) :=
  if negb (t_alive (r_tm r)) then (r, ([], []))
  else
    let (ts, acc) := accept_all conf (r_ctx r) reqs (t_tunnels (r_tm r)) in
    let (c, told) := handle_poll 0 (r_ctx r) in
    match told, ts with
    | true, [] =>
        (mkR (tm_end (handle_answer 0 c)) (r_em r) (r_count r) (mkTm false []), (acc, []))
    | _, _ =>
        let (rest, l) := expire_all (is_shutting_down c) ends ts in
        match rest with
        | Some ts' => (mkR c (r_em r) (r_count r) (mkTm true ts'), (acc, l))
        | None =>
            (mkR (tm_end (handle_answer 0 c)) (r_em r) (r_count r) (mkTm false []),
             (acc, l))
        end
    end.

Inductive rop :=
| RShutdown                                   (* Router::shutdown *)
| RPoll (fired tdone : bool)                  (* the router is polled *)
| RTransit (reqs ends : list N)               (* the transit tunnel manager is polled *)
| RGone                                       (* the manager's task ends otherwise *)
| RFinish                                     (* the task waiting for its answer runs *)
| REvent (x : started)                        (* a destination was started *)
| RRecv.                                      (* EventSubscriber::router_status *)

Inductive rout :=
| RNone | RReady (b : bool) | RTunnels (acc ends : list N) | RGot (x : option event).

Definition rstep (conf : option (option nat)) (r : router) (o : rop) : router * rout :=
  match o with
  | RShutdown => (r_shutdown r, RNone)
  | RPoll fired tdone => let (r', b) := r_poll fired tdone r in (r', RReady b)
  | RTransit reqs ends =>
      let (r', p) := tm_poll conf reqs ends r in (r', RTunnels (fst p) (snd p))
  | RGone =>
      (* its channel closed or a tunnel's task panicked (transit/mod.rs:781, 841-843) *)
      (mkR (tm_end (r_ctx r)) (r_em r) (r_count r) (mkTm false []), RNone)
  | RFinish =>
      (mkR (fst (task_run 0 (r_ctx r))) (r_em r) (r_count r) (r_tm r), RNone)
  | REvent x => (mkR (r_ctx r) (fst (estep (r_em r) (EStart x))) (r_count r) (r_tm r), RNone)
  | RRecv =>
      let (e, x) := em_recv (r_em r) in (mkR (r_ctx r) e (r_count r) (r_tm r), RGot x)
  end.

Fixpoint rrun (conf : option (option nat)) (r : router) (os : list rop)
  : router * list (rop * rout) :=
  match os with
  | [] => (r, [])
  | o :: t =>
      let (r1, x) := rstep conf r o in
      let (r2, tr) := rrun conf r1 t in
      (r2, (o, x) :: tr)
  end.

End Events.
Arguments started : clear implicits.
Arguments event : clear implicits.
Arguments em : clear implicits.
Arguments eop : clear implicits.
Arguments eout : clear implicits.
Arguments router : clear implicits.
Arguments rop : clear implicits.
Arguments rout : clear implicits.

(** ** Which subsystem gets a message *)

Inductive mtype :=
| DatabaseStore | DatabaseLookup | DatabaseSearchReply | DeliveryStatus | Garlic
| TunnelData | TunnelGateway | Data | TunnelBuild | TunnelBuildReply
| VariableTunnelBuild | VariableTunnelBuildReply | ShortTunnelBuild | OutboundTunnelBuildReply.

Section Dispatch.
(** Router identities, message bodies *)
Context {rid body : Type}.

(** Message::destination (i2np/mod.rs:473-480) *)
Definition to_netdb (t : mtype) : bool :=
  match t with
  | DatabaseStore | DatabaseLookup | DatabaseSearchReply => true
  | _ => false
  end.

(** InnerSubsystemEvent (subsystem.rs:56-85) without the command channel *)
Inductive sevent :=
| Established (r : rid) | ClosedConn (r : rid) | Failure (r : rid)
| Messages (l : list (rid * (mtype * body))).

(** One registered subsystem: what waits in its channel, how many entries that takes, and
    whether the subsystem still listens. *)
Record sub := mkSub { s_q : list sevent; s_cap : nat; s_open : bool }.

(** try_send *)
Definition try_send (x : sevent) (s : sub) : sub :=
  if s_open s && (length (s_q s) <? s_cap s) then mkSub (s_q s ++ [x]) (s_cap s) (s_open s)
  else s.

(** send().await once there is room (the caller waits until then); a closed channel eats
    the event *)
Definition send (x : sevent) (s : sub) : sub :=
  if s_open s then mkSub (s_q s ++ [x]) (s_cap s) (s_open s) else s.

(** report_connection_* (subsystem.rs:148-181) *)
Definition report (x : sevent) (subs : list sub) : list sub := map (send x) subs.

(** The batch for one subsystem, if any (subsystem.rs:200-222); [None]: the index is out
    of bounds and the task panics. *)
Definition hand (i : nat) (l : list (rid * (mtype * body))) (subs : list sub)
  : option (list sub) :=
  match l with
  | [] => Some subs
  | _ =>
      match nth_error subs i with
      | None => None
      | Some s => Some (upd i (try_send (Messages l) s) subs)
      end
  end.

(** dispatch_messages (subsystem.rs:184-225) *)
Definition dispatch (r : rid) (ms : list (mtype * body)) (subs : list sub)
  : option (list sub) :=
  let tunnel := map (pair r) (filter (fun m => negb (to_netdb (fst m))) ms) in
  let netdb := map (pair r) (filter (fun m => to_netdb (fst m)) ms) in
  match hand 0 tunnel subs with
  | None => None
  | Some subs' => hand 1 netdb subs'
  end.
End Dispatch.
Arguments sevent : clear implicits.
Arguments sub : clear implicits.
