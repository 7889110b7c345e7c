(** Model of emissary-core/src/tunnel/pool/{mod,listener,timer,zero_hop}.rs: a tunnel pool, the
    builds it starts, its tunnels' timers, its tests and the messages sent through its tunnels.

    One operation is one iteration of one of the loops of [TunnelPool::poll] (mod.rs:844-1465), or
    its end.  The operations may come in any order, a superset of the orders of the loops.
    Simplifications: build messages, hops, keys and fragments are in other models (BuildModel,
    TunnelModel); hop selection is an argument (SelectModel); metrics and logging are left out;
    [R::now] and [R::time_since_epoch] are one clock, in milliseconds, that does not go back; a
    timer may fire at any time from its deadline on, as its task starts and is polled at any time
    after it was spawned; reports to the owner are outputs, the channel is in PctxModel. *)
From Coq Require Import List NArith Bool.
From Verif Require Import NMap.
Import ListNotations.
Open Scope N_scope.

(** mod.rs:82,100,92, timer.rs:58, tunnel/mod.rs:79, in milliseconds *)
Definition MAINTENANCE : N := 10000.
Definition TEST_INTERVAL : N := 15000.
Definition TEST_EXPIRATION : N := 8000.
Definition REBUILD_TIMEOUT : N := 540000.
Definition TUNNEL_EXPIRATION : N := 600000.

(** A pending build in a [TunnelBuildListener] (listener.rs:98-207).  The serial number stands for
    the task and for the reply listener that was added for it.  [po_zero]: the reply comes through a
    0-hop tunnel; [po_router]: first hop.  [pi_gw], [pi_router]: gateway of the inbound tunnel, drawn
    in hop/pending.rs:165-169. *)
Record pend_out := mkPO { po_sn : N; po_id : N; po_zero : bool; po_router : N }.
Record pend_in := mkPI { pi_sn : N; pi_tid : N; pi_gw : N; pi_router : N }.
(** A task of the join set [inbound] (mod.rs:192): endpoint id, gateway id, when it was pushed. *)
Record inb := mkIn { in_sn : N; in_tid : N; in_gw : N; in_at : N }.
(** timer.rs:62-89 *)
Inductive tev := TRebuildOut (id : N) | TRebuildIn (gw : N) | TDestroy (id : N).
(** A task of the join set [pending_tests] (mod.rs:221). *)
Record tst := mkT { t_sn : N; t_out : N; t_in : N; t_at : N }.

(** mod.rs:172-237 [TunnelPool]; [p_rt]: the tunnel ids in the routing table, [p_alien]: those of
    them that belong to other parts of the router, [p_zero]: those of 0-hop tunnels of this pool;
    [p_listen]: the builds and tests whose reply listener is still in the routing table or in a
    pool's context; [p_sel_out], [p_sel_in]: the tunnels the selector knows; [p_failed]: the counter
    of failed builds of the current poll (mod.rs:850); [p_up]: the pool's future has not ended. *)
Record pool := mkPool {
  p_num_in : nat; p_num_out : nat; p_now : N; p_up : bool; p_next : N;
  p_out : nmap N; p_exp_out : list N; p_exp_in : list N;
  p_inb : list inb; p_intun : nmap (N * N);
  p_po : list pend_out; p_pi : list pend_in;
  p_timers : list (N * tev); p_tests : list tst;
  p_last_test : N; p_maint : N; p_failed : N;
  p_rt : list N; p_alien : list N; p_zero : list N; p_listen : list N;
  p_sel_out : list N; p_sel_in : list N }.

(** mod.rs:241-296 [new]: the maintenance timer is ready at once. *)
Definition p_new (num_in num_out : nat) (now : N) : pool :=
  mkPool num_in num_out now true 0 [] [] [] [] [] [] [] [] [] now now 0 [] [] [] [] [] [].

(** Setters. *)
Definition s_now p x := mkPool (p_num_in p) (p_num_out p) x (p_up p) (p_next p) (p_out p) (p_exp_out p) (p_exp_in p) (p_inb p) (p_intun p) (p_po p) (p_pi p) (p_timers p) (p_tests p) (p_last_test p) (p_maint p) (p_failed p) (p_rt p) (p_alien p) (p_zero p) (p_listen p) (p_sel_out p) (p_sel_in p).
Definition s_up p x := mkPool (p_num_in p) (p_num_out p) (p_now p) x (p_next p) (p_out p) (p_exp_out p) (p_exp_in p) (p_inb p) (p_intun p) (p_po p) (p_pi p) (p_timers p) (p_tests p) (p_last_test p) (p_maint p) (p_failed p) (p_rt p) (p_alien p) (p_zero p) (p_listen p) (p_sel_out p) (p_sel_in p).
Definition s_next p x := mkPool (p_num_in p) (p_num_out p) (p_now p) (p_up p) x (p_out p) (p_exp_out p) (p_exp_in p) (p_inb p) (p_intun p) (p_po p) (p_pi p) (p_timers p) (p_tests p) (p_last_test p) (p_maint p) (p_failed p) (p_rt p) (p_alien p) (p_zero p) (p_listen p) (p_sel_out p) (p_sel_in p).
Definition s_out p x := mkPool (p_num_in p) (p_num_out p) (p_now p) (p_up p) (p_next p) x (p_exp_out p) (p_exp_in p) (p_inb p) (p_intun p) (p_po p) (p_pi p) (p_timers p) (p_tests p) (p_last_test p) (p_maint p) (p_failed p) (p_rt p) (p_alien p) (p_zero p) (p_listen p) (p_sel_out p) (p_sel_in p).
Definition s_exp_out p x := mkPool (p_num_in p) (p_num_out p) (p_now p) (p_up p) (p_next p) (p_out p) x (p_exp_in p) (p_inb p) (p_intun p) (p_po p) (p_pi p) (p_timers p) (p_tests p) (p_last_test p) (p_maint p) (p_failed p) (p_rt p) (p_alien p) (p_zero p) (p_listen p) (p_sel_out p) (p_sel_in p).
Definition s_exp_in p x := mkPool (p_num_in p) (p_num_out p) (p_now p) (p_up p) (p_next p) (p_out p) (p_exp_out p) x (p_inb p) (p_intun p) (p_po p) (p_pi p) (p_timers p) (p_tests p) (p_last_test p) (p_maint p) (p_failed p) (p_rt p) (p_alien p) (p_zero p) (p_listen p) (p_sel_out p) (p_sel_in p).
Definition s_inb p x := mkPool (p_num_in p) (p_num_out p) (p_now p) (p_up p) (p_next p) (p_out p) (p_exp_out p) (p_exp_in p) x (p_intun p) (p_po p) (p_pi p) (p_timers p) (p_tests p) (p_last_test p) (p_maint p) (p_failed p) (p_rt p) (p_alien p) (p_zero p) (p_listen p) (p_sel_out p) (p_sel_in p).
Definition s_intun p x := mkPool (p_num_in p) (p_num_out p) (p_now p) (p_up p) (p_next p) (p_out p) (p_exp_out p) (p_exp_in p) (p_inb p) x (p_po p) (p_pi p) (p_timers p) (p_tests p) (p_last_test p) (p_maint p) (p_failed p) (p_rt p) (p_alien p) (p_zero p) (p_listen p) (p_sel_out p) (p_sel_in p).
Definition s_po p x := mkPool (p_num_in p) (p_num_out p) (p_now p) (p_up p) (p_next p) (p_out p) (p_exp_out p) (p_exp_in p) (p_inb p) (p_intun p) x (p_pi p) (p_timers p) (p_tests p) (p_last_test p) (p_maint p) (p_failed p) (p_rt p) (p_alien p) (p_zero p) (p_listen p) (p_sel_out p) (p_sel_in p).
Definition s_pi p x := mkPool (p_num_in p) (p_num_out p) (p_now p) (p_up p) (p_next p) (p_out p) (p_exp_out p) (p_exp_in p) (p_inb p) (p_intun p) (p_po p) x (p_timers p) (p_tests p) (p_last_test p) (p_maint p) (p_failed p) (p_rt p) (p_alien p) (p_zero p) (p_listen p) (p_sel_out p) (p_sel_in p).
Definition s_timers p x := mkPool (p_num_in p) (p_num_out p) (p_now p) (p_up p) (p_next p) (p_out p) (p_exp_out p) (p_exp_in p) (p_inb p) (p_intun p) (p_po p) (p_pi p) x (p_tests p) (p_last_test p) (p_maint p) (p_failed p) (p_rt p) (p_alien p) (p_zero p) (p_listen p) (p_sel_out p) (p_sel_in p).
Definition s_tests p x := mkPool (p_num_in p) (p_num_out p) (p_now p) (p_up p) (p_next p) (p_out p) (p_exp_out p) (p_exp_in p) (p_inb p) (p_intun p) (p_po p) (p_pi p) (p_timers p) x (p_last_test p) (p_maint p) (p_failed p) (p_rt p) (p_alien p) (p_zero p) (p_listen p) (p_sel_out p) (p_sel_in p).
Definition s_last p x := mkPool (p_num_in p) (p_num_out p) (p_now p) (p_up p) (p_next p) (p_out p) (p_exp_out p) (p_exp_in p) (p_inb p) (p_intun p) (p_po p) (p_pi p) (p_timers p) (p_tests p) x (p_maint p) (p_failed p) (p_rt p) (p_alien p) (p_zero p) (p_listen p) (p_sel_out p) (p_sel_in p).
Definition s_maint p x := mkPool (p_num_in p) (p_num_out p) (p_now p) (p_up p) (p_next p) (p_out p) (p_exp_out p) (p_exp_in p) (p_inb p) (p_intun p) (p_po p) (p_pi p) (p_timers p) (p_tests p) (p_last_test p) x (p_failed p) (p_rt p) (p_alien p) (p_zero p) (p_listen p) (p_sel_out p) (p_sel_in p).
Definition s_failed p x := mkPool (p_num_in p) (p_num_out p) (p_now p) (p_up p) (p_next p) (p_out p) (p_exp_out p) (p_exp_in p) (p_inb p) (p_intun p) (p_po p) (p_pi p) (p_timers p) (p_tests p) (p_last_test p) (p_maint p) x (p_rt p) (p_alien p) (p_zero p) (p_listen p) (p_sel_out p) (p_sel_in p).
Definition s_rt p x := mkPool (p_num_in p) (p_num_out p) (p_now p) (p_up p) (p_next p) (p_out p) (p_exp_out p) (p_exp_in p) (p_inb p) (p_intun p) (p_po p) (p_pi p) (p_timers p) (p_tests p) (p_last_test p) (p_maint p) (p_failed p) x (p_alien p) (p_zero p) (p_listen p) (p_sel_out p) (p_sel_in p).
Definition s_alien p x := mkPool (p_num_in p) (p_num_out p) (p_now p) (p_up p) (p_next p) (p_out p) (p_exp_out p) (p_exp_in p) (p_inb p) (p_intun p) (p_po p) (p_pi p) (p_timers p) (p_tests p) (p_last_test p) (p_maint p) (p_failed p) (p_rt p) x (p_zero p) (p_listen p) (p_sel_out p) (p_sel_in p).
Definition s_zero p x := mkPool (p_num_in p) (p_num_out p) (p_now p) (p_up p) (p_next p) (p_out p) (p_exp_out p) (p_exp_in p) (p_inb p) (p_intun p) (p_po p) (p_pi p) (p_timers p) (p_tests p) (p_last_test p) (p_maint p) (p_failed p) (p_rt p) (p_alien p) x (p_listen p) (p_sel_out p) (p_sel_in p).
Definition s_listen p x := mkPool (p_num_in p) (p_num_out p) (p_now p) (p_up p) (p_next p) (p_out p) (p_exp_out p) (p_exp_in p) (p_inb p) (p_intun p) (p_po p) (p_pi p) (p_timers p) (p_tests p) (p_last_test p) (p_maint p) (p_failed p) (p_rt p) (p_alien p) (p_zero p) x (p_sel_out p) (p_sel_in p).
Definition s_sel_out p x := mkPool (p_num_in p) (p_num_out p) (p_now p) (p_up p) (p_next p) (p_out p) (p_exp_out p) (p_exp_in p) (p_inb p) (p_intun p) (p_po p) (p_pi p) (p_timers p) (p_tests p) (p_last_test p) (p_maint p) (p_failed p) (p_rt p) (p_alien p) (p_zero p) (p_listen p) x (p_sel_in p).
Definition s_sel_in p x := mkPool (p_num_in p) (p_num_out p) (p_now p) (p_up p) (p_next p) (p_out p) (p_exp_out p) (p_exp_in p) (p_inb p) (p_intun p) (p_po p) (p_pi p) (p_timers p) (p_tests p) (p_last_test p) (p_maint p) (p_failed p) (p_rt p) (p_alien p) (p_zero p) (p_listen p) (p_sel_out p) x.

(** Reports to the owner (pool/handle.rs, PctxModel.pevent), the messages the pool is asked to send
    (pool/context.rs [TunnelMessage]), what a sent one is addressed to, and the outputs. *)
Inductive report :=
| RInBuilt (gw router expires : N) | ROutBuilt (id : N) | RInExpired (gw : N) | ROutExpired (id : N)
| RInExpiring (gw : N) | ROutExpiring (id : N) | RShutDown.
Inductive target := ToRouter (router : N) | ToTunnel (router tunnel : N).
Inductive request :=
| QRouter (gateway router msg : N) | QTunnel (router tunnel msg : N)
| QRouterVia (router : N) (via : option N) (msg : N)
| QTunnelVia (router tunnel : N) (via : option N) (msg : N)
| QInbound (msg : N).
Inductive out :=
| Rep (r : report)
| Sent (via first_hop : N) (t : target) (msg : N)  (** handed to [first_hop] for tunnel [via] *)
| Lost (q : request)
| StartOut (sn id first_hop : N) (zero : option N) | StartIn (sn tid gw : N)  (** a build starts; [zero]: id of its 0-hop tunnel *)
| Tested (sn outbound inbound : N) | TestGood (outbound inbound : N) | TestBad (outbound inbound : N)
| Failed (sn : N)                   (** a build has failed, mod.rs:856-871, 908-925 *)
| Maintained
| Ended.

(** The entry of a list with a serial number, and the rest. *)
Fixpoint pull {A} (f : A -> N) (sn : N) (l : list A) : option (A * list A) :=
  match l with
  | [] => None
  | x :: r => if f x =? sn then Some (x, r)
              else match pull f sn r with Some (y, r') => Some (y, x :: r') | None => None end
  end.
(** The [i]th entry of a list, and the rest. *)
Fixpoint pull_at {A} (i : nat) (l : list A) : option (A * list A) :=
  match l, i with
  | [], _ => None
  | x :: r, O => Some (x, r)
  | x :: r, S j => match pull_at j r with Some (y, r') => Some (y, x :: r') | None => None end
  end.
Definition choose {A} (r : N) (l : list A) : option A :=
  match l with [] => None | _ => nth_error l (N.to_nat (r mod N.of_nat (length l))) end.
(** An iteration order of a hash map: the entries in the order in which they are drawn. *)
Fixpoint arrange {A} (fuel : nat) (picks : list nat) (l : list A) : list A :=
  match fuel with
  | O => []
  | S f => let i := Nat.modulo (hd O picks) (length l) in
           match pull_at i l with Some (x, r) => x :: arrange f (tl picks) r | None => [] end
  end.

(** routing_table.rs:158-173 [insert_tunnel]: draws ids until one is free. *)
Fixpoint draw (draws rt : list N) : option N :=
  match draws with [] => None | d :: ds => if smem d rt then draw ds rt else Some d end.

(** mod.rs:299-308, 311-320 *)
Definition out_count (p : pool) : nat :=
  let max := (p_num_out p + length (p_exp_out p))%nat in
  if Nat.ltb (length (p_out p) + length (p_po p)) max
  then (max - length (p_out p) - length (p_po p))%nat else 0%nat.
Definition in_count (p : pool) : nat :=
  let max := (p_num_in p + length (p_exp_in p))%nat in
  if Nat.ltb (length (p_inb p) + length (p_pi p)) max
  then (max - length (p_inb p) - length (p_pi p))%nat else 0%nat.

(** What a build depends on: whether hops are found, whether the build message can be made, the
    tunnel id of an outbound tunnel, the ids drawn for the routing table, whether there is an inbound
    tunnel for the reply, first hop and gateway. *)
Record barg := mkB { b_hops : bool; b_ok : bool; b_id : N; b_draws : list N; b_via : bool; b_router : N; b_gw : N }.

(** mod.rs:340-566: one iteration.  The result of sending is ignored by the code. *)
Definition build_out (p : pool) (b : barg) : pool * list out :=
  if negb (b_hops b) then (p, []) else
  let sn := p_next p in
  if b_via b then
    if b_ok b then
      (s_listen (s_po (s_next p (sn + 1)) (p_po p ++ [mkPO sn (b_id b) false (b_router b)])) (sn :: p_listen p),
       [StartOut sn (b_id b) (b_router b) None])
    else (p, [])
  else match draw (b_draws b) (p_rt p) with
       | None => (p, [])
       | Some g =>
           if b_ok b then
             (s_zero (s_rt (s_po (s_next p (sn + 1)) (p_po p ++ [mkPO sn (b_id b) true (b_router b)]))
                           (g :: p_rt p)) (g :: p_zero p), [StartOut sn (b_id b) (b_router b) (Some g)])
           else (p, [])
       end.

(** mod.rs:569-701: one iteration *)
Definition build_in (p : pool) (b : barg) : pool * list out :=
  if negb (b_hops b) then (p, []) else
  let sn := p_next p in
  match draw (b_draws b) (p_rt p) with
  | None => (p, [])
  | Some tid =>
      if b_ok b then
        (s_listen (s_rt (s_pi (s_next p (sn + 1)) (p_pi p ++ [mkPI sn tid (b_gw b) (b_router b)]))
                        (tid :: p_rt p)) (sn :: p_listen p), [StartIn sn tid (b_gw b)])
      else (p, [])
  end.

(** [n] iterations of a loop. *)
Fixpoint builds (f : pool -> barg -> pool * list out) (n : nat) (bs : list barg) (p : pool) : pool * list out :=
  match n, bs with
  | S m, b :: r => let '(p1, o1) := f p b in let '(p2, o2) := builds f m r p1 in (p2, o1 ++ o2)
  | _, _ => (p, [])
  end.

(** mod.rs:728-837: one test; [sent]: the test message was handed to the first hop's connection. *)
Definition test_one (p : pool) (o i : N) (sent : bool) : pool * list out :=
  if sent then
    let sn := p_next p in
    (s_listen (s_tests (s_next p (sn + 1)) (p_tests p ++ [mkT sn o i (p_now p)])) (sn :: p_listen p), [Tested sn o i])
  else (p, []).
Fixpoint test_all (l : list (N * N)) (sent : list bool) (p : pool) : pool * list out :=
  match l with
  | [] => (p, [])
  | (o, i) :: r =>
      let '(p1, o1) := test_one p o i (hd true sent) in
      let '(p2, o2) := test_all r (tl sent) p1 in (p2, o1 ++ o2)
  end.
(** mod.rs:719-727: the pairs *)
Definition test_pairs (p : pool) (picks1 picks2 : list nat) : list (N * N) :=
  combine
    (filter (fun o => negb (smem o (p_exp_out p))) (arrange (length (p_out p)) picks1 (nkeys (p_out p))))
    (filter (fun i => negb (smem i (p_exp_in p))) (arrange (length (p_intun p)) picks2 (nkeys (p_intun p)))).

Record marg := mkM { m_outs : list barg; m_ins : list barg; m_p1 : list nat; m_p2 : list nat; m_sent : list bool }.

(** mod.rs:329-838 [maintain_pool] *)
Definition maintain (p : pool) (a : marg) : pool * list out :=
  let '(p1, o1) := builds build_out (out_count p) (m_outs a) p in
  let '(p2, o2) := builds build_in (in_count p1) (m_ins a) p1 in
  if p_now p2 - p_last_test p2 <? TEST_INTERVAL then (p2, Maintained :: o1 ++ o2)
  else
    let p3 := s_last p2 (p_now p2) in
    let '(p4, o4) := test_all (test_pairs p3 (m_p1 a) (m_p2 a)) (m_sent a) p3 in
    (p4, Maintained :: o1 ++ o2 ++ o4).

(** How a build ends (listener.rs:108-206): the first hop could not be dialed, no reply in time or
    reply channel closed, a reply that does not complete the tunnel, a tunnel. *)
Inductive bres := BDial | BNone | BBad | BGood.
(** The reply listener after that: kept if dialing failed (listener.rs:111-131), removed by the
    listener (133-157), or used up by the reply. *)
Definition listen_after (r : bres) (sn : N) (l : list N) : list N :=
  match r with BDial => l | _ => sdel sn l end.

(** mod.rs:853-903 *)
Definition out_done (p : pool) (sn : N) (r : bres) : pool * list out :=
  match pull po_sn sn (p_po p) with
  | None => (p, [])
  | Some (x, rest) =>
      let p1 := s_listen (s_po p rest) (if po_zero x then p_listen p else listen_after r sn (p_listen p)) in
      match r with
      | BGood =>
          let id := po_id x in
          (s_timers (s_out (s_sel_out p1 (sadd id (p_sel_out p1))) (nput id (po_router x) (p_out p1)))
                    (p_timers p ++ [(p_now p + REBUILD_TIMEOUT, TRebuildOut id); (p_now p + TUNNEL_EXPIRATION, TDestroy id)]),
           [Rep (ROutBuilt id)])
      | _ => (s_failed p1 (p_failed p + 1), [Failed sn])
      end
  end.

(** mod.rs:906-976 *)
Definition in_done (p : pool) (sn : N) (r : bres) : pool * list out :=
  match pull pi_sn sn (p_pi p) with
  | None => (p, [])
  | Some (x, rest) =>
      let p1 := s_listen (s_pi p rest) (listen_after r sn (p_listen p)) in
      match r with
      | BGood =>
          let gw := pi_gw x in
          (s_inb (s_timers (s_intun (s_sel_in p1 (sadd gw (p_sel_in p1))) (nput gw (pi_tid x, pi_router x) (p_intun p1)))
                           (p_timers p ++ [(p_now p + REBUILD_TIMEOUT, TRebuildIn gw)]))
                 (p_inb p ++ [mkIn sn (pi_tid x) gw (p_now p)]),
           [Rep (RInBuilt gw (pi_router x) (p_now p + TUNNEL_EXPIRATION))])
      | _ => (s_rt (s_failed p1 (p_failed p + 1)) (sdel (pi_tid x) (p_rt p)), [Failed sn])
      end
  end.

(** mod.rs:979-1011, hop/inbound.rs:313-352: an inbound tunnel ends when its timer has expired (the
    timer starts when the tunnel is first polled), or when its channel closes, which happens only
    when the pool removes its id. *)
Definition in_end (p : pool) (sn : N) : pool * list out :=
  match pull in_sn sn (p_inb p) with
  | None => (p, [])
  | Some (x, rest) =>
      if in_at x + TUNNEL_EXPIRATION <=? p_now p then
        (s_intun (s_sel_in (s_rt (s_exp_in (s_inb p rest) (sdel (in_gw x) (p_exp_in p))) (sdel (in_tid x) (p_rt p)))
                           (sdel (in_gw x) (p_sel_in p))) (ndel (in_gw x) (p_intun p)),
         [Rep (RInExpired (in_gw x))])
      else (p, [])
  end.

(** mod.rs:979-981 with emissary-util/src/runtime/tokio.rs:257-269: the task of an inbound tunnel
    panics. *)
Definition in_panic (p : pool) (sn : N) : pool * list out :=
  match pull in_sn sn (p_inb p) with
  | None => (p, [])
  | Some (_, rest) => (s_up (s_inb p rest) false, [Ended])
  end.

(** mod.rs:1026-1286 *)
Definition any_tunnel (p : pool) (r : N) : option (N * N) := choose r (p_out p).
Definition via_tunnel (p : pool) (via : option N) (r : N) : option (N * N) :=
  match via with
  | None => any_tunnel p r
  | Some id => match nget id (p_out p) with Some h => Some (id, h) | None => any_tunnel p r end
  end.
Definition send (t : option (N * N)) (to : target) (msg : N) (q : request) : list out :=
  match t with Some (id, hop) => [Sent id hop to msg] | None => [Lost q] end.
Definition message (p : pool) (q : request) (r : N) : list out :=
  match q with
  | QRouter g router m => send (match nget g (p_out p) with Some h => Some (g, h) | None => None end) (ToRouter router) m q
  | QTunnel router t m => send (any_tunnel p r) (ToTunnel router t) m q
  | QRouterVia router via m => send (via_tunnel p via r) (ToRouter router) m q
  | QTunnelVia router t via m => send (via_tunnel p via r) (ToTunnel router t) m q
  | QInbound _ => [Lost q]
  end.

(** mod.rs:811-820, 1289-1325; a timeout leaves the listener where it is *)
Inductive tres := TGood | TTimeout.
Definition test_done (p : pool) (sn : N) (r : tres) : pool * list out :=
  match pull t_sn sn (p_tests p) with
  | None => (p, [])
  | Some (x, rest) =>
      match r with
      | TGood => (s_listen (s_tests p rest) (sdel sn (p_listen p)), [TestGood (t_out x) (t_in x)])
      | TTimeout =>
          if t_at x + TEST_EXPIRATION <=? p_now p then (s_tests p rest, [TestBad (t_out x) (t_in x)]) else (p, [])
      end
  end.

(** mod.rs:1339-1407 *)
Definition timer (p : pool) (i : nat) : pool * list out :=
  match pull_at i (p_timers p) with
  | None => (p, [])
  | Some ((d, e), rest) =>
      if p_now p <? d then (p, [])
      else let p1 := s_timers p rest in
           match e with
           | TDestroy id =>
               (s_sel_out (s_exp_out (s_out p1 (ndel id (p_out p))) (sdel id (p_exp_out p))) (sdel id (p_sel_out p)),
                [Rep (ROutExpired id)])
           | TRebuildOut id => (s_exp_out p1 (sadd id (p_exp_out p)), [Rep (ROutExpiring id)])
           | TRebuildIn gw => (s_exp_in p1 (sadd gw (p_exp_in p)), [Rep (RInExpiring gw)])
           end
  end.

(** mod.rs:1416-1438 *)
Definition shutdown (p : pool) : pool * list out :=
  (s_up (s_rt p (fold_left (fun rt e => sdel (fst (snd e)) rt) (p_intun p) (p_rt p))) false,
   [Rep RShutDown; Ended]).

(** mod.rs:1450-1464: the end of a poll *)
Definition poll_end (p : pool) (a : marg) : pool * list out :=
  if p_maint p <=? p_now p then
    let '(p1, o) := maintain (s_maint p (p_now p + MAINTENANCE)) a in (s_failed p1 0, o)
  else if 0 <? p_failed p then
    let '(p1, o) := maintain p a in (s_failed p1 0, o)
  else (p, []).

Inductive op :=
| OTick (now : N)                 (** time passes *)
| OOutDone (sn : N) (r : bres) | OInDone (sn : N) (r : bres)
| OInEnd (sn : N) | OInPanic (sn : N)
| OMessage (q : request) (r : N)  (** [r]: which tunnel the map's iterator starts with *)
| OClosed                         (** the pool's context is closed, mod.rs:1028 *)
| OTestDone (sn : N) (r : tres)
| OTimer (i : nat)
| OShutdown
| OEnd (a : marg)
| OZeroEnd (g : N)                (** a 0-hop tunnel ends, zero_hop.rs:116-152 *)
| OLate (sn : N)                  (** a message arrives for a listener nobody waits on any more *)
| OAlien (id : N) | OAlienEnd (id : N).  (** other parts of the router use the routing table *)

Definition waited (p : pool) (sn : N) : bool :=
  existsb (fun x => po_sn x =? sn) (p_po p) || existsb (fun x => pi_sn x =? sn) (p_pi p)
  || existsb (fun x => t_sn x =? sn) (p_tests p).

Definition step (p : pool) (o : op) : pool * list out :=
  match o with
  | OTick n => (s_now p (N.max n (p_now p)), [])
  | OAlien id => if smem id (p_rt p) then (p, []) else (s_alien (s_rt p (id :: p_rt p)) (id :: p_alien p), [])
  | OAlienEnd id => if smem id (p_alien p) then (s_alien (s_rt p (sdel id (p_rt p))) (sdel id (p_alien p)), []) else (p, [])
  | OZeroEnd g => if smem g (p_zero p) then (s_zero (s_rt p (sdel g (p_rt p))) (sdel g (p_zero p)), []) else (p, [])
  | OLate sn => if waited p sn then (p, []) else (s_listen p (sdel sn (p_listen p)), [])
  | _ =>
    if negb (p_up p) then (p, []) else
    match o with
    | OOutDone sn r => out_done p sn r
    | OInDone sn r => in_done p sn r
    | OInEnd sn => in_end p sn
    | OInPanic sn => in_panic p sn
    | OMessage q r => (p, message p q r)
    | OClosed => (s_up p false, [Ended])
    | OTestDone sn r => test_done p sn r
    | OTimer i => timer p i
    | OShutdown => shutdown p
    | OEnd a => poll_end p a
    | _ => (p, [])
    end
  end.

Fixpoint run (p : pool) (ops : list op) : pool * list (op * list out) :=
  match ops with
  | [] => (p, [])
  | o :: r => let '(p1, u) := step p o in let '(p2, tr) := run p1 r in (p2, (o, u) :: tr)
  end.
