(** The routing table that hands received I2NP messages to the part of the router they belong to.

    Models /repo/emissary-core/src/tunnel/routing_table.rs.  The table is shared behind an
    [RwLock]; every call holds the lock for its whole duration, so a call is one step.

    Simplifications: a channel or a oneshot is named by a number, its handle, which stands for
    the pair of ends that [mpsc::channel] and [oneshot::channel] return; a full [thingbuf]
    channel whose receiver is gone reports "closed"; [debug_assert!(false)] is a no-op as in a
    release build. *)
From Coq Require Import List NArith Bool Lia.
From Verif Require Import ListUtil Bytes NMap I2npModel TunnelModel.
Import ListNotations.
Open Scope N_scope.

(** [thingbuf::mpsc] bounded channel as its receiver sees it: the size it was created with, the
    messages in it, oldest first, and whether the receiver still exists. *)
Record chan (A : Type) : Type := mkChan { ch_cap : N; ch_q : list A; ch_open : bool }.
Arguments mkChan {A}. Arguments ch_cap {A}. Arguments ch_q {A}. Arguments ch_open {A}.

Inductive send_error : Type := Full | Closed.
(** [Sender::try_send] *)
Definition try_send {A} (c : chan A) (x : A) : chan A + send_error :=
  if negb (ch_open c) then inr Closed
  else if ch_cap c <=? N.of_nat (length (ch_q c)) then inr Full
  else inl (mkChan (ch_cap c) (ch_q c ++ [x]) true).

(** [oneshot::channel] as its receiver sees it: nothing yet, a message, or the receiver is gone. *)
Inductive one : Type := OneWait | OneFull (m : message) | OneGone.

(** routing_table.rs:58-86 [RoutingKind]; [fb] names the feedback channel. *)
Inductive kind : Type :=
| External (router : bytes) (msg : bytes)
| ExternalFb (router : bytes) (msg : bytes) (fb : N)
| Internal (m : message).

(** routing_table.rs:98-116 [RoutingTable], with the receiving ends beside it. *)
Record table : Type := mkTable {
  rt_self : bytes;                  (** router_hash *)
  rt_listeners : nmap N;            (** MessageId -> oneshot handle *)
  rt_tunnels : nmap N;              (** TunnelId -> channel handle *)
  rt_rx : nmap (chan message);      (** channel handle -> receiving end *)
  rt_one : nmap one;                (** oneshot handle -> receiving end *)
  rt_transit : chan message;
  rt_manager : chan kind;
  rt_next : N                       (** next unused handle *)
}.

(** routing_table.rs:120-132 [RoutingTable::new] *)
Definition rt_new (self : bytes) (transit_cap manager_cap : N) : table :=
  mkTable self [] [] [] [] (mkChan transit_cap [] true) (mkChan manager_cap [] true) 0.

(** Record updates. *)
Definition w_listeners (t : table) x := mkTable (rt_self t) x (rt_tunnels t) (rt_rx t) (rt_one t) (rt_transit t) (rt_manager t) (rt_next t).
Definition w_tunnels (t : table) x := mkTable (rt_self t) (rt_listeners t) x (rt_rx t) (rt_one t) (rt_transit t) (rt_manager t) (rt_next t).
Definition w_rx (t : table) x := mkTable (rt_self t) (rt_listeners t) (rt_tunnels t) x (rt_one t) (rt_transit t) (rt_manager t) (rt_next t).
Definition w_one (t : table) x := mkTable (rt_self t) (rt_listeners t) (rt_tunnels t) (rt_rx t) x (rt_transit t) (rt_manager t) (rt_next t).
Definition w_transit (t : table) x := mkTable (rt_self t) (rt_listeners t) (rt_tunnels t) (rt_rx t) (rt_one t) x (rt_manager t) (rt_next t).
Definition w_manager (t : table) x := mkTable (rt_self t) (rt_listeners t) (rt_tunnels t) (rt_rx t) (rt_one t) (rt_transit t) x (rt_next t).
Definition w_next (t : table) x := mkTable (rt_self t) (rt_listeners t) (rt_tunnels t) (rt_rx t) (rt_one t) (rt_transit t) (rt_manager t) x.

(** A fresh channel registered under [id]. *)
Definition register_tunnel (t : table) (id cap : N) : table * N :=
  let h := rt_next t in
  (w_next (w_rx (w_tunnels t (nput id h (rt_tunnels t)))
                (nput h (mkChan cap [] true) (rt_rx t))) (h + 1), h).

(** routing_table.rs:137-152 [try_add_tunnel]; [None] is [TunnelExists] *)
Definition try_add_tunnel (t : table) (id cap : N) : table * option N :=
  if nhas id (rt_tunnels t) then (t, None)
  else let '(t', h) := register_tunnel t id cap in (t', Some h).

(** The first draw that is not a key of the map: the loops at 165-172 and 189-196.  The draws are
    the results of [rng.next_u32()]; [None] means the loop has not finished with these draws. *)
Fixpoint draw_free {V} (draws : list N) (m : nmap V) : option N :=
  match draws with
  | [] => None
  | d :: ds => if nhas d m then draw_free ds m else Some d
  end.

(** routing_table.rs:158-173 [insert_tunnel] *)
Definition insert_tunnel (t : table) (draws : list N) (cap : N) : table * option (N * N) :=
  match draw_free draws (rt_tunnels t) with
  | None => (t, None)
  | Some id => let '(t', h) := register_tunnel t id cap in (t', Some (id, h))
  end.

(** routing_table.rs:176-178 [remove_tunnel] *)
Definition remove_tunnel (t : table) (id : N) : table := w_tunnels t (ndel id (rt_tunnels t)).

(** routing_table.rs:182-197 [insert_listener] *)
Definition insert_listener (t : table) (draws : list N) : table * option (N * N) :=
  match draw_free draws (rt_listeners t) with
  | None => (t, None)
  | Some id =>
      let h := rt_next t in
      (w_next (w_one (w_listeners t (nput id h (rt_listeners t))) (nput h OneWait (rt_one t)))
              (h + 1), Some (id, h))
  end.

(** routing_table.rs:200-202 [remove_listener] *)
Definition remove_listener (t : table) (id : N) : table := w_listeners t (ndel id (rt_listeners t)).

(** [Result<(), RoutingError>]; every error carries the message back. *)
Inductive route_error : Type := FailedToParseRoute | RouteNotFound (tunnel : N) | ChannelFull | ChannelClosed.
Inductive result : Type := ROk | RErr (e : route_error) (m : message).
Definition of_send_error (x : send_error) : route_error :=
  match x with Full => ChannelFull | Closed => ChannelClosed end.

(** routing_table.rs:209-225: the tunnel id inside a [TunnelData] or [TunnelGateway] message. *)
Definition tunnel_of (m : message) : option N :=
  match m_type m with
  | TunnelData => match etd_parse (m_payload m) with Some ((id, _, _), _) => Some id | None => None end
  | TunnelGateway => match parse_gateway (m_payload m) with Some (g, _) => Some (tg_id g) | None => None end
  | _ => None
  end.

(** routing_table.rs:208-248 [route_tunnel_message].  The [unreachable!()] at 224 is not reached
    from 276-282.  A handle in the table always names a channel; the [None] of [nget h] stands
    for a channel that was dropped. *)
Definition route_tunnel_message (t : table) (m : message) : table * result :=
  match tunnel_of m with
  | None => (t, RErr FailedToParseRoute m)
  | Some id =>
      match nget id (rt_tunnels t) with
      | None => (t, RErr (RouteNotFound id) m)
      | Some h =>
          match nget h (rt_rx t) with
          | None => (t, RErr ChannelClosed m)
          | Some c =>
              match try_send c m with
              | inl c' => (w_rx t (nput h c' (rt_rx t)), ROk)
              | inr x => (t, RErr (of_send_error x) m)
              end
          end
      end
  end.

(** routing_table.rs:253-273 [route_listener_message]: the listener is removed before the send *)
Definition route_listener_message (t : table) (m : message) : table * result :=
  match nget (m_id m) (rt_listeners t) with
  | Some h =>
      let t := w_listeners t (ndel (m_id m) (rt_listeners t)) in
      match nget h (rt_one t) with
      | Some OneWait => (w_one t (nput h (OneFull m) (rt_one t)), ROk)
      | _ => (t, RErr ChannelClosed m)
      end
  | None =>
      match try_send (rt_transit t) m with
      | inl c => (w_transit t c, ROk)
      | inr x => (t, RErr (of_send_error x) m)
      end
  end.

(** routing_table.rs:276-282 [route_message] *)
Definition is_tunnel_type (ty : mtype) : bool :=
  match ty with TunnelData | TunnelGateway => true | _ => false end.
Definition route_message (t : table) (m : message) : table * result :=
  if is_tunnel_type (m_type m) then route_tunnel_message t m else route_listener_message t m.

(** What became of the feedback sender: fired, handed on with the message, or dropped. *)
Inductive fb_fate : Type := FbFired | FbQueued | FbDropped.
(** [SPanic]: one of the [expect("valid message")]s. *)
Inductive send_out : Type := SOut (r : result) (f : fb_fate) | SPanic.

(** routing_table.rs:295-300 and 353-358 *)
Definition routed_type (ty : mtype) : bool :=
  match ty with
  | TunnelData | TunnelGateway | ShortTunnelBuild | VariableTunnelBuild => true
  | _ => false
  end.

(** routing_table.rs:289-333 [send_message] ([fb = None]) and 339-396
    [send_message_with_feedback] ([fb = Some _]).  They differ only in the feedback sender, which
    is fired at 351 before the message is routed. *)
Definition send_message (t : table) (router : bytes) (msg : bytes) (fb : option N) : table * send_out :=
  let local := match fb with Some _ => FbFired | None => FbDropped end in
  if beq router (rt_self t) then
    match parse_short msg with
    | None => (t, SPanic)
    | Some (m, _) =>
        if routed_type (m_type m) then
          let '(t', r) := route_message t m in (t', SOut r local)
        else
          match try_send (rt_manager t) (Internal m) with
          | inl c => (w_manager t c, SOut ROk local)
          | inr x => (t, SOut (RErr (of_send_error x) m) local)
          end
    end
  else
    match try_send (rt_manager t)
                   (match fb with Some f => ExternalFb router msg f | None => External router msg end) with
    | inl c => (w_manager t c, SOut ROk FbQueued)
    | inr x =>
        match parse_short msg with
        | None => (t, SPanic)
        | Some (m, _) => (t, SOut (RErr (of_send_error x) m) FbDropped)
        end
    end.

(** The receiving ends: [Receiver::poll_recv] / [oneshot::Receiver::poll] and [drop]. *)
Definition recv_tunnel (t : table) (h : N) : table * option message :=
  match nget h (rt_rx t) with
  | Some c => match ch_q c with
              | m :: q => (w_rx t (nput h (mkChan (ch_cap c) q (ch_open c)) (rt_rx t)), Some m)
              | [] => (t, None)
              end
  | None => (t, None)
  end.
Definition drop_tunnel (t : table) (h : N) : table :=
  match nget h (rt_rx t) with
  | Some c => w_rx t (nput h (mkChan (ch_cap c) [] false) (rt_rx t))
  | None => t
  end.
(** A oneshot receiver is used up by the message it returns. *)
Definition recv_listener (t : table) (h : N) : table * option message :=
  match nget h (rt_one t) with
  | Some (OneFull m) => (w_one t (nput h OneGone (rt_one t)), Some m)
  | _ => (t, None)
  end.
Definition drop_listener (t : table) (h : N) : table :=
  match nget h (rt_one t) with
  | Some _ => w_one t (nput h OneGone (rt_one t))
  | None => t
  end.
Definition recv_transit (t : table) : table * option message :=
  match ch_q (rt_transit t) with
  | m :: q => (w_transit t (mkChan (ch_cap (rt_transit t)) q (ch_open (rt_transit t))), Some m)
  | [] => (t, None)
  end.
Definition recv_manager (t : table) : table * option kind :=
  match ch_q (rt_manager t) with
  | m :: q => (w_manager t (mkChan (ch_cap (rt_manager t)) q (ch_open (rt_manager t))), Some m)
  | [] => (t, None)
  end.
Definition drop_transit (t : table) : table := w_transit t (mkChan (ch_cap (rt_transit t)) [] false).
Definition drop_manager (t : table) : table := w_manager t (mkChan (ch_cap (rt_manager t)) [] false).

(** ** Calls, from any of the router's tasks, in any order. *)
Inductive op : Type :=
| OAddTunnel (id cap : N)
| OInsertTunnel (draws : list N) (cap : N)
| ORemoveTunnel (id : N)
| OInsertListener (draws : list N)
| ORemoveListener (id : N)
| ORoute (m : message)
| OSend (router msg : bytes) (fb : option N)
| ORecvTunnel (h : N) | ODropTunnel (h : N)
| ORecvListener (h : N) | ODropListener (h : N)
| ORecvTransit | ODropTransit
| ORecvManager | ODropManager.

Inductive out : Type :=
| UNone
| UTunnel (id h : N)          (** a receiver [h] was registered under tunnel id [id] *)
| UListener (id h : N)        (** a receiver [h] was registered under message id [id] *)
| UResult (r : result)
| USend (s : send_out)
| UMessage (m : message)      (** a receiver got a message *)
| UKind (k : kind).

Definition step (t : table) (o : op) : table * out :=
  match o with
  | OAddTunnel id cap =>
      match try_add_tunnel t id cap with (t', Some h) => (t', UTunnel id h) | (t', None) => (t', UNone) end
  | OInsertTunnel draws cap =>
      match insert_tunnel t draws cap with (t', Some (id, h)) => (t', UTunnel id h) | (t', None) => (t', UNone) end
  | ORemoveTunnel id => (remove_tunnel t id, UNone)
  | OInsertListener draws =>
      match insert_listener t draws with (t', Some (id, h)) => (t', UListener id h) | (t', None) => (t', UNone) end
  | ORemoveListener id => (remove_listener t id, UNone)
  | ORoute m => let '(t', r) := route_message t m in (t', UResult r)
  | OSend r b fb => let '(t', s) := send_message t r b fb in (t', USend s)
  | ORecvTunnel h => match recv_tunnel t h with (t', Some m) => (t', UMessage m) | (t', None) => (t', UNone) end
  | ODropTunnel h => (drop_tunnel t h, UNone)
  | ORecvListener h => match recv_listener t h with (t', Some m) => (t', UMessage m) | (t', None) => (t', UNone) end
  | ODropListener h => (drop_listener t h, UNone)
  | ORecvTransit => match recv_transit t with (t', Some m) => (t', UMessage m) | (t', None) => (t', UNone) end
  | ODropTransit => (drop_transit t, UNone)
  | ORecvManager => match recv_manager t with (t', Some k) => (t', UKind k) | (t', None) => (t', UNone) end
  | ODropManager => (drop_manager t, UNone)
  end.

Fixpoint run (t : table) (ops : list op) : table * list (op * out) :=
  match ops with
  | [] => (t, [])
  | o :: rest =>
      let '(t1, u) := step t o in
      let '(t2, us) := run t1 rest in (t2, (o, u) :: us)
  end.
