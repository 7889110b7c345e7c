(** The listeners of a tunnel pool and the routing of messages received through its inbound tunnels.

    Models /repo/emissary-core/src/tunnel/pool/context.rs.  The listeners are shared behind an
    [RwLock]; every call holds the write lock for its whole duration, so a call is one step.

    Simplifications: a oneshot channel is named by a number, its handle; a garlic tag, which is
    eight bytes, is the number those bytes spell (big endian), which tells tags apart exactly as
    the bytes do; [debug_assert!] is a no-op as in a release build. *)
From Coq Require Import List NArith Bool Lia.
From Verif Require Import ListUtil Bytes NMap I2npModel RouteModel.
Import ListNotations.
Open Scope N_scope.

(** pool/handle.rs:35-92 [TunnelPoolEvent], what the pool's owner is told *)
Inductive pevent : Type :=
| EvShutDown
| EvInBuilt (gateway router expires : N)
| EvOutBuilt (tunnel : N)
| EvInExpired (gateway : N)
| EvOutExpired (tunnel : N)
| EvInExpiring (gateway : N)
| EvOutExpiring (tunnel : N)
| EvMessage (m : message).

(** context.rs:60-82 and 360-373: [MessageListeners] with the two channels beside it *)
Record ctx : Type := mkCtx {
  cx_listen : nmap N;        (** listeners: MessageId -> oneshot handle *)
  cx_tags : nmap N;          (** garlic_tags: tag -> MessageId *)
  cx_ids : nmap N;           (** message_ids: MessageId -> tag *)
  cx_one : nmap one;         (** oneshot handle -> receiving end *)
  cx_owner : chan pevent;    (** event_tx, to the pool's owner *)
  cx_pool : chan message;    (** tx, to the pool itself; only [TunnelMessage::Inbound] is modelled *)
  cx_next : N                (** next unused handle *)
}.

(** context.rs:525-547 [TunnelPoolBuildParameters::new]: context.rs:53 gives the pool's channel
    4096 places, handle.rs:272 the owner's 64 *)
Definition cx_new : ctx := mkCtx [] [] [] [] (mkChan 64 [] true) (mkChan 4096 [] true) 0.

Definition v_listen (c : ctx) x := mkCtx x (cx_tags c) (cx_ids c) (cx_one c) (cx_owner c) (cx_pool c) (cx_next c).
Definition v_tags (c : ctx) x := mkCtx (cx_listen c) x (cx_ids c) (cx_one c) (cx_owner c) (cx_pool c) (cx_next c).
Definition v_ids (c : ctx) x := mkCtx (cx_listen c) (cx_tags c) x (cx_one c) (cx_owner c) (cx_pool c) (cx_next c).
Definition v_one (c : ctx) x := mkCtx (cx_listen c) (cx_tags c) (cx_ids c) x (cx_owner c) (cx_pool c) (cx_next c).
Definition v_owner (c : ctx) x := mkCtx (cx_listen c) (cx_tags c) (cx_ids c) (cx_one c) x (cx_pool c) (cx_next c).
Definition v_pool (c : ctx) x := mkCtx (cx_listen c) (cx_tags c) (cx_ids c) (cx_one c) (cx_owner c) x (cx_next c).
Definition v_next (c : ctx) x := mkCtx (cx_listen c) (cx_tags c) (cx_ids c) (cx_one c) (cx_owner c) (cx_pool c) x.

(** context.rs:229-242 and 378-391 [add_listener]; [draws] are the results of [rng.next_u32()] *)
Definition add_listener (c : ctx) (draws : list N) : ctx * option (N * N) :=
  match draw_free draws (cx_listen c) with
  | None => (c, None)
  | Some id =>
      let h := cx_next c in
      (v_next (v_one (v_listen c (nput id h (cx_listen c))) (nput h OneWait (cx_one c))) (h + 1),
       Some (id, h))
  end.

(** context.rs:252-259 [add_garlic_listener] *)
Definition add_garlic_listener (c : ctx) (id tag : N) : ctx :=
  v_ids (v_tags c (nput tag id (cx_tags c))) (nput id tag (cx_ids c)).

(** [message_ids.remove(id).map(|tag| garlic_tags.remove(tag))], 202-205, 266-269, 398-401 *)
Definition drop_association (c : ctx) (id : N) : ctx :=
  match nget id (cx_ids c) with
  | Some tag => v_tags (v_ids c (ndel id (cx_ids c))) (ndel tag (cx_tags c))
  | None => c
  end.

(** context.rs:262-270 and 394-402 [remove_listener] *)
Definition remove_listener (c : ctx) (id : N) : ctx :=
  drop_association (v_listen c (ndel id (cx_listen c))) id.

(** context.rs:140 [message.payload[4..12]]; [None] is the panic of a slice out of range *)
Definition garlic_tag (payload : bytes) : option N :=
  if N.of_nat (length payload) <? 12 then None else Some (be_val (firstn 8 (skipn 4 payload))).

Inductive route_out : Type := ROut (r : result) | RPanic.

(** [listener.send(message)] at 151 and 213 after [listeners.remove] gave the handle *)
Definition give (c : ctx) (id h : N) (m : message) : ctx * result :=
  let c := v_listen c (ndel id (cx_listen c)) in
  match nget h (cx_one c) with
  | Some OneWait => (v_one c (nput h (OneFull m) (cx_one c)), ROk)
  | _ => (c, RErr ChannelClosed m)
  end.

(** context.rs:153-173 and 180-199: the message goes to the owner *)
Definition to_owner (c : ctx) (m : message) : ctx * result :=
  match try_send (cx_owner c) (EvMessage m) with
  | inl q => (v_owner c q, ROk)
  | inr x => (c, RErr (of_send_error x) m)
  end.

(** context.rs:212-225: to the listener for [id], or to the pool if there is none *)
Definition to_listener_or_pool (c : ctx) (id : N) (m : message) : ctx * result :=
  match nget id (cx_listen c) with
  | Some h => give c id h m
  | None =>
      match try_send (cx_pool c) m with
      | inl q => (v_pool c q, ROk)
      | inr x => (c, RErr (of_send_error x) m)
      end
  end.

Definition out_of (x : ctx * result) : ctx * route_out := (fst x, ROut (snd x)).

(** context.rs:129-226 [TunnelPoolContextHandle::route_message].  A panic at 140 unwinds through
    the lock's guard, and [parking_lot]'s lock is not poisoned: the listeners are unchanged. *)
Definition route_message (c : ctx) (m : message) : ctx * route_out :=
  match m_type m with
  | Garlic =>
      match garlic_tag (m_payload m) with
      | None => (c, RPanic)
      | Some tag =>
          match nget tag (cx_tags c) with
          | Some id =>
              let c := v_tags c (ndel tag (cx_tags c)) in
              let c := v_ids c (ndel id (cx_ids c)) in
              out_of (to_listener_or_pool c id m)
          | None =>
              match nget (m_id m) (cx_listen c) with
              | Some h => out_of (give c (m_id m) h m)
              | None => out_of (to_owner c m)
              end
          end
      end
  | DatabaseStore | DatabaseLookup | DatabaseSearchReply => out_of (to_owner c m)
  | OutboundTunnelBuildReply => out_of (to_listener_or_pool (drop_association c (m_id m)) (m_id m) m)
  | _ => out_of (to_listener_or_pool c (m_id m) m)
  end.

(** context.rs:414-483 the [register_*] functions: one [try_send] each *)
Definition register (c : ctx) (ev : pevent) : ctx * bool :=
  match try_send (cx_owner c) ev with
  | inl q => (v_owner c q, true)
  | inr _ => (c, false)
  end.

(** The receiving ends. *)
Definition recv_one (c : ctx) (h : N) : ctx * option message :=
  match nget h (cx_one c) with
  | Some (OneFull m) => (v_one c (nput h OneGone (cx_one c)), Some m)
  | _ => (c, None)
  end.
Definition drop_one (c : ctx) (h : N) : ctx :=
  match nget h (cx_one c) with
  | Some _ => v_one c (nput h OneGone (cx_one c))
  | None => c
  end.
Definition recv_owner (c : ctx) : ctx * option pevent :=
  match ch_q (cx_owner c) with
  | [] => (c, None)
  | e :: q => (v_owner c (mkChan (ch_cap (cx_owner c)) q (ch_open (cx_owner c))), Some e)
  end.
Definition recv_pool (c : ctx) : ctx * option message :=
  match ch_q (cx_pool c) with
  | [] => (c, None)
  | m :: q => (v_pool c (mkChan (ch_cap (cx_pool c)) q (ch_open (cx_pool c))), Some m)
  end.
Definition drop_owner (c : ctx) : ctx := v_owner c (mkChan (ch_cap (cx_owner c)) [] false).
Definition drop_pool (c : ctx) : ctx := v_pool c (mkChan (ch_cap (cx_pool c)) [] false).

(** ** Calls, from the pool's and the tunnels' tasks, in any order. *)
Inductive op : Type :=
| CAdd (draws : list N)
| CTag (id tag : N)
| CRemove (id : N)
| CRoute (m : message)
| CEvent (ev : pevent)
| CRecv (h : N) | CDrop (h : N)
| COwnerRecv | COwnerDrop
| CPoolRecv | CPoolDrop.

Inductive out : Type :=
| UNone
| UListener (id h : N)
| URoute (r : route_out)
| UEvent (taken : bool)
| UMessage (m : message)
| UOwner (ev : pevent).

Definition step (c : ctx) (o : op) : ctx * out :=
  match o with
  | CAdd draws => match add_listener c draws with (c', Some (id, h)) => (c', UListener id h) | (c', None) => (c', UNone) end
  | CTag id tag => (add_garlic_listener c id tag, UNone)
  | CRemove id => (remove_listener c id, UNone)
  | CRoute m => let '(c', r) := route_message c m in (c', URoute r)
  | CEvent ev => let '(c', b) := register c ev in (c', UEvent b)
  | CRecv h => match recv_one c h with (c', Some m) => (c', UMessage m) | (c', None) => (c', UNone) end
  | CDrop h => (drop_one c h, UNone)
  | COwnerRecv => match recv_owner c with (c', Some e) => (c', UOwner e) | (c', None) => (c', UNone) end
  | COwnerDrop => (drop_owner c, UNone)
  | CPoolRecv => match recv_pool c with (c', Some m) => (c', UMessage m) | (c', None) => (c', UNone) end
  | CPoolDrop => (drop_pool c, UNone)
  end.

Fixpoint run (c : ctx) (ops : list op) : ctx * list (op * out) :=
  match ops with
  | [] => (c, [])
  | o :: rest =>
      let '(c1, u) := step c o in
      let '(c2, us) := run c1 rest in (c2, (o, u) :: us)
  end.
