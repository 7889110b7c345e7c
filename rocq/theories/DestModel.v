(** A client destination: which lease set it uses for a remote, where it sends messages, the
    lookups it starts, and the routing paths it feeds.

    Models [Destination] of /repo/emissary-core/src/destination/mod.rs and [RoutingPathManager] of
    /repo/emissary-core/src/destination/routing_path.rs.

    Simplifications: a destination id (the hash of a destination) is a number, computed by [did];
    times are milliseconds; messages are the encrypted bytes ([SessionManager] is modelled in
    RatchetModel.v) and the I2NP wrapping of send_message_inner (mod.rs:392-399) is left out; cloves
    arrive parsed (GarlicModel.v, PrimModel.v); the tunnel pool accepts every message; a lookup is
    one [Result] event ([NetDb] is modelled in NetdbModel.v and FloodModel.v); the local lease set
    is LsmModel.v; every event of [poll_next] is an operation of its own, in any order;
    [debug_assert!(false)] is a no-op, as in a release build.  A handle obtained through
    [PendingRoutingPathHandle::bind] is created when its command is processed, which is what
    [NewHandle] is. *)
From Coq Require Import List NArith Bool Lia.
From Verif Require Import ListUtil Bytes NMap PrimModel RpathModel.
Import ListNotations.
Open Scope N_scope.

(** mod.rs:171-189 [DestinationContext] *)
Record ctx : Type := mkCtx { c_ls : lease_set; c_pending : list bytes; c_expiring : nmap lease }.

(** mod.rs:192-229 [Destination] and routing_path.rs:211-243 [RoutingPathManager].  Handles are
    named by numbers; [d_wait] is the manager's [pending_queries], whose senders are named by the
    handle that holds the receiver; [d_inflight] is the destination's [pending_queries]. *)
Record dest : Type := mkD {
  d_handles : nmap (N * handle);      (** handle -> (destination it is bound to, handle) *)
  d_next : N;
  d_out : list N;                     (** outbound_tunnels *)
  d_exp : list (N * N);               (** expiring_outbound_tunnels *)
  d_in : nmap (list lease);           (** inbound_tunnels *)
  d_wait : nmap (list N);
  d_cmds : list (N * N);              (** RequestLeaseSet commands: (destination, handle) *)
  d_remote : nmap ctx;                (** remote_destinations *)
  d_inflight : list N
}.
(** mod.rs:232-272, routing_path.rs:247-261 [new] *)
Definition d_new (outs : list N) : dest := mkD [] 0 outs [] [] [] [] [] [].

Definition w_handles d x := mkD x (d_next d) (d_out d) (d_exp d) (d_in d) (d_wait d) (d_cmds d) (d_remote d) (d_inflight d).
Definition w_out d x y := mkD (d_handles d) (d_next d) x y (d_in d) (d_wait d) (d_cmds d) (d_remote d) (d_inflight d).
Definition w_in d x := mkD (d_handles d) (d_next d) (d_out d) (d_exp d) x (d_wait d) (d_cmds d) (d_remote d) (d_inflight d).
Definition w_wait d x := mkD (d_handles d) (d_next d) (d_out d) (d_exp d) (d_in d) x (d_cmds d) (d_remote d) (d_inflight d).
Definition w_cmds d x := mkD (d_handles d) (d_next d) (d_out d) (d_exp d) (d_in d) (d_wait d) x (d_remote d) (d_inflight d).
Definition w_remote d x := mkD (d_handles d) (d_next d) (d_out d) (d_exp d) (d_in d) (d_wait d) (d_cmds d) x (d_inflight d).
Definition w_inflight d x := mkD (d_handles d) (d_next d) (d_out d) (d_exp d) (d_in d) (d_wait d) (d_cmds d) (d_remote d) x.

(** mod.rs:151-166 [LeaseSetStatus] *)
Inductive lstatus : Type := Found | NotFound | Pending.

(** What the outside sees: a message handed to the tunnel pool for the gateway [tunnel] at
    [router], through the given outbound tunnel if any; a [NetDb] lookup started; the events of
    [poll_next]; return values; what the owner of a handle sees. *)
Inductive dout : Type :=
| Send (router : bytes) (tunnel : N) (via : option N) (msg : bytes)
| Lookup (remote : N)
| LeaseSetFound (remote : N)
| LeaseSetNotFound (remote : N)
| Status (s : lstatus)
| SendError
| HandleOut (h : N) (o : hout).

(** mod.rs:286-343 [query_lease_set] *)
Definition query_lease_set (now : N) (remote : N) (d : dest) : dest * lstatus * list dout :=
  if smem remote (d_inflight d) then (d, Pending, [])
  else if match nget remote (d_remote d) with
          | Some c => negb (ls_expired now (c_ls c))
          | None => false
          end then (d, Found, [])
  else (w_inflight d (sadd remote (d_inflight d)), NotFound, [Lookup remote]).

(** mod.rs (sam/protocol/streaming) [DeliveryStyle]: through a routing path (inbound, outbound) or
    any tunnel. *)
Inductive style : Type := ViaRoute (inbound outbound : N) | Unspecified.

(** mod.rs:361-490 [send_message_inner]; [r] is the random number; [None] is a panic. *)
Definition find_lease (t : N) (ls : list lease) : option lease := find (fun l => l_tunnel l =? t) ls.
Definition send_inner (now : N) (remote : N) (st : style) (msg : bytes) (r : N) (d : dest) : option (dest * list dout) :=
  match nget remote (d_remote d) with
  | None => Some (d, [SendError])
  | Some c =>
      if ls_expired now (c_ls c) then
        let d1 := w_remote d (nput remote (mkCtx (c_ls c) (c_pending c ++ [msg]) (c_expiring c)) (d_remote d)) in
        let '(d2, _, o) := query_lease_set now remote d1 in Some (d2, o)
      else
        match st with
        | ViaRoute i o =>
            match find_lease i (ls_leases (c_ls c)) with
            | Some l => Some (d, [Send (l_router l) i (Some o) msg])
            | None => match nget i (c_expiring c) with
                      | Some l => Some (d, [Send (l_router l) i (Some o) msg])
                      | None => Some (d, [])
                      end
            end
        | Unspecified =>
            match choose r (ls_leases (c_ls c)) with
            | Some l => Some (d, [Send (l_router l) (l_tunnel l) None msg])
            | None => None
            end
        end
  end.

(** ** The routing path manager *)

(** An event for every handle (routing_path.rs:316-325 and like it) or for those of one remote. *)
Definition broadcast (e : revent) (hs : nmap (N * handle)) : nmap (N * handle) :=
  map (fun x => (fst x, (fst (snd x), push_event e (snd (snd x))))) hs.
Definition tell_remote (remote : N) (e : revent) (hs : nmap (N * handle)) : nmap (N * handle) :=
  map (fun x => if fst (snd x) =? remote then (fst x, (fst (snd x), push_event e (snd (snd x)))) else x) hs.
(** routing_path.rs:407-409, 419-421: every waiting sender is used. *)
Definition answer_all (ok : bool) (ids : list N) (hs : nmap (N * handle)) : nmap (N * handle) :=
  map (fun x => if smem (fst x) ids then (fst x, (fst (snd x), push_answer ok (snd (snd x)))) else x) hs.

(** routing_path.rs:391-461 [register_leases] *)
Definition pairs_of (ls : list lease) : list (N * N) := map (fun l => (l_tunnel l, l_expires_ms l)) ls.
Definition register_leases (now : N) (remote : N) (res : option (list lease)) (d : dest) : dest :=
  let ids := match nget remote (d_wait d) with Some l => l | None => [] end in
  let d1 := w_wait d (ndel remote (d_wait d)) in
  match res with
  | None => w_handles d1 (answer_all false ids (d_handles d1))
  | Some leases =>
      let cur := match nget remote (d_in d1) with Some l => l | None => [] end in
      let d2 := w_in d1 (nput remote (filter (fun l => now <? l_expires_ms l) (cur ++ leases)) (d_in d1)) in
      w_handles d2 (tell_remote remote (InBuilt (pairs_of leases)) (answer_all true ids (d_handles d2)))
  end.

(** routing_path.rs:264-288 [handle] (and 471-509 for [GetHandle]) *)
Definition new_dest_handle (remote : N) (d : dest) : dest * N :=
  let inb := match nget remote (d_in d) with Some l => pairs_of l | None => [] end in
  let h := new_handle inb (d_out d) (d_exp d) in
  (mkD (nput (d_next d) (remote, h) (d_handles d)) (d_next d + 1) (d_out d) (d_exp d) (d_in d)
       (d_wait d) (d_cmds d) (d_remote d) (d_inflight d), d_next d).

(** routing_path.rs:307-326, 329-351, 354-373 *)
Definition on_out_built (t : N) (d : dest) : dest :=
  w_handles (w_out d (sadd t (d_out d)) (d_exp d)) (broadcast (OutBuilt t) (d_handles d)).
Definition on_out_expiring (now t : N) (d : dest) : dest :=
  let x := now + 3 * OUTBOUND_TUNNEL_EXPIRATION in
  w_handles (w_out d (sdel t (d_out d)) (d_exp d ++ [(t, x)])) (broadcast (OutExpiring t x) (d_handles d)).
Definition on_out_expired (t : N) (d : dest) : dest :=
  w_handles (w_out d (d_out d) (filter (fun e => negb (fst e =? t)) (d_exp d))) (broadcast (OutExpired t) (d_handles d)).

(** routing_path.rs:510-530 [RequestLeaseSet] and mod.rs:888-909: the lookup it asks for. *)
Definition on_command (now : N) (c : N * N) (d : dest) : dest * list dout :=
  match nget (fst c) (d_wait d) with
  | Some ids => (w_wait d (nput (fst c) (ids ++ [snd c]) (d_wait d)), [])
  | None =>
      let d1 := w_wait d (nput (fst c) [snd c] (d_wait d)) in
      let '(d2, _, o) := query_lease_set now (fst c) d1 in (d2, o)
  end.
Fixpoint on_commands (now : N) (cs : list (N * N)) (d : dest) : dest * list dout :=
  match cs with
  | [] => (d, [])
  | c :: rest => let (d1, o1) := on_command now c d in
                 let (d2, o2) := on_commands now rest d1 in (d2, o1 ++ o2)
  end.

(** The owner uses its handle; a request goes into the command channel (routing_path.rs:248: 512
    places), whose room decides [dr_room]; a handle that gave up or whose task panicked is gone. *)
Definition COMMAND_CHANNEL : N := 512.
Definition with_room (b : bool) (op : hop) : hop :=
  match op with
  | HPath d => HPath (mkDraw (dr_now1 d) (dr_now2 d) (dr_now3 d) (dr_r1 d) (dr_r2 d) b)
  | HRecreate d => HRecreate (mkDraw (dr_now1 d) (dr_now2 d) (dr_now3 d) (dr_r1 d) (dr_r2 d) b)
  | _ => op
  end.
(** Only its owner's calls; events and answers come from the manager. *)
Definition owner_op (op : hop) : bool := match op with HPath _ | HRecreate _ | HPoll _ => true | _ => false end.
Definition use_handle (h : N) (op : hop) (d : dest) : dest * list dout :=
  match nget h (d_handles d), owner_op op with
  | Some (remote, hd), true =>
      let room := N.of_nat (length (d_cmds d)) <? COMMAND_CHANNEL in
      let (hd', o) := hstep (Some hd) (with_room room op) in
      let d1 := match hd' with
                | Some x => w_handles d (nput h (remote, x) (d_handles d))
                | None => w_handles d (ndel h (d_handles d))
                end in
      (match o with Got _ true => w_cmds d1 (d_cmds d1 ++ [(remote, h)]) | _ => d1 end, [HandleOut h o])
  | _, _ => (d, [])
  end.

Section Dest.
(** [Destination::id]: the hash of a destination, as a number. *)
Variable did : destination -> N.
Definition ls_id (l : lease_set) : N := did (h_dest (ls_header' l)).

(** mod.rs:605-674: a [DatabaseStore] clove with a lease set.  Leases of the replaced lease set
    are kept as expiring leases. *)
Definition keep_leases (ls : list lease) (m : nmap lease) : nmap lease :=
  fold_left (fun m l => nput (l_tunnel l) l m) ls m.
Definition on_clove (now : N) (ls : lease_set) (d : dest) : dest :=
  match ls_leases ls with
  | [] => d
  | _ =>
      let remote := ls_id ls in
      let d1 := register_leases now remote (Some (ls_leases ls)) d in
      match nget remote (d_remote d1) with
      | Some c => w_remote d1 (nput remote (mkCtx ls (c_pending c) (keep_leases (ls_leases (c_ls c)) (c_expiring c))) (d_remote d1))
      | None => w_remote d1 (nput remote (mkCtx ls [] []) (d_remote d1))
      end
  end.

(** mod.rs:843-862: the postponed messages, in order; [rs]: their random numbers. *)
Fixpoint flush (now remote : N) (msgs : list bytes) (rs : list N) (d : dest) : option (dest * list dout) :=
  match msgs with
  | [] => Some (d, [])
  | m :: rest =>
      match send_inner now remote Unspecified m (hd 0 rs) d with
      | None => None
      | Some (d1, o1) => match flush now remote rest (tl rs) d1 with
                         | None => None
                         | Some (d2, o2) => Some (d2, o1 ++ o2)
                         end
      end
  end.
(** mod.rs:808-885: a lookup has finished. *)
Definition on_result (now remote : N) (res : option lease_set) (rs : list N) (d : dest) : option (dest * list dout) :=
  if negb (smem remote (d_inflight d)) then Some (d, [])
  else
    let d1 := register_leases now remote (option_map ls_leases res) d in
    let d2 := w_inflight d1 (sdel remote (d_inflight d1)) in
    match res with
    | None => Some (d2, [LeaseSetNotFound remote])
    | Some ls =>
        match ls_keys ls with
        | [] => None
        | _ =>
            match nget remote (d_remote d2) with
            | Some c =>
                match flush now remote (c_pending c) rs
                        (w_remote d2 (nput remote (mkCtx ls [] (c_expiring c)) (d_remote d2))) with
                | None => None
                | Some (d3, o) => Some (d3, o ++ [LeaseSetFound remote])
                end
            | None => Some (w_remote d2 (nput remote (mkCtx ls [] []) (d_remote d2)), [LeaseSetFound remote])
            end
        end
    end.

(** mod.rs:918-932: the prune timer. *)
Definition prune (now : N) (d : dest) : dest :=
  w_remote d (map (fun x => (fst x, mkCtx (c_ls (snd x)) (c_pending (snd x))
                                     (filter (fun y => now <? l_expires_ms (snd y)) (c_expiring (snd x))))) (d_remote d)).

Inductive dop : Type :=
| Query (now remote : N)
| SendMessage (now remote : N) (st : style) (msg : bytes) (r : N)
| Clove (now : N) (ls : lease_set)
| Result (now remote : N) (res : option lease_set) (rs : list N)
| OutTunnelBuilt (t : N)
| OutTunnelExpiring (now t : N)
| OutTunnelExpired (t : N)
| Commands (now : N)
| NewHandle (remote : N)
| UseHandle (h : N) (op : hop)
| DropHandle (h : N)
| Prune (now : N).

(** One step; [None] is a panic of the destination's task. *)
Definition dstep (d : dest) (op : dop) : option (dest * list dout) :=
  match op with
  | Query now remote => let '(d1, s, o) := query_lease_set now remote d in Some (d1, o ++ [Status s])
  | SendMessage now remote st msg r => send_inner now remote st msg r d
  | Clove now ls => Some (on_clove now ls d, [])
  | Result now remote res rs => on_result now remote res rs d
  | OutTunnelBuilt t => Some (on_out_built t d, [])
  | OutTunnelExpiring now t => Some (on_out_expiring now t d, [])
  | OutTunnelExpired t => Some (on_out_expired t d, [])
  | Commands now => Some (on_commands now (d_cmds d) (w_cmds d []))
  | NewHandle remote => Some (fst (new_dest_handle remote d), [])
  | UseHandle h op => Some (use_handle h op d)
  | DropHandle h => Some (w_handles d (ndel h (d_handles d)), [])
  | Prune now => Some (prune now d, [])
  end.
Fixpoint drun (d : dest) (ops : list dop) : option (dest * list (list dout)) :=
  match ops with
  | [] => Some (d, [])
  | op :: rest => match dstep d op with
                  | None => None
                  | Some (d1, o) => match drun d1 rest with
                                    | None => None
                                    | Some (d2, os) => Some (d2, o :: os)
                                    end
                  end
  end.
End Dest.
