(** Model of the network database of a floodfill router: stores, flooding, lookups, and the
    messages kept for routers that are being dialed.  emissary-core/src/netdb/mod.rs. *)
From Coq Require Import List NArith Bool Arith.
From Verif Require Import ListUtil Bytes NMap PrimModel I2npModel KadModel.
Import ListNotations.
Open Scope N_scope.

(** What the code reads from outside while handling one event: the clock in milliseconds, the
    place of a key in the DHT (netdb/dht.rs:145-146), whether a router is known to be a floodfill
    (profile.rs), the message ids drawn at random, whether the transport has a connection to a
    router and takes the message, and whether it can dial a router (transport/mod.rs), and
    whether the tunnel pool takes a message. *)
Record fenv : Type := mkFenv {
  v_now : N;
  v_target : bytes -> N;
  v_floodfill : N -> bool;
  v_id1 : N; v_id2 : N; v_id3 : N;
  v_linked : N -> bool;
  v_dial : N -> bool;
  v_tunnel : bool
}.

(** netdb/mod.rs:101-116 [MessageKind]; the time is in milliseconds. *)
Inductive kept : Type := Expiring (m : bytes) (expires : N) | NonExpiring (m : bytes).
(** netdb/mod.rs:118-126 [into_inner] *)
Definition kept_bytes (k : kept) : bytes := match k with Expiring m _ => m | NonExpiring m => m end.
(** netdb/mod.rs:128-138 [RouterState] *)
Inductive link : Type := Connected | Dialing (pending : list kept).

(** netdb/mod.rs:153-214: the fields that concern storing and flooding.  The tables of lease sets
    and router infos hold the serialized value and a time in milliseconds. *)
Record fdb : Type := mkFdb {
  fd_dht : table;                               (** floodfills *)
  fd_routers : option table;                    (** other routers, if this is a floodfill *)
  fd_leases : list (bytes * (bytes * N));
  fd_infos : list (bytes * (bytes * N));
  fd_links : nmap link
}.
(** Configuration: netdb/mod.rs:165, router/context.rs *)
Record fconf : Type := mkFconf { fc_floodfill : bool; fc_net : N; fc_local : N }.

(** What leaves: a message for a router that is connected, a dial, a message through a tunnel to
    a gateway, a router info for the profile storage. *)
Inductive fout : Type :=
| ToRouter (r : N) (m : bytes)
| Dial (r : N)
| ToTunnel (gateway tunnel : N) (m : bytes)
| Discovered (r : router_info) (raw : bytes).

(** std HashMap with byte strings as keys *)
Fixpoint bget {V} (k : bytes) (m : list (bytes * V)) : option V :=
  match m with [] => None | (j, v) :: t => if beq j k then Some v else bget k t end.
Definition bput {V} (k : bytes) (v : V) (m : list (bytes * V)) : list (bytes * V) :=
  (k, v) :: filter (fun x => negb (beq (fst x) k)) m.

Definition with_links (l : nmap link) (s : fdb) : fdb :=
  mkFdb (fd_dht s) (fd_routers s) (fd_leases s) (fd_infos s) l.

Section Flood.
Variable e : ext.
Variable gunzip : bytes -> option bytes.
Variable c : fconf.

(** i2np/mod.rs:62 [I2NP_MESSAGE_EXPIRATION]; times in messages are in nanoseconds *)
Definition message_lifetime : N := 8000.
Definition message_of (t : mtype) (id now : N) (payload : bytes) : message :=
  mkMsg t id (of_ms (now + message_lifetime)) payload.

(** transport service: [send] fails, and the message is lost, if there is no connection *)
Definition send_now (v : fenv) (r : N) (m : bytes) : list fout :=
  if v_linked v r then [ToRouter r m] else [].

(** netdb/mod.rs:378-411 [send_message], for one router *)
Definition send_one (v : fenv) (k : kept) (s : fdb) (r : N) : fdb * list fout :=
  match nget r (fd_links s) with
  | None =>
      if v_dial v r then (with_links (nput r (Dialing [k]) (fd_links s)) s, [Dial r]) else (s, [])
  | Some (Dialing p) => (with_links (nput r (Dialing (p ++ [k])) (fd_links s)) s, [])
  | Some Connected => (s, send_now v r (kept_bytes k))
  end.
(** netdb/mod.rs:378-411 [send_message] *)
Fixpoint send_all (v : fenv) (k : kept) (s : fdb) (rs : list N) : fdb * list fout :=
  match rs with
  | [] => (s, [])
  | r :: t =>
      let '(s1, o1) := send_one v k s r in
      let '(s2, o2) := send_all v k s1 t in (s2, o1 ++ o2)
  end.

(** netdb/mod.rs:306-358 [on_connection_established] *)
Definition on_established (v : fenv) (s : fdb) (r : N) : fdb * list fout :=
  let out :=
    match nget r (fd_links s) with
    | Some (Dialing p) =>
        flat_map (fun k => match k with
                           | NonExpiring m => send_now v r m
                           | Expiring m x => if v_now v <? x then send_now v r m else []
                           end) p
    | _ => []
    end in
  let dht := if v_floodfill v r then add_router (fd_dht s) r else fd_dht s in
  let routers := if v_floodfill v r then fd_routers s else option_map (fun t => add_router t r) (fd_routers s) in
  (mkFdb dht routers (fd_leases s) (fd_infos s) (nput r Connected (fd_links s)), out).
(** netdb/mod.rs:361-363 [on_connection_closed], 366-375 [on_connection_failure] (which removes
    the entry whatever it is) *)
Definition on_gone (s : fdb) (r : N) : fdb * list fout := (with_links (ndel r (fd_links s)) s, []).

(** netdb/mod.rs:505-566, 626-687: the acknowledgement of a store *)
Definition acknowledge (v : fenv) (reply : store_reply) : list (N * kept) :=
  let status token := ser_delivery_status (mkDs token (of_ms (v_now v))) in
  let x := v_now v + message_lifetime in
  match reply with
  | SrNone => []
  | SrTunnel token tunnel router =>
      let m := build_standard e (message_of DeliveryStatus (v_id1 v) (v_now v) (status token)) in
      [(be_val router,
        Expiring (build_short (message_of TunnelGateway (v_id2 v) (v_now v) (ser_gateway (mkTg tunnel m)))) x)]
  | SrRouter token router =>
      [(be_val router, Expiring (build_short (message_of DeliveryStatus (v_id1 v) (v_now v) (status token))) x)]
  end.
(** netdb/mod.rs:568-584, 689-712: acknowledge, then flood to the three closest floodfills *)
Definition answer_and_flood (v : fenv) (s : fdb) (reply : store_reply) (key : bytes) (k : store_kind)
  (expires : N) : fdb * list fout :=
  match acknowledge v reply with
  | [] => (s, [])
  | (r, m) :: _ =>
      let '(s1, o1) := send_one v m s r in
      let fs := match closest (fd_dht s1) (v_target v key) 3 with Some l => l | None => [] end in
      let m := build_short (message_of DatabaseStore (v_id3 v) (v_now v) (ser_store key k SrNone)) in
      let '(s2, o2) := send_all v (Expiring m expires) s1 fs in
      (s2, o1 ++ o2)
  end.

(** netdb/mod.rs:414-584 [on_router_info_store]; [published] is in milliseconds.  The key is not
    compared with the router info, and neither is what is stored under it already.  [None] is a
    panic of [extract_raw_router_info]. *)
Definition on_info_store (v : fenv) (s : fdb) (key : bytes) (reply : store_reply) (payload : bytes)
  (r : router_info) : option (fdb * list fout) :=
  let id := be_val (ri_hash (rf_identity r)) in
  if negb (rf_net_id r =? fc_net c) then Some (s, [])
  else if id =? fc_local c then Some (s, [])
  else
    let expires := rf_published r + 3600000 in
    if expires <? v_now v then Some (s, [])
    else
      let dht := if c_floodfill (rf_caps r) then add_router (fd_dht s) id else fd_dht s in
      match extract_raw true payload with
      | None => None
      | Some raw =>
          let s1 := mkFdb dht (fd_routers s) (fd_leases s) (fd_infos s) (fd_links s) in
          if negb (fc_floodfill c) then Some (s1, [Discovered r raw])
          else
            let s2 := mkFdb dht (option_map (fun t => add_router t id) (fd_routers s)) (fd_leases s)
                        (bput key (raw, rf_published r) (fd_infos s)) (fd_links s) in
            let '(s3, o) := answer_and_flood v s2 reply key (KRouterInfo raw) expires in
            Some (s3, Discovered r raw :: o)
      end.
(** netdb/mod.rs:587-712 [on_lease_set_store].  The key is not compared with the destination. *)
Definition on_lease_store (v : fenv) (s : fdb) (key : bytes) (reply : store_reply) (payload : bytes)
  (l : lease_set) : option (fdb * list fout) :=
  if ls_expired (v_now v) l then Some (s, [])
  else
    match extract_raw false payload with
    | None => None
    | Some raw =>
        let expires := ls_expires l * 1000 in
        let s1 := mkFdb (fd_dht s) (fd_routers s) (bput key (raw, expires) (fd_leases s)) (fd_infos s) (fd_links s) in
        Some (answer_and_flood v s1 reply key (KLeaseSet2 raw) expires)
    end.

(** netdb/mod.rs:771-812, 866-907: where the answer to a lookup goes.  A router that asked
    directly is not dialed. *)
Definition reply_to (v : fenv) (reply : lookup_reply) (t : mtype) (body : bytes) : list fout :=
  let m := message_of t (v_id1 v) (v_now v) body in
  match reply with
  | LrTunnel tunnel router => if v_tunnel v then [ToTunnel (be_val router) tunnel (build_standard e m)] else []
  | LrRouter router => send_now v (be_val router) (build_short m)
  end.
(** netdb/mod.rs:88 [SEARCH_REPLY_NUM_ROUTERS], 735-750: the routers of a search reply *)
Definition search_answer (t : table) (v : fenv) (key : bytes) (ignore : list bytes) : bytes :=
  let rs := match closest_with_ignore t (v_target v key) 5 (map be_val ignore) with Some l => l | None => [] end in
  ser_search_reply (mkSr (be_bytes 32 (fc_local c)) key (map (be_bytes 32) rs)).
(** netdb/mod.rs:719-816 [on_lease_set_lookup], 823-920 [on_router_info_lookup]: the expiry of
    what is stored is not looked at. *)
Definition on_lookup (v : fenv) (s : fdb) (lease : bool) (key : bytes) (reply : lookup_reply)
  (ignore : list bytes) : list fout :=
  match bget key (if lease then fd_leases s else fd_infos s) with
  | None => reply_to v reply DatabaseSearchReply (search_answer (fd_dht s) v key ignore)
  | Some (raw, _) =>
      reply_to v reply DatabaseStore (ser_store key (if lease then KLeaseSet2 raw else KRouterInfo raw) SrNone)
  end.
(** netdb/mod.rs:923-983 [on_router_exploration] *)
Definition on_exploration (v : fenv) (s : fdb) (key : bytes) (reply : lookup_reply) (ignore : list bytes)
  : fdb * list fout :=
  match fd_routers s with
  | None => (s, [])
  | Some t =>
      let m := message_of DatabaseSearchReply (v_id1 v) (v_now v) (search_answer t v key ignore) in
      match reply with
      | LrTunnel tunnel router =>
          send_one v (NonExpiring (build_short (message_of TunnelGateway (v_id2 v) (v_now v)
                        (ser_gateway (mkTg tunnel (build_standard e m)))))) s (be_val router)
      | LrRouter router => send_one v (NonExpiring (build_short m)) s (be_val router)
      end
  end.

(** netdb/mod.rs:986-1018 [on_database_store], for a key without an active query (NetdbModel has
    the others); a message that does not parse is dropped. *)
Definition on_store (v : fenv) (s : fdb) (payload : bytes) : option (fdb * list fout) :=
  match parse_store e gunzip payload with
  | None => Some (s, [])
  | Some (mkStore key (SpRouterInfo r) reply, _) => on_info_store v s key reply payload r
  | Some (mkStore key (SpLeaseSet2 l) reply, _) =>
      if fc_floodfill c then on_lease_store v s key reply payload l else Some (s, [])
  end.
(** netdb/mod.rs:1307-1354 [on_message], lookups *)
Definition on_lookup_message (v : fenv) (s : fdb) (payload : bytes) : fdb * list fout :=
  if negb (fc_floodfill c) then (s, [])
  else
    match parse_lookup payload with
    | None => (s, [])
    | Some (mkLookup ignore key ty reply, _) =>
        match ty with
        | LLeaseSet => (s, on_lookup v s true key reply ignore)
        | LRouter => (s, on_lookup v s false key reply ignore)
        | LExploration => on_exploration v s key reply ignore
        | LNormal => (s, [])
        end
    end.
(** netdb/mod.rs:1621-1644 [maintain_netdb]: lease sets are pruned, router infos are not. *)
Definition maintain (v : fenv) (s : fdb) : fdb :=
  mkFdb (fd_dht s) (fd_routers s) (filter (fun x => negb (snd (snd x) <? v_now v)) (fd_leases s))
    (fd_infos s) (fd_links s).

(** netdb/mod.rs:1848-2000 [poll], the events concerned *)
Inductive fop : Type :=
| FStore (payload : bytes)
| FLookup (payload : bytes)
| FEstablished (r : N)
| FClosed (r : N)
| FFailed (r : N)
| FMaintain.
Definition fstep (v : fenv) (s : fdb) (o : fop) : option (fdb * list fout) :=
  match o with
  | FStore p => on_store v s p
  | FLookup p => Some (on_lookup_message v s p)
  | FEstablished r => Some (on_established v s r)
  | FClosed r | FFailed r => Some (on_gone s r)
  | FMaintain => Some (maintain v s, [])
  end.
End Flood.

(** netdb/mod.rs:215-303 [new], apart from the routers known at the start *)
Definition fdb_new (c : fconf) : fdb :=
  mkFdb (table_new (fc_local c)) (if fc_floodfill c then Some (table_new (fc_local c)) else None) [] [] [].
