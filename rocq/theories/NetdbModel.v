(** Model of the network database's lookups: lease set and router info queries, their replies,
    retries and timeouts.  emissary-core/src/netdb/{mod,query}.rs. *)
From Coq Require Import List NArith ZArith Bool Arith.
From Verif Require Import ListUtil Bytes NMap KadModel.
Import ListNotations.
Open Scope N_scope.

(** What the code reads from outside while handling one event, constant during that event:
    the clock in milliseconds; whether the profile storage holds a router's info
    (profile.rs:217-219, 495-497: [contains] and [router_info] read the same map); the hash of a
    key and today's date, as a number (netdb/dht.rs:145-146); whether there is an inbound and an
    outbound tunnel (netdb/query.rs:293-298); whether the tunnel pool accepts the message that
    looks up a given key. *)
Record env := mkEnv {
  e_now : N;
  e_has : N -> bool;
  e_target : N -> N;
  e_tunnels : bool;
  e_room : N -> bool
}.

(** netdb/query.rs:42-43, netdb/mod.rs:82 ([QUERY_TIMEOUT] = 1600 ms) *)
Definition query_total_timeout : N := 20000.
Definition query_timeout : N := 1600.

(** emissary-core/src/error.rs, QueryError *)
Inductive qerror := ETimeout | ENoFloodfills | ENoTunnel | ERetryFailure | EMalformed.

(** netdb/query.rs:98-123.  A caller's oneshot channel is a number.  [q_id] is the channel of the
    caller that started the query; the code has no such field, it is kept to name the query. *)
Record query := mkQuery {
  q_id : N;
  q_pending : list N;
  q_queried : list N;
  q_queryable : list N;
  q_selected : option N;
  q_started : N;
  q_subs : list N
}.

(** netdb/query.rs:127-137 *)
Definition query_new (now tx floodfill : N) : query :=
  mkQuery tx [] [floodfill] [] (Some floodfill) now [tx].

(** netdb/query.rs:147-177; returns the routers whose info is unknown. *)
Definition handle_search_reply (e : env) (routers : list N) (q : query) : query * list N :=
  fold_left
    (fun (acc : query * list N) r =>
       let (q, unknown) := acc in
       if smem r (q_queried q) then acc
       else if e_has e r then
         (mkQuery (q_id q) (q_pending q) (q_queried q) (sadd r (q_queryable q)) (q_selected q) (q_started q) (q_subs q),
          unknown)
       else
         (mkQuery (q_id q) (sadd r (q_pending q)) (q_queried q) (q_queryable q) (q_selected q) (q_started q) (q_subs q),
          unknown ++ [r]))
    routers
    (mkQuery (q_id q) (q_pending q) (q_queried q) (q_queryable q) None (q_started q) (q_subs q), []).

(** netdb/query.rs:190-197: the routers whose info has arrived become queryable. *)
Definition promote (e : env) (q : query) : query :=
  mkQuery (q_id q) (filter (fun r => negb (e_has e r)) (q_pending q)) (q_queried q)
    (fold_left (fun s r => if e_has e r then sadd r s else s) (q_pending q) (q_queryable q))
    (q_selected q) (q_started q) (q_subs q).

(** netdb/query.rs:180-214 *)
Definition next_floodfill (e : env) (t : table) (key : N) (q : query) : (qerror + N) * query :=
  if query_total_timeout <=? e_now e - q_started q then (inl ETimeout, q)
  else
    let q := promote e q in
    match get_closest (e_target e key) (q_queryable q) with
    | Some f =>
        (inr f, mkQuery (q_id q) (q_pending q) (q_queried q) (sdel f (q_queryable q)) (q_selected q) (q_started q) (q_subs q))
    | None =>
        match closest_with_ignore t (e_target e key) 1 (q_queried q) with
        | Some (f :: _) => (inr f, q)
        | _ => (inl ENoFloodfills, q)
        end
    end.

Definition mark_queried (f : N) (q : query) : query :=
  mkQuery (q_id q) (q_pending q) (sadd f (q_queried q)) (q_queryable q) (q_selected q) (q_started q) (q_subs q).
Definition set_selected (f : option N) (q : query) : query :=
  mkQuery (q_id q) (q_pending q) (q_queried q) (q_queryable q) f (q_started q) (q_subs q).
Definition add_sub (tx : N) (q : query) : query :=
  mkQuery (q_id q) (q_pending q) (q_queried q) (q_queryable q) (q_selected q) (q_started q) (q_subs q ++ [tx]).

(** netdb/query.rs:230-248 *)
Inductive kind := KLease (q : query) | KInfo (q : query) | KExplore | KRouter.

(** netdb/mod.rs:1709-1743: the loop that looks for the next floodfill whose router info is
    known.  The number of rounds is bounded by [fuel]; running out of it is [None]. *)
Fixpoint pick_floodfill (fuel : nat) (e : env) (t : table) (key : N) (q : query) : option ((qerror + N) * query) :=
  match fuel with
  | O => None
  | S n =>
      match next_floodfill e t key q with
      | (inl err, q) => Some (inl err, q)
      | (inr f, q) => if e_has e f then Some (inr f, q) else pick_floodfill n e t key (mark_queried f q)
      end
  end.

Definition table_size (t : table) : nat := length (flat_map (t_bucket t) (seq 0 num_buckets)).

(** netdb/mod.rs:1385-1415: the same for the first floodfill of a lease set query. *)
Fixpoint first_floodfill (fuel : nat) (e : env) (t : table) (key : N) (ignored : list N) : option (option N) :=
  match fuel with
  | O => None
  | S n =>
      match closest_with_ignore t (e_target e key) 1 ignored with
      | Some (f :: _) => if e_has e f then Some (Some f) else first_floodfill n e t key (sadd f ignored)
      | _ => Some None
      end
  end.

(** What callers and the network see.  [EvAsk lease id key f]: a lookup of [key] on behalf of
    query [id] is sent to floodfill [f].  [EvLookup key via]: a lookup of a router info found in
    a reply.  [EvAnswer]: a result is sent to a caller.  [EvDrop]: a caller's channel is closed
    without a result.  [EvStuck]: a loop of the model ran out of fuel. *)
Inductive result := ROk | RLeaseSet (ls : N) | RErr (err : qerror).
Inductive nevent :=
| EvAsk (lease : bool) (id key f : N)
| EvLookup (key via : N)
| EvAnswer (tx : N) (r : result)
| EvDrop (tx : N)
| EvStuck.

(** netdb/mod.rs:145-220: the fields that concern lookups.  Timers are deadlines with the key
    they were armed for. *)
Record netdb := mkNetdb {
  n_dht : table;
  n_active : nmap kind;
  n_timers : list (N * N)
}.

(** netdb/query.rs:222-226 *)
Definition complete (q : query) (r : result) : list nevent := map (fun tx => EvAnswer tx r) (q_subs q).

(** A query that is dropped closes its callers' channels. *)
Definition kind_subs (k : kind) : list N :=
  match k with KLease q | KInfo q => q_subs q | _ => [] end.
Definition drop_kind (k : option kind) : list nevent :=
  match k with Some k => map EvDrop (kind_subs k) | None => [] end.

Definition with_dht (t : table) (s : netdb) : netdb := mkNetdb t (n_active s) (n_timers s).
Definition put_active (key : N) (k : kind) (s : netdb) : netdb :=
  mkNetdb (n_dht s) (nput key k (n_active s)) (n_timers s).
Definition del_active (key : N) (s : netdb) : netdb :=
  mkNetdb (n_dht s) (ndel key (n_active s)) (n_timers s).
Definition arm (e : env) (key : N) (s : netdb) : netdb :=
  mkNetdb (n_dht s) (n_active s) (n_timers s ++ [(e_now e + query_timeout, key)]).

(** netdb/mod.rs:1361-1453 *)
Definition query_lease_set (e : env) (key tx : N) (s : netdb) : netdb * list nevent :=
  match nget key (n_active s) with
  | Some (KLease q) => (put_active key (KLease (add_sub tx q)) s, [])
  | Some _ => (s, [EvDrop tx])
  | None =>
      match first_floodfill (S (table_size (n_dht s))) e (n_dht s) key [] with
      | None => (s, [EvStuck])
      | Some None => (s, [EvAnswer tx (RErr ENoFloodfills)])
      | Some (Some f) =>
          if e_tunnels e then
            if e_room e key then
              (arm e key (put_active key (KLease (query_new (e_now e) tx f)) s), [EvAsk true tx key f])
            else (s, [EvAnswer tx (RErr ERetryFailure)])
          else (s, [EvAnswer tx (RErr ENoTunnel)])
      end
  end.

(** netdb/mod.rs:1460-1535 *)
Definition query_router_info (e : env) (key tx : N) (s : netdb) : netdb * list nevent :=
  match nget key (n_active s) with
  | Some (KInfo q) => (put_active key (KInfo (add_sub tx q)) s, [])
  | Some _ => (s, [EvDrop tx])
  | None =>
      match closest (n_dht s) (e_target e key) 1 with
      | Some (f :: _) =>
          if e_tunnels e then
            if e_room e key then
              (arm e key (put_active key (KInfo (query_new (e_now e) tx f)) s), [EvAsk false tx key f])
            else (s, [EvAnswer tx (RErr ERetryFailure)])
          else (s, [EvAnswer tx (RErr ENoTunnel)])
      | _ => (s, [EvAnswer tx (RErr ENoFloodfills)])
      end
  end.

(** The payload of a DatabaseStore, as far as lookups are concerned: a lease set (named by a
    number), or a router info with the router's id, whether it is a floodfill, whether it passes
    the checks on network id, local id and (for unsolicited ones) age, and whether the profile
    storage accepts it. *)
Inductive payload := PLease (ls : N) | PInfo (id : N) (floodfill valid accepted : bool).

Definition score_sender (sender : option N) (a : Z) (t : table) : table :=
  match sender with Some r => adjust_score t r a | None => t end.

(** netdb/mod.rs:986-1126 (414-470 for unsolicited router infos).  Flooding and the floodfill's
    own storage of records are not modelled here; unsolicited lease sets have no effect on
    lookups. *)
Definition on_store (e : env) (key : N) (p : payload) (sender : option N) (s : netdb) : netdb * list nevent :=
  match nget key (n_active s) with
  | None =>
      match p with
      | PInfo id ff valid _ =>
          (if valid && ff then with_dht (add_router (n_dht s) id) s else s, [])
      | PLease _ => (s, [])
      end
  | Some k =>
      let s := del_active key s in
      match p, k with
      | PLease ls, KLease q => (s, complete q (RLeaseSet ls))
      | PInfo id ff valid _, KRouter =>
          if valid then
            let t := if ff then add_router (n_dht s) id else n_dht s in
            (with_dht (score_sender sender score_success t) s, [])
          else (s, [])
      | PInfo id ff valid accepted, KInfo q =>
          (with_dht (score_sender sender score_success (n_dht s)) s,
           complete q (if accepted then ROk else RErr EMalformed))
      | _, _ => (s, drop_kind (Some k))
      end
  end.

(** netdb/mod.rs:1167-1197, 1212-1242, 1259-1289: router infos of unknown routers are looked up
    through the floodfill that named them. *)
Fixpoint lookup_routers (e : env) (via : N) (keys : list N) (s : netdb) : netdb * list nevent :=
  match keys with
  | [] => (s, [])
  | key :: rest =>
      if e_tunnels e && e_room e key then
        let dropped := drop_kind (nget key (n_active s)) in
        let (s, ev) := lookup_routers e via rest (arm e key (put_active key KRouter s)) in
        (s, EvLookup key via :: dropped ++ ev)
      else lookup_routers e via rest s
  end.

(** netdb/mod.rs:1129-1302.  [body]: the parsed reply, [None] if it is malformed. *)
Definition on_search_reply (e : env) (body : option (N * list N * N)) (sender : option N) (s : netdb) : netdb * list nevent :=
  let s := with_dht (score_sender sender score_failure (n_dht s)) s in
  match body with
  | None => (s, [])
  | Some (key, routers, from) =>
      match nget key (n_active s) with
      | None => (s, [])
      | Some KExplore =>
          lookup_routers e from
            (filter (fun r => negb (r =? t_local (n_dht s)) && negb (e_has e r)) routers) (del_active key s)
      | Some (KLease q) =>
          let (q, unknown) := handle_search_reply e routers q in
          let (s, ev) := lookup_routers e from unknown (del_active key s) in
          (put_active key (KLease q) s, ev)
      | Some (KInfo q) =>
          let (q, unknown) := handle_search_reply e routers q in
          let (s, ev) := lookup_routers e from unknown (del_active key s) in
          (put_active key (KInfo q) s, ev)
      | Some KRouter => (del_active key s, [])
      end
  end.

(** netdb/mod.rs:1705-1707, 1780-1782 *)
Definition blame (q : query) (s : netdb) : netdb :=
  match q_selected q with
  | Some f => with_dht (adjust_score (n_dht s) f score_no_reply) s
  | None => s
  end.

(** netdb/mod.rs:1702-1846; the query has been taken out of [n_active]. *)
Definition handle_timeout (e : env) (key : N) (k : kind) (s : netdb) : netdb * list nevent :=
  match k with
  | KLease q =>
      let s := blame q s in
      let q := set_selected None q in
      match pick_floodfill (S (length (q_pending q) + length (q_queryable q) + table_size (n_dht s))) e (n_dht s) key q with
      | None => (s, [EvStuck])
      | Some (inl err, q) => (s, complete q (RErr err))
      | Some (inr f, q) =>
          if e_tunnels e then
            if e_room e key then
              (arm e key (put_active key (KLease (set_selected (Some f) (mark_queried f q))) s), [EvAsk true (q_id q) key f])
            else (s, complete q (RErr ERetryFailure))
          else (s, complete q (RErr ENoTunnel))
      end
  | KInfo q =>
      let s := blame q s in
      let q := set_selected None q in
      match next_floodfill e (n_dht s) key q with
      | (inl err, q) => (s, complete q (RErr err))
      | (inr f, q) =>
          if e_tunnels e && e_room e key then
            (arm e key (put_active key (KInfo (set_selected (Some f) (mark_queried f q))) s), [EvAsk false (q_id q) key f])
          else (arm e key (put_active key (KInfo q) s), [])
      end
  | _ => (s, [])
  end.

Fixpoint remove_timer (d key : N) (l : list (N * N)) : option (list (N * N)) :=
  match l with
  | [] => None
  | (d', k') :: r =>
      if (d' =? d) && (k' =? key) then Some r
      else match remove_timer d key r with Some r => Some ((d', k') :: r) | None => None end
  end.

(** netdb/mod.rs:1966-1975: the timer armed for [key] with deadline [d] fires.  If there is no
    such timer or it is not due, nothing happens. *)
Definition on_timer (e : env) (d key : N) (s : netdb) : netdb * list nevent :=
  if d <=? e_now e then
    match remove_timer d key (n_timers s) with
    | None => (s, [])
    | Some ts =>
        let s := mkNetdb (n_dht s) (n_active s) ts in
        match nget key (n_active s) with
        | None => (s, [])
        | Some k => handle_timeout e key k (del_active key s)
        end
    end
  else (s, []).

(** netdb/mod.rs:1647-1699: exploration of a random key. *)
Definition explore (e : env) (key : N) (s : netdb) : netdb * list nevent :=
  match closest (n_dht s) (e_target e key) 1 with
  | Some (f :: _) =>
      if e_tunnels e && e_room e key then
        (arm e key (put_active key KExplore s), drop_kind (nget key (n_active s)))
      else (s, [])
  | _ => (s, [])
  end.

(** The events that concern lookups: netdb/mod.rs:1852-2010. *)
Inductive nop :=
| OLease (key tx : N)                                      (* a caller asks for a lease set *)
| OInfo (key tx : N)                                       (* a caller asks for a router info *)
| OStore (key : N) (p : payload) (sender : option N)       (* DatabaseStore received *)
| OReply (body : option (N * list N * N)) (sender : option N)  (* DatabaseSearchReply received *)
| OTimer (deadline key : N)
| OExplore (key : N)
| OConnected (router : N).                                 (* connection to a floodfill, 350-352 *)

Definition nstep (e : env) (s : netdb) (o : nop) : netdb * list nevent :=
  match o with
  | OLease key tx => query_lease_set e key tx s
  | OInfo key tx => query_router_info e key tx s
  | OStore key p sender => on_store e key p sender s
  | OReply body sender => on_search_reply e body sender s
  | OTimer d key => on_timer e d key s
  | OExplore key => explore e key s
  | OConnected r => (with_dht (add_router (n_dht s) r) s, [])
  end.

Fixpoint nrun (s : netdb) (ops : list (env * nop)) : netdb * list (N * nevent) :=
  match ops with
  | [] => (s, [])
  | (e, o) :: rest =>
      let (s1, ev) := nstep e s o in
      let (s2, tr) := nrun s1 rest in
      (s2, map (fun x => (e_now e, x)) ev ++ tr)
  end.

Definition netdb_new (t : table) : netdb := mkNetdb t [] [].
