(** Publishing the local lease set: when it is stored, where, and how the storage is verified.

    Models [LeaseSetManager] of /repo/emissary-core/src/destination/lease_set.rs and the dispatch
    of the messages that concern it (destination/mod.rs:522-565, 699-705, 734-763).

    Simplifications: keys and router ids are numbers; times are milliseconds; a timer is the
    instant at which it fires and fires at the first poll that is not earlier; a poll reads the
    clock once; a [HashSet] is an ascending list; a [HashMap] of tunnels is an [nmap], and the
    random tunnel for the reply is the drawn number modulo their count, so quantifying over the
    number covers every iteration order; floodfills' static keys and the garlic encryption of the
    two messages (GarlicModel.v, NoiseModel.v) are left out; wakers are left out (polls happen at
    any time); [debug_assert!(false)] is a no-op, as in a release build. *)
From Coq Require Import List NArith Bool.
From Verif Require Import ListUtil Bytes NMap PrimModel RpathModel KadModel.
Import ListNotations.
Open Scope N_scope.

(** lease_set.rs:57-78 *)
Definition NUM_CLOSEST_FLOODFILLS : nat := 10.
Definition TUNNEL_BUILD_WAIT_TIMEOUT : N := 30000.
Definition RETRY_TIMEOUT : N := 1000.
Definition STORAGE_VERIFICATION_START_TIMEOUT : N := 10000.
Definition STORAGE_VERIFICATION_TIMEOUT : N := 2000.
Definition STORAGE_VERIFICATION_TOTAL_TIMEOUT : N := 15000.

(** lease_set.rs:80-92 [RetryKind] *)
Inductive retry : Type := ReAsk | RePublish | ReVerify (started : N).
(** lease_set.rs:95-145 [PublishState]; [GetClosest] holds what is in its oneshot: nothing yet, the
    floodfills, or [Some None] if the other end is gone.  [Poisoned] is a state only while [poll]
    runs. *)
Inductive pstate : Type :=
| Inactive
| AwaitingLeaseSet
| AwaitingTunnels (timer : N)
| Retry (kind : retry) (timer : N)
| GetClosest (answer : option (option (list N)))
| PublishLeaseSet
| AwaitingFlooding (timer : N)
| VerifyStorage (started : N) (timer : option N).

(** lease_set.rs:171-240 [LeaseSetManager] *)
Record lsm : Type := mkM {
  m_key : N;
  m_unpublished : bool;
  m_num : N;                 (** num_inbound *)
  m_tunnels : nmap lease;
  m_expiring : list N;
  m_ls : bytes;
  m_floods : list N;
  m_pending : list N;
  m_queried : list N;
  m_stored : list N;         (** storage_floodfills *)
  m_state : pstate
}.
Definition s_tunnels m x y := mkM (m_key m) (m_unpublished m) (m_num m) x y (m_ls m) (m_floods m) (m_pending m) (m_queried m) (m_stored m) (m_state m).
Definition s_ls m x := mkM (m_key m) (m_unpublished m) (m_num m) (m_tunnels m) (m_expiring m) x (m_floods m) (m_pending m) (m_queried m) (m_stored m) (m_state m).
Definition s_floods m x y := mkM (m_key m) (m_unpublished m) (m_num m) (m_tunnels m) (m_expiring m) (m_ls m) x y (m_queried m) (m_stored m) (m_state m).
Definition s_tried m x y := mkM (m_key m) (m_unpublished m) (m_num m) (m_tunnels m) (m_expiring m) (m_ls m) (m_floods m) (m_pending m) x y (m_state m).
Definition s_state m x := mkM (m_key m) (m_unpublished m) (m_num m) (m_tunnels m) (m_expiring m) (m_ls m) (m_floods m) (m_pending m) (m_queried m) (m_stored m) x.

(** What the outside sees: a request to the network database for the closest floodfills, a lease
    set stored at a floodfill and a lookup of it, each with the tunnel for the reply, a lookup of a
    floodfill's router info, the leases handed to the client for its next lease set. *)
Inductive lout : Type :=
| AskFloodfills
| Store (floodfill : N) (ls : bytes) (reply_router : bytes) (reply_tunnel : N)
| Verify (floodfill : N) (reply_router : bytes) (reply_tunnel : N)
| FindRouter (router : N)
| Leases (l : list lease).

(** What a poll meets: the time, the day's routing key of the destination, whether the channel to
    the network database has room, whether the tunnel pool takes the store and the lookup, and the
    numbers drawn for the reply tunnels. *)
Record env : Type := mkE { e_now : N; e_target : N; e_room : bool; e_store : bool; e_lookup : bool; e_r1 : N; e_r2 : N }.

(** lease_set.rs:296-311 [get_closest_floodfills] *)
Definition ask (now : N) (room : bool) (m : lsm) : lsm * list lout :=
  if room then (s_state m (GetClosest None), [AskFloodfills])
  else (s_state m (Retry ReAsk (now + RETRY_TIMEOUT)), []).

(** lease_set.rs:247-294 [new] *)
Definition l_new (key : N) (unpublished : bool) (num : N) (tunnels : list lease) (ls : bytes) (now : N) (room : bool) : lsm * list lout :=
  let m := mkM key unpublished num (fold_left (fun a l => nput (l_tunnel l) l a) tunnels []) [] ls [] [] [] [] Inactive in
  if unpublished then (m, []) else ask now room m.

(** lease_set.rs:314-328 [register_lease_set] *)
Definition register_lease_set (ls : bytes) (now : N) (room : bool) (m : lsm) : lsm * list lout :=
  let m1 := s_ls m ls in
  if m_unpublished m then (m1, [])
  else match m_state m with AwaitingLeaseSet => ask now room m1 | _ => (m1, []) end.

(** lease_set.rs:331-361 [register_database_store]; the lease set that came is not looked at. *)
Definition register_store (key : N) (m : lsm) : lsm :=
  if negb (m_key m =? key) then m
  else match m_state m with VerifyStorage _ _ => s_state (s_tried m [] []) Inactive | _ => m end.

(** lease_set.rs:364-421 [register_database_search_reply]; [known] is the profile storage, [room]
    the channel to the network database at each request. *)
Definition register_reply (key : N) (routers : list N) (known room : N -> bool) (m : lsm) : lsm * list lout :=
  if m_unpublished m then (m, [])
  else if negb (m_key m =? key) then (m, [])
  else
    let floods := fold_left (fun a r => if known r then sadd r a else a) routers (m_floods m) in
    let find := fold_left (fun a r => if known r then a else if smem r (m_pending m) then a else sadd r a) routers [] in
    let ok := filter room find in
    (s_floods m floods (fold_left (fun a r => sadd r a) ok (m_pending m)), map FindRouter ok).

(** lease_set.rs:424-462 [register_inbound_tunnel] *)
Definition register_built (now : N) (l : lease) (m : lsm) : lsm * list lout :=
  let m1 := s_tunnels m (nput (l_tunnel l) l (m_tunnels m)) (m_expiring m) in
  let out := [Leases (map snd (m_tunnels m1))] in
  if m_unpublished m then (m1, out)
  else if N.of_nat (length (m_tunnels m1)) =? m_num m then (s_state m1 AwaitingLeaseSet, out)
  else (s_state m1 (AwaitingTunnels (now + TUNNEL_BUILD_WAIT_TIMEOUT)), out).

(** lease_set.rs:465-480, 483-485 *)
Definition register_expiring (t : N) (m : lsm) : lsm :=
  match nget t (m_tunnels m) with
  | None => m
  | Some _ => s_tunnels m (ndel t (m_tunnels m)) (sadd t (m_expiring m))
  end.
Definition register_expired (t : N) (m : lsm) : lsm := s_tunnels m (m_tunnels m) (sdel t (m_expiring m)).

(** lease_set.rs:492-595 [create_database_store] *)
Definition fresh (tried floods : list N) : list N := filter (fun r => negb (smem r tried)) floods.
Definition create_store (e : env) (m : lsm) : option lout :=
  match choose (e_r1 e) (map snd (m_tunnels m)) with
  | None => None
  | Some l =>
      match or_else (get_closest (e_target e) (fresh (m_stored m) (m_floods m))) (get_closest (e_target e) (m_floods m)) with
      | None => None
      | Some f => Some (Store f (m_ls m) (l_router l) (l_tunnel l))
      end
  end.
(** lease_set.rs:604-704 [create_database_lookup] *)
Definition create_lookup (e : env) (m : lsm) : option lout :=
  match choose (e_r2 e) (map snd (m_tunnels m)) with
  | None => None
  | Some l =>
      match get_closest (e_target e) (fresh (m_queried m) (m_floods m)) with
      | None => None
      | Some f => Some (Verify f (l_router l) (l_tunnel l))
      end
  end.

(** [Dht::get_n_closest], netdb/dht.rs:185-210 *)
Definition n_closest (target : N) (n : nat) (l : list N) : list N := firstn n (sort_by (kdist target) l).

(** One pass of the loop of lease_set.rs:710-893: the manager, what it did, and whether the loop goes
    round again.  [None]: the manager is finished. *)
Definition turn (e : env) (m : lsm) : option (lsm * list lout * bool) :=
  match m_state m with
  | AwaitingTunnels t =>
      if t <=? e_now e then let (m1, o) := ask (e_now e) (e_room e) m in Some (m1, o, true) else Some (m, [], false)
  | Retry k t =>
      if t <=? e_now e then
        match k with
        | ReAsk => let (m1, o) := ask (e_now e) (e_room e) m in Some (m1, o, true)
        | RePublish => Some (s_state m PublishLeaseSet, [], true)
        | ReVerify s => Some (s_state m (VerifyStorage s None), [], true)
        end
      else Some (m, [], false)
  | GetClosest None => Some (m, [], false)
  | GetClosest (Some None) => None
  | GetClosest (Some (Some l)) =>
      let all := fold_left (fun a r => sadd r a) l (m_floods m) in
      let near := n_closest (e_target e) NUM_CLOSEST_FLOODFILLS all in
      let m1 := s_floods m (filter (fun r => smem r near) all) (m_pending m) in
      match m_floods m1 with
      | [] => Some (s_state m1 (Retry ReAsk (e_now e + RETRY_TIMEOUT)), [], true)
      | _ => Some (s_state m1 PublishLeaseSet, [], true)
      end
  | PublishLeaseSet =>
      match create_store e m with
      | Some (Store f ls rr rt) =>
          if e_store e then
            Some (s_state (s_tried m (sadd f (m_queried m)) (sadd f (m_stored m)))
                    (AwaitingFlooding (e_now e + STORAGE_VERIFICATION_START_TIMEOUT)), [Store f ls rr rt], true)
          else Some (s_state m (Retry RePublish (e_now e + RETRY_TIMEOUT)), [], true)
      | _ => Some (s_state m (Retry RePublish (e_now e + RETRY_TIMEOUT)), [], true)
      end
  | AwaitingFlooding t =>
      if t <=? e_now e then Some (s_state m (VerifyStorage (e_now e) None), [], true) else Some (m, [], false)
  | VerifyStorage s t =>
      if s + STORAGE_VERIFICATION_TOTAL_TIMEOUT <=? e_now e then
        Some (s_state (s_tried m [] (m_stored m)) PublishLeaseSet, [], true)
      else
        match t with
        | None =>
            match create_lookup e m with
            | Some (Verify f rr rt) =>
                if e_lookup e then
                  Some (s_state (s_tried m (sadd f (m_queried m)) (m_stored m))
                          (VerifyStorage s (Some (e_now e + STORAGE_VERIFICATION_TIMEOUT))), [Verify f rr rt], true)
                else Some (s_state m (Retry (ReVerify s) (e_now e + RETRY_TIMEOUT)), [], true)
            | _ => Some (s_state m (Retry (ReVerify s) (e_now e + RETRY_TIMEOUT)), [], true)
            end
        | Some x => if x <=? e_now e then Some (s_state m (VerifyStorage s None), [], true) else Some (m, [], false)
        end
  | Inactive | AwaitingLeaseSet => Some (m, [], false)
  end.
(** The loop; [None] in the first place: it has not come to rest, which does not happen
    ([rests] in LsmProofs.v). *)
Fixpoint turns (n : nat) (e : env) (m : lsm) : option (option (lsm * list lout)) :=
  match n with
  | O => None
  | S n' =>
      match turn e m with
      | None => Some None
      | Some (m1, o, false) => Some (Some (m1, o))
      | Some (m1, o, true) =>
          match turns n' e m1 with
          | Some (Some (m2, o2)) => Some (Some (m2, o ++ o2))
          | r => r
          end
      end
  end.
(** lease_set.rs:710-893: the first loop of [poll] *)
Definition l_poll (e : env) (m : lsm) : option (lsm * list lout) :=
  match turns 8 e m with Some r => r | None => None end.
(** lease_set.rs:895-952: the end of a router info query (the second loop of [poll]); [known]: the
    router info is in the profile storage. *)
Definition router_found (r : N) (ok known : bool) (m : lsm) : lsm :=
  s_floods m (if ok && known then sadd r (m_floods m) else m_floods m) (sdel r (m_pending m)).

Inductive lop : Type :=
| NewLeaseSet (ls : bytes) (now : N) (room : bool)
| StoreReceived (key : N) (ls : bytes)
| ReplyReceived (key : N) (routers : list N) (known room : N -> bool)
| TunnelBuilt (now : N) (l : lease)
| TunnelExpiring (t : N)
| TunnelExpired (t : N)
| Floodfills (l : option (list N))
| RouterFound (r : N) (ok known : bool)
| Poll (e : env).

(** One step; [None]: the manager is finished. *)
Definition lstep (m : lsm) (op : lop) : option (lsm * list lout) :=
  match op with
  | NewLeaseSet ls now room => Some (register_lease_set ls now room m)
  | StoreReceived key _ => Some (register_store key m, [])
  | ReplyReceived key rs known room => Some (register_reply key rs known room m)
  | TunnelBuilt now l => Some (register_built now l m)
  | TunnelExpiring t => Some (register_expiring t m, [])
  | TunnelExpired t => Some (register_expired t m, [])
  | Floodfills l => Some (match m_state m with GetClosest None => s_state m (GetClosest (Some l)) | _ => m end, [])
  | RouterFound r ok known => Some (router_found r ok known m, [])
  | Poll e => l_poll e m
  end.
Fixpoint lrun (m : lsm) (ops : list lop) : option (lsm * list (list lout)) :=
  match ops with
  | [] => Some (m, [])
  | op :: rest => match lstep m op with
                  | None => None
                  | Some (m1, o) => match lrun m1 rest with
                                    | None => None
                                    | Some (m2, os) => Some (m2, o :: os)
                                    end
                  end
  end.
