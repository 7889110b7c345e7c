(** Routing paths: which of our outbound tunnels and which of the remote's inbound tunnels a
    stream sends through.

    Models [RoutingPathHandle] of /repo/emissary-core/src/destination/routing_path.rs.  The
    manager that feeds the handles is in DestModel.v.

    Simplifications: times are milliseconds since the epoch; a [HashMap] is an [nmap] and the
    random choice among the candidates takes the drawn number modulo their count, as the code
    does, so quantifying over the drawn number covers every iteration order of the hash map; a
    timer is the instant at which it fires; [debug_assert!(false)] is a no-op, as in a release
    build; log lines are left out.  [Dummy] events never reach the queue. *)
From Coq Require Import List NArith Bool Lia.
From Verif Require Import ListUtil Bytes NMap.
Import ListNotations.
Open Scope N_scope.

(** routing_path.rs:48 [OUTBOUND_TUNNEL_EXPIRATION] *)
Definition OUTBOUND_TUNNEL_EXPIRATION : N := 30000.
(** routing_path.rs:51 [INBOUND_TUNNEL_MIN_AGE] *)
Definition INBOUND_TUNNEL_MIN_AGE : N := 30000.
(** routing_path.rs:54 [MAX_LEASE_SET_QUERIES] *)
Definition MAX_LEASE_SET_QUERIES : N := 3.
(** routing_path.rs:265, 478: capacity of a handle's event channel. *)
Definition EVENT_CHANNEL : N := 128.

(** routing_path.rs:597-641 [TunnelKind], without the tunnel id, which is always the key. *)
Inductive tkind : Type :=
| KOut
| KExpiringOut (expires : N)
| KFailingOut (expires : option N)
| KIn (expires : N)
| KFailingIn (expires : N).

(** routing_path.rs:153-183 [RoutingPathEvent] *)
Inductive revent : Type :=
| InBuilt (tunnels : list (N * N))
| OutBuilt (t : N)
| OutExpiring (t expires : N)
| OutExpired (t : N).

(** routing_path.rs:644-667 [LeaseSetQueryStatus]; the oneshot of [QPending] is [h_answer]. *)
Inductive qstatus : Type := QInactive (retries : N) | QPending (retries : N).

(** routing_path.rs:670-694 [RoutingPathHandle]; [h_path] is (inbound, outbound): the destination
    is always the handle's.  [h_answer] is what the manager put into the oneshot: [true] for
    [Ok(())]. *)
Record handle : Type := mkH {
  h_tunnels : nmap tkind;
  h_path : option (N * N);
  h_timer : option N;
  h_status : qstatus;
  h_answer : option bool;
  h_events : list revent
}.

(** routing_path.rs:698-736 [new]: collecting the chain lets later entries replace earlier ones. *)
Definition put_all (l : list (N * tkind)) (m : nmap tkind) : nmap tkind :=
  fold_left (fun m e => nput (fst e) (snd e) m) l m.
Definition new_handle (inb : list (N * N)) (outb : list N) (expiring : list (N * N)) : handle :=
  mkH (put_all (map (fun e => (fst e, KIn (snd e))) inb ++ map (fun t => (t, KOut)) outb ++
                map (fun e => (fst e, KExpiringOut (snd e))) expiring) [])
      None None (QInactive 0) None [].

(** [v\[rng % v.len()\]], [None] for the empty vector. *)
Definition choose {A} (r : N) (l : list A) : option A :=
  match l with [] => None | _ => nth_error l (N.to_nat (r mod N.of_nat (length l))) end.

(** The first of the three selections that has a candidate. *)
Definition or_else {A} (a b : option A) : option A := match a with Some x => Some x | None => b end.

(** routing_path.rs:744-806 [select_outbound_tunnel] *)
Definition out_available (m : nmap tkind) : list N :=
  flat_map (fun e => match snd e with KOut => [fst e] | _ => [] end) m.
Definition out_expiring (now : N) (m : nmap tkind) : list N :=
  flat_map (fun e => match snd e with
                     | KExpiringOut x => if now + OUTBOUND_TUNNEL_EXPIRATION <? x then [fst e] else []
                     | _ => [] end) m.
Definition out_failing (now : N) (m : nmap tkind) : list N :=
  flat_map (fun e => match snd e with
                     | KFailingOut (Some x) => if now + OUTBOUND_TUNNEL_EXPIRATION <? x then [fst e] else []
                     | KFailingOut None => [fst e]
                     | _ => [] end) m.
Definition select_outbound (now r : N) (m : nmap tkind) : option N :=
  or_else (choose r (out_available m)) (or_else (choose r (out_expiring now m)) (choose r (out_failing now m))).

(** routing_path.rs:812-847: the selecting part of [select_inbound_tunnel] *)
Definition in_available (now : N) (m : nmap tkind) : list (N * N) :=
  flat_map (fun e => match snd e with
                     | KIn x => if now + INBOUND_TUNNEL_MIN_AGE <? x then [(fst e, x)] else []
                     | _ => [] end) m.
Definition in_failing (now : N) (m : nmap tkind) : list (N * N) :=
  flat_map (fun e => match snd e with
                     | KFailingIn x => if now + INBOUND_TUNNEL_MIN_AGE <? x then [(fst e, x)] else []
                     | _ => [] end) m.
Definition select_inbound (now r : N) (m : nmap tkind) : option (N * N) :=
  or_else (choose r (in_available now m)) (choose r (in_failing now m)).

Definition w_tunnels (h : handle) m := mkH m (h_path h) (h_timer h) (h_status h) (h_answer h) (h_events h).
Definition w_path (h : handle) p t := mkH (h_tunnels h) p t (h_status h) (h_answer h) (h_events h).
Definition w_status (h : handle) s a := mkH (h_tunnels h) (h_path h) (h_timer h) s a (h_events h).
Definition w_events (h : handle) l := mkH (h_tunnels h) (h_path h) (h_timer h) (h_status h) (h_answer h) l.

(** What a call does besides changing the handle: hands back a path or nothing, and whether it
    put a [RequestLeaseSet] into the command channel; [PPanic] is the arithmetic panic of
    [Duration - Duration]. *)
Inductive pres : Type :=
| PPanic
| PRes (h : handle) (path : option (N * N)) (request : bool).

(** routing_path.rs:849-890: the rest of [select_inbound_tunnel]: start a lease set lookup unless
    one is under way; [room] tells whether the command channel takes the request. *)
Definition ask_lease_set (room : bool) (h : handle) : handle * bool :=
  match h_status h with
  | QInactive n => if room then (w_status h (QPending (n + 1)) None, true) else (h, false)
  | QPending _ => (h, false)
  end.

(** The clock readings and random numbers one call uses, in the order it takes them, and whether
    the command channel has room. *)
Record draw : Type := mkDraw { dr_now1 : N; dr_now2 : N; dr_now3 : N; dr_r1 : N; dr_r2 : N; dr_room : bool }.

(** routing_path.rs:898-914 [make_routing_path].  The clock is read three times: by each of the
    two selections and once more for the timer. *)
Definition make_path (d : draw) (h : handle) : pres :=
  match select_outbound (dr_now1 d) (dr_r1 d) (h_tunnels h) with
  | None => PRes h None false
  | Some o =>
      match select_inbound (dr_now2 d) (dr_r2 d) (h_tunnels h) with
      | None => let (h', q) := ask_lease_set (dr_room d) h in PRes h' None q
      | Some (i, x) =>
          if x <? dr_now3 d + INBOUND_TUNNEL_MIN_AGE then PPanic
          else PRes (w_path h (Some (i, o)) (Some (x - INBOUND_TUNNEL_MIN_AGE))) (Some (i, o)) false
      end
  end.

(** routing_path.rs:925-930 [routing_path] *)
Definition routing_path (d : draw) (h : handle) : pres :=
  match h_path h with
  | Some p => PRes h (Some p) false
  | None => make_path d h
  end.

(** routing_path.rs:960-977: [remove] followed by [insert] *)
Definition fail_inbound (i : N) (m : nmap tkind) : nmap tkind :=
  match nget i m with
  | Some (KIn x) | Some (KFailingIn x) => nput i (KFailingIn x) m
  | _ => ndel i m
  end.
(** routing_path.rs:979-1014 *)
Definition fail_outbound (o : N) (m : nmap tkind) : nmap tkind :=
  match nget o m with
  | Some KOut => nput o (KFailingOut None) m
  | Some (KExpiringOut x) => nput o (KFailingOut (Some x)) m
  | Some (KFailingOut x) => nput o (KFailingOut x) m
  | _ => ndel o m
  end.

(** routing_path.rs:937-1017 [recreate_routing_path] *)
Definition recreate_path (d : draw) (h : handle) : pres :=
  match h_path h with
  | None => make_path d h
  | Some (i, o) =>
      make_path d (mkH (fail_outbound o (fail_inbound i (h_tunnels h)))
                       (h_path h) None (h_status h) (h_answer h) (h_events h))
  end.

(** [w_path] with no path: both fields are reset together. *)
Definition no_path (h : handle) : handle := w_path h None None.

(** routing_path.rs:1103-1116: the [retain] after new leases *)
Definition keep_tunnel (now : N) (cur : option N) (e : N * tkind) : bool :=
  match cur with
  | Some i => if fst e =? i then true
              else match snd e with KIn x | KFailingIn x => now <? x | _ => true end
  | None => match snd e with KIn x | KFailingIn x => now <? x | _ => true end
  end.

(** routing_path.rs:1075-1187: one event of the loop *)
Definition on_event (now : N) (h : handle) (e : revent) : handle :=
  match e with
  | InBuilt ts =>
      let h1 := match h_path h with
                | Some (i, _) => match nget i (h_tunnels h) with
                                 | Some (KFailingIn _) => no_path h
                                 | _ => h
                                 end
                | None => h
                end in
      w_tunnels h1 (filter (keep_tunnel now (option_map fst (h_path h1)))
                      (put_all (map (fun e => (fst e, KIn (snd e))) ts) (h_tunnels h1)))
  | OutBuilt t =>
      let h1 := match h_path h with
                | Some (_, o) => match nget o (h_tunnels h) with
                                 | Some (KExpiringOut _) | Some (KFailingOut _) => no_path h
                                 | _ => h
                                 end
                | None => h
                end in
      w_tunnels h1 (nput t KOut (h_tunnels h1))
  | OutExpiring t x =>
      let h1 := w_tunnels h (nput t (KExpiringOut x) (h_tunnels h)) in
      match h_path h with
      | Some (_, o) => if o =? t then no_path h1 else h1
      | None => h1
      end
  | OutExpired t =>
      let h1 := w_tunnels h (ndel t (h_tunnels h)) in
      match h_path h with
      | Some (_, o) => if o =? t then no_path h1 else h1
      | None => h1
      end
  end.

(** routing_path.rs:1024-1057: the answer to the lookup; [None]: the handle gives up. *)
Definition on_answer (h : handle) : option handle :=
  match h_status h, h_answer h with
  | QPending n, Some true => Some (w_status h (QInactive 0) None)
  | QPending n, Some false =>
      if n =? MAX_LEASE_SET_QUERIES then None else Some (w_status h (QInactive n) None)
  | _, _ => Some h
  end.

(** routing_path.rs:1059-1070 *)
Definition on_timer (now : N) (h : handle) : handle :=
  match h_timer h with
  | Some t => if t <=? now then no_path h else h
  | None => h
  end.

(** routing_path.rs:1023-1190 [poll]; [None]: the handle gives up.  The manager lives as long as
    its destination, so the event channel is not closed. *)
Definition poll (now : N) (h : handle) : option handle :=
  match on_answer h with
  | None => None
  | Some h1 =>
      let h2 := on_timer now h1 in
      Some (w_events (fold_left (on_event now) (h_events h2) h2) [])
  end.

(** [try_send] of an event to the handle: a full channel loses it (e.g. routing_path.rs:316-325). *)
Definition push_event (e : revent) (h : handle) : handle :=
  if N.of_nat (length (h_events h)) <? EVENT_CHANNEL then w_events h (h_events h ++ [e]) else h.

(** routing_path.rs:407-409, 419-421: the oneshot is answered.  A oneshot is answered once. *)
Definition push_answer (ok : bool) (h : handle) : handle :=
  match h_status h, h_answer h with
  | QPending _, None => w_status h (h_status h) (Some ok)
  | _, _ => h
  end.

(** What can happen to a handle: its owner asks for a path, asks for another path after packet
    loss, or polls it; the manager sends it an event or answers its lookup. *)
Inductive hop : Type :=
| HPath (d : draw)
| HRecreate (d : draw)
| HPoll (now : N)
| HEvent (e : revent)
| HAnswer (ok : bool).
(** What the owner sees: the path it got and whether a lookup was requested; the handle gave up;
    a panic. *)
Inductive hout : Type := Quiet | Got (p : option (N * N)) (request : bool) | GaveUp | Panicked.

Definition of_pres (r : pres) : option handle * hout :=
  match r with PPanic => (None, Panicked) | PRes h p q => (Some h, Got p q) end.
(** One step; [None] is a handle that is gone. *)
Definition hstep (s : option handle) (op : hop) : option handle * hout :=
  match s with
  | None => (None, Quiet)
  | Some h =>
      match op with
      | HPath d => of_pres (routing_path d h)
      | HRecreate d => of_pres (recreate_path d h)
      | HPoll now => match poll now h with Some h' => (Some h', Quiet) | None => (None, GaveUp) end
      | HEvent e => (Some (push_event e h), Quiet)
      | HAnswer ok => (Some (push_answer ok h), Quiet)
      end
  end.
Fixpoint hrun (s : option handle) (ops : list hop) : option handle * list hout :=
  match ops with
  | [] => (s, [])
  | op :: rest => let (s1, o) := hstep s op in let (s2, os) := hrun s1 rest in (s2, o :: os)
  end.
