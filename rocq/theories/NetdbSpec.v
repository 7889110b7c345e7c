(** Specification vocabulary for lookups (C22). *)
From Coq Require Import List NArith ZArith Bool Arith Permutation.
From Verif Require Import ListUtil Bytes NMap KadModel KadSpec NetdbModel.
Import ListNotations.
Open Scope N_scope.

(** A caller's request: a lease set ([true]) or a router info ([false]) under a key, the result to
    be sent to channel [tx]. *)
Definition request (lease : bool) (key tx : N) : nop := if lease then OLease key tx else OInfo key tx.

(** The channels handed in by callers, in order. *)
Definition op_callers (o : nop) : list N :=
  match o with OLease _ tx | OInfo _ tx => [tx] | _ => [] end.
Definition callers (ops : list (env * nop)) : list N := flat_map (fun x => op_callers (snd x)) ops.

(** The callers that have been told something: a result, or that their channel was closed. *)
Definition ev_settled (ev : nevent) : list N :=
  match ev with EvAnswer tx _ => [tx] | EvDrop tx => [tx] | _ => [] end.
Definition settled (tr : list (N * nevent)) : list N := flat_map (fun x => ev_settled (snd x)) tr.

(** The floodfills asked on behalf of the query that caller [id] started. *)
Definition ev_asked (lease : bool) (id : N) (ev : nevent) : list N :=
  match ev with
  | EvAsk l i _ f => if Bool.eqb l lease && (i =? id) then [f] else []
  | _ => []
  end.
Definition asked (lease : bool) (id : N) (tr : list (N * nevent)) : list N :=
  flat_map (fun x => ev_asked lease id (snd x)) tr.

(** Callers still waiting. *)
Definition waiting (s : netdb) : list N := flat_map (fun kv => kind_subs (snd kv)) (n_active s).

(** Router ids and hashes are 256 bit numbers. *)
Definition op_ids (o : nop) : Prop :=
  match o with
  | OStore _ (PInfo id _ _ _) _ => router_id id
  | OConnected r => router_id r
  | _ => True
  end.
Definition wf (ops : list (env * nop)) : Prop :=
  Forall (fun x => op_ids (snd x) /\ forall k, router_id (e_target (fst x) k)) ops.

(** The clock does not run backwards. *)
Fixpoint clock (t : N) (ops : list (env * nop)) : Prop :=
  match ops with [] => True | (e, _) :: r => t <= e_now e /\ clock (e_now e) r end.

(** No timer is overdue at time [t]. *)
Definition none_overdue (t : N) (s : netdb) : Prop := forall d k, In (d, k) (n_timers s) -> t <= d.

(** Timers fire when they are due: whenever an event is handled, no timer is overdue. *)
Fixpoint punctual (s : netdb) (ops : list (env * nop)) : Prop :=
  match ops with
  | [] => True
  | (e, o) :: r => none_overdue (e_now e) s /\ punctual (fst (nstep e s o)) r
  end.

(** An upper bound on the time a caller waits, in milliseconds: the total limit of twenty seconds
    and one more lookup. *)
Definition patience : N := 21600.

(** The events handled, each with what it caused. *)
Fixpoint history (s : netdb) (ops : list (env * nop)) : list (nop * list nevent) :=
  match ops with
  | [] => []
  | (e, o) :: r => (o, snd (nstep e s o)) :: history (fst (nstep e s o)) r
  end.

(** The floodfill that owes the query [id] for [key] an answer: the last one asked, if no search
    reply for the key has arrived since and its time is not up. *)
Definition owes_step (id key : N) (prev : option N) (x : nop * list nevent) : option N :=
  match flat_map (fun ev => match ev with EvAsk _ i _ f => if i =? id then [f] else [] | _ => [] end) (snd x) with
  | f :: _ => Some f
  | [] => match fst x with
          | OReply (Some (k, _, _)) _ => if k =? key then None else prev
          | OTimer d k => if k =? key then None else prev
          | _ => prev
          end
  end.
Definition owes (id key : N) (h : list (nop * list nevent)) : option N := fold_left (owes_step id key) h None.

(** Timer events are genuine: the timer was armed and is due. *)
Fixpoint genuine (s : netdb) (ops : list (env * nop)) : Prop :=
  match ops with
  | [] => True
  | (e, o) :: r =>
      (forall d k, o = OTimer d k -> In (d, k) (n_timers s) /\ d <= e_now e) /\ genuine (fst (nstep e s o)) r
  end.

(** A query of a caller: the lookup of [key] that caller [id] started is going on. *)
Definition ongoing (lease : bool) (id key : N) (s : netdb) : Prop :=
  exists q, nget key (n_active s) = Some ((if lease then KLease else KInfo) q) /\ q_id q = id.

(** The score of one router changed by [a], nothing else. *)
Definition rescored (f : N) (a : Z) (t t' : table) : Prop :=
  entries t' = map (fun x => if fst x =? f then (fst x, (snd x + a)%Z) else x) (entries t).

(** What closes a caller's channel without a result.  [s] is the state before the event. *)
Inductive closing (s : netdb) (ops : list (env * nop)) (tx : N) : nop -> Prop :=
| closing_other : forall (lease : bool) key v,     (* another kind of lookup of the key is going on *)
    nget key (n_active s) = Some v -> (forall q, ~ (if lease then v = KLease q else v = KInfo q)) ->
    closing s ops tx (request lease key tx)
| closing_wrong_record : forall e (lease : bool) key p sender,   (* a record of the other type arrives *)
    In (e, request lease key tx) ops ->
    (if lease then exists a b c d, p = PInfo a b c d else exists ls, p = PLease ls) ->
    closing s ops tx (OStore key p sender)
| closing_named : forall e lease key key' routers from sender, (* a reply to another lookup names the key *)
    In (e, request lease key tx) ops -> key <> key' -> In key routers ->
    closing s ops tx (OReply (Some (key', routers, from)) sender)
| closing_explored : forall e lease key,  (* the key is explored *)
    In (e, request lease key tx) ops -> closing s ops tx (OExplore key).
