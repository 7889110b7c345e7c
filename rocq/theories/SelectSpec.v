(** What the hop selector promises: participation counts and distinct networks. *)
From Coq Require Import List NArith Bool.
From Verif Require Import NMap Bytes ProfileModel SelectModel.
Import ListNotations.
Open Scope N_scope.

(** The hops of the tunnel registered under [k] after a history, if any: what the last operation
    that concerns it did. *)
Fixpoint registered (k : tkey) (cur : option (list N)) (ops : list aop) : option (list N) :=
  match ops with
  | [] => cur
  | AAdd k' h :: t => registered k (if tkey_eqb k' k then Some h else cur) t
  | ARemove k' :: t => registered k (if tkey_eqb k' k then None else cur) t
  | AShutdown p :: t => registered k (if fst (fst k) =? p then None else cur) t
  end.
(** [l] lists the tunnels registered after a history. *)
Definition lists_live (ops : list aop) (l : list (tkey * list N)) : Prop :=
  NoDup (map fst l) /\ forall k h, In (k, h) l <-> registered k None ops = Some h.
(** How many of them a router is part of. *)
Definition tunnels_of (r : N) (l : list (tkey * list N)) : nat :=
  length (filter (fun x => existsb (N.eqb r) (snd x)) l).
(** Every tunnel is registered under an unused key and removed before its pool goes away. *)
Definition orderly (ops : list aop) : Prop :=
  forall before o after, ops = before ++ o :: after ->
  match o with
  | AAdd k _ => registered k None before = None
  | ARemove _ => True
  | AShutdown p => forall k, fst (fst k) = p -> registered k None before = None
  end.
(** Hops are sets. *)
Definition sets (ops : list aop) : Prop := forall k h, In (AAdd k h) ops -> NoDup h.

(** The router has an IPv4 address in the /16 network. *)
Definition lives_in (s : store) (r net : N) : Prop :=
  exists i a, nget r (s_infos s) = Some i /\ (f_ntcp2 i = Some (V4 a) \/ f_ssu2 i = Some (V4 a)) /\ a / 65536 = net.
(** The router is part of less than a third of the tunnels. *)
Definition little_used (a : acct) (r : N) : Prop :=
  a_num a = 0 \/ 100 * (match nget r (a_part a) with Some v => v | None => 0 end) < 33 * a_num a.
(** The clock has not gone back behind anything recorded. *)
Definition clock_ok (s : store) (now : N) : Prop :=
  forall r p, nget r (s_profiles s) = Some p -> is_failing now p <> None.
