(** * What C121-C124 say, in terms of calls made and answers seen. *)
From Coq Require Import List NArith Bool Arith Permutation.
From Verif Require Import ShutModel.
Import ListNotations.
Open Scope nat_scope.

(** [x] happened in [tr] when [first] already held of what had happened before it. *)
Definition later {T} (first : list T -> Prop) (x : T -> Prop) (tr : list T) : Prop :=
  exists a e b, tr = a ++ e :: b /\ first a /\ x e.

(** [a] can be had from [b] by leaving entries out. *)
Inductive subseq {A} : list A -> list A -> Prop :=
| sub_nil : forall b, subseq [] b
| sub_skip : forall x a b, subseq a b -> subseq a (x :: b)
| sub_keep : forall x a b, subseq a b -> subseq (x :: a) (x :: b).

(** ** Shutdown handles *)
Definition wtrace := list (wop * wout).

(** Handle [i] was given out. *)
Definition issued (i : nat) (tr : wtrace) : Prop := In (WHandle, OHandle i) tr.

(** Its holder dropped it. *)
Definition dropped (i : nat) (tr : wtrace) : Prop :=
  later (issued i) (fun e => fst e = WDrop i) tr.

(** Shutting down was asked for when it had been given out. *)
Definition asked (i : nat) (tr : wtrace) : Prop :=
  later (issued i) (fun e => fst e = WShut) tr.

(** Polling it told its holder to shut down. *)
Definition told (i : nat) (tr : wtrace) : Prop := In (WHPoll i, OReady) tr.

(** Its holder, once told, said it was ready, before dropping it. *)
Definition answered (i : nat) (tr : wtrace) : Prop :=
  later (told i) (fun e => fst e = WAnswer i) tr.

Definition shut_called (tr : wtrace) : Prop := exists r, In (WShut, r) tr.

(** ** What the user is told *)
Section Events.
Context {name : Type}.

Definition etrace := list (eop name * eout name).

(** The events the subscriber got, in order. *)
Definition got (tr : etrace) : list (event name) :=
  flat_map (fun e => match snd e with Got (Some x) => [x] | _ => [] end) tr.

Definition clients_in (l : list (event name)) : list name :=
  flat_map (fun x => match x with RouterStatus cs _ _ => cs | _ => [] end) l.

Definition servers_in (l : list (event name)) : list (name * name) :=
  flat_map (fun x => match x with RouterStatus _ ss _ => ss | _ => [] end) l.

(** The destinations that were started, in order. *)
Definition clients_started (tr : etrace) : list name :=
  flat_map (fun e => match fst e with EStart (SClient n) => [n] | _ => [] end) tr.

Definition servers_started (tr : etrace) : list (name * name) :=
  flat_map (fun e => match fst e with EStart (SServer n a) => [(n, a)] | _ => [] end) tr.

(** Nothing was turned away by a full channel. *)
Definition nothing_lost (tr : etrace) : Prop := forall o, ~ In (o, Kept false) tr.

Definition sum (l : list N) : N := fold_right N.add 0%N l.

(** What a status ought to report: the last number of tunnels and of routers given, and
    the totals of everything added, as a 64-bit counter shows them. *)
Definition totals (tr : etrace) : counters :=
  let pick f := flat_map (fun e => f (fst e)) tr in
  mkCnt
    (last (pick (fun o => match o with ETransit n => [n] | _ => [] end)) 0%N)
    (sum (pick (fun o => match o with ETransitBw n => [n] | _ => [] end)) mod 2 ^ 64)%N
    (last (pick (fun o => match o with EConn n => [n] | _ => [] end)) 0%N)
    (sum (pick (fun o => match o with EBw n => [n] | _ => [] end)) mod 2 ^ 64)%N
    (sum (pick (fun o => match o with ETunnels b _ => [b] | _ => [] end)) mod 2 ^ 64)%N
    (sum (pick (fun o => match o with ETunnels _ f => [f] | _ => [] end)) mod 2 ^ 64)%N.

(** How many times something was put into the subscriber's queue, at most. *)
Definition puts (tr : etrace) : nat :=
  length (filter (fun e => match e with
                           | (EPoll true, Kept true) | (EShut, Kept true) => true
                           | _ => false end) tr).

(** How many destinations were started since the manager was last polled. *)
Definition backlog (tr : etrace) : nat :=
  fold_left (fun n e => match fst e with
                        | EPoll _ => 0
                        | EStart _ => S n
                        | _ => n end) tr 0.

Definition is_shut (x : event name) : bool :=
  match x with RouterStatus _ _ _ => false | _ => true end.

(** ** The router *)
Definition rtrace := list (rop name * rout name).

Definition shutdowns (tr : rtrace) : nat :=
  length (filter (fun e => match fst e with RShutdown => true | _ => false end) tr).

(** The transit tunnels taken on, and those that ended. *)
Definition accepted (tr : rtrace) : list N :=
  flat_map (fun e => match snd e with RTunnels acc _ => acc | _ => [] end) tr.

Definition ended (tr : rtrace) : list N :=
  flat_map (fun e => match snd e with RTunnels _ l => l | _ => [] end) tr.

(** The manager's task ended for a reason other than shutting down. *)
Definition gone (tr : rtrace) : Prop := exists r, In (RGone, r) tr.

Definition rgot (tr : rtrace) : list (event name) :=
  flat_map (fun e => match snd e with RGot (Some x) => [x] | _ => [] end) tr.
End Events.
Arguments etrace : clear implicits.
Arguments rtrace : clear implicits.

(** ** Which subsystem gets a message *)

(** I2NP type numbers (the protocol's, not the code's order). *)
Definition type_no (t : mtype) : N :=
  match t with
  | DatabaseStore => 1 | DatabaseLookup => 2 | DatabaseSearchReply => 3
  | DeliveryStatus => 10 | Garlic => 11 | TunnelData => 18 | TunnelGateway => 19
  | Data => 20 | TunnelBuild => 21 | TunnelBuildReply => 22
  | VariableTunnelBuild => 23 | VariableTunnelBuildReply => 24
  | ShortTunnelBuild => 25 | OutboundTunnelBuildReply => 26
  end%N.

(** The netdb is subsystem 1 and deals with types 1 to 3; everything else is for the
    tunnels, subsystem 0. *)
Definition subsystem_of (t : mtype) : nat := if (type_no t <=? 3)%N then 1 else 0.

(** The messages of a batch that are for subsystem [i], in order. *)
Definition meant_for {rid body : Type} (i : nat) (r : rid) (ms : list (mtype * body))
  : list (rid * (mtype * body)) :=
  map (fun m => (r, m)) (filter (fun m => subsystem_of (fst m) =? i) ms).
