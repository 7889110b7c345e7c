(** What a routing path must be, stated on the history of one handle and without its fields. *)
From Coq Require Import List NArith Bool.
From Verif Require Import NMap RpathModel.
Import ListNotations.
Open Scope N_scope.

(** What the handle knew when it was created, as events. *)
Definition at_birth (inb : list (N * N)) (outb : list N) (expiring : list (N * N)) : list revent :=
  InBuilt inb :: map OutBuilt outb ++ map (fun e => OutExpiring (fst e) (snd e)) expiring.

(** The events the handle has been told: those that found room in its channel and that a poll has
    taken out of it. *)
Fixpoint told (waiting seen : list revent) (ops : list hop) : list revent :=
  match ops with
  | [] => seen
  | HEvent e :: rest =>
      told (if N.of_nat (length waiting) <? 128 then waiting ++ [e] else waiting) seen rest
  | HPoll _ :: rest => told [] (seen ++ waiting) rest
  | _ :: rest => told waiting seen rest
  end.

(** The events waiting in the channel. *)
Fixpoint unread (waiting : list revent) (ops : list hop) : list revent :=
  match ops with
  | [] => waiting
  | HEvent e :: rest => unread (if N.of_nat (length waiting) <? 128 then waiting ++ [e] else waiting) rest
  | HPoll _ :: rest => unread [] rest
  | _ :: rest => unread waiting rest
  end.

(** Our outbound tunnel [o] after some events: absent, built ([Some None]), or expiring at [x]
    ([Some (Some x)]). *)
Definition out_after (o : N) (st : option (option N)) (e : revent) : option (option N) :=
  match e with
  | OutBuilt t => if t =? o then Some None else st
  | OutExpiring t x => if t =? o then Some (Some x) else st
  | OutExpired t => if t =? o then None else st
  | InBuilt _ => st
  end.
Definition out_state (o : N) (es : list revent) : option (option N) := fold_left (out_after o) es None.

(** The remote has announced a lease for tunnel [i] that expires at [x]. *)
Definition announced (i x : N) (es : list revent) : Prop := exists ts, In (InBuilt ts) es /\ In (i, x) ts.

(** When the remote's tunnel [i] expires according to its latest announcement. *)
Definition lease_after (i : N) (st : option N) (e : revent) : option N :=
  match e with
  | InBuilt ts => fold_left (fun st l => if fst l =? i then Some (snd l) else st) ts st
  | _ => st
  end.
Definition lease_state (i : N) (es : list revent) : option N := fold_left (lease_after i) es None.

(** The handle's lookups: how many it asked for since the last one that succeeded, whether one is
    outstanding, and the answer to it that has not been looked at yet. *)
Record lookups : Type := mkL { asked : N; outstanding : bool; answer : option bool }.
Definition look (l : lookups) (op : hop) (o : hout) : lookups :=
  match op, o with
  | _, Got _ true => mkL (asked l + 1) true None
  | HAnswer ok, _ => if outstanding l then
                       match answer l with None => mkL (asked l) true (Some ok) | _ => l end
                     else l
  | HPoll _, _ => match answer l with
                  | Some true => mkL 0 false None
                  | Some false => mkL (asked l) false None
                  | None => l
                  end
  | _, _ => l
  end.
Fixpoint looks (l : lookups) (ops : list hop) (outs : list hout) : lookups :=
  match ops, outs with
  | op :: ops', o :: outs' => looks (look l op o) ops' outs'
  | _, _ => l
  end.

(** No call for a new path after packet loss came back empty-handed. *)
Fixpoint recreated (ops : list hop) (outs : list hout) : Prop :=
  match ops, outs with
  | HRecreate _ :: ops', o :: outs' => (exists p q, o = Got (Some p) q) /\ recreated ops' outs'
  | _ :: ops', _ :: outs' => recreated ops' outs'
  | _, _ => True
  end.

(** The remote's tunnel ids and ours do not overlap: [inb] tells them apart. *)
Definition ids_apart (inb : N -> bool) (es : list revent) : Prop :=
  forall e, In e es -> match e with
                       | InBuilt ts => forall l, In l ts -> inb (fst l) = true
                       | OutBuilt t | OutExpiring t _ | OutExpired t => inb t = false
                       end.

(** The polls among [ops] happened no later than [now]. *)
Definition polled_by (now : N) (ops : list hop) : Prop := forall t, In (HPoll t) ops -> t <= now.
(** One reading of the clock for the whole call. *)
Definition one_reading (now r1 r2 : N) (room : bool) : draw := mkDraw now now now r1 r2 room.
