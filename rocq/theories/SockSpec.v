(** What the properties of SSU2 sessions speak about: which sessions were started with a router,
    and the packets an ended session has to answer. *)
From Coq Require Import List NArith Bool.
From Verif Require Import SockModel.
Import ListNotations.
Open Scope N_scope.

(** How many sessions with the router were started. *)
Fixpoint started (router : N) (outs : list out) : nat :=
  match outs with
  | [] => 0
  | Accepted _ r :: rest => (if r =? router then 1 else 0) + started router rest
  | _ :: rest => started router rest
  end.
(** How many ended. *)
Fixpoint finished (router : N) (outs : list out) : nat :=
  match outs with
  | [] => 0
  | Closed r :: rest => (if r =? router then 1 else 0) + finished router rest
  | _ :: rest => finished router rest
  end.

(** The router was dialed. *)
Definition dialed (router : N) (ops : list op) : Prop := exists id, In (ODial router id) ops.

(** Packets that must be answered: those that can be read and do not say themselves that the
    session is over. *)
Fixpoint to_answer (ps : list packet) : nat :=
  match ps with
  | [] => 0
  | Readable false :: rest => S (to_answer rest)
  | _ :: rest => to_answer rest
  end.

(** The output is about the connection. *)
Definition about (id : N) (o : out) : Prop :=
  match o with
  | Accepted i _ | Rejected i _ | SendTermination i _ | Gone i => i = id
  | _ => False
  end.
