(** What a router may tell about itself, from its configuration and what happened before. *)
From Coq Require Import List NArith Bool.
From Verif Require Import PubModel.
Import ListNotations.
Open Scope N_scope.

(** The external address learned last. *)
Fixpoint learned (ops : list op) (before : option N) : option N :=
  match ops with
  | [] => before
  | OExternal a :: rest => learned rest (Some a)
  | _ :: rest => learned rest before
  end.

(** The address of a transport that a router info should have. *)
Definition right_addr (t : option tconf) (external : option N) (a : option addr) : Prop :=
  match t with
  | None => a = None
  | Some t =>
      if t_publish t then
        match t_host t, external with
        | Some h, _ => a = Some (Public h (t_bound t))
        | None, Some e => a = Some (Public e (t_bound t))
        | None, None => a = Some Hidden
        end
      else a = Some Hidden
  end.

(** The port asked for is the port got: always, except when 0 is asked for. *)
Definition fixed_port (t : option tconf) : Prop :=
  match t with Some t => t_port t = t_bound t | None => True end.

(** The router has been told to stop. *)
Definition stopping (ops : list op) : Prop := In OShutdown ops.

(** The router infos of a run, each with the operations before it. *)
Definition published (c : config) (t0 : N) (before : list op) (now : N) (i : info) : Prop :=
  exists s s1 tr s2 more, start c t0 = Some s /\ run s before = (s1, tr) /\
    step s1 (OPoll now) = (s2, more) /\ In i more.

Definition apart (d : N) (l : list N) : Prop := forall a x y b, l = a ++ x :: y :: b -> x + d <= y.
