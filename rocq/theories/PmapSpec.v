(** What the port mapper should do, said without its code: about what can be seen from outside. *)
From Coq Require Import List NArith Bool.
From Verif Require Import PmapModel.
Import ListNotations.
Open Scope N_scope.

(** NTCP2 runs over TCP and SSU2 over UDP: the mappings the router needs. *)
Definition needed (ps : ports) (p : proto) (port : N) : Prop :=
  (p = TCP /\ p_ntcp2 ps = Some port) \/ (p = UDP /\ p_ssu2 ps = Some port).

(** A mapping that was asked for without an end and whose removal was not asked for afterwards. *)
Definition stays (tr : list act) (p : proto) (port : N) : Prop :=
  exists a b, tr = a ++ AMap p port 0 :: b /\ ~ In (AUnmap p port) b.

Fixpoint addresses (tr : list act) : list N :=
  match tr with [] => [] | AAddress a :: r => a :: addresses r | _ :: r => addresses r end.
Fixpoint asks (tr : list act) : list N :=
  match tr with [] => [] | AAsk t :: r => t :: asks r | _ :: r => asks r end.

(** no value twice in a row *)
Definition no_repeat (l : list N) : Prop := forall a x y b, l = a ++ x :: y :: b -> x <> y.
(** every element at least [d] after the one before it *)
Definition apart (d : N) (l : list N) : Prop := forall a x y b, l = a ++ x :: y :: b -> x + d <= y.

(** The gateway said that [a] is the external address. *)
Definition said (a : N) (n : nat_start) (u : upnp_start) (evs : list (N * event)) : Prop :=
  (exists k, n_addr n = After k (Some (RGateway a))) \/
  (exists k, u_addr u = After k (Some (V4 a))) \/
  exists t f g, In (t, EAddress f g) evs /\
    ((exists k, f = After k (Some (RGateway a))) \/ (exists k, g = After k (Some (V4 a)))).
