(** What "cannot be made to panic" means, and what a recursion that costs stack looks like. *)
From Coq Require Import List NArith.
From Verif Require Import Bytes TotalModel.
Import ListNotations.
Open Scope N_scope.

(** A function of the input that ends with a value or an error, whatever the input. *)
Definition never_panics {A} (c : cparser A) : Prop := forall i, c i <> Panic.
(** It gives the values the model without panics gives, and no others. *)
Definition same_values {A} (c : cparser A) (p : parser A) : Prop :=
  forall i a r, c i = Good a r <-> p i = Some (a, r).
(** Both. *)
Definition safe {A} (c : cparser A) (p : parser A) : Prop := never_panics c /\ same_values c p.

(** [n] blocks of an unknown kind (1) with nothing in them, then a request for an
    acknowledgement: [3 n + 4] bytes. *)
Definition skipped (n : nat) : bytes := concat (repeat [1; 0; 0] n) ++ [9; 0; 1; 0].
(** [n + 1] blocks of empty padding: [3 n + 3] bytes. *)
Definition padded (n : nat) : bytes := concat (repeat [254; 0; 0] (S n)).
