(** What the listener properties talk about. *)
From Coq Require Import List NArith Bool.
From Verif Require Import ListenerModel.
Import ListNotations.
Open Scope N_scope.

(** The sockets registered, in order, by command. *)
Definition kind_socket (k : listener_kind) : N :=
  match k with LEphemeral s _ => s | LPersistent s _ _ => s end.
Definition registrations (ops : list listener_op) : list listener_kind :=
  flat_map (fun o => match o with Register k => [k] | _ => [] end) ops.
Definition no_forward (ops : list listener_op) : Prop :=
  forall s p q, ~ In (Register (LPersistent s p q)) ops.

(** The sockets handed out to streams. *)
Definition handed (outs : list listener_out) : list (N * bool) :=
  flat_map (fun o => match o with OPop (PopAccept s q) => [(s, q)] | _ => [] end) outs.

(** When sockets become available for a stream, if all are ACCEPT sockets: at registration if
    silent, else when the status message has been written ([waiting] are those that wait). *)
Fixpoint available (waiting : list N) (ops : list listener_op) : list (N * bool) :=
  match ops with
  | [] => []
  | Register (LEphemeral s true) :: t => (s, true) :: available waiting t
  | Register (LEphemeral s false) :: t => available (s :: waiting) t
  | Register (LPersistent _ _ _) :: t => available waiting t
  | Pop :: t => available waiting t
  | Written s ok :: t =>
      if existsb (N.eqb s) waiting then
        let waiting' := filter (fun x => negb (x =? s)) waiting in
        if ok then (s, false) :: available waiting' t else available waiting' t
      else available waiting t
  end.

(** The sockets that wait in a listener. *)
Definition queue (s : listener_state) : list (N * bool) :=
  match s with Ephemeral q => q | _ => [] end.

(** Nothing panicked or asserted. *)
Definition no_panic (o : listener_out) : Prop :=
  o <> ORegister (match o with ORegister k _ => k | _ => LEphemeral 0 true end) RegPanic /\
  o <> OPop PopPanic.
Definition no_assert (o : listener_out) : Prop := forall s, o <> OPoll s PollInvalid.
