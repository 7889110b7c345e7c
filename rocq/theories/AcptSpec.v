(** Connections that should be served, and those that were. *)
From Coq Require Import List NArith Bool.
From Verif Require Import AcptModel.
Import ListNotations.

(** The connections that were made to the router and are allowed. *)
Fixpoint wanted (allow_local : bool) (q : list conn) : list N :=
  match q with
  | [] => []
  | FromGlobal c :: rest => c :: wanted allow_local rest
  | FromLocal c :: rest => if allow_local then c :: wanted allow_local rest else wanted allow_local rest
  | AcceptError :: rest => wanted allow_local rest
  end.
Fixpoint arrivals (ops : list op) : list conn :=
  match ops with
  | [] => []
  | OArrive c :: rest => c :: arrivals rest
  | _ :: rest => arrivals rest
  end.
(** The connections a handshake was started with. *)
Fixpoint served (ev : list event) : list N :=
  match ev with
  | [] => []
  | EHandshake c :: rest => c :: served rest
  | _ :: rest => served rest
  end.

(** What the transport manager should hear of handshakes and sessions that ended, and hears. *)
Definition of_handshake (h : hres) : list event :=
  match h with HSession i r => [EEstablished i r] | HDialFailed r => [EFailed r] | _ => [] end.
Definition of_session (x : sres) : list event := match x with SClosed r => [EClosed r] | SPanic => [] end.
Definition about_handshakes (e : event) : bool := match e with EEstablished _ _ | EFailed _ => true | _ => false end.
Definition about_sessions (e : event) : bool := match e with EClosed _ => true | _ => false end.

(** Nothing fails badly: no error of [accept], no panic. *)
Definition mild (o : op) : Prop :=
  match o with
  | OArrive AcceptError | OHandshake HPanic | OSession SPanic => False
  | _ => True
  end.
(** Only connections arrive, and the executor polls tasks that are awake. *)
Definition only_arrivals (o : op) : Prop :=
  match o with OArrive _ | ORun _ => True | _ => False end.
(** Nothing of that kind is waiting to be seen. *)
Definition good (s : state) : Prop :=
  ~ In AcceptError (s_queue s) /\ ~ In HPanic (s_hdone s) /\ ~ In SPanic (s_sdone s).

(** Handshakes and sessions that ended, in order. *)
Fixpoint handshakes_ended (ops : list op) : list hres :=
  match ops with
  | [] => []
  | OHandshake h :: rest => h :: handshakes_ended rest
  | _ :: rest => handshakes_ended rest
  end.
Fixpoint sessions_ended (ops : list op) : list sres :=
  match ops with
  | [] => []
  | OSession x :: rest => x :: sessions_ended rest
  | _ :: rest => sessions_ended rest
  end.
(** Only handshakes that run can end. *)
Fixpoint legal (s : state) (ops : list op) : Prop :=
  match ops with
  | [] => True
  | o :: rest => match o with OHandshake _ => s_running s <> O | _ => True end /\ legal (fst (step s o)) rest
  end.
