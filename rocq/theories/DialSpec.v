(** What the subsystems may rely on about connections. *)
From Coq Require Import List NArith Bool.
From Verif Require Import NMap Bytes DialModel.
Import ListNotations.
Open Scope N_scope.

(** Nothing is going on with router [r]: no session, no handshake, no query. *)
Definition idle (s : tman) (r : N) : Prop :=
  ~ In r (t_open s) /\ ~ In r (t_dials s) /\ ~ In r (t_queries s).

(** No handshake of ours succeeds with a router that is connected already. *)
Fixpoint no_crossing (s : tman) (l : list top) : Prop :=
  match l with
  | [] => True
  | o :: rest =>
      match o with
      | DEstablished DirOut r => ~ (In r (t_dials s) /\ In r (t_open s))
      | _ => True
      end /\ no_crossing (fst (tstep s o)) rest
  end.

(** The letters given for router [r], what became of them, and those that wait: all in order. *)
Definition given (r : N) (l : list uop) : list letter :=
  flat_map (fun o => match o with USend _ _ r' x => if r' =? r then [x] else [] | _ => [] end) l.
Definition settled (r : N) (l : list uout) : list letter :=
  flat_map (fun o => match o with UHanded r' x | ULost r' x => if r' =? r then [x] else [] | UDial _ => [] end) l.
Definition waiting (r : N) (s : tunm) : list letter :=
  match nget r (u_routers s) with Some (Dialing p) => p | _ => [] end.

(** The sessions that exist: reported as established, and not as closed since. *)
Fixpoint has_session (r : N) (now : bool) (l : list uop) : bool :=
  match l with
  | [] => now
  | UEstablished _ r' :: t => has_session r (if r' =? r then true else now) t
  | UClosed r' :: t => has_session r (if r' =? r then false else now) t
  | _ :: t => has_session r now t
  end.

(** No failure of a dial is reported while the router has a session. *)
Fixpoint no_late_failure (r : N) (now : bool) (l : list uop) : Prop :=
  match l with
  | [] => True
  | o :: t => (now = true -> o <> UFailure r) /\ no_late_failure r (has_session r now [o]) t
  end.
