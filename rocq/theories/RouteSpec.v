(** What a user of the routing table may rely on, in terms of the calls made and what they
    returned.  Nothing here looks inside the table. *)
From Coq Require Import List NArith Bool.
From Verif Require Import Bytes NMap I2npModel TunnelModel RouteModel.
Import ListNotations.
Open Scope N_scope.

(** Who can get a message: the receiver [h] of a tunnel, the receiver [h] of a listener, or the
    transit tunnel manager. *)
Inductive place : Type := PTunnel (h : N) | PListener (h : N) | PTransit.

Definition place_eqb (a b : place) : bool :=
  match a, b with
  | PTunnel x, PTunnel y => x =? y
  | PListener x, PListener y => x =? y
  | PTransit, PTransit => true
  | _, _ => false
  end.

(** The register of who asked for which id, newest first. *)
Fixpoint holder (id : N) (reg : list (N * N)) : option N :=
  match reg with
  | [] => None
  | (i, h) :: r => if i =? id then Some h else holder id r
  end.
Definition forget (id : N) (reg : list (N * N)) : list (N * N) :=
  filter (fun x => negb (fst x =? id)) reg.

(** Whom a message belongs to: a tunnel message belongs to the holder of the tunnel id it names,
    and to nobody if there is none; any other message belongs to the listener for its message id,
    and to the transit tunnel manager if there is none. *)
Definition belongs (tunnels listeners : list (N * N)) (m : message) : option place :=
  if is_tunnel_type (m_type m) then
    match tunnel_of m with
    | Some id => match holder id tunnels with Some h => Some (PTunnel h) | None => None end
    | None => None
    end
  else match holder (m_id m) listeners with Some h => Some (PListener h) | None => Some PTransit end.

(** The message a call hands over for routing inside this router, and the call's result. *)
Definition routed (self : bytes) (e : op * out) : option (message * result) :=
  match e with
  | (ORoute m, UResult r) => Some (m, r)
  | (OSend router b _, USend (SOut r _)) =>
      if beq router self then
        match parse_short b with
        | Some (m, _) => if routed_type (m_type m) then Some (m, r) else None
        | None => None
        end
      else None
  | _ => None
  end.

(** The register after a call. *)
Definition tunnels_after (tunnels : list (N * N)) (e : op * out) : list (N * N) :=
  match e with
  | (_, UTunnel id h) => (id, h) :: tunnels
  | (ORemoveTunnel id, _) => forget id tunnels
  | _ => tunnels
  end.
(** A listener is used up by the first message for it. *)
Definition listeners_after (self : bytes) (listeners : list (N * N)) (e : op * out) : list (N * N) :=
  match e with
  | (_, UListener id h) => (id, h) :: listeners
  | (ORemoveListener id, _) => forget id listeners
  | _ => match routed self e with
         | Some (m, _) => if is_tunnel_type (m_type m) then listeners else forget (m_id m) listeners
         | None => listeners
         end
  end.

(** The messages that were accepted, each with whom it belonged to at that moment. *)
Fixpoint accepted (self : bytes) (tunnels listeners : list (N * N)) (tr : list (op * out))
    : list (option place * message) :=
  match tr with
  | [] => []
  | e :: rest =>
      (match routed self e with
       | Some (m, ROk) => [(belongs tunnels listeners m, m)]
       | _ => []
       end) ++ accepted self (tunnels_after tunnels e) (listeners_after self listeners e) rest
  end.

(** The accepted messages that belonged to [p]; what [p] has received; whether [p] was dropped. *)
Definition meant_for (p : place) (l : list (option place * message)) : list message :=
  map snd (filter (fun x => match fst x with Some q => place_eqb p q | None => false end) l).
Fixpoint got (p : place) (tr : list (op * out)) : list message :=
  match tr with
  | [] => []
  | e :: rest =>
      match e with
      | (ORecvTunnel h, UMessage m) => if place_eqb p (PTunnel h) then m :: got p rest else got p rest
      | (ORecvListener h, UMessage m) => if place_eqb p (PListener h) then m :: got p rest else got p rest
      | (ORecvTransit, UMessage m) => if place_eqb p PTransit then m :: got p rest else got p rest
      | _ => got p rest
      end
  end.
Definition dropped (p : place) (ops : list op) : bool :=
  existsb (fun o => match o with
                    | ODropTunnel h => place_eqb p (PTunnel h)
                    | ODropListener h => place_eqb p (PListener h)
                    | ODropTransit => place_eqb p PTransit
                    | _ => false
                    end) ops.

(** What is waiting to be received. *)
Definition waiting (p : place) (t : table) : list message :=
  match p with
  | PTunnel h => match nget h (rt_rx t) with Some c => ch_q c | None => [] end
  | PListener h => match nget h (rt_one t) with Some (OneFull m) => [m] | _ => [] end
  | PTransit => ch_q (rt_transit t)
  end.

(** The size a tunnel's receiver was registered with. *)
Fixpoint registered_size (h : N) (tr : list (op * out)) : option N :=
  match tr with
  | [] => None
  | (OAddTunnel _ cap, UTunnel _ k) :: rest => if k =? h then Some cap else registered_size h rest
  | (OInsertTunnel _ cap, UTunnel _ k) :: rest => if k =? h then Some cap else registered_size h rest
  | _ :: rest => registered_size h rest
  end.

(** The registers after a history. *)
Fixpoint registers (self : bytes) (T L : list (N * N)) (tr : list (op * out))
    : list (N * N) * list (N * N) :=
  match tr with
  | [] => (T, L)
  | e :: rest => registers self (tunnels_after T e) (listeners_after self L e) rest
  end.

(** What the tunnel manager is to be handed: messages for other routers as they are, and messages
    to this router that are not for a tunnel and not build requests. *)
Definition for_manager (self : bytes) (e : op * out) : list kind :=
  match e with
  | (OSend router b fb, USend (SOut ROk _)) =>
      if beq router self then
        match parse_short b with
        | Some (m, _) => if routed_type (m_type m) then [] else [Internal m]
        | None => []
        end
      else [match fb with Some f => ExternalFb router b f | None => External router b end]
  | _ => []
  end.
Definition manager_got (e : op * out) : list kind :=
  match e with (ORecvManager, UKind k) => [k] | _ => [] end.
Definition manager_dropped (ops : list op) : bool :=
  existsb (fun o => match o with ODropManager => true | _ => false end) ops.
