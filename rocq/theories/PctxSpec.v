(** What the users of a tunnel pool's context may rely on, in terms of the calls made and what they
    returned.  Nothing here looks inside the listeners' maps. *)
From Coq Require Import List NArith Bool.
From Verif Require Import Bytes NMap I2npModel RouteModel PctxModel.
Import ListNotations.
Open Scope N_scope.

(** Somebody waits, with the receiver [w_h], for a reply: a message with the id [w_id] or, if a tag
    was given, a garlic message that begins with the tag. *)
Record wait : Type := mkWait { w_id : N; w_h : N; w_tag : option N }.

Definition by_id (id : N) (W : list wait) : option wait := find (fun w => w_id w =? id) W.
Definition tagged (t : N) (w : wait) : bool :=
  match w_tag w with Some x => x =? t | None => false end.
Definition by_tag (t : N) (W : list wait) : option wait := find (tagged t) W.
Definition forget (id : N) (W : list wait) : list wait := filter (fun w => negb (w_id w =? id)) W.
Definition give_tag (id t : N) (W : list wait) : list wait :=
  map (fun w => if w_id w =? id then mkWait (w_id w) (w_h w) (Some t) else w) W.

Definition is_db (ty : mtype) : bool :=
  match ty with DatabaseStore | DatabaseLookup | DatabaseSearchReply => true | _ => false end.
Definition is_garlic (ty : mtype) : bool := match ty with Garlic => true | _ => false end.
Definition is_reply (ty : mtype) : bool := match ty with OutboundTunnelBuildReply => true | _ => false end.
(** The eight bytes after a garlic message's length. *)
Definition tag_of (m : message) : N := be_val (firstn 8 (skipn 4 (m_payload m))).

(** Whom a message answers: nobody if it is about the database; a garlic message answers whoever
    waits for its tag; otherwise whoever waits for its id. *)
Definition answers (W : list wait) (m : message) : option wait :=
  if is_db (m_type m) then None
  else if is_garlic (m_type m) then
    match by_tag (tag_of m) W with Some w => Some w | None => by_id (m_id m) W end
  else by_id (m_id m) W.

(** Who can get something: the receiver [h] of a listener, the pool's owner, or the pool. *)
Inductive place : Type := PListener (h : N) | POwner | PPool.
Definition place_eqb (a b : place) : bool :=
  match a, b with
  | PListener x, PListener y => x =? y
  | POwner, POwner => true
  | PPool, PPool => true
  | _, _ => false
  end.

(** Whom a message belongs to: who waits for it; otherwise the owner, if it is a garlic message or
    about the database; otherwise the pool. *)
Definition belongs (W : list wait) (m : message) : place :=
  match answers W m with
  | Some w => PListener (w_h w)
  | None => if is_garlic (m_type m) || is_db (m_type m) then POwner else PPool
  end.

(** Who waits after a call.  A wait ends with the first message that answers it. *)
Definition waits_after (W : list wait) (e : op * out) : list wait :=
  match e with
  | (_, UListener id h) => mkWait id h None :: W
  | (CTag id t, _) => give_tag id t W
  | (CRemove id, _) => forget id W
  | (CRoute m, URoute (ROut _)) =>
      match answers W m with Some w => forget (w_id w) W | None => W end
  | _ => W
  end.
Fixpoint waits (W : list wait) (tr : list (op * out)) : list wait :=
  match tr with [] => W | e :: rest => waits (waits_after W e) rest end.

(** What was accepted, with whom it belonged to at that moment.  The pool's own events are for its
    owner. *)
Definition accepts (W : list wait) (e : op * out) : list (place * pevent) :=
  match e with
  | (CRoute m, URoute (ROut ROk)) => [(belongs W m, EvMessage m)]
  | (CEvent ev, UEvent true) => [(POwner, ev)]
  | _ => []
  end.
Fixpoint accepted (W : list wait) (tr : list (op * out)) : list (place * pevent) :=
  match tr with [] => [] | e :: rest => accepts W e ++ accepted (waits_after W e) rest end.

Definition meant_for (p : place) (l : list (place * pevent)) : list pevent :=
  map snd (filter (fun x => place_eqb p (fst x)) l).

(** What [p] has received. *)
Definition gets (p : place) (e : op * out) : list pevent :=
  match e with
  | (CRecv h, UMessage m) => if place_eqb p (PListener h) then [EvMessage m] else []
  | (COwnerRecv, UOwner ev) => if place_eqb p POwner then [ev] else []
  | (CPoolRecv, UMessage m) => if place_eqb p PPool then [EvMessage m] else []
  | _ => []
  end.
Definition got (p : place) (tr : list (op * out)) : list pevent := flat_map (gets p) tr.

Definition drops (p : place) (o : op) : bool :=
  match o with
  | CDrop h => place_eqb p (PListener h)
  | COwnerDrop => place_eqb p POwner
  | CPoolDrop => place_eqb p PPool
  | _ => false
  end.

(** What waits to be received. *)
Definition waiting (p : place) (c : ctx) : list pevent :=
  match p with
  | PListener h => match nget h (cx_one c) with Some (OneFull m) => [EvMessage m] | _ => [] end
  | POwner => ch_q (cx_owner c)
  | PPool => map EvMessage (ch_q (cx_pool c))
  end.

(** A tag is given once, to somebody who waits, and is not one that somebody else waits for. *)
Definition tag_call (W : list wait) (e : op * out) : Prop :=
  match e with
  | (CTag id t, _) => by_tag t W = None /\ exists w, by_id id W = Some w /\ w_tag w = None
  | _ => True
  end.
(** Somebody who waits for a tag is answered by a build reply with the right id or by a garlic
    message with the tag, not by some other kind of message that has the right id. *)
Definition answer_call (W : list wait) (e : op * out) : Prop :=
  match e with
  | (CRoute m, URoute (ROut _)) =>
      match answers W m with
      | Some w => match w_tag w with
                  | Some t => is_reply (m_type m) = true \/ (is_garlic (m_type m) = true /\ tag_of m = t)
                  | None => True
                  end
      | None => True
      end
  | _ => True
  end.
Definition orderly_call (W : list wait) (e : op * out) : Prop := tag_call W e /\ answer_call W e.
Fixpoint throughout (P : list wait -> op * out -> Prop) (W : list wait) (tr : list (op * out)) : Prop :=
  match tr with [] => True | e :: rest => P W e /\ throughout P (waits_after W e) rest end.
Definition orderly : list wait -> list (op * out) -> Prop := throughout orderly_call.

(** Everybody has what was accepted for them, in order, each once, received or waiting. *)
Definition all_delivered (ops : list op) (tr : list (op * out)) (c : ctx) : Prop :=
  forall p, existsb (drops p) ops = false ->
    meant_for p (accepted [] tr) = got p tr ++ waiting p c.

(** The room there is for [p]: a listener always has room. *)
Definition has_room (p : place) (c : ctx) : Prop :=
  match p with
  | PListener _ => True
  | POwner => (length (waiting POwner c) < 64)%nat
  | PPool => (N.of_nat (length (waiting PPool c)) < 4096)
  end.
