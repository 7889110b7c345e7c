(** What a client may expect of its I2CP connection. *)
From Coq Require Import Ascii String.
From Coq Require Import List NArith Bool.
From Verif Require Import Bytes NMap PrimModel EncModel I2cpModel SamModel DestModel SamSessSpec I2cpSessModel.
Import ListNotations.
Local Open Scope list_scope.
Open Scope N_scope.

(** ** Setup *)

(** The steps of a setup as the client and the router see them: the session is created, a lease set
    is asked for, the destination begins. *)
Inductive stepping : Type := SCreated | SRequested | SBegun.
Definition steppings (o : list cout) : list stepping :=
  flat_map (fun x => match x with
                     | Reply (RpSessionStatus _ SsCreated) => [SCreated]
                     | Reply (RpRequestVariableLeaseSet _ _) => [SRequested]
                     | Begin _ _ _ _ _ _ => [SBegun]
                     | _ => []
                     end) o.
Definition tunnel_events (ops : list cop) : list tevent :=
  flat_map (fun op => match op with CTunnel e => [e] | _ => [] end) ops.
(** The lease of an inbound tunnel, if it has been built and has not gone since. *)
Definition in_after (t : N) (x : option lease) (e : tevent) : option lease :=
  match e with
  | InBuilt t' l => if t' =? t then Some l else x
  | InGone t' => if t' =? t then None else x
  | _ => x
  end.
Definition in_live (t : N) (es : list tevent) : option lease := fold_left (in_after t) es None.
Definition out_after (t : N) (x : bool) (e : tevent) : bool :=
  match e with
  | OutBuilt t' => if t' =? t then true else x
  | OutGone t' => if t' =? t then false else x
  | _ => x
  end.
Definition out_live (t : N) (es : list tevent) : bool := fold_left (out_after t) es false.
(** The tunnels there are after some events, each once, in the order of their ids. *)
Definition tunnels_are (es : list tevent) (ins : nmap lease) (outs : list N) : Prop :=
  sorted (nkeys ins) /\ (forall t, nget t ins = in_live t es)
  /\ sorted outs /\ (forall t, In t outs <-> out_live t es = true).
(** As many tunnels as the client's options ask for. *)
Definition complete (opts : list mapping) (ins : nmap lease) (outs : list N) : bool :=
  (N.of_nat (length ins) =? pc_in (pool_config opts)) && (N.of_nat (length outs) =? pc_out (pool_config opts)).
Definition is_build (e : tevent) : bool := match e with InBuilt _ _ | OutBuilt _ => true | _ => false end.

(** How a history reaches the stage at which tunnels are built: the client creates a session, the
    router has room and makes a pool; [es]: what the pool has said since. *)
Definition building (written : destination -> bytes) (ops : list cop) (opts : list mapping) (es : list tevent) : Prop :=
  exists pre d date o0 now st v mid post,
    ops = pre ++ CMsg (MCreateSession d date o0) now true st v :: mid ++ CReady :: post
    /\ opts = with_name (written d) o0 /\ es = tunnel_events post.

(** ** Messages and lookups of an active session *)
Section Spec.
Variables (book : bool) (did : bytes -> N).

(** What a client's message is about. *)
Inductive request : Type :=
| Message (d : N) (x : bytes) (st : lstatus)         (** a message to [d]; what the destination said *)
| ByHash (s r d : N) (st : lstatus) (value : bytes)  (** a lookup of [d] *)
| ByName (s r : N) (name : bytes)
| Unable (s r : N)                                   (** a lookup there is no address book for *)
| Other.
Definition request_of (op : cop) : request :=
  match op with
  | CMsg (MSendMessageExpires _ dest _ x _ _ _) _ _ st _ => Message (did (d_hash dest)) x st
  | CMsg (MHostLookup s r _ k) _ _ st value =>
      if book then match k with HostName name => ByName s r name | Hash h => ByHash s r (did h) st value end else Unable s r
  | _ => Other
  end.
(** The session ends. *)
Definition ends (op : cop) : bool := match op with CEof | CPoolDown | CLeases [] => true | _ => false end.

(** What waits for the lease set of one destination. *)
Record pend : Type := mkPend { pm : option (list bytes); pl : option (N * N) }.
Definition no_pend : pend := mkPend None None.
Definition pend_step (d : N) (p : pend) (op : cop) : pend :=
  if ends op then no_pend
  else match request_of op, op with
       | Message d' x NotFound, _ => if d' =? d then mkPend (Some [x]) (pl p) else p
       | Message d' x Pending, _ => if d' =? d then mkPend (option_map (fun l => l ++ [x]) (pm p)) (pl p) else p
       | ByHash s r d' NotFound _, _ => if d' =? d then mkPend (pm p) (Some (s, r)) else p
       | Other, (CFound d' _ | CNotFound d') =>
           if d' =? d then match pm p with Some _ => mkPend None (pl p) | None => no_pend end else p
       | _, _ => p
       end.
Definition pend_run (d : N) (ops : list cop) : pend := fold_left (pend_step d) ops no_pend.
Definition waiting (d : N) (ops : list cop) : list bytes := match pm (pend_run d ops) with Some l => l | None => [] end.

(** Messages to a destination: as the client gave them, and as they were sent or dropped. *)
Definition given (d : N) (ops : list cop) : list bytes :=
  flat_map (fun op => match request_of op with Message d' x _ => if d' =? d then [x] else [] | _ => [] end) ops.
Definition dealt (d : N) (os : list (list cout)) : list bytes :=
  flat_map (fun o => match o with SendTo d' x | Lost d' x => if d' =? d then [x] else [] | _ => [] end) (concat os).
Definition passed_on (d : N) (os : list (list cout)) : list bytes :=
  flat_map (fun o => match o with SendTo d' x => if d' =? d then [x] else [] | _ => [] end) (concat os).

(** What a session hears from its destination about lease sets. *)
Definition hears (op : cop) : list word :=
  match request_of op, op with
  | Message d _ st, _ | ByHash _ _ d st _, _ => [Asked d st]
  | Other, CFound d _ => [Came d]
  | Other, CNotFound d => [Failed d]
  | _, _ => []
  end.
(** A destination's word is in order if, from the time the session has been told that a lease set
    is looked for until it has been told how that ended, it is told nothing but that. *)
Fixpoint in_order (d : N) (busy : bool) (l : list word) : bool :=
  match l with
  | [] => true
  | Asked d' st :: t =>
      if d' =? d then match st with Pending => in_order d true t | NotFound => negb busy && in_order d true t | Found => negb busy && in_order d busy t end
      else in_order d busy t
  | (Came d' | Failed d') :: t => in_order d (busy && negb (d' =? d)) t
  end.
(** Every lookup for [d] is one that the session's messages started, and succeeds. *)
Fixpoint own (d : N) (mine : bool) (ops : list cop) : bool :=
  match ops with
  | [] => true
  | op :: t =>
      match request_of op, op with
      | Message d' _ st, _ => if d' =? d then match st with Found => own d mine t | NotFound => own d true t | Pending => mine && own d mine t end else own d mine t
      | ByHash _ _ d' NotFound _, _ => negb (d' =? d) && own d mine t
      | _, CFound d' _ => own d (mine && negb (d' =? d)) t
      | _, CNotFound d' => negb (d' =? d) && own d mine t
      | _, _ => own d mine t
      end
  end.

(** Lookups, by session and request id, as the client asked for them ... *)
Definition lookups (ops : list cop) : list (N * N) :=
  flat_map (fun op => match request_of op with ByHash s r _ _ _ | ByName s r _ | Unable s r => [(s, r)] | _ => [] end) ops.
(** ... answered, and dropped *)
Definition answered (os : list (list cout)) : list (N * N) :=
  flat_map (fun o => match o with Reply (RpHostReply s r _) => [(s, r)] | _ => [] end) (concat os).
Definition forgotten (os : list (list cout)) : list (N * N) :=
  flat_map (fun o => match o with Forgot s r => [(s, r)] | _ => [] end) (concat os).
Definition held (a : act) : list (N * N) := map snd (a_looks a) ++ map snd (a_futs a).
End Spec.

(** Messages for the client, as they arrived and as it was given them. *)
Definition arrived (ops : list cop) : list bytes := flat_map (fun op => match op with CMessages l => l | _ => [] end) ops.
Definition handed (os : list (list cout)) : list (N * N * bytes) :=
  flat_map (fun o => match o with Reply (RpMessagePayload s n x) => [(s, n, x)] | _ => [] end) (concat os).
Fixpoint numbered (sid n : N) (l : list bytes) : list (N * N * bytes) :=
  match l with [] => [] | x :: t => (sid, n mod 2 ^ 32, x) :: numbered sid (n + 1) t end.

(** ** The server *)
Definition greeted (os : list (list sout)) : list (N * N) :=
  flat_map (fun o => match o with SGreet k sid => [(k, sid)] | _ => [] end) (concat os).
Definition ops_of (k : N) (ops : list sop) : list cop := flat_map (fun op => match op with SConn k' c => if k' =? k then [c] else [] | _ => [] end) ops.
Definition outs_of (k : N) (os : list (list sout)) : list cout :=
  flat_map (fun o => match o with SOut k' x => if k' =? k then [x] else [] | _ => [] end) (concat os).
