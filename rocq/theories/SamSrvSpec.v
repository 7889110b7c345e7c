(** What a SAMv3 client may expect of the server, from what has happened at the server: requests,
    the ends of tasks, and what came out.  Nothing here looks into the server's state. *)
From Coq Require Import List NArith Bool.
From Verif Require Import NMap SamSrvModel.
Import ListNotations.
Open Scope N_scope.

(** What has happened: each item with what came out of it, oldest first. *)
Definition history := list (sop * list sout).

(** ** Who has which id and destination *)

(** The sessions that have been begun and not forgotten, with their destinations. *)
Definition hold_step (hs : list (N * N)) (e : sop * list sout) : list (N * N) :=
  match e with
  | (Create _ sid d _, [Begun _]) => (sid, d) :: hs
  | (Reap sid, [Over _]) => filter (fun p => negb (fst p =? sid)) hs
  | _ => hs
  end.
Definition holding (h : history) : list (N * N) := fold_left hold_step h [].
Definition ids (hs : list (N * N)) : list N := map fst hs.
Definition dests (hs : list (N * N)) : list N := map snd hs.

(** The answer to SESSION CREATE. *)
Definition verdict (hs : list (N * N)) (sock sid d : N) (pool_ok : bool) : list sout :=
  if smem sid (ids hs) then [DupId sock]
  else if smem d (dests hs) then [DupDest sock]
  else if pool_ok then [Begun sid] else [Shut sock].

(** The sessions that have a task: begun, and neither failed nor gone. *)
Definition alive_step (hs : list N) (e : sop * list sout) : list N :=
  match e with
  | (Create _ sid _ _, [Begun _]) => sid :: hs
  | (Failed sid, [Shut _]) => filter (fun x => negb (x =? sid)) hs
  | (Gone sid, Shut _ :: _) => filter (fun x => negb (x =? sid)) hs
  | _ => hs
  end.
Definition alive (h : history) : list N := fold_left alive_step h [].

(** ** One session by itself *)

Inductive view : Type :=
| Nobody                              (** no session of this id *)
| Waiting (sock : N)                  (** its tunnels are being built *)
| Stuck                               (** building them has failed *)
| Up (sock : N) (q : list scmd)       (** active; the commands it has not taken yet *)
| Down.                               (** its task is over *)

(** Lookups of host names: for which socket, for which session, with which options. *)
Definition look_step (book : bool) (l : nmap (N * N)) (op : sop) : nmap (N * N) :=
  match op with
  | Connect sock sid (HName _) opts => if book then nput sock (sid, opts) l else l
  | Resolved sock _ => ndel sock l
  | _ => l
  end.

(** The command an item has for a session, if it has one. *)
Definition order (l : nmap (N * N)) (op : sop) : option (N * scmd) :=
  match op with
  | Connect sock sid (HDest d | HB32 d) opts => Some (sid, KConnect sock d opts)
  | Accept sock sid opts => Some (sid, KAccept sock opts)
  | Forward sock sid port opts => Some (sid, KForward sock port opts)
  | Datagram sid d x => Some (sid, KDatagram d x)
  | Resolved sock (Some d) => match nget sock l with Some (sid, opts) => Some (sid, KConnect sock d opts) | None => None end
  | _ => None
  end.

(** The session's own life: [begun] says that a SESSION CREATE with its id was let through. *)
Definition view_step (sid : N) (l : nmap (N * N)) (v : view) (op : sop) (begun : bool) : view :=
  match op, v with
  | Create sock s _ _, _ => if (s =? sid) && begun then Waiting sock else v
  | Built s, Waiting k => if s =? sid then Up k [] else v
  | Failed s, Waiting _ => if s =? sid then Stuck else v
  | Take s, Up k (_ :: q) => if s =? sid then Up k q else v
  | Gone s, Up _ _ => if s =? sid then Down else v
  | Reap s, Down => if s =? sid then Nobody else v
  | _, Up k q =>
      match order l op with
      | Some (s, c) => if (s =? sid) && (Nat.ltb (length q) 256) then Up k (q ++ [c]) else v
      | None => v
      end
  | _, _ => v
  end.

(** What is dropped when a command is not taken: its socket is closed, or the datagram is lost. *)
Definition waste (c : scmd) : sout :=
  match c with
  | KConnect s _ _ | KAccept s _ | KForward s _ _ => Shut s
  | KDatagram d x => Lost d x
  end.

(** What comes out of an item, from the view of the session it is for. *)
Definition result (book : bool) (l : nmap (N * N)) (target : N -> view) (op : sop) : list sout :=
  match order l op with
  | Some (sid, c) => match target sid with
                     | Up _ q => if Nat.ltb (length q) 256 then [] else [waste c]
                     | _ => [waste c]
                     end
  | None =>
      match op with
      | Connect sock _ _ _ => match op with Connect _ _ (HName n) _ => if book then [Asked n] else [Shut sock] | _ => [] end
      | Resolved sock _ => match nget sock l with Some _ => [I2pError sock] | None => [] end
      | Built sid => match target sid with Waiting _ => [Live sid] | _ => [] end
      | Failed sid => match target sid with Waiting sock => [Shut sock] | _ => [] end
      | Take sid => match target sid with Up _ (c :: _) => [Handed sid c] | _ => [] end
      | Gone sid => match target sid with Up sock q => Shut sock :: map waste q | _ => [] end
      | Reap sid => match target sid with Down => [Over sid] | _ => [] end
      | _ => []
      end
  end.

(** The lookups and one session's view after a history. *)
Definition looks (book : bool) (h : history) : nmap (N * N) := fold_left (fun l e => look_step book l (fst e)) h [].
Definition is_begun (o : list sout) : bool := match o with [Begun _] => true | _ => false end.
Fixpoint life (book : bool) (sid : N) (l : nmap (N * N)) (v : view) (h : history) : view :=
  match h with
  | [] => v
  | (op, o) :: h' => life book sid (look_step book l op) (view_step sid l v op (is_begun o)) h'
  end.

(** What a session was handed, in order. *)
Definition handed (sid : N) (os : list (list sout)) : list scmd :=
  flat_map (fun o => match o with Handed s c => if s =? sid then [c] else [] | _ => [] end) (concat os).

(** ** Sockets *)
Definition sock_of (c : scmd) : list N :=
  match c with KConnect s _ _ | KAccept s _ | KForward s _ _ => [s] | KDatagram _ _ => [] end.
(** Sockets that come in with an item. *)
Definition brought (op : sop) : list N :=
  match op with
  | Create s _ _ _ | Connect s _ _ _ | Accept s _ _ | Forward s _ _ _ => [s]
  | _ => []
  end.
(** Sockets the server parts with: written to and closed, closed, or handed to a session. *)
Definition parted (o : sout) : list N :=
  match o with
  | DupId s | DupDest s | I2pError s | Shut s => [s]
  | Handed _ c => sock_of c
  | _ => []
  end.
(** Sockets that are still with the server or a session's task: control sockets, those of commands
    that have not been taken, and those waiting for the address book.  (This one does look at the
    state: it says where a socket is.) *)
Fixpoint total {V} (f : N -> V -> list N) (m : nmap V) : list N :=
  match m with [] => [] | (k, v) :: t => f k v ++ total f t end.
Definition chan_socks (_ : N) (c : schan) : list N := (if ch_open c then [ch_sock c] else []) ++ flat_map sock_of (ch_queue c).
Definition held (st : srv) : list N :=
  total chan_socks (sv_active st) ++ total (fun _ k => [k]) (sv_building st) ++ nkeys (sv_look st).

(** ** What a session may be handed: what was asked of it *)
Definition asked_for (sid : N) (ops : list sop) (c : scmd) : Prop :=
  match c with
  | KConnect s d o => In (Connect s sid (HDest d) o) ops \/ In (Connect s sid (HB32 d) o) ops
                      \/ exists n, In (Connect s sid (HName n) o) ops /\ In (Resolved s (Some d)) ops
  | KAccept s o => In (Accept s sid o) ops
  | KForward s p o => In (Forward s sid p o) ops
  | KDatagram d x => In (Datagram sid d x) ops
  end.

(** ** Datagrams to clients *)
Definition offered (ops : list wop) : list (N * list N) :=
  flat_map (fun op => match op with Enqueue p x => [(p, x)] | WPoll _ => [] end) ops.
Inductive subseq {A} : list A -> list A -> Prop :=
| sub_nil : subseq [] []
| sub_take : forall x a b, subseq a b -> subseq (x :: a) (x :: b)
| sub_skip : forall x a b, subseq a b -> subseq a (x :: b).
(** Datagrams that have been taken and not yet tried. *)
Definition w_waiting (w : wrt) : list (N * list N) := (match w_cur w with Some m => [m] | None => [] end) ++ w_chan w.
