(** Model of the server and client tunnels of the command line program:
    /repo/emissary-cli/src/tunnel/{server,client}.rs. *)
From Coq Require Import List NArith Bool.
Import ListNotations.
Open Scope N_scope.

Definition str : Type := list N.
Definition str_dec : forall a b : str, {a = b} + {a <> b} := list_eq_dec N.eq_dec.
Definition seqb (a b : str) : bool := if str_dec a b then true else false.

(** * Server tunnels: the destination *)

(** the files: a path is readable with that content, or not *)
Definition disk : Type := str -> option str.
Definition put (d : disk) (p c : str) : disk := fun q => if seqb q p then Some c else d q.

(** How [tokio::fs::write] ends: done; failed before the file was touched; failed or the process
    stopped after the file was cut and [n] bytes were written. *)
Inductive writing : Type := WDone | WNot | WCut (n : nat).
Definition write (d : disk) (p c : str) (w : writing) : disk :=
  match w with
  | WDone => put d p c
  | WNot => d
  | WCut n => put d p (firstn n c)
  end.

(** server.rs:28 [DESTINATION_CREATION_RETRY_COUNT] *)
Definition RETRY_COUNT : nat := 3.
(** server.rs:124-148: what the router answers to each attempt; it may answer fewer times than it
    is asked (the task is then stopped) *)
Fixpoint generate (n : nat) (answers : list (option str)) : option str :=
  match n, answers with
  | S n', Some k :: _ => Some k
  | S n', None :: rest => generate n' rest
  | _, _ => None
  end.
Section Server.
(** [std::str::from_utf8] succeeds *)
Variable utf8 : str -> bool.

(** server.rs:108-158 [load_or_create_destination] *)
Definition load_or_create (d : disk) (p : str) (answers : list (option str)) (w : writing)
  : option str * disk :=
  match match d p with Some c => if utf8 c then Some c else None | None => None end with
  | Some c => (Some c, d)
  | None =>
      match generate RETRY_COUNT answers with
      | Some k => (Some k, write d p k w)
      | None => (None, d)
      end
  end.

(** server.rs:60-102 [ServerTunnelManager::new]: the tunnels with a destination, in the order of
    the configuration; for each the router's answers and how the write ends *)
Record server : Type := mkServer { s_name : str; s_port : N; s_path : str }.
Record running : Type := mkRunning { r_name : str; r_port : N; r_key : str }.
Fixpoint start_servers (d : disk) (l : list (server * (list (option str) * writing)))
  : list running * disk :=
  match l with
  | [] => ([], d)
  | (s, (answers, w)) :: rest =>
      let '(k, d1) := load_or_create d (s_path s) answers w in
      let '(rs, d2) := start_servers d1 rest in
      (match k with Some k => mkRunning (s_name s) (s_port s) k :: rs | None => rs end, d2)
  end.
End Server.

(** * Client tunnels *)

(** config.rs:132-139 *)
Record client : Type := mkClient { t_port : N; t_dest : str; t_dport : option N }.

(** Where the task of a tunnel is (client.rs:55-72, 118-133).  Connections to the port that wait to
    be accepted are kept by the listening socket ([waiting]).  [PBind]: before binding; [PSleep]:
    waiting [RETRY_TIMEOUT] after an error. *)
Inductive phase : Type :=
| PBind
| PListen (waiting : list N)
| PConnect (conn : N) (waiting : list N)
| PCopy (conn : N) (waiting : list N)
| PSleep.

(** What happens to tunnel [i]: a connection to its port; the task binds the port or fails; it
    accepts; the stream through I2P is opened or not; copying ends (well or not); the timeout. *)
Inductive event : Type :=
| EConn (i : nat) (conn : N)
| EBind (i : nat) (ok : bool)
| EAccept (i : nat)
| EStream (i : nat) (ok : bool)
| EEnd (i : nat) (ok : bool)
| EWake (i : nat).

(** What is seen: a connection refused or reset without having been used; the data of a connection
    copied to a stream to a destination and port; a connection closed. *)
Inductive seen : Type :=
| Refused (conn : N)
| Reset (conn : N)
| Joined (conn : N) (dest : str) (dport : N)
| Closed (conn : N).

(** client.rs:112-115, 152-155 *)
Definition dst_port (t : client) : N := match t_dport t with Some p => p | None => 0 end.

(** The task returns: well, and it is started again at once (146-172), or with an error, after the
    timeout (121-131, 160-170).  Returning drops the listening socket, which resets what waits. *)
Definition restart (ok : bool) : phase := if ok then PBind else PSleep.
Definition drop_all (l : list N) : list seen := map Reset l.

Definition step1 (t : client) (p : phase) (ev : event) : phase * list seen :=
  match ev with
  | EConn _ c =>
      match p with
      | PBind | PSleep => (p, [Refused c])
      | PListen w => (PListen (w ++ [c]), [])
      | PConnect x w => (PConnect x (w ++ [c]), [])
      | PCopy x w => (PCopy x (w ++ [c]), [])
      end
  | EBind _ ok =>
      match p with
      | PBind => if ok then (PListen [], []) else (restart false, [])
      | _ => (p, [])
      end
  | EAccept _ =>
      match p with
      | PListen (c :: w) => (PConnect c w, [])
      | _ => (p, [])
      end
  | EStream _ ok =>
      match p with
      | PConnect c w =>
          if ok then (PCopy c w, [Joined c (t_dest t) (dst_port t)])
          else (restart false, Closed c :: drop_all w)
      | _ => (p, [])
      end
  | EEnd _ ok =>
      match p with
      | PCopy c w => (restart ok, Closed c :: drop_all w)
      | _ => (p, [])
      end
  | EWake _ =>
      match p with
      | PSleep => (PBind, [])
      | _ => (p, [])
      end
  end.

Definition index (ev : event) : nat :=
  match ev with
  | EConn i _ | EBind i _ | EAccept i | EStream i _ | EEnd i _ | EWake i => i
  end.

(** client.rs:77-176 [ClientTunnelManager::run]: every tunnel has one task.  [false]: the SAM
    session could not be created, and the manager ends (98-107). *)
Definition manager : Type := list (client * phase).
Definition start (session : bool) (l : list client) : manager :=
  if session then map (fun t => (t, PBind)) l else [].
Fixpoint at_index (m : manager) (i : nat) (ev : event) : manager * list seen :=
  match m, i with
  | [], _ => ([], match ev with EConn _ c => [Refused c] | _ => [] end)
  | (t, p) :: rest, O => let '(p', o) := step1 t p ev in ((t, p') :: rest, o)
  | x :: rest, S i' => let '(rest', o) := at_index rest i' ev in (x :: rest', o)
  end.
Definition step (m : manager) (ev : event) : manager * list seen := at_index m (index ev) ev.
Fixpoint run (m : manager) (evs : list event) : manager * list seen :=
  match evs with
  | [] => (m, [])
  | ev :: rest => let '(m1, o) := step m ev in let '(m2, o') := run m1 rest in (m2, o ++ o')
  end.
