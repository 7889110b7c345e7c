(** The SAMv3 server: which sessions there are, and where a client's request goes.

    Models /repo/emissary-core/src/sam/mod.rs:69-713 and, for what a pending session can end in,
    sam/pending/session.rs.  One [sop] is one item taken in one of the loops of [poll]
    (mod.rs:299-709), one step of a session task, or the end of one; every order in which the
    loops and the tasks can run is a list of [sop]s.

    Simplifications: a session id (a string), a destination id (a hash), a client's socket, a host
    name and the options of a request are numbers; a socket's number stands for the owned value,
    which Rust lets nobody duplicate; the parsing of requests is in [SamModel.v]; [debug_assert!]
    is a no-op as in a release build. *)
From Coq Require Import List NArith Bool.
From Verif Require Import NMap.
Import ListNotations.
Open Scope N_scope.

(** sam/parser.rs [HostKind] *)
Inductive host : Type := HDest (d : N) | HB32 (d : N) | HName (n : N).

(** sam/session.rs:76-122 [SamSessionCommand] *)
Inductive scmd : Type :=
| KConnect (sock dest opts : N)
| KAccept (sock opts : N)
| KForward (sock port opts : N)
| KDatagram (dest : N) (data : list N).

(** The channel of an active session (mod.rs:467-468): [COMMAND_CHANNEL_SIZE] is 256 (mod.rs:72).
    It is closed when the session's task is over. [ch_sock] is the client's control socket, which
    the task owns. *)
Record schan : Type := mkChan { ch_sock : N; ch_open : bool; ch_queue : list scmd }.
Definition command_channel_size : N := 256.

(** mod.rs:158-221 [SamServer] *)
Record srv : Type := mkSrv {
  sv_dests : list N;                 (** active_destinations *)
  sv_active : nmap schan;            (** active_sessions: senders and running tasks *)
  sv_psend : list N;                 (** pending_sessions.senders *)
  sv_building : nmap N;              (** pending_sessions.futures: id -> control socket *)
  sv_ids : nmap N;                   (** session_id_destinations *)
  sv_look : nmap (N * N);            (** host_lookups: socket -> (session id, options) *)
  sv_book : bool }.                  (** address_book.is_some() *)

(** mod.rs:225-280 [SamServer::new] *)
Definition sv_new (book : bool) : srv := mkSrv [] [] [] [] [] [] book.

Inductive sop : Type :=
| Create (sock sid dest : N) (pool_ok : bool)   (** SESSION CREATE; does the tunnel manager take the request? *)
| Connect (sock sid : N) (h : host) (opts : N)  (** STREAM CONNECT *)
| Accept (sock sid opts : N)                    (** STREAM ACCEPT *)
| Forward (sock sid port opts : N)              (** STREAM FORWARD *)
| Datagram (sid dest : N) (data : list N)       (** a datagram from the UDP socket *)
| Resolved (sock : N) (d : option N)            (** the address book answers the lookup made for the socket *)
| Built (sid : N)                               (** the pending session has its tunnels *)
| Failed (sid : N)                              (** the pending session ends with an error *)
| Take (sid : N)                                (** the session takes a command out of its channel *)
| Gone (sid : N)                                (** the session's task is over *)
| Reap (sid : N).                               (** the server learns that it is over *)

Inductive sout : Type :=
| DupId (sock : N)        (** "SESSION STATUS RESULT=DUPLICATE_ID", then the socket is closed *)
| DupDest (sock : N)      (** "SESSION STATUS RESULT=DUPLICATE_DEST", then the socket is closed *)
| I2pError (sock : N)     (** "STREAM STATUS RESULT=I2P_ERROR", then the socket is closed *)
| Shut (sock : N)         (** the socket is closed with nothing written *)
| Lost (dest : N) (data : list N)  (** a datagram is dropped *)
| Begun (sid : N)         (** a pending session is started *)
| Live (sid : N)          (** the session becomes active *)
| Asked (name : N)        (** the address book is asked *)
| Handed (sid : N) (c : scmd)      (** the session is handed the command *)
| Over (sid : N).         (** the server forgets the session *)

(** What becomes of a command that cannot be sent: it is dropped, and its socket with it. *)
Definition dropped (c : scmd) : list sout :=
  match c with
  | KConnect s _ _ | KAccept s _ | KForward s _ _ => [Shut s]
  | KDatagram d x => [Lost d x]
  end.

(** mod.rs:121-131 [SessionContext::send_command] and what its callers do with an error *)
Definition send_command (sid : N) (c : scmd) (st : srv) : srv * list sout :=
  match nget sid (sv_active st) with
  | None => (st, dropped c)
  | Some ch =>
      if ch_open ch && (N.of_nat (length (ch_queue ch)) <? command_channel_size)
      then (mkSrv (sv_dests st) (nput sid (mkChan (ch_sock ch) true (ch_queue ch ++ [c])) (sv_active st))
              (sv_psend st) (sv_building st) (sv_ids st) (sv_look st) (sv_book st), [])
      else (st, dropped c)
  end.

(** mod.rs:384-492: [ConnectionKind::Session] *)
Definition on_create (sock sid dest : N) (pool_ok : bool) (st : srv) : srv * list sout :=
  if nhas sid (sv_active st) || smem sid (sv_psend st) then (st, [DupId sock])
  else if smem dest (sv_dests st) then (st, [DupDest sock])
  else if negb pool_ok then (st, [Shut sock])
  else (mkSrv (sadd dest (sv_dests st)) (sv_active st) (sadd sid (sv_psend st)) (nput sid sock (sv_building st))
          (nput sid dest (sv_ids st)) (sv_look st) (sv_book st), [Begun sid]).

(** mod.rs:493-567: [ConnectionKind::Stream] *)
Definition on_connect (sock sid : N) (h : host) (opts : N) (st : srv) : srv * list sout :=
  match h with
  | HDest d | HB32 d => send_command sid (KConnect sock d opts) st
  | HName n =>
      if sv_book st
      then (mkSrv (sv_dests st) (sv_active st) (sv_psend st) (sv_building st) (sv_ids st)
              (nput sock (sid, opts) (sv_look st)) (sv_book st), [Asked n])
      else (st, [Shut sock])
  end.

(** mod.rs:673-709: a host lookup is over *)
Definition on_resolved (sock : N) (d : option N) (st : srv) : srv * list sout :=
  match nget sock (sv_look st) with
  | None => (st, [])
  | Some (sid, opts) =>
      let st' := mkSrv (sv_dests st) (sv_active st) (sv_psend st) (sv_building st) (sv_ids st)
                   (ndel sock (sv_look st)) (sv_book st) in
      match d with
      | None => (st', [I2pError sock])
      | Some d => send_command sid (KConnect sock d opts) st'
      end
  end.

(** [session_id_destinations.remove] with [active_destinations.remove], mod.rs:639-643 and 666-668 *)
Definition release (sid : N) (st : srv) : srv :=
  match nget sid (sv_ids st) with
  | Some d => mkSrv (sdel d (sv_dests st)) (sv_active st) (sv_psend st) (sv_building st) (ndel sid (sv_ids st)) (sv_look st) (sv_book st)
  | None => st
  end.

(** mod.rs:618-645: a pending session is ready *)
Definition on_built (sid : N) (st : srv) : srv * list sout :=
  match nget sid (sv_building st) with
  | None => (st, [])
  | Some sock =>
      if smem sid (sv_psend st)
      then (mkSrv (sv_dests st) (nput sid (mkChan sock true []) (sv_active st)) (sdel sid (sv_psend st))
              (ndel sid (sv_building st)) (sv_ids st) (sv_look st) (sv_book st), [Live sid])
      else (release sid (mkSrv (sv_dests st) (sv_active st) (sv_psend st) (ndel sid (sv_building st)) (sv_ids st) (sv_look st) (sv_book st)),
            [Shut sock])
  end.

(** mod.rs:646-650: a pending session has failed; only a warning is logged.  The future owned the
    control socket (pending/session.rs:183-272). *)
Definition on_failed (sid : N) (st : srv) : srv * list sout :=
  match nget sid (sv_building st) with
  | None => (st, [])
  | Some sock =>
      (mkSrv (sv_dests st) (sv_active st) (sv_psend st) (ndel sid (sv_building st)) (sv_ids st) (sv_look st) (sv_book st), [Shut sock])
  end.

(** sam/session.rs:1155-1177: the session polls its command channel *)
Definition on_take (sid : N) (st : srv) : srv * list sout :=
  match nget sid (sv_active st) with
  | Some (mkChan sock true (c :: q)) =>
      (mkSrv (sv_dests st) (nput sid (mkChan sock true q) (sv_active st)) (sv_psend st) (sv_building st) (sv_ids st) (sv_look st) (sv_book st),
       [Handed sid c])
  | _ => (st, [])
  end.

(** sam/session.rs:1121-1351 returns [Ready]: the session is dropped, with its control socket and
    the commands still in the channel *)
Definition on_gone (sid : N) (st : srv) : srv * list sout :=
  match nget sid (sv_active st) with
  | Some (mkChan sock true q) =>
      (mkSrv (sv_dests st) (nput sid (mkChan sock false []) (sv_active st)) (sv_psend st) (sv_building st) (sv_ids st) (sv_look st) (sv_book st),
       Shut sock :: flat_map dropped q)
  | _ => (st, [])
  end.

(** mod.rs:654-671: an active session is over *)
Definition on_reap (sid : N) (st : srv) : srv * list sout :=
  match nget sid (sv_active st) with
  | Some (mkChan _ false _) =>
      (release sid (mkSrv (sv_dests st) (ndel sid (sv_active st)) (sv_psend st) (sv_building st) (sv_ids st) (sv_look st) (sv_book st)), [Over sid])
  | _ => (st, [])
  end.

(** mod.rs:293-713 [poll], one item *)
Definition step (st : srv) (op : sop) : srv * list sout :=
  match op with
  | Create sock sid dest ok => on_create sock sid dest ok st
  | Connect sock sid h opts => on_connect sock sid h opts st
  | Accept sock sid opts => send_command sid (KAccept sock opts) st
  | Forward sock sid port opts => send_command sid (KForward sock port opts) st
  | Datagram sid d x => send_command sid (KDatagram d x) st
  | Resolved sock d => on_resolved sock d st
  | Built sid => on_built sid st
  | Failed sid => on_failed sid st
  | Take sid => on_take sid st
  | Gone sid => on_gone sid st
  | Reap sid => on_reap sid st
  end.

Fixpoint run (st : srv) (ops : list sop) : srv * list (list sout) :=
  match ops with
  | [] => (st, [])
  | op :: ops' => let (st1, o) := step st op in let (st2, os) := run st1 ops' in (st2, o :: os)
  end.

(** ** Datagrams to clients *)

(** mod.rs:142-155 [DatagramWriterState] and the channel the sessions write to (mod.rs:258) *)
Record wrt : Type := mkWrt { w_cur : option (N * list N); w_chan : list (N * list N) }.
Definition w_new : wrt := mkWrt None [].
Definition datagram_channel_size : N := 1024.

(** What [poll_send_to] says: not now, written, failed. *)
Inductive sent : Type := Wait | Wrote | Broke.

Inductive wop : Type :=
| Enqueue (port : N) (x : list N)     (** a session's [try_send] *)
| WPoll (rs : list sent).             (** one poll of the server; the answers the socket gives in it *)

(** What the socket is asked to write: to port [port] of 127.0.0.1, and whether it was written *)
Definition wout : Type := (N * list N * bool)%type.

(** mod.rs:345-377: the loop; when the answers run out the socket is not ready *)
Fixpoint w_loop (rs : list sent) (cur : option (N * list N)) (chan : list (N * list N)) : wrt * list wout :=
  let '(cur1, chan1) := match cur with
                        | Some m => (Some m, chan)
                        | None => match chan with [] => (None, []) | m :: t => (Some m, t) end
                        end in
  match cur1 with
  | None => (mkWrt None [], [])
  | Some (port, x) =>
      match rs with
      | [] | Wait :: _ => (mkWrt (Some (port, x)) chan1, [])
      | Wrote :: rs' => let (w, o) := w_loop rs' None chan1 in (w, (port, x, true) :: o)
      | Broke :: rs' => let (w, o) := w_loop rs' None chan1 in (w, (port, x, false) :: o)
      end
  end.

(** [None]: the datagram is not taken (the channel is full) *)
Definition w_step (w : wrt) (op : wop) : wrt * list wout :=
  match op with
  | Enqueue port x =>
      if N.of_nat (length (w_chan w)) <? datagram_channel_size then (mkWrt (w_cur w) (w_chan w ++ [(port, x)]), []) else (w, [])
  | WPoll rs => w_loop rs (w_cur w) (w_chan w)
  end.

Fixpoint w_run (w : wrt) (ops : list wop) : wrt * list wout :=
  match ops with
  | [] => (w, [])
  | op :: ops' => let (w1, o) := w_step w op in let (w2, os) := w_run w1 ops' in (w2, o ++ os)
  end.
