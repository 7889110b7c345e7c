(** An active SAMv3 session: streams and datagrams that wait for a lease set, and name lookups.

    Models /repo/emissary-core/src/sam/session.rs:130-1351.  One [xop] is one item taken in one of
    the loops of [poll] (session.rs:1121-1351), with what the parts of the session that are
    modelled elsewhere answer: the status [query_lease_set] returns (DestModel.v), the events of
    the destination (DestModel.v) and of the stream manager (ListenerModel.v, PendingModel.v).

    Simplifications: destination ids are numbers, given from the bytes they are made of by [did];
    sockets and options are numbers; the payload of a datagram is handed on without the header the
    datagram manager adds (EncModel.v); [create_stream] is seen as the stream manager getting the
    socket, and the stream's id, which is only logged here, is left out; replies are byte strings
    without the line feed at their end, which the code sometimes omits (see DESIGN.md). *)
From Coq Require Import Ascii String.
From Coq Require Import List NArith Bool.
From Verif Require Import Bytes NMap PrimModel EncModel I2cpModel SamModel DestModel.
Import ListNotations.
Local Open Scope list_scope.
Open Scope N_scope.

(** session.rs:131-146 [PendingSessionState] *)
Inductive pstate : Type := AwaitingLeaseSet (sock opts : N) | AwaitingSession.
(** session.rs:168-178 [PendingSession]: streams, datagrams *)
Record pend : Type := mkPend { p_streams : list pstate; p_dgrams : option (list bytes) }.
Definition pend_new : pend := mkPend [] None.

(** session.rs:191-263 [SamSession] *)
Record sess : Type := mkSess {
  x_me : N;                       (** dest.id() *)
  x_dest : bytes;                 (** base64 of the destination *)
  x_stream : bool;                (** session_kind is Stream *)
  x_book : bool;                  (** address_book.is_some() *)
  x_ctl : bool;                   (** socket.is_some() *)
  x_out : nmap pend;              (** pending_outbound *)
  x_names : nmap bytes;           (** pending_host_lookups *)
  x_futs : nmap bytes;            (** lookup_futures: the name each is for *)
  x_next : N }.                   (** number of the next one *)

(** session.rs:267-399 [new] *)
Definition x_new (me : N) (dest : bytes) (stream book : bool) : sess := mkSess me dest stream book true [] [] [] 0.

Inductive xop : Type :=
| XConnect (sock dest opts : N) (s : lstatus)
| XAccept (sock : N)
| XForward (sock : N)
| XDatagram (dest : N) (x : bytes) (s : lstatus)
| XName (name : bytes) (s : lstatus) (value : bytes)  (** NAMING LOOKUP; [value]: base64 of the destination in the lease set, if it is there *)
| XFound (dest : N) (value : bytes)           (** DestinationEvent::LeaseSetFound *)
| XNotFound (dest : N)                        (** DestinationEvent::LeaseSetNotFound *)
| XOpened (dest : N) (outbound : bool)        (** StreamManagerEvent::StreamOpened *)
| XRejected (dest : N)                        (** StreamManagerEvent::StreamRejected *)
| XAnswer (key : N) (value : option bytes)    (** the address book answers *)
| XClosed                                     (** the client closes the control socket *)
| XEnd.                                       (** the session is over and dropped *)

Inductive xout : Type :=
| Open (sock dest opts : N)         (** the stream manager is given the socket to open a stream *)
| CantReach (sock : N)              (** "STREAM STATUS RESULT=CANT_REACH_PEER", then the socket is closed *)
| XShut (sock : N)                  (** the socket is closed with nothing written *)
| Listen (sock : N)                 (** the stream manager is given the socket to listen *)
| SendTo (dest : N) (x : bytes)     (** a datagram is sent to the destination *)
| Dropped (dest : N) (x : bytes)    (** a datagram is dropped *)
| Say (line : bytes)                (** a line to the client on the control socket *)
| AskBook (key : N) (name : bytes)  (** the address book is asked *)
| Forget (dest : N)                 (** the stream manager is told that the remote is gone *)
| StopStreams.                      (** the stream manager is told to shut down *)

Definition w_xout s x := mkSess (x_me s) (x_dest s) (x_stream s) (x_book s) (x_ctl s) x (x_names s) (x_futs s) (x_next s).
Definition w_xnames s x := mkSess (x_me s) (x_dest s) (x_stream s) (x_book s) (x_ctl s) (x_out s) x (x_futs s) (x_next s).
Definition w_xfuts s x n := mkSess (x_me s) (x_dest s) (x_stream s) (x_book s) (x_ctl s) (x_out s) (x_names s) x n.
Definition w_xctl s x := mkSess (x_me s) (x_dest s) (x_stream s) (x_book s) x (x_out s) (x_names s) (x_futs s) (x_next s).

(** [entry(..).or_insert(PendingSession::new()).streams.push(..)], session.rs:429-433 and 522-526 *)
Definition entry (d : N) (m : nmap pend) : pend := match nget d m with Some p => p | None => pend_new end.
Definition push_stream (d : N) (p : pstate) (m : nmap pend) : nmap pend :=
  nput d (mkPend (p_streams (entry d m) ++ [p]) (p_dgrams (entry d m))) m.

(** session.rs:405-459 [create_outbound_stream] *)
Definition create_stream (d sock opts : N) (s : sess) : sess * list xout :=
  (w_xout s (push_stream d AwaitingSession (x_out s)), [Open sock d opts]).

(** session.rs:464-529 [on_stream_connect] *)
Definition on_connect (sock d opts : N) (st : lstatus) (s : sess) : sess * list xout :=
  if negb (x_stream s) then (s, [XShut sock])
  else if d =? x_me s then (s, [CantReach sock])
  else match st with
       | Found => create_stream d sock opts s
       | NotFound | Pending => (w_xout s (push_stream d (AwaitingLeaseSet sock opts) (x_out s)), [])
       end.

(** session.rs:536-601 [on_stream_accept], [on_stream_forward] *)
Definition on_listen (sock : N) (s : sess) : sess * list xout :=
  if negb (x_stream s) then (s, [XShut sock]) else (s, [Listen sock]).

(** session.rs:606-701 [on_send_datagram] *)
Definition on_send_datagram (d : N) (x : bytes) (st : lstatus) (s : sess) : sess * list xout :=
  if x_stream s then (s, [Dropped d x])
  else match st with
       | Found => (s, [SendTo d x])
       | NotFound | Pending =>
           (w_xout s (nput d (match nget d (x_out s) with
                              | Some p => mkPend (p_streams p) (match p_dgrams p with None => Some [x] | Some l => Some (l ++ [x]) end)
                              | None => mkPend [] (Some [x])
                              end) (x_out s)), [])
       end.

(** a line on the control socket, if it is still there *)
Definition say (s : sess) (line : bytes) : list xout := if x_ctl s then [Say line] else [].

Definition reply_ok (name value : bytes) : bytes := lit "NAMING REPLY RESULT=OK NAME=" ++ name ++ lit " VALUE=" ++ value.
Definition reply_not_found (name : bytes) : bytes := lit "NAMING REPLY RESULT=KEY_NOT_FOUND NAME=" ++ name.
Definition reply_invalid (name : bytes) : bytes := lit "NAMING REPLY RESULT=INVALID_KEY NAME=" ++ name.

(** session.rs:724-738: the loop over the streams that waited *)
Fixpoint open_all (d : N) (l : list pstate) (s : sess) : sess * list xout :=
  match l with
  | [] => (s, [])
  | AwaitingLeaseSet sock opts :: t =>
      let (s1, o) := create_stream d sock opts s in let (s2, o') := open_all d t s1 in (s2, o ++ o')
  | AwaitingSession :: t => open_all d t s
  end.

(** session.rs:713-804 [on_lease_set_found] *)
Definition on_found (d : N) (value : bytes) (s : sess) : sess * list xout :=
  let (s1, o1) := match nget d (x_out s) with
                  | None => (s, [])
                  | Some p =>
                      let (s', o) := open_all d (p_streams p) (w_xout s (ndel d (x_out s))) in
                      (s', o ++ match p_dgrams p with Some l => map (SendTo d) l | None => [] end)
                  end in
  match nget d (x_names s1) with
  | None => (s1, o1)
  | Some name => (w_xnames s1 (ndel d (x_names s1)), o1 ++ say s1 (reply_ok name value))
  end.

(** session.rs:815-911 [on_lease_set_not_found]; the sockets are answered one after another *)
Definition on_not_found (d : N) (s : sess) : sess * list xout :=
  let (s1, o1) := match nget d (x_out s) with
                  | None => (s, [])
                  | Some p =>
                      (w_xout s (ndel d (x_out s)),
                       (match p_dgrams p with Some l => map (Dropped d) l | None => [] end)
                       ++ flat_map (fun q => match q with AwaitingSession => [Forget d] | AwaitingLeaseSet _ _ => [] end) (p_streams p)
                       ++ flat_map (fun q => match q with AwaitingSession => [] | AwaitingLeaseSet k _ => [CantReach k] end) (p_streams p))
                  end in
  match nget d (x_names s1) with
  | None => (s1, o1)
  | Some name => (w_xnames s1 (ndel d (x_names s1)), o1 ++ say s1 (reply_not_found name))
  end.

(** What is dropped with an entry of [pending_outbound]. *)
Definition drop_entry (d : N) (p : pend) : list xout :=
  flat_map (fun q => match q with AwaitingSession => [] | AwaitingLeaseSet k _ => [XShut k] end) (p_streams p)
  ++ match p_dgrams p with Some l => map (Dropped d) l | None => [] end.

(** session.rs:1219 and 1223: [pending_outbound.remove] *)
Definition on_removed (d : N) (s : sess) : sess * list xout :=
  match nget d (x_out s) with
  | None => (s, [])
  | Some p => (w_xout s (ndel d (x_out s)), drop_entry d p)
  end.

(** The panic of a slice whose start is past its end, session.rs:1007 *)
Inductive looked : Type := Panics | Fine (s : sess) (o : list xout).

Section Names.
Variable did : bytes -> N.   (** [DestinationId::from] *)

(** session.rs:966-1118 [on_naming_lookup] *)
Definition on_naming_lookup (name : bytes) (st : lstatus) (value : bytes) (s : sess) : looked :=
  if beq name (lit "ME") then Fine s (say s (reply_ok (lit "ME") (x_dest s)))
  else match find_sub (lit ".b32.i2p") name with
       | Some end_ =>
           if Nat.ltb end_ (scheme_len name) then Panics
           else match base32_decode (slice (scheme_len name) end_ name) with
                | None => Fine s (say s (reply_invalid name))
                | Some id =>
                    match st with
                    | Found => Fine s (say s (reply_ok name value))
                    | NotFound | Pending => Fine (w_xnames s (nput (did id) name (x_names s))) []
                    end
                end
       | None =>
           match find_sub (lit ".i2p") name with
           | None => Fine s (say s (reply_invalid name))
           | Some _ =>
               if x_book s then Fine (w_xfuts s (nput (x_next s) name (x_futs s)) (x_next s + 1)) [AskBook (x_next s) name]
               else Fine s (say s (reply_not_found name))
           end
       end.

(** session.rs:1305-1346: the address book answers *)
Definition on_answer (key : N) (v : option bytes) (s : sess) : sess * list xout :=
  match nget key (x_futs s) with
  | None => (s, [])
  | Some name =>
      let s1 := w_xfuts s (ndel key (x_futs s)) (x_next s) in
      (s1, say s1 (match v with Some x => reply_ok name x | None => reply_not_found name end))
  end.

Definition lift (r : sess * list xout) : looked := let (s, o) := r in Fine s o.

(** session.rs:1124-1350 [poll], one item *)
Definition step (s : sess) (op : xop) : looked :=
  match op with
  | XConnect sock d opts st => lift (on_connect sock d opts st s)
  | XAccept sock | XForward sock => lift (on_listen sock s)
  | XDatagram d x st => lift (on_send_datagram d x st s)
  | XName name st value => if x_ctl s then on_naming_lookup name st value s else Fine s []
  | XFound d value => lift (on_found d value s)
  | XNotFound d => lift (on_not_found d s)
  | XOpened d false => Fine s []
  | XOpened d true | XRejected d => lift (on_removed d s)
  | XAnswer key v => lift (on_answer key v s)
  | XClosed => if x_ctl s then Fine (w_xctl s false) [StopStreams] else Fine s []
  | XEnd => Fine (mkSess (x_me s) (x_dest s) (x_stream s) (x_book s) false [] [] [] (x_next s))
              (flat_map (fun e => drop_entry (fst e) (snd e)) (x_out s))
  end.

(** [None]: the session has panicked *)
Fixpoint run (s : sess) (ops : list xop) : option (sess * list (list xout)) :=
  match ops with
  | [] => Some (s, [])
  | op :: ops' => match step s op with
                  | Panics => None
                  | Fine s1 o => match run s1 ops' with Some (s2, os) => Some (s2, o :: os) | None => None end
                  end
  end.
End Names.
