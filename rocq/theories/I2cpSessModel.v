(** I2CP client sessions, from the connection to the end.

    Models /repo/emissary-core/src/i2cp/pending.rs:231-673 (a session being set up),
    i2cp/session.rs:52-567 (an active one) and i2cp/mod.rs:61-231 (the server), with
    [TunnelPoolConfig::from] of tunnel/pool/mod.rs:135-166.  One [cop] is one item taken in one of
    the loops of [poll], with what parts of the router that are modelled elsewhere answer: whether
    the tunnel manager takes the request for a pool, the status [query_lease_set] returns
    (DestModel.v), the events of the tunnel pool (PoolModel.v) and of the destination
    (DestModel.v, LsmModel.v).  An item that is not taken in the present state has no effect.

    Simplifications: messages are those of I2cpModel.v, already parsed; destination ids are
    numbers, given by [did] from the bytes of the hash; encryption and delivery of messages are
    left to the destination; a panic while a session is set up is an output; the debug assertions
    at pending.rs:428 and 663 are left out. *)
From Coq Require Import Ascii String.
From Coq Require Import List NArith Bool.
From Verif Require Import Bytes NMap PrimModel EncModel I2cpModel SamModel DestModel.
Import ListNotations.
Local Open Scope list_scope.
Open Scope N_scope.

(** ** Options *)

(** tunnel/pool/mod.rs:105-123 [TunnelPoolConfig] *)
Record pconfig : Type := mkPc { pc_name : bytes; pc_in : N; pc_in_hops : N; pc_out : N; pc_out_hops : N }.

(** [str::parse::<usize>] with its default, on a machine of 64 bits *)
Definition num_option (key : bytes) (default : N) (opts : list mapping) : N :=
  match mget key opts with
  | Some v => match parse_dec (2 ^ 64 - 1) v with Some n => n | None => default end
  | None => default
  end.

(** tunnel/pool/mod.rs:135-166 [TunnelPoolConfig::from] *)
Definition pool_config (opts : list mapping) : pconfig :=
  mkPc (match mget (lit "inbound.nickname") opts with Some n => n | None => lit "unspecified" end)
       (num_option (lit "inbound.quantity") 3 opts) (num_option (lit "inbound.length") 2 opts)
       (num_option (lit "outbound.quantity") 3 opts) (num_option (lit "outbound.length") 2 opts).

(** pending.rs:325-339: the options with a name for the pool; [id] is how the destination's id is
    written *)
Definition with_name (id : bytes) (opts : list mapping) : list mapping :=
  match mget (lit "inbound.nickname") opts with
  | Some _ => opts
  | None => minsert (lit "inbound.nickname")
              (match mget (lit "outbound.nickname") opts with Some n => n | None => id end) opts
  end.

(** session.rs:136-139: whether the destination stays unpublished; [str::parse::<bool>] *)
Definition unpublished (opts : list mapping) : bool :=
  match mget (lit "i2cp.dontPublishLeaseSet") opts with
  | Some v => if beq v (lit "false") then false else true
  | None => true
  end.

(** ** One connection *)

(** pending.rs:96-175 [PendingSessionState] *)
Inductive pstate : Type :=
| Inactive
| BuildingPool (opts : list mapping)
| BuildingTunnels (opts : list mapping) (ins : nmap lease) (outs : list N)
| AwaitingLeaseSet (opts : list mapping) (ins : nmap lease) (outs : list N).

(** session.rs:68-96 [I2cpSession]; [a_conns]: pending_connections, [a_looks]: pending_lookups,
    [a_futs]: host_lookups, numbered *)
Record act : Type := mkAct {
  a_mid : N; a_conns : nmap (list bytes); a_looks : nmap (N * N); a_futs : nmap (N * N); a_next : N }.

Inductive conn : Type := Setup (p : pstate) | Active (a : act) | Over.

(** Events of the tunnel pool while a session is set up (pending.rs:500-654). *)
Inductive tevent : Type := InBuilt (t : N) (l : lease) | OutBuilt (t : N) | InGone (t : N) | OutGone (t : N) | OtherEvent | PoolEnd.

Inductive cop : Type :=
| CMsg (m : i2cp_msg) (now : N) (room : bool) (st : lstatus) (value : bytes)
    (** a message of the client; the time, whether the tunnel manager has room, and what the
        destination says when it is asked for a lease set *)
| CEof                                      (** the client's connection ends *)
| CReady                                    (** the tunnel pool has been created *)
| CTunnel (e : tevent)
| CMessages (l : list bytes)                (** DestinationEvent::Messages *)
| CFound (d : N) (value : bytes)            (** DestinationEvent::LeaseSetFound *)
| CNotFound (d : N)                         (** DestinationEvent::LeaseSetNotFound *)
| CLeases (l : list lease)                  (** DestinationEvent::CreateLeaseSet *)
| CAnswer (key : N) (value : option bytes)  (** the address book answers *)
| CPoolDown.                                (** DestinationEvent::TunnelPoolShutDown *)

Inductive cout : Type :=
| Reply (r : i2cp_reply)
| AskPool (c : pconfig)
| Begin (key leaseset priv : bytes) (ins : list lease) (outs : list N) (unpublished : bool)
    (** the destination is created and given the lease set to publish *)
| Publish (leaseset : bytes)
| SendTo (d : N) (x : bytes)
| Lost (d : N) (x : bytes)                  (** a message is dropped *)
| Forgot (session request : N)              (** a lookup is dropped, never to be answered *)
| AskBook (key : N) (name : bytes)
| Panic.

Section Sess.
Variable sid : N.                 (** session_id *)
Variable book : bool.             (** address_book.is_some() *)
Variable did : bytes -> N.        (** [DestinationId::from] *)
Variable written : destination -> bytes.   (** [destination.id().to_string()] *)

(** what both phases answer alike: pending.rs:265-299, session.rs:173-203 *)
Definition common (m : i2cp_msg) (now : N) : option (list cout) :=
  match m with
  | MGetDate _ _ => Some [Reply (RpSetDate now (lit "0.9.63"))]
  | MGetBandwidthLimits => Some [Reply RpBandwidthLimits]
  | MDestroySession s => Some [Reply (RpSessionStatus s SsDestroyed)]
  | _ => None
  end.

(** session.rs:98-155 [new]; [private_keys[0]] panics on an empty list *)
Definition begin (opts : list mapping) (ins : nmap lease) (outs : list N) (key ls : bytes) (keys : list bytes) : conn * list cout :=
  match keys with
  | [] => (Over, [Panic])
  | k :: _ => (Active (mkAct 0 [] [] [] 0), [Begin key ls k (map snd ins) outs (unpublished opts)])
  end.

(** pending.rs:263-437 [on_message] *)
Definition on_setup_message (m : i2cp_msg) (now : N) (room : bool) (p : pstate) : conn * list cout :=
  match common m now with
  | Some o => (Setup p, o)
  | None =>
      match m, p with
      | MCreateSession d _ opts, Inactive =>
          let opts' := with_name (written d) opts in
          if room then (Setup (BuildingPool opts'), [AskPool (pool_config opts'); Reply (RpSessionStatus sid SsCreated)])
          else (Setup p, [])
      | MCreateLeaseSet2 _ key ls keys, AwaitingLeaseSet opts ins outs => begin opts ins outs key ls keys
      | _, _ => (Setup p, [])
      end
  end.

(** pending.rs:522-555, 566-599: ask for a lease set when all tunnels are there; the message
    cannot be made without a lease *)
Definition check (opts : list mapping) (ins : nmap lease) (outs : list N) : conn * list cout :=
  if (N.of_nat (length ins) =? pc_in (pool_config opts)) && (N.of_nat (length outs) =? pc_out (pool_config opts))
  then match ins with
       | [] => (Over, [Panic])
       | _ => (Setup (AwaitingLeaseSet opts ins outs), [Reply (RpRequestVariableLeaseSet sid (map snd ins))])
       end
  else (Setup (BuildingTunnels opts ins outs), []).

(** pending.rs:493-654 *)
Definition on_tunnel (e : tevent) (opts : list mapping) (ins : nmap lease) (outs : list N) : conn * list cout :=
  match e with
  | InBuilt t l => check opts (nput t l ins) outs
  | OutBuilt t => check opts ins (sadd t outs)
  | InGone t => (Setup (BuildingTunnels opts (ndel t ins) outs), [])
  | OutGone t => (Setup (BuildingTunnels opts ins (sdel t outs)), [])
  | OtherEvent => (Setup (BuildingTunnels opts ins outs), [])
  | PoolEnd => (Over, [])
  end.

(** pending.rs:443-672 [poll], one item *)
Definition setup_step (p : pstate) (op : cop) : conn * list cout :=
  match op with
  | CMsg m now room _ _ => on_setup_message m now room p
  | CEof => (Over, [])
  | CReady => match p with BuildingPool opts => (Setup (BuildingTunnels opts [] []), []) | _ => (Setup p, []) end
  | CTunnel e => match p with BuildingTunnels opts ins outs => on_tunnel e opts ins outs | _ => (Setup p, []) end
  | _ => (Setup p, [])
  end.

Definition u_conns a x := mkAct (a_mid a) x (a_looks a) (a_futs a) (a_next a).
Definition u_looks a x := mkAct (a_mid a) (a_conns a) x (a_futs a) (a_next a).
Definition u_futs a x n := mkAct (a_mid a) (a_conns a) (a_looks a) x n.
Definition u_mid a x := mkAct x (a_conns a) (a_looks a) (a_futs a) (a_next a).

Definition lost_of (d : N) (o : option (list bytes)) : list cout := match o with Some l => map (Lost d) l | None => [] end.
Definition forgot_of (o : option (N * N)) : list cout := match o with Some (s, r) => [Forgot s r] | None => [] end.

(** session.rs:171-405 [on_message] *)
Definition on_active_message (m : i2cp_msg) (now : N) (st : lstatus) (value : bytes) (a : act) : act * list cout :=
  match common m now with
  | Some o => (a, o)
  | None =>
      match m with
      | MCreateSession _ _ _ => (a, [Reply (RpSessionStatus sid SsRefused)])
      | MHostLookup s r _ kind =>
          match book, kind with
          | true, HostName name => (u_futs a (nput (a_next a) (s, r) (a_futs a)) (a_next a + 1), [AskBook (a_next a) name])
          | false, _ => (a, [Reply (RpHostReply s r HrFailure)])
          | true, Hash h =>
              match st with
              | Found => (a, [Reply (RpHostReply s r (HrSuccess value))])
              | NotFound => (u_looks a (nput (did h) (s, r) (a_looks a)), forgot_of (nget (did h) (a_looks a)))
              | Pending => (a, [Forgot s r])
              end
          end
      | MCreateLeaseSet2 _ _ ls _ => (a, [Publish ls])
      | MSendMessageExpires _ dest _ payload _ _ _ =>
          let d := did (d_hash dest) in
          match st with
          | Found => (a, [SendTo d payload])
          | NotFound => (u_conns a (nput d [payload] (a_conns a)), lost_of d (nget d (a_conns a)))
          | Pending => match nget d (a_conns a) with
                       | Some l => (u_conns a (nput d (l ++ [payload]) (a_conns a)), [])
                       | None => (a, [Lost d payload])
                       end
          end
      | _ => (a, [])
      end
  end.

(** session.rs:158-168 [send_payload_message], for each of the messages *)
Fixpoint payloads (l : list bytes) (mid : N) : N * list cout :=
  match l with
  | [] => (mid, [])
  | x :: t => let (mid', o) := payloads t ((mid + 1) mod 2 ^ 32) in (mid', Reply (RpMessagePayload sid mid x) :: o)
  end.

(** session.rs:434-508 *)
Definition on_found (d : N) (value : bytes) (a : act) : act * list cout :=
  match nget d (a_conns a) with
  | Some l => (u_conns a (ndel d (a_conns a)), map (SendTo d) l)
  | None => match nget d (a_looks a) with
            | Some (s, r) => (u_looks a (ndel d (a_looks a)), [Reply (RpHostReply s r (HrSuccess value))])
            | None => (a, [])
            end
  end.
Definition on_not_found (d : N) (a : act) : act * list cout :=
  match nget d (a_conns a) with
  | Some l => (u_conns a (ndel d (a_conns a)), map (Lost d) l)
  | None => match nget d (a_looks a) with
            | Some (s, r) => (u_looks a (ndel d (a_looks a)), [Reply (RpHostReply s r HrFailure)])
            | None => (a, [])
            end
  end.

(** session.rs:538-563 *)
Definition on_answer (key : N) (v : option bytes) (a : act) : act * list cout :=
  match nget key (a_futs a) with
  | None => (a, [])
  | Some (s, r) => (u_futs a (ndel key (a_futs a)) (a_next a),
                    [Reply (RpHostReply s r (match v with Some x => HrSuccess x | None => HrFailure end))])
  end.

(** the session is dropped with what it holds *)
Definition leave (a : act) : list cout :=
  flat_map (fun e => map (Lost (fst e)) (snd e)) (a_conns a)
  ++ map (fun e => Forgot (fst (snd e)) (snd (snd e))) (a_looks a)
  ++ map (fun e => Forgot (fst (snd e)) (snd (snd e))) (a_futs a).

Definition lift (r : act * list cout) : conn * list cout := let (a, o) := r in (Active a, o).

(** session.rs:411-566 [poll], one item; a request for a lease set cannot be made without a lease *)
Definition active_step (a : act) (op : cop) : conn * list cout :=
  match op with
  | CMsg m now _ st value => lift (on_active_message m now st value a)
  | CEof | CPoolDown => (Over, leave a)
  | CMessages l => let (mid, o) := payloads l (a_mid a) in (Active (u_mid a mid), o)
  | CFound d value => lift (on_found d value a)
  | CNotFound d => lift (on_not_found d a)
  | CLeases [] => (Over, Panic :: leave a)
  | CLeases l => (Active a, [Reply (RpRequestVariableLeaseSet sid l)])
  | CAnswer key v => lift (on_answer key v a)
  | _ => (Active a, [])
  end.

Definition cstep (c : conn) (op : cop) : conn * list cout :=
  match c with
  | Setup p => setup_step p op
  | Active a => active_step a op
  | Over => (Over, [])
  end.
Fixpoint crun (c : conn) (ops : list cop) : conn * list (list cout) :=
  match ops with
  | [] => (c, [])
  | op :: ops' => let (c1, o) := cstep c op in let (c2, os) := crun c1 ops' in (c2, o :: os)
  end.
End Sess.

(** ** The server *)

(** i2cp/mod.rs:65-89 [I2cpServer]; connections are numbered in the order in which their protocol
    byte was read, and keep the session id they were given *)
Record server : Type := mkServer { s_up : bool; s_next : N; s_count : N; s_conns : nmap (N * conn) }.
(** i2cp/mod.rs:112-121 *)
Definition s_new : server := mkServer true 1 0 [].

Inductive sop : Type := SConnect (byte : N) | SConn (k : N) (op : cop).

(** What the server's clients see; [Down]: the server has ended. *)
Inductive sout : Type := SGreet (k sid : N) | SRefuse | SOut (k : N) (o : cout) | Down.

Section Server.
Variable book : bool.
Variable did : bytes -> N.
Variable written : destination -> bytes.

(** the connections that are only being set up end with the server (their tasks are in its join
    set, i2cp/mod.rs:82); active ones are tasks of their own (224) *)
Definition only_active (m : nmap (N * conn)) : nmap (N * conn) :=
  filter (fun e => match snd (snd e) with Setup _ => false | _ => true end) m.

(** i2cp/mod.rs:136-230 [poll].  A panic in a task of the join set is seen as the end of the stream
    (emissary-util/src/runtime/tokio.rs:257-269), at which the server returns (215); a panic in
    [I2cpSession::new] (224) is one of the server's own task. *)
Definition sstep (s : server) (op : sop) : server * list sout :=
  match op with
  | SConnect byte =>
      if negb (s_up s) then (s, [SRefuse])
      else if byte =? 42
      then (mkServer true ((s_next s + 1) mod 2 ^ 16) (s_count s + 1) (nput (s_count s) (s_next s, Setup Inactive) (s_conns s)),
            [SGreet (s_count s) (s_next s)])
      else (s, [SRefuse])
  | SConn k cop =>
      match nget k (s_conns s) with
      | None => (s, [])
      | Some (sid, c) =>
          let (c', o) := cstep sid book did written c cop in
          let m := nput k (sid, c') (s_conns s) in
          if existsb (fun x => match x with Panic => true | _ => false end) o && (match c with Setup _ => true | _ => false end)
          then (mkServer false (s_next s) (s_count s) (only_active m), map (SOut k) o ++ [Down])
          else (mkServer (s_up s) (s_next s) (s_count s) m, map (SOut k) o)
      end
  end.
Fixpoint srun (s : server) (ops : list sop) : server * list (list sout) :=
  match ops with
  | [] => (s, [])
  | op :: ops' => let (s1, o) := sstep s op in let (s2, os) := srun s1 ops' in (s2, o :: os)
  end.
End Server.
