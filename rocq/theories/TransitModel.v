(** The transit tunnel manager: build requests from other routers and the tunnels they start.

    Models /repo/emissary-core/src/tunnel/transit/mod.rs together with the routing table of
    RouteModel.v.

    Simplifications: metrics, log lines and events are left out; what an accepted tunnel does with
    the messages it receives is in TunnelModel.v; a task is named by the handle of its receiver;
    a panic inside a task is not modelled. *)
From Coq Require Import List NArith Bool Arith.
From Verif Require Import ListUtil Bytes NMap PrimModel I2npModel GarlicModel TunnelModel NoiseModel RouteModel.
Import ListNotations.
Open Scope N_scope.

(** transit/mod.rs:70-82 *)
Definition SHORT_LEN : nat := 218.
Definition LONG_LEN : nat := 528.
Definition CHANNEL_SIZE : N := 64.

(** Where an accepted tunnel's task is (transit/mod.rs:353-424, 609-694): waiting for the reply to
    be sent, running, or finished and not yet collected. *)
Inductive phase : Type := Waiting | Running | Finished.
Record task : Type := mkTask {
  tk_rx : N;                 (** its receiver, [message_rx] *)
  tk_id : N;                 (** tunnel_id *)
  tk_role : role;
  tk_next_id : N;
  tk_next : bytes;           (** next_router *)
  tk_keys : keys;
  tk_phase : phase
}.

(** transit/mod.rs:110-131 [TransitTunnelManager].  [config]: [None] is "disabled",
    [Some None] is "no limit". *)
Record manager : Type := mkManager {
  tm_config : option (option N);
  tm_noise : noise;
  tm_shutting : bool;        (** shutdown.rs [is_shutting_down] *)
  tm_table : table;
  tm_tasks : list task;
  tm_done : bool;            (** the manager's own task has returned *)
  tm_others : list N         (** ids in the table that belong to the router's own tunnels *)
}.
Definition m_table (m : manager) t := mkManager (tm_config m) (tm_noise m) (tm_shutting m) t (tm_tasks m) (tm_done m) (tm_others m).
Definition m_tasks (m : manager) l := mkManager (tm_config m) (tm_noise m) (tm_shutting m) (tm_table m) l (tm_done m) (tm_others m).
(** The manager's future returns and is dropped, with its receiver. *)
Definition m_done (m : manager) := mkManager (tm_config m) (tm_noise m) (tm_shutting m) (drop_transit (tm_table m)) (tm_tasks m) true (tm_others m).
Definition m_shutting (m : manager) := mkManager (tm_config m) (tm_noise m) true (tm_table m) (tm_tasks m) (tm_done m) (tm_others m).
Definition m_others (m : manager) l := mkManager (tm_config m) (tm_noise m) (tm_shutting m) (tm_table m) (tm_tasks m) (tm_done m) l.

(** transit/mod.rs:135-166 [new] *)
Definition tm_new (config : option (option N)) (n : noise) (transit_cap manager_cap : N) : manager :=
  mkManager config n false (rt_new (no_hash n) transit_cap manager_cap) [] false [].

(** transit/mod.rs:174-204 [can_accept_transit_tunnel] *)
Definition can_accept (m : manager) : bool :=
  if tm_shutting m then false
  else match tm_config m with
       | None => false
       | Some (Some max) => negb (max <=? N.of_nat (length (tm_tasks m)))
       | Some None => true
       end.

(** transit/mod.rs:207-218 [find_local_record]: index of our record *)
Fixpoint find_index {A} (f : A -> bool) (l : list A) : option nat :=
  match l with
  | [] => None
  | x :: t => if f x then Some 0%nat else option_map S (find_index f t)
  end.
Definition find_local (size : nat) (hash payload : bytes) : option nat :=
  if Nat.ltb size (length payload) && Nat.eqb ((length payload - 1) mod size) 0 then
    find_index (fun r => beq (firstn 16 r) (firstn 16 hash)) (chunks size (skipn 1 payload))
  else None.

(** [slice[i] = x] *)
Definition set_byte (i : nat) (x : N) (l : bytes) : bytes := firstn i l ++ x :: skipn (S i) l.
(** [records[i] = f(records[i])] *)
Definition set_record (i : nat) (f : bytes -> bytes) (l : list bytes) : list bytes :=
  map_from 0 (fun j r => if Nat.eqb j i then f r else r) l.

(** transit/mod.rs:296-298, 316-318, 560-562, 584-586: no options, accept or reject *)
Definition answer (status_at : nat) (accept : bool) (rec : bytes) : bytes :=
  set_byte status_at (if accept then 0 else 30) (set_byte 49 0 (set_byte 48 0 rec)).

(** The parts of a request that both record formats carry. *)
Record request : Type := mkReq {
  rq_tunnel : N; rq_next_tunnel : N; rq_next_router : bytes; rq_role : role; rq_next_msg : N }.

(** transit/mod.rs:271-293, 520-537: room and a free id; the new receiver *)
Definition admit_tunnel (m : manager) (willing : bool) (id : N) : manager * option N :=
  if can_accept m && willing then
    let '(t, h) := try_add_tunnel (tm_table m) id CHANNEL_SIZE in (m_table m t, h)
  else (m, None).

(** transit/mod.rs:353-424, 609-694: start the task *)
Definition start_task (m : manager) (h : N) (q : request) (k : keys) : manager :=
  m_tasks m (tm_tasks m ++ [mkTask h (rq_tunnel q) (rq_role q) (rq_next_tunnel q) (rq_next_router q) k Waiting]).

(** What is to be sent: router, message, and the task waiting for the result of sending. *)
Definition reply : Type := (bytes * bytes * option N)%type.

Section Transit.
Variable c : ops.

(** transit/mod.rs:706-713, 738-771: build the message for the next hop.  A garlic message that
    cannot be built would be a panic; the two blocks used can always be built. *)
Definition garlic_reply (now : N) (garlic_key garlic_tag : bytes) (next_msg : N) (payload : bytes) : bytes :=
  match build_garlic [BClove OutboundTunnelBuildReply next_msg (now + of_ms 8000) GarlicModel.DLocal payload;
                      BDateTime (secs_of now)] with
  | None => []
  | Some plain =>
      let ct := x_seal c garlic_key 0 garlic_tag plain in
      be_bytes 4 (len ct + 8) ++ garlic_tag ++ ct
  end.
Definition gateway_message (mid next_tunnel expiration : N) (inner : bytes) : bytes :=
  build_short (mkMsg TunnelGateway mid expiration (ser_gateway (mkTg next_tunnel inner))).

(** transit/mod.rs:470-772 [handle_short_tunnel_build]; [now] is [R::time_since_epoch()] *)
Definition handle_short (now : N) (m : manager) (msg : message) : manager * option reply :=
  match find_local SHORT_LEN (no_hash (tm_noise m)) (m_payload msg) with
  | None => (m, None)
  | Some i =>
      let recs := chunks SHORT_LEN (skipn 1 (m_payload msg)) in
      let rec := nth i recs [] in
      let s := create_inbound c (tm_noise m) (firstn 32 (skipn 16 rec)) in
      match decrypt_record c s (skipn 48 rec) with
      | None => (m, None)
      | Some (plain, state) =>
          match parse_short_record plain with
          | None => (m, None)
          | Some (b, _) =>
              let q := mkReq (br_tunnel b) (br_next_tunnel b) (br_next_router b) (br_role b) (br_next_msg b) in
              let '(m1, h) := admit_tunnel m true (rq_tunnel q) in
              let k := new_keys c (i_ck s) (rq_role q) in
              let accept := match h with Some _ => true | None => false end in
              let recs' := encrypt_records c k state i (set_record i (answer 201 accept) recs) in
              let payload := firstn 1 (m_payload msg) ++ concat recs' in
              let m2 := match h with Some h => start_task m1 h q k | None => m1 end in
              let out :=
                match rq_role q with
                | InboundGateway | Participant =>
                    build_short (mkMsg ShortTunnelBuild (rq_next_msg q) (m_expiration msg) payload)
                | OutboundEndpoint =>
                    match k_garlic k with
                    | None => []   (** [expect("to exist")]; not reached: see [new_keys] *)
                    | Some (gk, gt) =>
                        gateway_message (rq_next_msg q) (rq_next_tunnel q) (m_expiration msg)
                          (build_standard (x_ext c)
                             (mkMsg Garlic (rq_next_msg q) (now + of_ms 8000)
                                    (garlic_reply now gk gt (rq_next_msg q) payload)))
                    end
                end in
              (m2, Some (rq_next_router q, out, h))
          end
      end
  end.

(** transit/mod.rs:221-467 [handle_variable_tunnel_build] *)
Definition handle_variable (m : manager) (msg : message) : manager * option reply :=
  match find_local LONG_LEN (no_hash (tm_noise m)) (m_payload msg) with
  | None => (m, None)
  | Some i =>
      let recs := chunks LONG_LEN (skipn 1 (m_payload msg)) in
      let rec := nth i recs [] in
      let s := create_inbound c (tm_noise m) (firstn 32 (skipn 16 rec)) in
      match decrypt_record c s (skipn 48 rec) with
      | None => (m, None)
      | Some (plain, state) =>
          match parse_var_record plain with
          | None => (m, None)
          | Some (b, _) =>
              let q := mkReq (vr_tunnel b) (vr_next_tunnel b) (vr_next_router b) (vr_role b) (vr_next_msg b) in
              let willing := match rq_role q with OutboundEndpoint => true | _ => false end in
              let '(m1, h) := admit_tunnel m willing (rq_tunnel q) in
              let k := mkKeys None (vr_iv b) (vr_layer b) [] in
              let accept := match h with Some _ => true | None => false end in
              let recs' := set_record i (fun r => encrypt_long c s state (answer 511 accept r)) recs in
              let payload := firstn 1 (m_payload msg) ++ concat recs' in
              let m2 := match h with Some h => start_task m1 h q k | None => m1 end in
              let out :=
                match rq_role q with
                | InboundGateway | Participant =>
                    build_short (mkMsg VariableTunnelBuild (rq_next_msg q) (m_expiration msg) payload)
                | OutboundEndpoint =>
                    gateway_message (rq_next_msg q) (rq_next_tunnel q) (m_expiration msg)
                      (build_standard (x_ext c)
                         (mkMsg VariableTunnelBuildReply (rq_next_msg q) (m_expiration msg) payload))
                end in
              (m2, Some (rq_next_router q, out, h))
          end
      end
  end.

(** A task's feedback receiver resolves: fired, or its sender was dropped. *)
Definition set_phase (h : N) (p : phase) (l : list task) : list task :=
  map (fun k => if tk_rx k =? h then mkTask (tk_rx k) (tk_id k) (tk_role k) (tk_next_id k) (tk_next k) (tk_keys k) p else k) l.
Definition find_task (h : N) (l : list task) : option task := find (fun k => tk_rx k =? h) l.
(** A finished task drops its receiver. *)
Definition finish (m : manager) (h : N) : manager :=
  m_table (m_tasks m (set_phase h Finished (tm_tasks m))) (drop_tunnel (tm_table m) h).
Definition resolve (m : manager) (h : N) (fired : bool) : manager :=
  match find_task h (tm_tasks m) with
  | Some k => match tk_phase k with
              | Waiting => if fired then m_tasks m (set_phase h Running (tm_tasks m)) else finish m h
              | _ => m
              end
  | None => m
  end.

(** What the manager answered to one message. *)
Inductive answer_out : Type :=
| ANothing                                   (** nothing to read, or the message was ignored *)
| AReply (router msg : bytes) (h : option N) (s : send_out)
| APanic.                                    (** [payload[..12]] at 788, or [expect] in the table *)

(** transit/mod.rs:802-822: send what the handler returned.  Without feedback the sender plays no
    part. *)
Definition send_reply (m : manager) (r : option reply) : manager * answer_out :=
  match r with
  | None => (m, ANothing)
  | Some (router, out, h) =>
      let '(t, s) := send_message (tm_table m) router out h in
      let m1 := m_table m t in
      match s with
      | SPanic => (m1, APanic)
      | SOut _ f =>
          (match h, f with
           | Some h, FbFired => resolve m1 h true
           | Some h, FbDropped => resolve m1 h false
           | _, _ => m1
           end, AReply router out h s)
      end
  end.

(** transit/mod.rs:781-823: one message *)
Definition on_message (now : N) (m : manager) (msg : message) : manager * answer_out :=
  match m_type msg with
  | ShortTunnelBuild => let '(m1, r) := handle_short now m msg in send_reply m1 r
  | VariableTunnelBuild => let '(m1, r) := handle_variable m msg in send_reply m1 r
  | Garlic => if Nat.ltb (length (m_payload msg)) 12 then (m, APanic) else (m, ANothing)
  | _ => (m, ANothing)
  end.

(** ** The manager, its tasks and the rest of the router. *)
Inductive mop : Type :=
| MPoll (now : N)             (** the manager reads one message *)
| MFeedback (h : N) (fired : bool)   (** the tunnel manager sent the reply, or dropped it *)
| MTimeout (h : N)            (** two minutes without feedback *)
| MRecv (h : N)               (** a running tunnel takes the next message sent to it *)
| MExpire (h : N)             (** the tunnel's 620 seconds are over *)
| MCollect (h : N)            (** the manager collects a finished task *)
| MShutdown                   (** graceful shutdown was requested *)
| MOther (o : op).            (** any other part of the router calls the routing table *)

(** What other parts of the router may do: they never use [try_add_tunnel]; they remove only ids
    they got from [insert_tunnel], once (pool/mod.rs:460, 696, 919, 992, 1425,
    zero_hop.rs:129, 134, 146); they do not have the receivers of transit tunnels, nor the
    manager's. *)
Definition other_may (m : manager) (o : op) : bool :=
  match o with
  | OAddTunnel _ _ => false
  | ORemoveTunnel id => existsb (N.eqb id) (tm_others m)
  | ORecvTunnel h | ODropTunnel h => negb (existsb (fun k => tk_rx k =? h) (tm_tasks m))
  | ORecvTransit | ODropTransit => false
  | _ => true
  end.

(** transit/mod.rs:846-880: collect a finished task *)
Definition collect (m : manager) (h : N) : manager :=
  match find_task h (tm_tasks m) with
  | Some k =>
      match tk_phase k with
      | Finished =>
          let m1 := m_table (m_tasks m (filter (fun x => negb (tk_rx x =? h)) (tm_tasks m)))
                            (remove_tunnel (tm_table m) (tk_id k)) in
          match tm_tasks m1 with
          | [] => if tm_shutting m1 then m_done m1 else m1
          | _ => m1
          end
      | _ => m
      end
  | None => m
  end.

Inductive mout : Type := ONone | OAnswer (msg : message) (a : answer_out) | OTable (u : out).

Definition mstep (m : manager) (o : mop) : manager * mout :=
  match o with
  | MPoll now =>
      if tm_done m then (m, ONone)
      else match recv_transit (tm_table m) with
           | (t, Some msg) =>
               let '(m1, a) := on_message now (m_table m t) msg in (m1, OAnswer msg a)
           | (_, None) => (m, ONone)
           end
  | MFeedback h fired => (resolve m h fired, ONone)
  | MTimeout h => (resolve m h false, ONone)
  | MRecv h =>
      match find_task h (tm_tasks m) with
      | Some k => match tk_phase k with
                  | Running => let '(t, u) := step (tm_table m) (ORecvTunnel h) in (m_table m t, OTable u)
                  | _ => (m, ONone)
                  end
      | None => (m, ONone)
      end
  | MExpire h =>
      match find_task h (tm_tasks m) with
      | Some k => match tk_phase k with Running => (finish m h, ONone) | _ => (m, ONone) end
      | None => (m, ONone)
      end
  | MCollect h => if tm_done m then (m, ONone) else (collect m h, ONone)
  | MShutdown =>
      if tm_done m then (m, ONone)
      else let m1 := m_shutting m in
           (match tm_tasks m1 with [] => m_done m1 | _ => m1 end, ONone)
  | MOther o =>
      if other_may m o then
        let '(t, u) := step (tm_table m) o in
        let m1 := m_table m t in
        (match o, u with
         | OInsertTunnel _ _, UTunnel id _ => m_others m1 (id :: tm_others m)
         | ORemoveTunnel id, _ => m_others m1 (filter (fun x => negb (x =? id)) (tm_others m))
         | _, _ => m1
         end, OTable u)
      else (m, ONone)
  end.

Fixpoint mrun (m : manager) (l : list mop) : manager * list (mop * mout) :=
  match l with
  | [] => (m, [])
  | o :: rest =>
      let '(m1, u) := mstep m o in
      let '(m2, us) := mrun m1 rest in (m2, (o, u) :: us)
  end.
End Transit.
