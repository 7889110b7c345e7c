(** Model of the I2NP message codecs: /repo/emissary-core/src/i2np/mod.rs, database/,
    delivery_status.rs, tunnel/gateway.rs, tunnel/build/.

    A [RouterId] is represented by the raw bytes it was made from (32 everywhere below); the
    Rust type keeps their base64 form (EncModel.v shows that form is a bijection).
    A [Duration] is a number of nanoseconds. *)
From Coq Require Import List NArith Bool Arith.
From Verif Require Import Bytes PrimModel.
Import ListNotations.
Open Scope N_scope.

(** i2np/mod.rs:66-108 [MessageType] *)
Inductive mtype : Type :=
| DatabaseStore | DatabaseLookup | DatabaseSearchReply | DeliveryStatus | Garlic | TunnelData
| TunnelGateway | Data | TunnelBuild | TunnelBuildReply | VariableTunnelBuild
| VariableTunnelBuildReply | ShortTunnelBuild | OutboundTunnelBuildReply.

(** i2np/mod.rs:112-129 [MessageType::as_u8] *)
Definition mtype_u8 (t : mtype) : N :=
  match t with
  | DatabaseStore => 1 | DatabaseLookup => 2 | DatabaseSearchReply => 3 | DeliveryStatus => 10
  | Garlic => 11 | TunnelData => 18 | TunnelGateway => 19 | Data => 20 | TunnelBuild => 21
  | TunnelBuildReply => 22 | VariableTunnelBuild => 23 | VariableTunnelBuildReply => 24
  | ShortTunnelBuild => 25 | OutboundTunnelBuildReply => 26
  end.

(** i2np/mod.rs:132-158 [MessageType::from_u8] *)
Definition mtype_of (b : N) : option mtype :=
  match b with
  | 1 => Some DatabaseStore | 2 => Some DatabaseLookup | 3 => Some DatabaseSearchReply
  | 10 => Some DeliveryStatus | 11 => Some Garlic | 18 => Some TunnelData
  | 19 => Some TunnelGateway | 20 => Some Data | 21 => Some TunnelBuild
  | 22 => Some TunnelBuildReply | 23 => Some VariableTunnelBuild
  | 24 => Some VariableTunnelBuildReply | 25 => Some ShortTunnelBuild
  | 26 => Some OutboundTunnelBuildReply
  | _ => None
  end.

(** i2np/mod.rs:162-172 [HopRole], 175-199 [as_u8], [from_u8] *)
Inductive role : Type := InboundGateway | OutboundEndpoint | Participant.
Definition role_u8 (r : role) : N :=
  match r with InboundGateway => 128 | OutboundEndpoint => 64 | Participant => 0 end.
Definition role_of (b : N) : option role :=
  match b with
  | 128 => Some InboundGateway | 64 => Some OutboundEndpoint | 0 => Some Participant
  | _ => None
  end.

(** Lift an [Option] into a parser ([ok_or_else(|| Err::Error(..))?]). *)
Definition opt {A} (o : option A) : parser A :=
  fun i => match o with Some a => Some (a, i) | None => None end.

(** core::time::Duration in nanoseconds: [as_millis], [as_secs], [from_millis], [from_secs]. *)
Definition ms_of (d : N) : N := d / 1000000.
Definition secs_of (d : N) : N := d / 1000000000.
Definition of_ms (n : N) : N := n * 1000000.
Definition of_secs (n : N) : N := n * 1000000000.

(** i2np/mod.rs:368-380 [Message] *)
Record message : Type := mkMsg {
  m_type : mtype;
  m_id : N;
  m_expiration : N;   (** nanoseconds since the epoch *)
  m_payload : bytes
}.

Section I2np.
Variable e : ext.   (** only [sha256] is used here *)

(** i2np/mod.rs:321-341 [MessageBuilder::build], standard form.  [expect]s cannot fail here
    because the fields are arguments. *)
Definition build_standard (m : message) : bytes :=
  be_bytes 1 (mtype_u8 (m_type m)) ++ be_bytes 4 (m_id m) ++
  be_bytes 8 (ms_of (m_expiration m)) ++ be_bytes 2 (len (m_payload m)) ++
  be_bytes 1 (nth 0 (sha256 e (m_payload m)) 0) ++ m_payload m.

(** i2np/mod.rs:342-360 short form; I2NP_SHORT_HEADER_LEN = 9 *)
Definition build_short (m : message) : bytes :=
  be_bytes 2 (len (m_payload m) + 9) ++ be_bytes 1 (mtype_u8 (m_type m)) ++
  be_bytes 4 (m_id m) ++ be_bytes 4 (secs_of (m_expiration m)) ++ m_payload m.
End I2np.

(** i2np/mod.rs:408-431 [Message::parse_frame_short] *)
Definition parse_short : parser message :=
  size <- be_uint 2 ;;
  t <- be_uint 1 ;;
  id <- be_uint 4 ;;
  x <- be_uint 4 ;;
  _ <- guard (negb (size <=? 9)) ;;
  p <- take (N.to_nat (size - 9)) ;;
  ty <- opt (mtype_of t) ;;
  ret (mkMsg ty id (of_secs x) p).

(** i2np/mod.rs:436-460 [Message::parse_frame_standard] *)
Definition parse_standard : parser message :=
  t <- be_uint 1 ;;
  id <- be_uint 4 ;;
  x <- be_uint 8 ;;
  size <- be_uint 2 ;;
  _ <- be_uint 1 ;;
  p <- take (N.to_nat size) ;;
  _ <- guard (match p with [] => false | _ => true end) ;;
  ty <- opt (mtype_of t) ;;
  ret (mkMsg ty id (of_ms x) p).

(** i2np/mod.rs:473-480 [Message::destination] *)
Inductive subsystem : Type := NetDb | Tunnel.
Definition msg_destination (m : message) : subsystem :=
  match m_type m with
  | DatabaseStore | DatabaseLookup | DatabaseSearchReply => NetDb
  | _ => Tunnel
  end.

(** i2np/mod.rs:503-510 [serialized_len_short], [serialized_len_long]; 513-515 [is_expired] *)
Definition len_short (m : message) : N := len (m_payload m) + 9 + 2.
Definition len_long (m : message) : N := len (m_payload m) + 16.
Definition msg_expired (now : N) (m : message) : bool := m_expiration m <? now.

(** ** database/lookup.rs *)
(** lookup.rs:39-54, 58-84.  All four values of the two bits are accepted. *)
Inductive lookup_type : Type := LNormal | LLeaseSet | LRouter | LExploration.
Definition lookup_of (b : N) : lookup_type :=
  match N.land (N.shiftr b 2) 3 with
  | 0 => LNormal | 1 => LLeaseSet | 2 => LRouter | _ => LExploration
  end.
Definition lookup_u8 (t : lookup_type) : N :=
  match t with LNormal => 0 | LLeaseSet => 4 | LRouter => 8 | LExploration => 12 end.

(** lookup.rs:88-103 *)
Inductive lookup_reply : Type :=
| LrTunnel (tunnel : N) (router : bytes)
| LrRouter (router : bytes).

(** lookup.rs:106-118; [ignore] is a [HashSet]: a duplicate-free list, first occurrence order *)
Record db_lookup : Type := mkLookup {
  lk_ignore : list bytes; lk_key : bytes; lk_type : lookup_type; lk_reply : lookup_reply }.

(** HashSet::insert *)
Definition hset_insert (s : list bytes) (x : bytes) : list bytes :=
  if existsb (beq x) s then s else s ++ [x].

(** lookup.rs:124-199 [parse_frame]; MAX_ROUTERS_TO_IGNORE = 512 *)
Definition parse_lookup : parser db_lookup :=
  key <- take 32 ;;
  router <- take 32 ;;
  flag <- be_uint 1 ;;
  reply <- (if N.testbit flag 0
            then (t <- be_uint 4 ;; ret (LrTunnel t router))
            else ret (LrRouter router)) ;;
  n <- be_uint 2 ;;
  _ <- guard (negb (512 <? n)) ;;
  routers <- many (N.to_nat n) (take 32) ;;
  _ <- guard (negb (N.testbit flag 1 || N.testbit flag 4)) ;;
  ret (mkLookup (fold_left hset_insert routers []) key (lookup_of flag) reply).

(** lookup.rs:246-278 [DatabaseLookupBuilder::build]; [ignored] is a [Vec]. *)
Definition ser_lookup (key : bytes) (t : lookup_type) (reply : lookup_reply)
    (ignored : list bytes) : bytes :=
  key ++
  match reply with
  | LrTunnel tunnel router => router ++ be_bytes 1 (N.lor (lookup_u8 t) 1) ++ be_bytes 4 tunnel
  | LrRouter router => router ++ be_bytes 1 (lookup_u8 t)
  end ++
  be_bytes 2 (N.of_nat (length ignored)) ++ concat ignored.

(** ** database/search_reply.rs:35-44, 50-81, 89-102 *)
Record search_reply : Type := mkSr { sr_from : bytes; sr_key : bytes; sr_routers : list bytes }.
Definition parse_search_reply : parser search_reply :=
  key <- take 32 ;;
  n <- be_uint 1 ;;
  routers <- many (N.to_nat n) (take 32) ;;
  from <- take 32 ;;
  ret (mkSr from key routers).
Definition ser_search_reply (s : search_reply) : bytes :=
  sr_key s ++ be_bytes 1 (N.of_nat (length (sr_routers s))) ++ concat (sr_routers s) ++ sr_from s.

(** ** delivery_status.rs:28-34, 40-51, 59-66; timestamp in nanoseconds *)
Record delivery_status : Type := mkDs { ds_id : N; ds_time : N }.
Definition parse_delivery_status : parser delivery_status :=
  id <- be_uint 4 ;; t <- be_uint 8 ;; ret (mkDs id (of_ms t)).
Definition ser_delivery_status (d : delivery_status) : bytes :=
  be_bytes 4 (ds_id d) ++ be_bytes 8 (ms_of (ds_time d)).

(** ** tunnel/gateway.rs:31-37, 43-55, 63-71 *)
Record tunnel_gateway : Type := mkTg { tg_id : N; tg_payload : bytes }.
Definition parse_gateway : parser tunnel_gateway :=
  id <- be_uint 4 ;; size <- be_uint 2 ;; p <- take (N.to_nat size) ;; ret (mkTg id p).
Definition ser_gateway (g : tunnel_gateway) : bytes :=
  be_bytes 4 (tg_id g) ++ be_bytes 2 (len (tg_payload g)) ++ tg_payload g.

(** ** database/store.rs *)
(** store.rs:39-54, 58-69, 72-80 *)
Inductive store_type : Type :=
| StRouterInfo | StLeaseSet | StLeaseSet2 | StEncrypted | StMeta.
Definition store_of (b : N) : option store_type :=
  if N.land b 1 =? 0 then Some StRouterInfo
  else match N.land (N.shiftr b 1) 7 with
       | 0 => Some StLeaseSet | 1 => Some StLeaseSet2 | 2 => Some StEncrypted | 3 => Some StMeta
       | _ => None
       end.
Definition store_u8 (t : store_type) : N :=
  match t with StRouterInfo => 0 | StLeaseSet => 1 | StLeaseSet2 => 3 | StEncrypted => 5
             | StMeta => 7 end.

(** store.rs:84-108 [ReplyType] *)
Inductive store_reply : Type :=
| SrTunnel (token tunnel : N) (router : bytes)
| SrRouter (token : N) (router : bytes)
| SrNone.

(** store.rs:149-161 *)
Inductive store_payload : Type :=
| SpRouterInfo (ri : router_info)
| SpLeaseSet2 (ls : lease_set).

(** store.rs:192-204 *)
Record db_store : Type := mkStore {
  st_key : bytes; st_payload : store_payload; st_reply : store_reply }.

Section Store.
Variable e : ext.
Variable gunzip : bytes -> option bytes.   (** [Runtime::gzip_decompress] *)

(** store.rs:222-250 *)
Definition parse_store_reply : parser store_reply :=
  token <- be_uint 4 ;;
  if token =? 0 then ret SrNone
  else (tunnel <- be_uint 4 ;;
        router <- take 32 ;;
        ret (if tunnel =? 0 then SrRouter token router else SrTunnel token tunnel router)).

(** store.rs:219-307 [DatabaseStore::parse_frame] (the store type byte is checked after the
    reply token is read; both failures are the same error). *)
Definition parse_store : parser db_store :=
  key <- take 32 ;;
  tb <- be_uint 1 ;;
  ty <- opt (store_of tb) ;;
  reply <- parse_store_reply ;;
  match ty with
  | StRouterInfo =>
      size <- be_uint 2 ;;
      z <- take (N.to_nat size) ;;
      data <- opt (gunzip z) ;;
      ri <- opt (option_map fst (parse_rinfo e data)) ;;
      ret (mkStore key (SpRouterInfo ri) reply)
  | StLeaseSet2 =>
      ls <- parse_ls e ;;
      ret (mkStore key (SpLeaseSet2 ls) reply)
  | _ => fail
  end.

(** store.rs:358-370 [DatabaseStoreKind]: already serialized payloads (the router info is
    already compressed). *)
Inductive store_kind : Type := KRouterInfo (z : bytes) | KLeaseSet2 (b : bytes).

(** store.rs:411-459 [DatabaseStoreBuilder::build] *)
Definition ser_store_reply (r : store_reply) : bytes :=
  match r with
  | SrNone => be_bytes 4 0
  | SrTunnel token tunnel router => be_bytes 4 token ++ be_bytes 4 tunnel ++ router
  | SrRouter token router => be_bytes 4 token ++ be_bytes 4 0 ++ router
  end.
Definition ser_store (key : bytes) (k : store_kind) (r : store_reply) : bytes :=
  key ++
  be_bytes 1 (store_u8 match k with KRouterInfo _ => StRouterInfo | KLeaseSet2 _ => StLeaseSet2 end)
  ++ ser_store_reply r ++
  match k with
  | KRouterInfo z => be_bytes 2 (len z) ++ z
  | KLeaseSet2 b => b
  end.

(** store.rs:315-338 [extraw_raw_data_payload]; [None] = an [expect] panics. *)
Definition extract_raw (router_info : bool) (i : bytes) : option bytes :=
  option_map fst
    ((_ <- take 32 ;;
      _ <- be_uint 1 ;;
      token <- be_uint 4 ;;
      _ <- (if token =? 0 then ret tt
            else (_ <- be_uint 4 ;; _ <- take 32 ;; ret tt)) ;;
      if router_info then (size <- be_uint 2 ;; take (N.to_nat size))
      else fun r => Some (r, r)) i).
End Store.

(** ** tunnel/build/short.rs *)
(** short.rs:158-173 *)
Record build_record : Type := mkBr {
  br_tunnel : N; br_next_tunnel : N; br_next_router : bytes; br_role : role; br_next_msg : N }.

(** short.rs:133-153 [TunnelBuildRecordBuilder::serialize]; [padding] is what the rng
    produced: [capacity - len - 16] bytes, that is [154 - 58] with the capacity of
    short.rs:134 taken to be exactly 170.  [time] and [expiration] are written, never read. *)
Definition ser_short_record (b : build_record) (time expiration : N) (padding : bytes) : bytes :=
  be_bytes 4 (br_tunnel b) ++ be_bytes 4 (br_next_tunnel b) ++ br_next_router b ++
  be_bytes 1 (role_u8 (br_role b)) ++ be_bytes 2 0 ++ be_bytes 1 0 ++
  be_bytes 4 time ++ be_bytes 4 expiration ++ be_bytes 4 (br_next_msg b) ++ be_bytes 2 0 ++ padding.

(** short.rs:179-203 [TunnelBuildRecord::parse_frame] *)
Definition parse_short_record : parser build_record :=
  tid <- be_uint 4 ;;
  ntid <- be_uint 4 ;;
  next <- take 32 ;;
  flags <- be_uint 1 ;;
  _ <- take 2 ;;
  _ <- be_uint 1 ;;
  _ <- be_uint 4 ;;
  _ <- be_uint 4 ;;
  nid <- be_uint 4 ;;
  _ <- parse_multi ;;
  _ <- (fun r => take (length r) r) ;;
  rl <- opt (role_of flags) ;;
  ret (mkBr tid ntid next rl nid).

(** short.rs:41-53 [TunnelBuildReplyBuilder::from_records] *)
Definition ser_records (l : list bytes) : bytes := be_bytes 1 (N.of_nat (length l)) ++ concat l.

(** tunnel/build/variable.rs:33-56, 62-91.  The padding is consumed by
    [take(input.len() - rest.len())]: as many bytes as were consumed before. *)
Record var_record : Type := mkVr {
  vr_tunnel : N; vr_next_tunnel : N; vr_next_router : bytes; vr_layer : bytes; vr_iv : bytes;
  vr_role : role; vr_next_msg : N }.
Definition parse_var_record : parser var_record := fun i =>
  (tid <- be_uint 4 ;;
   ntid <- be_uint 4 ;;
   next <- take 32 ;;
   layer <- take 32 ;;
   iv <- take 32 ;;
   _ <- take 32 ;;
   _ <- take 16 ;;
   flags <- be_uint 1 ;;
   _ <- take 3 ;;
   _ <- be_uint 4 ;;
   _ <- be_uint 4 ;;
   nid <- be_uint 4 ;;
   _ <- parse_multi ;;
   _ <- (fun r => take (length i - length r) r) ;;
   rl <- opt (role_of flags) ;;
   ret (mkVr tid ntid next layer iv rl nid)) i.
