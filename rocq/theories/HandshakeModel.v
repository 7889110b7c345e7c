(** Model of the NTCP2 handshake: /repo/emissary-core/src/transport/ntcp2/session/initiator.rs,
    responder.rs, mod.rs, transport/ntcp2/options.rs, transport/ntcp2/listener.rs,
    crypto/noise.rs and util/mod.rs.

    Random values (ephemeral keys, padding) and the clock are arguments.  Zeroizing and logging
    are left out.  The 10 second read timeout (util/mod.rs:55) and the cancellation of the
    future are left out: they end the handshake without a session. *)
From Coq Require Import String List NArith Bool Arith Ascii.
From Verif Require Import Bytes PrimModel I2npModel EncModel TunnelModel NoiseModel Ntcp2Model.
Import ListNotations.
Open Scope N_scope.
Open Scope parser_scope.

(** The primitives: those of NoiseModel.v, AES-256-CBC and SipHash-2-4. *)
Record hops : Type := mkHops {
  h_ops : ops;
  h_aes : aes;
  h_siphash : N -> N -> bytes -> N
}.

(** What a call returns: a value, an [Err], or a panic. *)
Inductive res (A : Type) : Type := Ok (a : A) | Err | Panic.
Arguments Ok {A} _. Arguments Err {A}. Arguments Panic {A}.
Definition rbind {A B} (x : res A) (f : A -> res B) : res B :=
  match x with Ok a => f a | Err => Err | Panic => Panic end.
Definition or_err {A} (x : option A) : res A := match x with Some a => Ok a | None => Err end.
Definition or_panic {A} (x : option A) : res A := match x with Some a => Ok a | None => Panic end.

Section WithOps.
Variable c : hops.

(** The primitives in the form Ntcp2Model.v takes them: the AEAD is given the 12 bytes of the
    nonce, of which the last eight hold the counter (chachapoly.rs:62-63). *)
Definition session_crypt : ncrypt := {|
  siphash := h_siphash c;
  hmac := x_hmac (h_ops c);
  seal := fun k nb ad p => x_seal (h_ops c) k (le_val (skipn 4 nb)) ad p;
  open := fun k nb ad b => x_open (h_ops c) k (le_val (skipn 4 nb)) ad b
|}.

(** ** crypto/noise.rs *)
(** noise.rs:25-31 [NoiseContext] *)
Record nctx : Type := mkNctx { n_ck : bytes; n_h : bytes }.
(** noise.rs:60-63 [mix_hash] *)
Definition mix_hash (n : nctx) (b : bytes) : nctx :=
  mkNctx (n_ck n) (x_sha (h_ops c) (n_h n ++ b)).
(** noise.rs:66-80 [mix_key] *)
Definition mix_key (n : nctx) (sk pk : bytes) : nctx * bytes :=
  let temp := x_hmac (h_ops c) (n_ck n) (x_dh (h_ops c) sk pk) in
  let ck := x_hmac (h_ops c) temp [1] in
  (mkNctx ck (n_h n), x_hmac (h_ops c) temp (ck ++ [2])).

(** crypto/mod.rs:96-100 [StaticPublicKey::from_bytes] *)
Definition public_from (b : bytes) : option bytes :=
  if Nat.eqb (length b) 32 then Some b else None.

(** [&b[from..to]], which panics when the range is not inside [b] *)
Definition slice (b : bytes) (from to : nat) : option bytes :=
  if (from <=? to)%nat && (to <=? length b)%nat then Some (firstn (to - from) (skipn from b)) else None.

(** ** transport/ntcp2/options.rs *)
(** options.rs:34-50 [InitiatorOptions] *)
Record ioptions : Type := mkIoptions {
  io_network : N; io_version : N; io_padding : N; io_m3p2 : N; io_time : N }.
(** options.rs:56-80 *)
Definition parse_ioptions (b : bytes) : option ioptions :=
  match (n <- be_uint 1 ;; v <- be_uint 1 ;; p <- be_uint 2 ;; m <- be_uint 2 ;;
         _ <- be_uint 2 ;; t <- be_uint 4 ;; _ <- be_uint 4 ;;
         ret (mkIoptions n v p m t)) b with
  | Some (o, _) => Some o
  | None => None
  end.
(** options.rs:83-95 *)
Definition ser_ioptions (o : ioptions) : bytes :=
  be_bytes 1 (io_network o) ++ be_bytes 1 (io_version o) ++ be_bytes 2 (io_padding o) ++
  be_bytes 2 (io_m3p2 o) ++ be_bytes 2 0 ++ be_bytes 4 (io_time o) ++ be_bytes 4 0.
(** options.rs:99-106 [ResponderOptions] *)
Record roptions : Type := mkRoptions { ro_padding : N; ro_time : N }.
(** options.rs:112-131 *)
Definition parse_roptions (b : bytes) : option roptions :=
  match (_ <- be_uint 2 ;; p <- be_uint 2 ;; _ <- be_uint 4 ;; t <- be_uint 4 ;;
         _ <- be_uint 4 ;; ret (mkRoptions p t)) b with
  | Some (o, _) => Some o
  | None => None
  end.
(** options.rs:134-144 *)
Definition ser_roptions (o : roptions) : bytes :=
  be_bytes 2 0 ++ be_bytes 2 (ro_padding o) ++ be_bytes 4 0 ++ be_bytes 4 (ro_time o) ++ be_bytes 4 0.

(** ** session/mod.rs *)
(** mod.rs:76-96 [KeyContext].  [kc_hash] is not in the code: it is the Noise handshake hash the
    length keys were derived from, kept to speak about it. *)
Record key_context : Type := mkKc {
  kc_send : bytes; kc_recv : bytes; kc_sip : sip; kc_hash : bytes }.

(** mod.rs:63, 135-161 [SessionManager::new] *)
Definition hs_protocol : bytes := ascii_bytes "Noise_XKaesobfse+hs2+hs3_25519_ChaChaPoly_SHA256".
Definition hs_ck : bytes := x_sha (h_ops c) hs_protocol.
Definition hs_outbound : bytes := x_sha (h_ops c) hs_ck.
Definition hs_inbound (local_priv : bytes) : bytes :=
  x_sha (h_ops c) (hs_outbound ++ x_pub (h_ops c) local_priv).

(** initiator.rs:321-326 and responder.rs:375-380, up to the choice of direction: the temporary
    key, the key of the initiator and the key of the responder. *)
Definition data_keys (n : nctx) : bytes * bytes * bytes :=
  let temp := x_hmac (h_ops c) (n_ck n) [] in
  let a := x_hmac (h_ops c) temp [1] in
  (temp, a, x_hmac (h_ops c) temp (a ++ [2])).

(** ** session/initiator.rs *)
(** initiator.rs:50-97 [InitiatorState] *)
Record irequested : Type := mkIreq {
  iq_eph : bytes; iq_iv : bytes; iq_info : bytes; iq_static : bytes; iq_ctx : nctx; iq_hash : bytes }.
Record icreated : Type := mkIcre {
  ic_info : bytes; ic_static : bytes; ic_ctx : nctx; ic_key : bytes; ic_remote : bytes }.
Inductive istate : Type := IRequested (s : irequested) | ICreated (s : icreated) | IPoisoned.

(** What the dialing side is given and draws at random.  [dl_padding] is 32 random bytes. *)
Record dialer : Type := mkDialer {
  dl_info : bytes;         (** own serialized router info *)
  dl_static : bytes;       (** own static private key *)
  dl_remote : bytes;       (** static public key in the remote router's info *)
  dl_hash : bytes;         (** hash of the remote router's identity *)
  dl_iv : bytes;           (** IV in the remote router's info *)
  dl_net : N;
  dl_eph : bytes;
  dl_padding : bytes;
  dl_now : N               (** seconds *)
}.

(** The IV for the next use of a CBC cipher is its last ciphertext block (aes/cbc.rs:126-131). *)
Definition cbc_iv (ciphertext : bytes) : bytes := skipn 16 ciphertext.

(** initiator.rs:130-201 [Initiator::new].  [local_info.len() as u16 + 20u16] panics on
    overflow in a debug build (173). *)
Definition initiator_new (n : nctx) (d : dialer) : res (istate * bytes) :=
  let pk := x_pub (h_ops c) (dl_eph d) in
  let n := mix_hash (mix_hash n (dl_remote d)) pk in
  let '(n, key) := mix_key n (dl_eph d) (dl_remote d) in
  let x := cbc_enc (h_aes c) (dl_hash d) (dl_iv d) pk in
  let l := N.of_nat (length (dl_info d)) mod 65536 in
  if 65536 <=? l + 20 then Panic
  else
    let options := x_seal (h_ops c) key 0 (n_h n)
      (ser_ioptions (mkIoptions (dl_net d) 2 32 (l + 20) (dl_now d mod 2 ^ 32))) in
    let out := x ++ options ++ dl_padding d in
    rbind (or_panic (slice out 32 64)) (fun a =>
    rbind (or_panic (slice out 64 96)) (fun b =>
    let n := mix_hash (mix_hash n a) b in
    Ok (IRequested (mkIreq (dl_eph d) (cbc_iv x) (dl_info d) (dl_static d) n (dl_hash d)), out))).

(** initiator.rs:208-262 [register_session_created]: the length of the padding to read *)
Definition register_created (s : istate) (b : bytes) : res (istate * nat) :=
  match s with
  | IRequested q =>
      rbind (or_panic (slice b 0 32)) (fun yc =>
      let y := cbc_dec (h_aes c) (iq_hash q) (iq_iv q) yc in
      let n := mix_hash (iq_ctx q) y in
      rbind (or_err (public_from y)) (fun remote =>
      let '(n, key) := mix_key n (iq_eph q) remote in
      rbind (or_panic (slice b 32 64)) (fun oc =>
      rbind (or_err (x_open (h_ops c) key 0 (n_h n) oc)) (fun options =>
      rbind (or_err (parse_roptions options)) (fun o =>
      Ok (ICreated (mkIcre (iq_info q) (iq_static q) (mix_hash n oc) key remote),
          N.to_nat (ro_padding o)))))))
  | _ => Err
  end.

(** initiator.rs:272-334 [finalize] *)
Definition initiator_finalize (s : istate) (padding : bytes) : res (key_context * bytes) :=
  match s with
  | ICreated q =>
      let n := mix_hash (ic_ctx q) padding in
      let sp := x_seal (h_ops c) (ic_key q) 1 (n_h n) (x_pub (h_ops c) (ic_static q)) in
      let n := mix_hash n sp in
      let '(n, k) := mix_key n (ic_static q) (ic_remote q) in
      rbind (or_panic (new_router_info (ic_info q))) (fun block =>
      let m := x_seal (h_ops c) k 0 (n_h n) block in
      let n := mix_hash n m in
      let '(temp, send, recv) := data_keys n in
      Ok (mkKc send recv (sip_initiator session_crypt temp (n_h n)) (n_h n), sp ++ m))
  | _ => Err
  end.

(** ** session/responder.rs *)
(** responder.rs:51-86 [ResponderState] *)
Record rrequested : Type := mkRreq {
  rq_eph : bytes; rq_iv : bytes; rq_hash : bytes; rq_m3p2 : nat; rq_ctx : nctx }.
Record rcreated : Type := mkRcre { rc_eph : bytes; rc_key : bytes; rc_ctx : nctx }.
Inductive rstate : Type := RRequested (s : rrequested) | RCreated (s : rcreated) | RPoisoned.

(** responder.rs:121-198 [Responder::new]: the length of the padding to read.  The timestamp of
    the options is not looked at. *)
Definition responder_new (n : nctx) (hash static iv message : bytes) (net : N) : res (rstate * nat) :=
  rbind (or_panic (slice message 0 32)) (fun xc =>
  let x := cbc_dec (h_aes c) hash iv xc in
  let n := mix_hash n x in
  rbind (or_err (public_from x)) (fun eph =>
  let '(n, key) := mix_key n static eph in
  rbind (or_err (x_open (h_ops c) key 0 (n_h n) (skipn 32 message))) (fun options =>
  rbind (or_panic (slice message 32 64)) (fun oc =>
  let n := mix_hash n oc in
  rbind (or_err (parse_ioptions options)) (fun o =>
  if negb (io_network o =? net) then Err
  else if negb (io_version o =? 2) then Err
  else Ok (RRequested (mkRreq eph (cbc_iv xc) hash (N.to_nat (io_m3p2 o)) n),
           N.to_nat (io_padding o))))))).

(** What the accepting side is given and draws at random.  [ac_padding] is 32 random bytes. *)
Record acceptor : Type := mkAcceptor {
  ac_static : bytes;       (** own static private key *)
  ac_hash : bytes;         (** hash of the own router identity *)
  ac_iv : bytes;           (** own IV *)
  ac_net : N;
  ac_eph : bytes;
  ac_padding : bytes;
  ac_now : N               (** seconds *)
}.

(** responder.rs:211-281 [create_session]: the message, and the length of the message to read *)
Definition create_session (s : rstate) (a : acceptor) (padding : bytes) : res (rstate * bytes * nat) :=
  match s with
  | RRequested q =>
      let n := mix_hash (rq_ctx q) padding in
      let pk := x_pub (h_ops c) (ac_eph a) in
      let n := mix_hash n pk in
      let '(n, key) := mix_key n (ac_eph a) (rq_eph q) in
      let y := cbc_enc (h_aes c) (rq_hash q) (rq_iv q) pk in
      let options := x_seal (h_ops c) key 0 (n_h n) (ser_roptions (mkRoptions 32 (ac_now a mod 2 ^ 32))) in
      let message := y ++ options ++ ac_padding a in
      rbind (or_panic (slice message 32 64)) (fun oc =>
      rbind (or_panic (slice message 64 (length message))) (fun pc =>
      let n := mix_hash (mix_hash n oc) pc in
      Ok (RCreated (mkRcre (ac_eph a) key n), message, (48 + rq_m3p2 q)%nat)))
  | _ => Err
  end.

(** message.rs:360-364 [MessageBlock::parse]: bytes after the block are ignored *)
Definition parse_one_block (b : bytes) : option nblock :=
  match parse_nblock b with Some (x, _) => Some x | None => None end.
(** router_info.rs:299-302 [RouterInfo::parse] *)
Definition parse_info (b : bytes) : option router_info :=
  match parse_rinfo (x_ext (h_ops c)) b with Some (r, _) => Some r | None => None end.

(** responder.rs:293-383 [finalize].  The initiator's static key is used for the key exchange
    and then dropped. *)
Definition responder_finalize (s : rstate) (message : bytes) : res (key_context * router_info) :=
  match s with
  | RCreated q =>
      rbind (or_panic (slice message 0 48)) (fun sc =>
      rbind (or_err (x_open (h_ops c) (rc_key q) 1 (n_h (rc_ctx q)) sc)) (fun sp =>
      let n := mix_hash (rc_ctx q) sc in
      rbind (or_panic (slice sp 0 32)) (fun sp32 =>
      rbind (or_err (public_from sp32)) (fun remote =>
      let '(n, k) := mix_key n (rc_eph q) remote in
      let m := skipn 48 message in
      rbind (or_err (x_open (h_ops c) k 0 (n_h n) m)) (fun block =>
      let n := mix_hash n m in
      rbind (match parse_one_block block with
             | Some (BRouterInfo _ info) => or_err (parse_info info)
             | _ => Err
             end) (fun router =>
      let '(temp, a, b) := data_keys n in
      Ok (mkKc b a (sip_responder session_crypt temp (n_h n)) (n_h n), router)))))))
  | _ => Err
  end.

(** ** session/mod.rs: the two sides over a connection *)
(** util/mod.rs:37-97 [read_exact] on a connection that has delivered [i]: the bytes read and
    those left, or [None] while there are not enough. *)
Definition read_exact (n : nat) (i : bytes) : option (bytes * bytes) := take n i.

(** State of a handshake: waiting for more bytes, over without a session, a session together
    with the bytes already received for it, or a panic. *)
Inductive hs (A : Type) : Type := HsWait | HsFail | HsPanic | HsDone (a : A) (rest : bytes).
Arguments HsWait {A}. Arguments HsFail {A}. Arguments HsPanic {A}. Arguments HsDone {A} _ _.
Definition of_res {A B} (x : res A) (f : A -> bytes * hs B) : bytes * hs B :=
  match x with Ok a => f a | Err => ([], HsFail) | Panic => ([], HsPanic) end.
Definition on_read {B} (n : nat) (i : bytes) (f : bytes -> bytes -> bytes * hs B) : bytes * hs B :=
  match read_exact n i with Some (b, r) => f b r | None => ([], HsWait) end.
Definition write {B} (m : bytes) (x : bytes * hs B) : bytes * hs B := (m ++ fst x, snd x).

(** mod.rs:227-275 [create_session_inner] from the established TCP connection on: the bytes
    written and the outcome, when the remote has sent the bytes [incoming]. *)
Definition dial (d : dialer) (incoming : bytes) : bytes * hs key_context :=
  of_res (initiator_new (mkNctx hs_ck hs_outbound) d) (fun '(s, m1) =>
  write m1 (on_read 64 incoming (fun reply rest =>
  of_res (register_created s reply) (fun '(s, pad) =>
  on_read pad rest (fun padding rest =>
  of_res (initiator_finalize s padding) (fun '(kc, m3) =>
  write m3 ([], HsDone kc rest))))))).

(** mod.rs:328-405 [accept_session_inner], without [profile_storage.add_router] *)
Definition accept (a : acceptor) (incoming : bytes) : bytes * hs (key_context * router_info) :=
  on_read 64 incoming (fun message rest =>
  of_res (responder_new (mkNctx hs_ck (hs_inbound (ac_static a))) (ac_hash a) (ac_static a) (ac_iv a) message (ac_net a))
    (fun '(s, pad) =>
  on_read pad rest (fun padding rest =>
  of_res (create_session s a padding) (fun '(s, m2, l) =>
  write m2 (on_read l rest (fun message rest =>
  of_res (responder_finalize s message) (fun '(kc, router) =>
  if negb (rf_net_id router =? ac_net a) then ([], HsFail)
  else ([], HsDone (kc, router) rest)))))))).

End WithOps.
Arguments HsWait {A}. Arguments HsFail {A}. Arguments HsPanic {A}. Arguments HsDone {A} _ _.

(** ** Which addresses are connected to *)
Definition s_key_s : str := [115].
Definition s_key_i : str := [105].
(** router_info.rs:376-381 [ntcp2_static_key] *)
Definition ntcp2_static_key (r : router_info) : option bytes :=
  match rf_ntcp2 r with
  | None => None
  | Some a => match mget s_key_s (ra_options a) with
              | None => None
              | Some v => match base64_decode v with Some b => public_from b | None => None end
              end
  end.
(** router_info.rs:384-389 [ntcp2_iv] *)
Definition ntcp2_iv (r : router_info) : option bytes :=
  match rf_ntcp2 r with
  | None => None
  | Some a => match mget s_key_i (ra_options a) with
              | None => None
              | Some v => match base64_decode v with
                          | Some b => if Nat.eqb (length b) 16 then Some b else None
                          | None => None
                          end
              end
  end.

(** An IPv4 address as a number, as [Ipv4Addr]'s comparison orders them. *)
Definition v4 (a b c d : N) : N := ((a * 256 + b) * 256 + c) * 256 + d.
(** core::net::Ipv4Addr [is_private], [is_loopback], [is_link_local], [is_unspecified],
    [is_documentation], [is_broadcast] *)
Definition in_range (lo hi x : N) : bool := (lo <=? x) && (x <=? hi).
Definition is_private (x : N) : bool :=
  (x / 2 ^ 24 =? 10) || ((x / 2 ^ 24 =? 172) && (16 <=? x / 2 ^ 16 mod 256) && (x / 2 ^ 16 mod 256 <=? 31)) ||
  ((x / 2 ^ 24 =? 192) && (x / 2 ^ 16 mod 256 =? 168)).
Definition is_loopback (x : N) : bool := x / 2 ^ 24 =? 127.
Definition is_link_local (x : N) : bool := (x / 2 ^ 24 =? 169) && (x / 2 ^ 16 mod 256 =? 254).
Definition is_unspecified (x : N) : bool := x =? 0.
Definition is_documentation (x : N) : bool :=
  (x / 2 ^ 8 =? v4 0 192 0 2) || (x / 2 ^ 8 =? v4 0 198 51 100) || (x / 2 ^ 8 =? v4 0 203 0 113).
Definition is_broadcast (x : N) : bool := x =? v4 255 255 255 255.
(** util/mod.rs:189-200 [is_global] *)
Definition is_global (x : N) : bool :=
  negb (in_range (v4 240 0 0 0) (v4 255 255 255 254) x
        || is_private x
        || in_range (v4 100 64 0 0) (v4 100 127 255 255) x
        || is_loopback x
        || is_link_local x
        || is_unspecified x
        || is_documentation x
        || in_range (v4 198 18 0 0) (v4 198 19 255 255) x
        || is_broadcast x).
(** [IpAddr], rendered as four or sixteen bytes *)
Definition as_v4 (host : bytes) : option N :=
  match host with [a; b; c; d] => Some (v4 a b c d) | _ => None end.

(** mod.rs:176-210: the static key, the IV and the socket address to connect to *)
Definition dial_target (allow_local : bool) (r : router_info) : res (bytes * bytes * (bytes * N)) :=
  rbind (or_err (ntcp2_static_key r)) (fun key =>
  rbind (or_err (ntcp2_iv r)) (fun iv =>
  rbind (or_panic (rf_ntcp2 r)) (fun a =>
  rbind (or_err (ra_socket a)) (fun s =>
  match as_v4 (fst s) with
  | Some x => if negb (is_global x) && negb allow_local then Err else Ok (key, iv, s)
  | None => Ok (key, iv, s)
  end)))).

(** listener.rs:62-85: whether a connection accepted from this address is taken up *)
Definition listener_takes (allow_local : bool) (host : bytes) : bool :=
  match as_v4 host with
  | Some x => is_global x || allow_local
  | None => true
  end.
