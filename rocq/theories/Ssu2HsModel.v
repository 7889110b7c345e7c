(** Model of the SSU2 handshake: /repo/emissary-core/src/transport/ssu2/socket.rs,
    session/pending/inbound.rs, session/pending/outbound.rs, session/pending/mod.rs and the
    handshake part of message.rs.

    Random values and the clock are arguments.  Zeroizing and logging are left out.
    [debug_assert!] is taken to be compiled out.  A pending session runs as a task behind a
    channel of 256 datagrams; here it handles a datagram as soon as the socket passes it on, and
    a datagram that does not fit into the channel counts as lost.  [u32::from_be] (message.rs) is
    a byte swap, as on every little-endian machine. *)
From Coq Require Import String List NArith Bool Arith Ascii.
From Verif Require Import Bytes NMap PrimModel I2npModel EncModel NoiseModel Ntcp2Model Ssu2Model HandshakeModel.
Import ListNotations.
Open Scope N_scope.

(** A socket address: the octets of the host, and the port. *)
Definition addr : Type := (bytes * N)%type.
Definition addr_eqb (a b : addr) : bool := beq (fst a) (fst b) && (snd a =? snd b).

(** router_info.rs:360-373 [ssu2_intro_key], [ssu2_static_key] *)
Definition ssu2_key (name : str) (r : router_info) : option bytes :=
  match rf_ssu2 r with
  | None => None
  | Some a => match mget name (ra_options a) with
              | None => None
              | Some v => match base64_decode v with Some b => public_from b | None => None end
              end
  end.
Definition ssu2_intro_key : router_info -> option bytes := ssu2_key s_key_i.
Definition ssu2_static_key : router_info -> option bytes := ssu2_key s_key_s.

Section WithOps.
Variable c : hops.
(** ChaCha20 key stream (chachapoly.rs [ChaCha::with_iv]): key, IV, length. *)
Variable ks : bytes -> bytes -> nat -> bytes.

(** ** message.rs: headers *)
(** message.rs:1599-1662 [HeaderKind] *)
Inductive header_kind : Type :=
| HSessionRequest (eph : bytes) (net pkt_num token : N)
| HSessionCreated (eph : bytes) (net pkt_num : N)
| HSessionConfirmed (pkt_num : N)
| HData (pkt_num : N)
| HRetry (net pkt_num token : N)
| HTokenRequest (net pkt_num src : N).

(** message.rs:1743-1751 [apply_mask] *)
Definition mask_at (from : nat) (m b : bytes) : bytes := firstn from b ++ xor8 m (skipn from b).
Definition zero_iv : bytes := repeat 0 12.
(** [decrypt_ref(&mut pkt[16..to])]; the slice panics if the packet is shorter. *)
Definition unmask_tail (key : bytes) (to : nat) (pkt : bytes) : res bytes :=
  if (length pkt <? to)%nat then Panic else Ok (mask_at 16 (ks key zero_iv (to - 16)) pkt).

(** message.rs:1718-1741 [HeaderReader]; [new] refuses packets below 24 bytes. *)
Record reader : Type := mkReader { hr_key : bytes; hr_iv1 : bytes; hr_iv2 : bytes; hr_pkt : bytes }.
Definition reader_new (key pkt : bytes) : res reader :=
  if (length pkt <? 24)%nat then Err
  else Ok (mkReader key (firstn 12 (skipn (length pkt - 24) pkt)) (skipn (length pkt - 12) pkt) pkt).
(** message.rs:1754-1758 [dst_id] *)
Definition reader_dst (r : reader) : N * reader :=
  let p := mask_at 0 (ks (hr_key r) (hr_iv1 r) 8) (hr_pkt r) in
  (le_val (firstn 8 p), mkReader (hr_key r) (hr_iv1 r) (hr_iv2 r) p).
(** message.rs:1761-1767 [reset_key] *)
Definition reader_reset (key : bytes) (r : reader) : reader :=
  let p := mask_at 0 (ks (hr_key r) (hr_iv1 r) 8) (hr_pkt r) in
  mkReader key (hr_iv1 r) (hr_iv2 r) (mask_at 8 (ks (hr_key r) (hr_iv2 r) 8) p).
Definition byte_at (n : nat) (b : bytes) : N := nth n b 0.
Definition part (from n : nat) (b : bytes) : bytes := firstn n (skipn from b).
(** message.rs:1772-1883 [parse]: what kind of message it is, if it is one, and the packet with
    the header in the clear.  The slices of the key exchange messages panic on short packets. *)
Definition reader_parse (key : bytes) (r : reader) : res (option header_kind * reader) :=
  let pkt := mask_at 8 (ks key (hr_iv2 r) 8) (hr_pkt r) in
  let back p := mkReader (hr_key r) (hr_iv1 r) (hr_iv2 r) p in
  let ty := byte_at 12 pkt in
  let num := be_val (part 8 4 pkt) in
  let net := byte_at 14 pkt in
  let versioned (to : nat) (k : bytes -> header_kind) :=
    if negb (byte_at 13 pkt =? 2) then Ok (None, back pkt)
    else rbind (unmask_tail key to pkt) (fun p => Ok (Some (k p), back p)) in
  if ty =? 0 then versioned 64%nat (fun p => HSessionRequest (part 32 32 p) net num (le_val (part 24 8 p)))
  else if ty =? 1 then versioned 64%nat (fun p => HSessionCreated (part 32 32 p) net num)
  else if ty =? 2 then Ok (Some (HSessionConfirmed num), back pkt)
  else if ty =? 6 then Ok (Some (HData num), back pkt)
  else if ty =? 9 then versioned 32%nat (fun p => HRetry net num (le_val (part 24 8 p)))
  else if ty =? 10 then versioned 32%nat (fun p => HTokenRequest net num (le_val (part 16 8 p)))
  else Ok (None, back pkt).
(** Sessions: [HeaderReader::new(..)?.parse(key).ok_or(..)?] *)
Definition session_header (key1 key2 pkt : bytes) : res (header_kind * bytes) :=
  rbind (reader_new key1 pkt) (fun r =>
  rbind (reader_parse key2 r) (fun '(k, r) =>
  match k with Some k => Ok (k, hr_pkt r) | None => Err end)).

(** ** message.rs: messages *)
(** message.rs:826-848 [Block::serialize] *)
Definition date_block (secs : N) : bytes := [0] ++ be_bytes 2 4 ++ be_bytes 4 (secs mod 2 ^ 32).
Definition address_block (a : addr) : bytes :=
  [13] ++ be_bytes 2 (2 + len (fst a)) ++ be_bytes 2 (snd a) ++ fst a.
Definition padding_block (p : bytes) : bytes := [254] ++ be_bytes 2 (len p) ++ p.
(** message.rs:1574-1583 *)
Definition info_block (info : bytes) : bytes := [2] ++ be_bytes 2 (2 + len info) ++ [0; 1] ++ info.

(** Long header: message.rs:1246-1259, 1420-1433, 1938-1951, 2126-2139.  Version and network id
    are both 2. *)
Definition long_header (dst num ty src : N) (token : bytes) : bytes :=
  le_bytes 8 dst ++ be_bytes 4 num ++ [ty; 2; 2; 0] ++ le_bytes 8 src ++ token.
(** message.rs:1280-1296 and the like: masks for the first 16 bytes, taken from the last 24 bytes
    of what follows (a slice that panics if there are fewer). *)
Definition mask_first (key1 key2 header sealed : bytes) : res bytes :=
  if (length sealed <? 24)%nat then Panic
  else
    let iv1 := firstn 12 (skipn (length sealed - 24) sealed) in
    let iv2 := skipn (length sealed - 12) sealed in
    Ok (mask_at 8 (ks key2 iv2 8) (mask_at 0 (ks key1 iv1 8) header)).
(** The rest of a long header, and an ephemeral key behind it, is masked with a zero IV:
    message.rs:1299, 1356, 2057, 2002. *)
Definition mask_rest (key header : bytes) : bytes :=
  mask_at 16 (ks key zero_iv (length header - 16)) header.

(** What a message builder draws at random, and the time.  [r_pad] has 1 to 128 bytes (8 to 135
    for a token request). *)
Record rnd : Type := mkRnd { r_num : N; r_pad : bytes; r_eph : bytes; r_token : N; r_secs : N }.

Definition seal_with := x_seal (h_ops c).
Definition open_with := x_open (h_ops c).
Definition hmac_of := x_hmac (h_ops c).

(** message.rs:1233-1302 [TokenRequestBuilder::build] *)
Definition token_request (intro : bytes) (dst src : N) (r : rnd) : res bytes :=
  let header := long_header dst (r_num r) 10 src (be_bytes 8 0) in
  let payload := seal_with intro (r_num r) header (date_block (r_secs r) ++ padding_block (r_pad r)) in
  rbind (mask_first intro intro header payload) (fun h => Ok (mask_rest intro h ++ payload)).
(** message.rs:1937-2012 [RetryBuilder::build].  The token is written big-endian; everywhere else
    it is little-endian. *)
Definition retry (intro : bytes) (dst src token : N) (a : addr) (r : rnd) : res bytes :=
  let header := long_header dst (r_num r) 9 src (be_bytes 8 token) in
  let payload := seal_with intro (r_num r) header
    (date_block (r_secs r) ++ address_block a ++ padding_block (r_pad r)) in
  rbind (mask_first intro intro header payload) (fun h => Ok (mask_rest intro h ++ payload)).

(** ** session/pending/mod.rs *)
(** mod.rs:110-237 [PacketRetransmitter]: the packet, the delays not used yet and when the timer
    fires ([None]: never).  Milliseconds. *)
Record rtx : Type := mkRtx { rt_pkt : bytes; rt_left : list N; rt_at : option N }.
(** mod.rs:127-134 [inactive] *)
Definition rtx_inactive : rtx := mkRtx [] [] None.
(** mod.rs:143-150 [token_request] *)
Definition rtx_token_request (pkt : bytes) (now : N) : rtx := mkRtx pkt [6000; 6000] (Some (now + 3000)).
(** mod.rs:160-171 [session_request], 205-216 [session_confirmed] *)
Definition rtx_session_request (pkt : bytes) (now : N) : rtx := mkRtx pkt [2500; 5000; 6250] (Some (now + 1250)).
Definition rtx_session_confirmed : bytes -> N -> rtx := rtx_session_request.
(** mod.rs:181-192 [session_created] *)
Definition rtx_session_created (pkt : bytes) (now : N) : rtx := mkRtx pkt [2000; 4000; 5000] (Some (now + 1000)).
(** mod.rs:219-236 [poll] *)
Inductive rtx_event : Type := RtxWait | RtxSend (pkt : bytes) | RtxTimeout.
Definition rtx_poll (r : rtx) (now : N) : rtx * rtx_event :=
  match rt_at r with
  | None => (r, RtxWait)
  | Some t =>
      if now <? t then (r, RtxWait)
      else match rt_left r with
           | [] => (r, RtxTimeout)
           | d :: rest => (mkRtx (rt_pkt r) rest (Some (now + d)), RtxSend (rt_pkt r))
           end
  end.

(** session/active/mod.rs:56-83 [Ssu2SessionContext]; [sc_send] and [sc_recv] hold the data key
    and the header key. *)
Record sctx : Type := mkSctx {
  sc_addr : addr; sc_dst : N; sc_intro : bytes; sc_recv : bytes * bytes; sc_send : bytes * bytes;
  sc_router : bytes }.
(** mod.rs:36-84 [PendingSsu2SessionStatus] *)
Inductive status : Type :=
| NewInbound (x : sctx) (pkt : bytes) (target : addr)
| NewOutbound (x : sctx)
| SessionTerminated (router : option bytes).

(** inbound.rs:478-498, outbound.rs:471-497: the keys of one direction *)
Definition data_label : bytes := ascii_bytes "HKDFSSU2DataKeys".
Definition direction_keys (k : bytes) : bytes * bytes :=
  let temp := hmac_of k [] in
  let d := hmac_of temp (data_label ++ [1]) in
  (d, hmac_of temp (d ++ data_label ++ [2])).
(** the header keys of [SessionCreated] and [SessionConfirmed] *)
Definition header_key (n : nctx) (label : string) : bytes :=
  hmac_of (hmac_of (n_ck n) []) (ascii_bytes label ++ [1]).

(** ** session/pending/inbound.rs *)
(** inbound.rs:98-119 [PendingSessionState] *)
Inductive in_state : Type :=
| InRequest (token : N)
| InConfirmed (eph k_header_2 k_created : bytes)
| InPoisoned.
(** inbound.rs:122-157 [InboundSsu2Session] *)
Record in_session : Type := mkIn {
  in_addr : addr; in_dst : N; in_src : N; in_intro : bytes; in_static : bytes;
  in_ctx : nctx; in_st : in_state; in_rtx : rtx }.
(** inbound.rs:163-240 [new] *)
Definition in_new (a : addr) (ctx : nctx) (dst src num : N) (intro static pkt : bytes) (r : rnd)
  : res (in_session * list bytes) :=
  rbind (or_panic (slice pkt 32 (length pkt))) (fun sealed =>
  rbind (or_err (open_with intro num (firstn 32 pkt) sealed)) (fun payload =>
  match s_parse (x_ext (h_ops c)) payload with
  | None => Err
  | Some _ =>
      rbind (retry intro src dst (r_token r) a r) (fun out =>
      Ok (mkIn a dst src intro static ctx (InRequest (r_token r)) rtx_inactive, [out]))
  end)).
(** inbound.rs:250-374 [on_session_request].  Neither the network id nor the token are
    compared with anything. *)
Definition on_session_request (s : in_session) (r : rnd) (now : N) (pkt : bytes)
  : res (in_session * list bytes) :=
  rbind (session_header (in_intro s) (in_intro s) pkt) (fun '(k, pkt) =>
  match k with
  | HSessionRequest eph _ _ _ =>
      rbind (or_panic (slice pkt 0 32)) (fun header =>
      rbind (or_panic (slice pkt 32 64)) (fun aepk =>
      let n := mix_hash c (mix_hash c (in_ctx s) header) aepk in
      let '(n, key) := mix_key c n (in_static s) eph in
      let k_header_2 := header_key n "SessCreateHeader" in
      rbind (or_panic (slice pkt 64 (length pkt))) (fun sealed =>
      rbind (or_err (open_with key 0 (n_h n) sealed)) (fun payload =>
      let n := mix_hash c n sealed in
      match s_parse (x_ext (h_ops c)) payload with
      | None => Err
      | Some _ =>
          let pk := x_pub (h_ops c) (r_eph r) in
          let '(n, key) := mix_key c n (r_eph r) eph in
          let header := long_header (in_src s) (r_num r) 1 (in_dst s) (be_bytes 8 0) in
          let n := mix_hash c (mix_hash c n header) pk in
          let sealed := seal_with key 0 (n_h n)
            (date_block (r_secs r) ++ address_block (in_addr s) ++ padding_block (r_pad r)) in
          rbind (mask_first (in_intro s) k_header_2 (header ++ pk) sealed) (fun h =>
          let n := mix_hash c n sealed in
          let out := mask_rest k_header_2 h ++ sealed in
          Ok (mkIn (in_addr s) (in_dst s) (in_src s) (in_intro s) (in_static s) n
                (InConfirmed (r_eph r) (header_key n "SessionConfirmed") key)
                (rtx_session_created out now), [out]))
      end))))
  | _ => Err
  end).
(** inbound.rs:459-468: the first router info among the blocks *)
Fixpoint find_info (bs : list block) : option router_info :=
  match bs with
  | [] => None
  | SRouterInfo r :: _ => Some r
  | _ :: t => find_info t
  end.
(** inbound.rs:387-526 [on_session_confirmed].  The static key is used for the key exchange and
    then dropped. *)
Definition on_session_confirmed (s : in_session) (eph k_header_2 k_created pkt : bytes) : res status :=
  rbind (session_header (in_intro s) k_header_2 pkt) (fun '(k, pkt) =>
  match k with
  | HSessionConfirmed num =>
      if negb (num =? 0) then Err
      else
      rbind (or_panic (slice pkt 0 16)) (fun header =>
      let n := mix_hash c (in_ctx s) header in
      rbind (or_panic (slice pkt 16 64)) (fun apk =>
      rbind (or_err (open_with k_created 1 (n_h n) apk)) (fun static =>
      let n := mix_hash c n apk in
      rbind (or_panic (public_from static)) (fun static =>
      let '(n, key) := mix_key c n eph static in
      rbind (or_panic (slice pkt 64 (length pkt))) (fun sealed =>
      rbind (or_err (open_with key 0 (n_h n) sealed)) (fun payload =>
      rbind (or_err (s_parse (x_ext (h_ops c)) payload)) (fun blocks =>
      rbind (or_err (find_info blocks)) (fun router =>
      rbind (or_err (ssu2_intro_key router)) (fun intro =>
      let '(_, k_ab, k_ba) := data_keys c n in
      let '(d_ab, h_ab) := direction_keys k_ab in
      let '(d_ba, h_ba) := direction_keys k_ba in
      rbind (or_panic (build_packet (session_crypt c) (fun k iv => ks k iv 8%nat) (Ssu2Model.mkKeys intro d_ba h_ba)
               (in_src s) 0 (data_payload None (Some (0, 0, None))))) (fun ack =>
      Ok (NewInbound (mkSctx (in_addr s) (in_src s) intro (d_ab, h_ab) (d_ba, h_ba)
                        (ri_hash (rf_identity router))) ack (in_addr s))))))))))))
  | _ => Err
  end).

(** What handling a datagram leads to: the session goes on (sending packets), or it is over, or a
    panic. *)
Inductive handled (S : Type) : Type := Goes (s : S) (out : list bytes) | Over (x : status) | Panics.
Arguments Goes {S} _ _. Arguments Over {S} _. Arguments Panics {S}.

Definition in_poisoned (s : in_session) : in_session :=
  mkIn (in_addr s) (in_dst s) (in_src s) (in_intro s) (in_static s) (in_ctx s) InPoisoned (in_rtx s).
(** inbound.rs:532-555 [on_packet], 573-585: an error leaves the session poisoned (what it has
    done to the noise context no longer matters: a poisoned session does not read it). *)
Definition in_packet (s : in_session) (r : rnd) (now : N) (pkt : bytes) : handled in_session :=
  match in_st s with
  | InRequest _ =>
      match on_session_request s r now pkt with
      | Ok (s', out) => Goes s' out
      | Err => Goes (in_poisoned s) []
      | Panic => Panics
      end
  | InConfirmed eph k2 kc =>
      match on_session_confirmed s eph k2 kc pkt with
      | Ok x => Over x
      | Err => Goes (in_poisoned s) []
      | Panic => Panics
      end
  | InPoisoned => Over (SessionTerminated None)
  end.

(** ** session/pending/outbound.rs *)
(** outbound.rs:98-127 [PendingSessionState] *)
Inductive out_state : Type :=
| OutRetry (local info remote : bytes)
| OutCreated (eph local info : bytes)
| OutAck
| OutPoisoned.
(** outbound.rs:130-163 [OutboundSsu2Session] *)
Record out_session : Type := mkOut {
  ou_addr : addr; ou_dst : N; ou_src : N; ou_intro : bytes; ou_router : bytes;
  ou_ctx : nctx; ou_st : out_state; ou_rtx : rtx }.
(** outbound.rs:167-232 [new] *)
Definition out_new (a : addr) (ctx : nctx) (dst src : N) (intro local info remote router : bytes)
  (r : rnd) (now : N) : res (out_session * list bytes) :=
  rbind (token_request intro dst src r) (fun pkt =>
  Ok (mkOut a dst src intro router ctx (OutRetry local info remote) (rtx_token_request pkt now), [pkt])).
(** outbound.rs:243-333 [on_retry].  The network id is not looked at, and neither are the
    blocks. *)
Definition on_retry (s : out_session) (local info remote : bytes) (r : rnd) (now : N) (pkt : bytes)
  : res (out_session * list bytes) :=
  rbind (session_header (ou_intro s) (ou_intro s) pkt) (fun '(k, pkt) =>
  match k with
  | HRetry _ num token =>
      rbind (or_panic (slice pkt 32 (length pkt))) (fun sealed =>
      rbind (or_err (open_with (ou_intro s) num (firstn 32 pkt) sealed)) (fun _ =>
      let '(n, key) := mix_key c (ou_ctx s) (r_eph r) remote in
      let pk := x_pub (h_ops c) (r_eph r) in
      let header := long_header (ou_dst s) (r_num r) 0 (ou_src s) (le_bytes 8 token) in
      let n := mix_hash c (mix_hash c n header) pk in
      let sealed := seal_with key 0 (n_h n) (date_block (r_secs r) ++ padding_block (r_pad r)) in
      rbind (mask_first (ou_intro s) (ou_intro s) (header ++ pk) sealed) (fun h =>
      let n := mix_hash c n sealed in
      let out := mask_rest (ou_intro s) h ++ sealed in
      Ok (mkOut (ou_addr s) (ou_dst s) (ou_src s) (ou_intro s) (ou_router s) n
            (OutCreated (r_eph r) local info) (rtx_session_request out now), [out]))))
  | _ => Err
  end).
(** message.rs:1564-1594 [SessionConfirmedBuilder::build]: the header *)
Definition confirmed_header (dst : N) : bytes := le_bytes 8 dst ++ be_bytes 4 0 ++ [2; 1; 0; 0].
(** outbound.rs:345-447 [on_session_created] *)
Definition on_session_created (s : out_session) (eph local info : bytes) (now : N) (pkt : bytes)
  : res (out_session * list bytes) :=
  rbind (session_header (ou_intro s) (header_key (ou_ctx s) "SessCreateHeader") pkt) (fun '(k, pkt) =>
  match k with
  | HSessionCreated remote _ _ =>
      rbind (or_panic (slice pkt 0 32)) (fun header =>
      rbind (or_panic (slice pkt 32 64)) (fun bepk =>
      let n := mix_hash c (mix_hash c (ou_ctx s) header) bepk in
      let '(n, key) := mix_key c n eph remote in
      rbind (or_panic (slice pkt 64 (length pkt))) (fun sealed =>
      rbind (or_err (open_with key 0 (n_h n) sealed)) (fun _ =>
      let n := mix_hash c n sealed in
      let k_header_2 := header_key n "SessionConfirmed" in
      let header := confirmed_header (ou_dst s) in
      let n := mix_hash c n header in
      let sp := seal_with key 1 (n_h n) (x_pub (h_ops c) local) in
      let n := mix_hash c n sp in
      let '(n, key) := mix_key c n local remote in
      let sealed := seal_with key 0 (n_h n) (info_block info) in
      rbind (mask_first (ou_intro s) k_header_2 header sealed) (fun h =>
      let out := h ++ sp ++ sealed in
      Ok (mkOut (ou_addr s) (ou_dst s) (ou_src s) (ou_intro s) (ou_router s) n OutAck
            (rtx_session_confirmed out now), [out]))))))
  | _ => Err
  end).
(** outbound.rs:458-510 [on_data]: the packet is not looked at. *)
Definition on_data (s : out_session) : status :=
  let '(_, k_ab, k_ba) := data_keys c (ou_ctx s) in
  NewOutbound (mkSctx (ou_addr s) (ou_dst s) (ou_intro s) (direction_keys k_ba) (direction_keys k_ab)
                 (ou_router s)).
Definition out_poisoned (s : out_session) : out_session :=
  mkOut (ou_addr s) (ou_dst s) (ou_src s) (ou_intro s) (ou_router s) (ou_ctx s) OutPoisoned (ou_rtx s).
(** outbound.rs:521-549 [on_packet], 568-581 *)
Definition out_packet (s : out_session) (r : rnd) (now : N) (pkt : bytes) : handled out_session :=
  let finish x := match x with
                  | Ok (s', out) => Goes s' out
                  | Err => Goes (out_poisoned s) []
                  | Panic => Panics
                  end in
  match ou_st s with
  | OutRetry local info remote => finish (on_retry s local info remote r now pkt)
  | OutCreated eph local info => finish (on_session_created s eph local info now pkt)
  | OutAck => Over (on_data s)
  | OutPoisoned => Over (SessionTerminated (Some (ou_router s)))
  end.

(** ** socket.rs *)
(** What is behind a connection id: a pending session, a negotiated one, or the channel of one
    that is gone (entries are never removed). *)
Inductive slot : Type :=
| SlotIn (s : in_session) | SlotOut (s : out_session) | SlotActive (x : sctx) | SlotClosed.
(** socket.rs:96-160 [Ssu2Socket]: what the handshake uses.  [us_info] and [us_router] are the
    router's own info and id. *)
Record usock : Type := mkUsock {
  us_intro : bytes; us_static : bytes; us_info : bytes; us_router : bytes;
  us_sessions : nmap slot; us_outbound : list (addr * bytes) }.
(** socket.rs:62, 171-177 *)
Definition ssu2_protocol : bytes := ascii_bytes "Noise_XKchaobfse+hs1+hs2+hs3_25519_ChaChaPoly_SHA256".
Definition u_ck : bytes := x_sha (h_ops c) ssu2_protocol.
Definition u_out : bytes := x_sha (h_ops c) u_ck.
Definition u_in (static : bytes) : bytes := x_sha (h_ops c) (u_out ++ x_pub (h_ops c) static).

Inductive uevent : Type :=
| Established (inbound : bool) (router : bytes)
| Failure (router : bytes)
| ToSession (id : N) (pkt : bytes).   (** handed to a negotiated session *)

Definition with_session (u : usock) (id : N) (x : slot) : usock :=
  mkUsock (us_intro u) (us_static u) (us_info u) (us_router u) (nput id x (us_sessions u)) (us_outbound u).
Definition lookup_addr (a : addr) (l : list (addr * bytes)) : option bytes :=
  match find (fun x => addr_eqb a (fst x)) l with Some x => Some (snd x) | None => None end.

(** Result of a socket operation: the socket, datagrams sent, events reported.  [None]: a
    panic. *)
Definition ustep : Type := option (usock * list (addr * bytes) * list uevent).
(** socket.rs:436-522: a pending session is over *)
Definition on_over (u : usock) (id : N) (x : status) : ustep :=
  match x with
  | NewInbound x pkt target =>
      Some (with_session u id (SlotActive x), [(target, pkt)], [Established true (sc_router x)])
  | NewOutbound x => Some (with_session u id (SlotActive x), [], [Established false (sc_router x)])
  | SessionTerminated None => Some (with_session u id SlotClosed, [], [])
  | SessionTerminated (Some r) => Some (with_session u id SlotClosed, [], [Failure r])
  end.
(** A datagram for a session: socket.rs:217-224 and the session's [poll] *)
Definition to_session (u : usock) (r : rnd) (now : N) (id : N) (x : slot) (pkt : bytes) : ustep :=
  match x with
  | SlotIn s =>
      match in_packet s r now pkt with
      | Goes s' out => Some (with_session u id (SlotIn s'), map (pair (in_addr s)) out, [])
      | Over x => on_over u id x
      | Panics => None
      end
  | SlotOut s =>
      match out_packet s r now pkt with
      | Goes s' out => Some (with_session u id (SlotOut s'), map (pair (ou_addr s)) out, [])
      | Over x => on_over u id x
      | Panics => None
      end
  | SlotActive _ => Some (u, [], [ToSession id pkt])
  | SlotClosed => Some (u, [], [])
  end.
(** socket.rs:65, 213-290, 399-420 [handle_packet], for a datagram from [a]; the read buffer has
    2048 bytes.  The network id is not looked at. *)
Definition on_datagram (u : usock) (r : rnd) (now : N) (a : addr) (datagram : bytes) : ustep :=
  let pkt := firstn 2048 datagram in
  match reader_new (us_intro u) pkt with
  | Panic => None
  | Err => Some (u, [], [])
  | Ok rd =>
      let '(id, rd) := reader_dst rd in
      match nget id (us_sessions u) with
      | Some x => to_session u r now id x (hr_pkt rd)
      | None =>
          match reader_parse (us_intro u) rd with
          | Panic => None
          | Err => Some (u, [], [])
          | Ok (Some (HTokenRequest _ num src), rd) =>
              match in_new a (mkNctx u_ck (u_in (us_static u))) id src num (us_intro u) (us_static u)
                      (hr_pkt rd) r with
              | Panic => None
              | Err => Some (u, [], [])
              | Ok (s, out) => Some (with_session u id (SlotIn s), map (pair a) out, [])
              end
          | Ok (Some _, _) => Some (u, [], [])
          | Ok (None, rd) =>
              match lookup_addr a (us_outbound u) with
              | None => Some (u, [], [])
              | Some intro =>
                  let '(id, rd) := reader_dst (reader_reset intro rd) in
                  match nget id (us_sessions u) with
                  | Some x => to_session u r now id x (hr_pkt rd)
                  | None => Some (u, [], [])
                  end
              end
          end
      end
  end.
(** socket.rs:292-342 [connect]: [src] and [dst] are drawn at random.  The router id given to the
    session is the router's own (318). *)
Definition connect (u : usock) (router : router_info) (src dst : N) (r : rnd) (now : N) : ustep :=
  match ssu2_intro_key router, ssu2_static_key router, rf_ssu2 router with
  | Some intro, Some remote, Some ra =>
      match ra_socket ra with
      | None => None
      | Some a =>
          match out_new a (mkNctx u_ck (x_sha (h_ops c) (u_out ++ remote))) dst src intro (us_static u)
                  (us_info u) remote (us_router u) r now with
          | Ok (s, out) =>
              let u' := with_session u src (SlotOut s) in
              Some (mkUsock (us_intro u') (us_static u') (us_info u') (us_router u') (us_sessions u')
                      ((a, intro) :: us_outbound u'), map (pair a) out, [])
          | _ => None
          end
      end
  | _, _, _ => None
  end.
(** inbound.rs:588-610, outbound.rs:583-605: the timer of a pending session *)
Definition on_timer (u : usock) (id : N) (now : N) : ustep :=
  match nget id (us_sessions u) with
  | Some (SlotIn s) =>
      match rtx_poll (in_rtx s) now with
      | (x, RtxWait) => Some (u, [], [])
      | (x, RtxSend pkt) =>
          Some (with_session u id (SlotIn (mkIn (in_addr s) (in_dst s) (in_src s) (in_intro s) (in_static s)
                  (in_ctx s) (in_st s) x)), [(in_addr s, pkt)], [])
      | (x, RtxTimeout) => Some (with_session u id SlotClosed, [], [])
      end
  | Some (SlotOut s) =>
      match rtx_poll (ou_rtx s) now with
      | (x, RtxWait) => Some (u, [], [])
      | (x, RtxSend pkt) =>
          Some (with_session u id (SlotOut (mkOut (ou_addr s) (ou_dst s) (ou_src s) (ou_intro s) (ou_router s)
                  (ou_ctx s) (ou_st s) x)), [(ou_addr s, pkt)], [])
      | (x, RtxTimeout) => Some (with_session u id SlotClosed, [], [Failure (ou_router s)])
      end
  | _ => Some (u, [], [])
  end.
End WithOps.
Arguments Goes {S} _ _. Arguments Over {S} _. Arguments Panics {S}.
