(** Model of tunnel data messages: /repo/emissary-core/src/i2np/tunnel/data.rs (format),
    tunnel/fragment.rs (reassembly), tunnel/hop/{inbound,outbound}.rs (the creator's end) and
    tunnel/transit/{inbound,participant,outbound}.rs, tunnel/noise.rs (the other hops).
    AES is a parameter; random numbers (IV, padding offset, message id) are arguments. *)
From Coq Require Import List NArith Bool Arith.
From Verif Require Import Bytes NMap PrimModel EncModel I2npModel.
Import ListNotations.
Open Scope N_scope.
Open Scope parser_scope.

(** ** i2np/tunnel/data.rs *)
(** data.rs:133-151 [DeliveryInstructions], fragment.rs:30-48 *)
Inductive delivery : Type :=
| DLocal
| DRouter (hash : bytes)
| DTunnel (tunnel_id : N) (hash : bytes).
(** data.rs:158-197 [MessageKind] *)
Inductive msg_kind : Type :=
| KUnfragmented (d : delivery)
| KFirst (message_id : N) (d : delivery)
| KMiddle (message_id seq : N)
| KLast (message_id seq : N).

(** data.rs:201-212 [serialized_len] *)
Definition delivery_len (d : delivery) : nat :=
  match d with DLocal => 1 | DRouter _ => 33 | DTunnel _ _ => 37 end.
(** data.rs:227-299 [serialize]: the flag bits do not overlap, so [|] is addition;
    [seq as u8 & 0x3f] is [seq mod 64]. *)
Definition ser_kind (k : msg_kind) : bytes :=
  match k with
  | KUnfragmented DLocal => [0]
  | KUnfragmented (DRouter h) => [64] ++ h
  | KUnfragmented (DTunnel t h) => [32] ++ be_bytes 4 t ++ h
  | KFirst m DLocal => [8] ++ be_bytes 4 m
  | KFirst m (DRouter h) => [8 + 64] ++ h ++ be_bytes 4 m
  | KFirst m (DTunnel t h) => [8 + 32] ++ be_bytes 4 t ++ h ++ be_bytes 4 m
  | KMiddle m s => [128 + (s mod 64) * 2] ++ be_bytes 4 m
  | KLast m s => [128 + (s mod 64) * 2 + 1] ++ be_bytes 4 m
  end.

(** data.rs:330-427 [TunnelData::parse_frame]; shifts and masks as division and remainder. *)
Definition parse_block : parser (msg_kind * bytes) :=
  flag <- be_uint 1 ;;
  if flag / 128 =? 1 then
    m <- be_uint 4 ;;
    size <- be_uint 2 ;;
    p <- take (N.to_nat size) ;;
    ret (if flag mod 2 =? 0 then KMiddle m ((flag / 2) mod 64) else KLast m ((flag / 2) mod 64), p)
  else
    d <- (let t := (flag / 32) mod 4 in
          if t =? 0 then ret DLocal
          else if t =? 1 then id <- be_uint 4 ;; h <- take 32 ;; ret (DTunnel id h)
          else if t =? 2 then h <- take 32 ;; ret (DRouter h)
          else fail) ;;
    k <- (if (flag / 8) mod 2 =? 0 then ret (KUnfragmented d)
          else m <- be_uint 4 ;; ret (KFirst m d)) ;;
    size <- be_uint 2 ;;
    p <- take (N.to_nat size) ;;
    ret (k, p).
(** data.rs:430-448 [parse_inner], [parse]: a block takes at least three bytes, so the length
    is enough fuel. *)
Fixpoint parse_blocks (fuel : nat) (i : bytes) : option (list (msg_kind * bytes)) :=
  match fuel with
  | O => None
  | S f =>
      match parse_block i with
      | None => None
      | Some (b, []) => Some [b]
      | Some (b, r) => match parse_blocks f r with Some l => Some (b :: l) | None => None end
      end
  end.
Definition td_parse (i : bytes) : option (list (msg_kind * bytes)) := parse_blocks (S (length i)) i.

(** data.rs:84-102 [EncryptedTunnelData::parse]: tunnel id, IV, ciphertext. *)
Definition etd_parse : parser (N * bytes * bytes) :=
  t <- be_uint 4 ;; iv <- take 16 ;; ct <- take 1008 ;; ret (t, iv, ct).

Section WithExt.
Variable e : ext.   (** only [sha256] is used *)

(** data.rs:514-524 [checksum] *)
Definition td_checksum (di message iv : bytes) : bytes :=
  firstn 4 (sha256 e (di ++ be_bytes 2 (len message) ++ message ++ iv)).

(** data.rs:526-563 [serialize]: [iv] and [rnd] are random; [padding] is a block of 1028
    non-zero random bytes. *)
Definition td_serialize (tunnel_id : N) (iv : bytes) (rnd : N) (di : bytes) (payload_size : nat)
    (message : bytes) (padding : option bytes) : bytes :=
  be_bytes 4 tunnel_id ++ iv ++ td_checksum di message iv ++
  (match padding with
   | None => []
   | Some p =>
       let size := (payload_size - length message)%nat in
       let off := N.to_nat (rnd mod N.of_nat (1028 - size)) in
       firstn size (skipn off p)
   end) ++
  [0] ++ di ++ be_bytes 2 (len message) ++ message.

(** [slice::chunks] *)
Fixpoint chunks_fuel (fuel n : nat) (l : bytes) : list bytes :=
  match fuel with
  | O => []
  | S f => match l with [] => [] | _ => firstn n l :: chunks_fuel f n (skipn n l) end
  end.
Definition chunks (n : nat) (l : bytes) : list bytes := chunks_fuel (length l) n l.

(** data.rs:566-631 [serialize_fragmented]; message [k] (counted from zero) gets the random
    numbers [rnd k]. *)
Definition td_follow_on (tunnel_id message_id : N) (rnd : nat -> bytes * N) (padding : bytes)
    (total idx : nat) (chunk : bytes) : bytes :=
  if (idx + 1 =? total)%nat then
    td_serialize tunnel_id (fst (rnd (idx + 1)%nat)) (snd (rnd (idx + 1)%nat))
      (ser_kind (KLast message_id (N.of_nat (idx + 1)))) 996 chunk (Some padding)
  else
    td_serialize tunnel_id (fst (rnd (idx + 1)%nat)) (snd (rnd (idx + 1)%nat))
      (ser_kind (KMiddle message_id (N.of_nat (idx + 1)))) (length chunk) chunk None.
Fixpoint mapi {A B} (f : nat -> A -> B) (i : nat) (l : list A) : list B :=
  match l with [] => [] | x :: t => f i x :: mapi f (S i) t end.

(** data.rs:634-672 [build] with 566-631: payload size [1001 - delivery_len d]; a follow-on
    fragment holds [payload_size - 5 + delivery_len d = 996] bytes. *)
Definition td_build (tunnel_id : N) (d : delivery) (message : bytes) (message_id : N)
    (rnd : nat -> bytes * N) (padding : bytes) : list bytes :=
  let payload_size := (1001 - delivery_len d)%nat in
  if (length message <=? payload_size)%nat then
    [td_serialize tunnel_id (fst (rnd O)) (snd (rnd O)) (ser_kind (KUnfragmented d)) payload_size message
       (if (payload_size =? length message)%nat then None else Some padding)]
  else
    let first := (payload_size - 4)%nat in
    let rest := chunks 996 (skipn first message) in
    td_serialize tunnel_id (fst (rnd O)) (snd (rnd O)) (ser_kind (KFirst message_id d)) first
      (firstn first message) None ::
    mapi (td_follow_on tunnel_id message_id rnd padding (length rest)) 0 rest.

(** ** hop/inbound.rs:91-138, transit/outbound.rs:91-135 [find_payload_start] *)
Definition find_payload_start (ciphertext iv : bytes) : option nat :=
  match position 0 (skipn 4 ciphertext) with
  | None => None
  | Some padding_end =>
      if beq (firstn 4 ciphertext)
             (firstn 4 (sha256 e (skipn (4 + padding_end + 1) ciphertext ++ iv))) then
        let start := (padding_end + 1 + 4)%nat in
        if (length ciphertext <=? start)%nat then None else Some start
      else None
  end.
End WithExt.

(** ** tunnel/fragment.rs *)
(** fragment.rs:80-102 [Fragment] without the running total of sizes, which only sizes a
    buffer; 131-134 [FragmentHandler] *)
Record fragment : Type := mkFragment {
  fr_delivery : option delivery;
  fr_first : option bytes;
  fr_follow : nmap bytes;
  fr_count : option N
}.
Definition fragment_default : fragment := mkFragment None None [] None.
Definition handler : Type := nmap fragment.

(** fragment.rs:106-111 [is_ready] *)
Definition fr_ready (f : fragment) : bool :=
  match fr_count f, fr_delivery f, fr_first f with
  | Some n, Some _, Some _ => n =? N.of_nat (length (fr_follow f))
  | _, _, _ => false
  end.
(** fragment.rs:114-127 [construct] *)
Definition fr_construct (f : fragment) : option (message * delivery) :=
  match fr_delivery f, fr_first f with
  | Some d, Some p =>
      match parse_standard (p ++ concat (map snd (fr_follow f))) with
      | Some (m, _) => Some (m, d)
      | None => None
      end
  | _, _ => None
  end.
(** fragment.rs:153, 160-163, 175-183, 195-204: update the entry, and if it is complete remove
    it and assemble the message. *)
Definition with_entry (h : handler) (id : N) (f : fragment -> fragment)
  : handler * option (message * delivery) :=
  let x := f (match nget id h with Some y => y | None => fragment_default end) in
  if fr_ready x then (ndel id h, fr_construct x) else (nput id x h, None).
(** fragment.rs:147-205 [first_fragment], [middle_fragment], [last_fragment] *)
Definition first_fragment (h : handler) (id : N) (d : delivery) (p : bytes) :=
  with_entry h id (fun x => mkFragment (Some d) (Some p) (fr_follow x) (fr_count x)).
Definition middle_fragment (h : handler) (id seq : N) (p : bytes) :=
  with_entry h id (fun x => mkFragment (fr_delivery x) (fr_first x) (nput seq p (fr_follow x)) (fr_count x)).
Definition last_fragment (h : handler) (id seq : N) (p : bytes) :=
  with_entry h id (fun x => mkFragment (fr_delivery x) (fr_first x) (nput seq p (fr_follow x)) (Some seq)).

(** ** The endpoints: hop/inbound.rs:187-263, transit/outbound.rs:156-283 *)
(** One block: the new reassembly state and the message that became complete, if any. *)
Definition handle_block (h : handler) (b : msg_kind * bytes) : handler * option (message * delivery) :=
  match fst b with
  | KUnfragmented d =>
      (h, match parse_standard (snd b) with Some (m, _) => Some (m, d) | None => None end)
  | KFirst id d => first_fragment h id d (snd b)
  | KMiddle id s => middle_fragment h id s (snd b)
  | KLast id s => last_fragment h id s (snd b)
  end.
Fixpoint handle_blocks (h : handler) (bs : list (msg_kind * bytes)) : handler * list (message * delivery) :=
  match bs with
  | [] => (h, [])
  | b :: t =>
      let '(h', o) := handle_block h b in
      let '(h'', out) := handle_blocks h' t in
      (h'', match o with Some x => x :: out | None => out end)
  end.
(** hop/inbound.rs:184-199, transit/outbound.rs:154-181: the decrypted message. *)
Definition endpoint (e : ext) (h : handler) (ciphertext iv : bytes)
  : option (handler * list (message * delivery)) :=
  match find_payload_start e ciphertext iv with
  | None => None
  | Some start =>
      match td_parse (skipn start ciphertext) with
      | None => None
      | Some bs => Some (handle_blocks h bs)
      end
  end.

(** hop/inbound.rs:201-261: the inbound endpoint keeps only local delivery. *)
Definition inbound_deliver (x : message * delivery) : option message :=
  match snd x with DLocal => Some (fst x) | _ => None end.
(** transit/outbound.rs:214-281: the outbound endpoint drops expired messages and local
    delivery; [now] is the time, [rnd] the random id of the message to a gateway. *)
Definition outbound_deliver (e : ext) (now rnd : N) (x : message * delivery) : option (bytes * bytes) :=
  let '(m, d) := x in
  if msg_expired now m then None
  else match d with
       | DLocal => None
       | DRouter h => Some (h, build_short m)
       | DTunnel id h =>
           Some (h, build_short (mkMsg TunnelGateway rnd (now + of_secs 8)
                                   (ser_gateway (mkTg id (build_standard e m)))))
       end.

(** ** Layered encryption *)
Record aes : Type := mkAes {
  ecb_enc : bytes -> bytes -> bytes;           (** key, block *)
  ecb_dec : bytes -> bytes -> bytes;
  cbc_enc : bytes -> bytes -> bytes -> bytes;  (** key, IV, data *)
  cbc_dec : bytes -> bytes -> bytes -> bytes
}.
(** The IV key and layer key of a hop. *)
Record hop_keys : Type := mkHop { iv_key : bytes; layer_key : bytes }.

(** tunnel/noise.rs:101-115 [decrypt_record] (which encrypts), transit/inbound.rs:132-139 *)
Definition hop_encrypt (c : aes) (x : bytes * bytes) (k : hop_keys) : bytes * bytes :=
  let iv := ecb_enc c (iv_key k) (fst x) in
  let ct := cbc_enc c (layer_key k) iv (snd x) in
  (ecb_enc c (iv_key k) iv, ct).
(** hop/inbound.rs:171-180, hop/outbound.rs:98-109 *)
Definition hop_decrypt (c : aes) (x : bytes * bytes) (k : hop_keys) : bytes * bytes :=
  let iv := ecb_dec c (iv_key k) (fst x) in
  let ct := cbc_dec c (layer_key k) iv (snd x) in
  (ecb_dec c (iv_key k) iv, ct).

(** hop/outbound.rs:93-113: the creator prepares a message for its outbound tunnel;
    [hops] from the first hop to the endpoint. *)
Definition outbound_prepare (c : aes) (hops : list hop_keys) (w : bytes) : bytes :=
  let '(iv, ct) := fold_left (hop_decrypt c) (rev hops) (firstn 16 (skipn 4 w), skipn 20 w) in
  firstn 4 w ++ iv ++ ct.
(** transit/participant.rs:89-117: a participant; the message carries the next tunnel id.
    The result is the payload of the tunnel data message for the next hop. *)
Definition participant (c : aes) (k : hop_keys) (next_tunnel : N) (payload : bytes) : option bytes :=
  match etd_parse payload with
  | Some (_, iv, ct, _) =>
      let '(iv', ct') := hop_encrypt c (iv, ct) k in Some (be_bytes 4 next_tunnel ++ iv' ++ ct')
  | None => None
  end.
(** transit/outbound.rs:141-154, 343: the outbound endpoint. *)
Definition outbound_endpoint (e : ext) (c : aes) (k : hop_keys) (h : handler) (payload : bytes)
  : option (handler * list (message * delivery)) :=
  match etd_parse payload with
  | Some (_, iv, ct, _) => let '(iv', ct') := hop_encrypt c (iv, ct) k in endpoint e h ct' iv'
  | None => None
  end.
(** transit/inbound.rs:128-152: the inbound gateway. *)
Definition inbound_gateway (c : aes) (k : hop_keys) (w : bytes) : bytes :=
  let '(iv, ct) := hop_encrypt c (firstn 16 (skipn 4 w), skipn 20 w) k in
  firstn 4 w ++ iv ++ ct.
(** transit/inbound.rs:96-126, 128-152 [handle_tunnel_gateway]: the message in a tunnel
    gateway message is checked, fragmented and encrypted; the results are the payloads of the
    tunnel data messages for the next hop. *)
Definition gateway_messages (e : ext) (c : aes) (k : hop_keys) (next_tunnel now : N) (payload : bytes)
    (message_id : N) (rnd : nat -> bytes * N) (padding : bytes) : option (list bytes) :=
  match parse_standard payload with
  | None => None
  | Some (m, _) =>
      if msg_expired now m then None
      else Some (map (inbound_gateway c k) (td_build e next_tunnel DLocal payload message_id rnd padding))
  end.
(** hop/inbound.rs:145-184: the creator's end of an inbound tunnel; [hops] from the gateway. *)
Definition inbound_endpoint (e : ext) (c : aes) (hops : list hop_keys) (h : handler) (payload : bytes)
  : option (handler * list (message * delivery)) :=
  match etd_parse payload with
  | Some (_, iv, ct, _) =>
      let '(iv', ct') := fold_left (hop_decrypt c) (rev hops) (iv, ct) in endpoint e h ct' iv'
  | None => None
  end.
(** A message passed on by participants, each with its keys and the next tunnel id. *)
Fixpoint relay (c : aes) (hops : list (hop_keys * N)) (payload : bytes) : option bytes :=
  match hops with
  | [] => Some payload
  | (k, next) :: t =>
      match participant c k next payload with Some p => relay c t p | None => None end
  end.
