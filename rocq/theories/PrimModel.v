(** Model of the I2P primitive structures: /repo/emissary-core/src/primitives/.

    External primitives (curves, signatures, SHA-256, IP address parsing) are fields of the
    record [ext]; nothing about them is assumed here. *)
From Coq Require Import List NArith Bool Arith.
From Verif Require Import Bytes.
Import ListNotations.
Open Scope N_scope.
Open Scope parser_scope.

Definition len (l : bytes) : N := N.of_nat (length l).

(** crypto/mod.rs:332-349 [SigningPublicKey], as the bytes returned by [AsRef] (412-420).
    Simplified: the decompressed point is not kept. *)
Inductive vkey : Type :=
| Ed25519 (b : bytes)
| P256 (b : bytes)
| Dsa (b : bytes).

(** External primitives. *)
Record ext : Type := mkExt {
  (** crypto/mod.rs:355-359: [ed25519_dalek::VerifyingKey::from_bytes] succeeds *)
  ed_valid : bytes -> bool;
  (** crypto/mod.rs:362-369: [p256 … from_encoded_point] succeeds *)
  p256_valid : bytes -> bool;
  (** crypto/dsa.rs [DsaPublicKey::from_bytes] succeeds *)
  dsa_valid : bytes -> bool;
  (** crypto/mod.rs:377-400 [SigningPublicKey::verify]: key, message, signature *)
  verify : vkey -> bytes -> bytes -> bool;
  (** crypto/mod.rs:302-306 [SigningPrivateKey::sign] *)
  ed_sign : bytes -> bytes -> bytes;
  (** crypto/mod.rs:309-313 [SigningPrivateKey::public] *)
  ed_public : bytes -> bytes;
  (** crypto/mod.rs:146-150 [StaticPrivateKey::public] *)
  x_public : bytes -> bytes;
  (** crypto/sha256.rs *)
  sha256 : bytes -> bytes;
  (** [str::parse::<IpAddr>], the result rendered as bytes *)
  parse_ip : bytes -> option bytes
}.

(** crypto/mod.rs:403-409 [signature_len] *)
Definition signature_len (k : vkey) : nat :=
  match k with Ed25519 _ => 64 | P256 _ => 64 | Dsa _ => 40 end.

(** ** primitives/string.rs *)

(** [core::str::from_utf8] accepts exactly well-formed UTF-8 (Unicode table 3-7). *)
Definition rng (lo hi b : N) : bool := (lo <=? b) && (b <=? hi).
Fixpoint utf8_ok (l : bytes) : bool :=
  match l with
  | [] => true
  | a :: t =>
      if a <=? 127 then utf8_ok t
      else match t with
           | [] => false
           | b :: t1 =>
               if rng 194 223 a then rng 128 191 b && utf8_ok t1
               else match t1 with
                    | [] => false
                    | c :: t2 =>
                        if rng 224 239 a then
                          (if a =? 224 then rng 160 191 b
                           else if a =? 237 then rng 128 159 b else rng 128 191 b)
                          && rng 128 191 c && utf8_ok t2
                        else match t2 with
                             | [] => false
                             | d :: t3 =>
                                 rng 240 244 a
                                 && (if a =? 240 then rng 144 191 b
                                     else if a =? 244 then rng 128 143 b else rng 128 191 b)
                                 && rng 128 191 c && rng 128 191 d && utf8_ok t3
                             end
                    end
           end
  end.

(** string.rs:42-46 [Str]: its UTF-8 bytes. *)
Notation str := (list N) (only parsing).

(** string.rs:137-144 [Str::serialize]: the length is cast [as u8]. *)
Definition ser_str (s : str) : bytes := be_bytes 1 (len s) ++ s.

(** string.rs:147-154 [Str::parse_frame] *)
Definition parse_str : parser str :=
  n <- be_uint 1 ;;
  s <- take (N.to_nat n) ;;
  _ <- guard (utf8_ok s) ;;
  ret s.

(** string.rs:93-108 [Str::from_str] *)
Definition str_from_str (s : bytes) : option str :=
  if 255 <? len s then None else Some s.

(** ** primitives/mapping.rs *)

(** mapping.rs:32-38 [Mapping] *)
Notation mapping := (list N * list N)%type (only parsing).

(** mapping.rs:53-67 [Mapping::serialize] *)
Definition ser_mapping (m : mapping) : bytes :=
  ser_str (fst m) ++ [61] ++ ser_str (snd m) ++ [59].

(** mapping.rs:70-77 [Mapping::parse_frame] *)
Definition parse_mapping : parser mapping :=
  k <- parse_str ;;
  _ <- be_uint 1 ;;
  v <- parse_str ;;
  _ <- be_uint 1 ;;
  ret (k, v).

(** mapping.rs:110-112 [serialized_len] *)
Definition mapping_len (m : mapping) : N := (len (fst m) + 1) + (len (snd m) + 1) + 2.

(** mapping.rs:88-94, the [while] loop.  The fuel stands for the loop's own termination
    argument (every iteration consumes input); running out is [None] and is shown not to
    happen. *)
Fixpoint parse_mappings (fuel : nat) (left : N) (acc : list mapping) : parser (list mapping) :=
  fun i =>
    if left =? 0 then Some (acc, i)
    else match fuel with
         | O => None
         | S f =>
             match parse_mapping i with
             | None => None
             | Some (m, r) => parse_mappings f (left - mapping_len m mod 65536) (acc ++ [m]) r
             end
         end.

(** mapping.rs:80-97 [Mapping::parse_multi_frame] *)
Definition parse_multi : parser (list mapping) := fun i =>
  match i with
  | [] => Some ([], [])
  | _ => (n <- be_uint 2 ;; fun r => parse_mappings (length r) n [] r) i
  end.

(** Lexicographic comparison of strings ([str::cmp]). *)
Fixpoint scmp (a b : bytes) : comparison :=
  match a, b with
  | [], [] => Eq
  | [], _ => Lt
  | _, [] => Gt
  | x :: a', y :: b' => match x ?= y with Eq => scmp a' b' | c => c end
  end.

(** [HashMap<Str, Str>]: association list kept sorted by key; [insert] replaces. *)
Fixpoint minsert (k v : str) (m : list mapping) : list mapping :=
  match m with
  | [] => [(k, v)]
  | (k', v') :: t =>
      match scmp k k' with
      | Lt => (k, v) :: m
      | Eq => (k, v) :: t
      | Gt => (k', v') :: minsert k v t
      end
  end.
Fixpoint mget (k : str) (m : list mapping) : option str :=
  match m with
  | [] => None
  | (k', v') :: t => if beq k k' then Some v' else mget k t
  end.

(** mapping.rs:115-117 [into_hashmap]: later entries replace earlier ones. *)
Definition into_hashmap (l : list mapping) : list mapping :=
  fold_left (fun m kv => minsert (fst kv) (snd kv) m) l [].

(** ** primitives/destination.rs *)
Record destination : Type := mkDest {
  d_hash : bytes;       (* identity_hash; the id is its base64 *)
  d_serialized : bytes;
  d_key : vkey
}.

Section WithExt.
Variable e : ext.

Definition slice (a b : nat) (l : bytes) : bytes := firstn (b - a) (skipn a l).

(** destination.rs:126-155 [Destination::new]: [padding] are the 352 random bytes. *)
Definition dest_new (padding key : bytes) : destination :=
  let s := padding ++ key ++ be_bytes 1 5 ++ be_bytes 2 4 ++ be_bytes 2 7 ++ be_bytes 2 0 in
  mkDest (sha256 e s) s (Ed25519 key).

(** destination.rs:177-229, the choice of key and length. *)
Definition dest_key (initial : bytes) (kind clen : N) : parser (vkey * nat) :=
  if kind =? 0 then
    _ <- guard (dsa_valid e (slice 256 384 initial)) ;;
    ret (Dsa (slice 256 384 initial), 387%nat)
  else if (kind =? 5) && (clen =? 4) then
    sk <- be_uint 2 ;;
    _ <- be_uint 2 ;;
    if sk =? 7 then
      _ <- guard (ed_valid e (slice 352 384 initial)) ;;
      ret (Ed25519 (slice 352 384 initial), 391%nat)
    else if sk =? 1 then
      _ <- guard (p256_valid e (slice 320 384 initial)) ;;
      ret (P256 (slice 320 384 initial), 391%nat)
    else fail
  else fail.

(** destination.rs:158-243 [Destination::parse_frame] *)
Definition parse_dest : parser destination := fun i =>
  if (length i <? 387)%nat then None
  else
    (initial <- take 384 ;;
     kind <- be_uint 1 ;;
     clen <- be_uint 2 ;;
     '(k, dl) <- dest_key initial kind clen ;;
     ret (mkDest (sha256 e (firstn dl i)) (firstn dl i) k)) i.

(** destination.rs:251-253 [serialize] *)
Definition ser_dest (d : destination) : bytes := d_serialized d.

(** destination.rs:256-268 [serialized_len] *)
Definition dest_len (d : destination) : nat :=
  (32 + 320 + 32 + 1 + 2 + match d_key d with Dsa _ => 0 | _ => 4 end)%nat.

(** ** primitives/router_identity.rs *)
Record router_identity : Type := mkRi {
  ri_hash : bytes;
  ri_padding : bytes;
  ri_signing : bytes;   (* always ed25519 *)
  ri_static : bytes     (* always x25519 *)
}.

(** router_identity.rs:236-248 [serialize] *)
Definition ser_ri_fields (st pad sg : bytes) : bytes :=
  st ++ pad ++ sg ++ be_bytes 1 5 ++ be_bytes 2 4 ++ be_bytes 2 7 ++ be_bytes 2 4.
Definition ser_ri (r : router_identity) : bytes :=
  ser_ri_fields (ri_static r) (ri_padding r) (ri_signing r).

(** router_identity.rs:118-150 [from_keys]: [padding] are the 320 random bytes. *)
Definition ri_from_keys (static_priv signing_priv padding : bytes) : router_identity :=
  let st := x_public e static_priv in
  let sg := ed_public e signing_priv in
  mkRi (sha256 e (ser_ri_fields st padding sg)) padding sg st.

(** router_identity.rs:153-227 [parse_frame].  [StaticPublicKey::from_bytes] accepts every
    32-byte string (crypto/mod.rs:96-100). *)
Definition parse_ri : parser router_identity := fun i =>
  if (length i <? 391)%nat then None
  else
    (initial <- take 384 ;;
     ct <- be_uint 1 ;;
     cl <- be_uint 2 ;;
     sk <- be_uint 2 ;;
     pk <- be_uint 2 ;;
     _ <- guard ((ct =? 5) && (cl =? 4)) ;;
     _ <- guard (pk =? 4) ;;
     _ <- guard ((sk =? 7) && ed_valid e (slice 352 384 initial)) ;;
     ret (mkRi (sha256 e (firstn 391 i)) (slice 32 352 initial) (slice 352 384 initial)
            (slice 0 32 initial))) i.

(** ** primitives/router_address.rs *)
Inductive transport : Type := Ntcp2 | Ssu2.

(** [str::parse::<u8/u16>]: optional '+', then decimal digits, no overflow. *)
Fixpoint dec_digits (max acc : N) (l : bytes) : option N :=
  match l with
  | [] => Some acc
  | d :: t =>
      if rng 48 57 d then
        let v := acc * 10 + (d - 48) in
        if max <? v then None else dec_digits max v t
      else None
  end.
Definition parse_dec (max : N) (l : bytes) : option N :=
  match l with
  | [] => None
  | 43 :: [] => None
  | 43 :: t => dec_digits max 0 t
  | _ => dec_digits max 0 l
  end.

Fixpoint starts_with (p l : bytes) : bool :=
  match p, l with
  | [], _ => true
  | x :: p', y :: l' => (x =? y) && starts_with p' l'
  | _, [] => false
  end.

Definition s_ssu : bytes := [83; 83; 85].
Definition s_ssu2 : bytes := [83; 83; 85; 50].
Definition s_ntcp2 : bytes := [78; 84; 67; 80; 50].
Definition s_host : bytes := [104; 111; 115; 116].
Definition s_port : bytes := [112; 111; 114; 116].
Definition s_caps : bytes := [99; 97; 112; 115].
Definition s_netid : bytes := [110; 101; 116; 73; 100].

(** router_address.rs:48-62 [TransportKind::try_from] *)
Definition transport_of (s : str) : option transport :=
  if starts_with s_ssu s then Some Ssu2
  else if starts_with s_ntcp2 s then Some Ntcp2
  else None.

(** router_address.rs:66-71 [TransportKind::serialize] *)
Definition ser_transport (t : transport) : bytes :=
  ser_str (match t with Ntcp2 => s_ntcp2 | Ssu2 => s_ssu2 end).

(** router_address.rs:76-91 [RouterAddress] *)
Record router_address : Type := mkRa {
  ra_cost : N;
  ra_expires : N;
  ra_transport : transport;
  ra_options : list mapping;
  ra_socket : option (bytes * N)
}.

(** router_address.rs:202-218 *)
Definition socket_of (opts : list mapping) : option (bytes * N) :=
  match mget s_host opts, mget s_port opts with
  | Some h, Some p =>
      match parse_ip e h, parse_dec 65535 p with
      | Some h', Some p' => Some (h', p')
      | _, _ => None
      end
  | _, _ => None
  end.

(** router_address.rs:196-231 [RouterAddress::parse_frame]; date.rs:42-46 *)
Definition parse_ra : parser router_address :=
  cost <- be_uint 1 ;;
  expires <- be_uint 8 ;;
  t <- parse_str ;;
  opts <- parse_multi ;;
  match transport_of t with
  | Some k =>
      ret (mkRa cost expires k (into_hashmap opts) (socket_of (into_hashmap opts)))
  | None => fail
  end.

(** Serialized options: router_address.rs:240-248 and router_info.rs:249-257 (sorted by key;
    the map is kept sorted here). *)
Definition ser_options (m : list mapping) : bytes := flat_map ser_mapping m.

(** router_address.rs:239-260 [RouterAddress::serialize] *)
Definition ser_ra (a : router_address) : bytes :=
  be_bytes 1 (ra_cost a) ++ be_bytes 8 (ra_expires a) ++ ser_transport (ra_transport a) ++
  be_bytes 2 (len (ser_options (ra_options a))) ++ ser_options (ra_options a).

(** ** primitives/router_info.rs, capabilities.rs *)
Record caps : Type := mkCaps {
  c_raw : str; c_floodfill : bool; c_bandwidth : option N; c_usable : bool; c_reachable : bool
}.
Definition has (c : N) (s : str) : bool := existsb (N.eqb c) s.

(** capabilities.rs:50-80 [Bandwidth::parse]: first of K L M N O P X that occurs. *)
Definition bandwidth_of (s : str) : option N := find (fun c => has c s) [75;76;77;78;79;80;88].

(** capabilities.rs:112-125 [Capabilities::parse] *)
Definition parse_caps (s : str) : caps :=
  mkCaps s (has 102 s) (bandwidth_of s) (negb (has 69 s || has 71 s))
    (negb (has 85 s || has 72 s)).

(** capabilities.rs:135-149 *)
Definition is_fast (c : caps) : bool :=
  match c_bandwidth c with Some b => has b [79; 80; 88] | None => false end.
Definition is_standard (c : caps) : bool :=
  match c_bandwidth c with Some b => has b [75; 76; 77; 78] | None => false end.

(** router_info.rs:44-62; [addresses : HashMap<TransportKind, _>] has two possible keys. *)
Record router_info : Type := mkRinfo {
  rf_identity : router_identity;
  rf_published : N;
  rf_ntcp2 : option router_address;
  rf_ssu2 : option router_address;
  rf_options : list mapping;
  rf_caps : caps;
  rf_net_id : N
}.

(** router_info.rs:146-155: keep the first address of a kind unless it had no socket
    address. *)
Definition upd_addr (old : option router_address) (a : router_address) : option router_address :=
  match old with
  | None => Some a
  | Some o => match ra_socket o with None => Some a | Some _ => Some o end
  end.
Definition add_addr (a : router_address) (m : option router_address * option router_address)
  : option router_address * option router_address :=
  match ra_transport a with
  | Ntcp2 => (upd_addr (fst m) a, snd m)
  | Ssu2 => (fst m, upd_addr (snd m) a)
  end.

(** router_info.rs:136-239 [RouterInfo::parse_frame].  [verify] on an Ed25519 key first
    checks that the signature (here: all remaining bytes) is 64 bytes long
    (crypto/mod.rs:380). *)
Definition parse_rinfo : parser router_info := fun i =>
  (id <- parse_ri ;;
   published <- be_uint 8 ;;
   n <- be_uint 1 ;;
   addrs <- many (N.to_nat n) parse_ra ;;
   _ <- be_uint 1 ;;
   opts <- parse_multi ;;
   let m := into_hashmap opts in
   match mget s_caps m with
   | None => fail
   | Some c =>
       match mget s_netid m with
       | None => fail
       | Some nid =>
           match parse_dec 255 nid with
           | None => fail
           | Some net =>
               fun rest =>
                 if (length rest =? 64)%nat &&
                    verify e (Ed25519 (ri_signing id)) (firstn (length i - 64) i) rest
                 then
                   let ad := fold_left (fun m a => add_addr a m) addrs (None, None) in
                   Some (mkRinfo id published (fst ad) (snd ad) m (parse_caps c) net, rest)
                 else None
           end
       end
   end) i.

(** router_info.rs:242-296 [RouterInfo::serialize]; [None] is the panic at 285. *)
Definition ser_rinfo_body (r : router_info) : option bytes :=
  let addrs :=
    match rf_ntcp2 r, rf_ssu2 r with
    | Some a, Some b => Some (be_bytes 1 2 ++ ser_ra a ++ ser_ra b)
    | Some a, None | None, Some a => Some (be_bytes 1 1 ++ ser_ra a)
    | None, None => None
    end in
  match addrs with
  | None => None
  | Some ad =>
      Some (ser_ri (rf_identity r) ++ be_bytes 8 (rf_published r) ++ ad ++ be_bytes 1 0 ++
            be_bytes 2 (len (ser_options (rf_options r))) ++ ser_options (rf_options r))
  end.
Definition ser_rinfo (priv : bytes) (r : router_info) : option bytes :=
  match ser_rinfo_body r with
  | Some b => Some (b ++ ed_sign e priv b)
  | None => None
  end.

(** ** primitives/offline_signature.rs:43-102 *)
Definition parse_offline (key : vkey) : parser vkey := fun i =>
  (_ <- be_uint 4 ;;
   kind <- be_uint 2 ;;
   '(k, kl) <- (if kind =? 7 then
                  b <- take 32 ;; _ <- guard (ed_valid e b) ;; ret (Ed25519 b, 32%nat)
                else if kind =? 1 then
                  b <- take 64 ;; _ <- guard (p256_valid e b) ;; ret (P256 b, 64%nat)
                else fail) ;;
   sg <- take (signature_len k) ;;
   _ <- guard (verify e key (firstn (6 + kl) i) sg) ;;
   ret k) i.

(** ** primitives/lease_set.rs *)
(** lease_set.rs:45-61 *)
Record ls_header : Type := mkLsh {
  h_dest : destination;
  h_expires : N;
  h_offline : option vkey;
  h_published : N;
  h_unpublished : bool
}.

(** lease_set.rs:66-100 [LeaseSet2Header::parse_frame]; [saturating_add] on u32. *)
Definition parse_lsh : parser ls_header :=
  d <- parse_dest ;;
  published <- be_uint 4 ;;
  expires <- be_uint 2 ;;
  flags <- be_uint 2 ;;
  let exp := N.min (published + expires) (2 ^ 32 - 1) in
  let unp := N.testbit flags 1 in
  if N.testbit flags 0 then
    k <- parse_offline (d_key d) ;; ret (mkLsh d exp (Some k) published unp)
  else ret (mkLsh d exp None published unp).

(** lease_set.rs:109-122 [serialize]; UNPUBLISHED = 1 << 1. *)
Definition ser_lsh (h : ls_header) : bytes :=
  ser_dest (h_dest h) ++ be_bytes 4 (h_published h) ++ be_bytes 2 (h_expires h) ++
  be_bytes 2 (if h_unpublished h then 2 else 0).

(** lease_set.rs:133-142 [Lease]; [expires : Duration] in milliseconds. *)
Record lease : Type := mkLease { l_router : bytes; l_tunnel : N; l_expires_ms : N }.

(** lease_set.rs:158-171 *)
Definition parse_lease2 : parser lease :=
  r <- take 32 ;; t <- be_uint 4 ;; x <- be_uint 4 ;; ret (mkLease r t (x * 1000)).
(** lease_set.rs:176-189 *)
Definition parse_lease : parser lease :=
  r <- take 32 ;; t <- be_uint 4 ;; x <- be_uint 8 ;; ret (mkLease r t x).
(** lease_set.rs:204-212 *)
Definition ser_lease (l : lease) : bytes :=
  l_router l ++ be_bytes 4 (l_tunnel l) ++ be_bytes 8 (l_expires_ms l).
(** lease_set.rs:215-223 *)
Definition ser_lease2 (l : lease) : bytes :=
  l_router l ++ be_bytes 4 (l_tunnel l) ++ be_bytes 4 (l_expires_ms l / 1000).

(** lease_set.rs:246-256 *)
Record lease_set : Type := mkLs { ls_header' : ls_header; ls_keys : list bytes;
                                  ls_leases : list lease }.

(** lease_set.rs:267-302: one public key entry; [None] inside: kind other than x25519,
    skipped. *)
Definition parse_pubkey : parser (option bytes) :=
  t <- be_uint 2 ;;
  l <- be_uint 2 ;;
  k <- take (N.to_nat l) ;;
  if t =? 4 then _ <- guard (length k =? 32)%nat ;; ret (Some k) else ret None.

Definition somes {A} (l : list (option A)) : list A :=
  flat_map (fun x => match x with Some a => [a] | None => [] end) l.

(** lease_set.rs:262-397 [LeaseSet2::parse_frame] *)
Definition parse_ls : parser lease_set := fun i =>
  (h <- parse_lsh ;;
   _ <- parse_multi ;;
   nk <- be_uint 1 ;;
   ks <- many (N.to_nat nk) parse_pubkey ;;
   _ <- guard (match somes ks with [] => false | _ => true end) ;;
   nl <- be_uint 1 ;;
   _ <- guard (negb ((16 <? nl) || (nl =? 0))) ;;
   ls <- many (N.to_nat nl) parse_lease2 ;;
   fun r =>
     (sg <- take (signature_len (d_key (h_dest h))) ;;
      _ <- guard (verify e
                    (match h_offline h with None => d_key (h_dest h) | Some k => k end)
                    (3 :: firstn (length i - length r) i) sg) ;;
      ret (mkLs h (somes ks) ls)) r) i.

(** lease_set.rs:415-439 [LeaseSet2::serialize] *)
Definition ser_ls_body (l : lease_set) : bytes :=
  ser_lsh (ls_header' l) ++ be_bytes 2 0 ++ be_bytes 1 (N.of_nat (length (ls_keys l))) ++
  flat_map (fun k => be_bytes 2 4 ++ be_bytes 2 32 ++ k) (ls_keys l) ++
  be_bytes 1 (N.of_nat (length (ls_leases l))) ++ flat_map ser_lease2 (ls_leases l).
Definition ser_ls (priv : bytes) (l : lease_set) : bytes :=
  ser_ls_body l ++ ed_sign e priv (3 :: ser_ls_body l).

(** lease_set.rs:442-447 [is_expired]; [now] in milliseconds. *)
Definition ls_expired (now_ms : N) (l : lease_set) : bool :=
  (h_expires (ls_header' l) <? (now_ms / 1000) mod 2 ^ 32)
  || forallb (fun x => l_expires_ms x <? now_ms) (ls_leases l).

(** lease_set.rs:450-461 [expires], seconds: the earliest of the header's and the leases'. *)
Definition ls_expires (l : lease_set) : N :=
  fold_left (fun a x => N.min a ((l_expires_ms x / 1000) mod 2 ^ 32)) (ls_leases l)
    (h_expires (ls_header' l)).
End WithExt.
