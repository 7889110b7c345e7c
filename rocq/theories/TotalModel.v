(** Parsers with every place that can panic written out.

    The parser models elsewhere (PrimModel, I2npModel, GarlicModel, EncModel) have two outcomes:
    a value or a refusal.  Here the same functions of /repo/emissary-core/src are modelled again
    with a third outcome, [Panic], wherever the code takes a slice by index, subtracts lengths,
    converts a slice into an array with [expect], or marks an arm [unreachable!]. *)
From Coq Require Import List NArith Bool Arith.
From Verif Require Ssu2Model Ntcp2Model.
From Verif Require Import Bytes PrimModel I2npModel GarlicModel EncModel.
Import ListNotations.
Open Scope N_scope.

(** What a call ends with: a value and the rest of the input, an error, or a panic. *)
Inductive out (A : Type) : Type := Good (a : A) (rest : bytes) | Refuse | Panic.
Arguments Good {A} a rest. Arguments Refuse {A}. Arguments Panic {A}.

Definition cparser (A : Type) : Type := bytes -> out A.
Definition cret {A} (a : A) : cparser A := fun i => Good a i.
Definition crefuse {A} : cparser A := fun _ => Refuse.
Definition cpanic {A} : cparser A := fun _ => Panic.
Definition cbind {A B} (p : cparser A) (f : A -> cparser B) : cparser B := fun i =>
  match p i with Good a r => f a r | Refuse => Refuse | Panic => Panic end.
(** A nom combinator, or a function made of nom combinators only: cannot panic. *)
Definition lift {A} (p : parser A) : cparser A := fun i =>
  match p i with Some (a, r) => Good a r | None => Refuse end.
(** [p(input).expect(..)] *)
Definition expect {A} (p : parser A) : cparser A := fun i =>
  match p i with Some (a, r) => Good a r | None => Panic end.
Declare Scope cparser_scope.
Notation "x <~ p ;; q" := (cbind p (fun x => q))
  (at level 61, p at next level, right associativity) : cparser_scope.
Notation "' x <~ p ;; q" := (cbind p (fun x => q))
  (at level 61, x pattern, p at next level, right associativity) : cparser_scope.
Open Scope cparser_scope.

(** [&l[a..b]] *)
Definition cslice (a b : nat) (l : bytes) : cparser bytes :=
  if ((a <=? b) && (b <=? length l))%nat then cret (slice a b l) else cpanic.
(** [a - b] on usize; an underflow panics (or wraps round, and then the slice panics). *)
Definition csub (a b : nat) : cparser nat := if (b <=? a)%nat then cret (a - b)%nat else cpanic.
(** [TryInto::<[u8; n]>::try_into(l).expect(..)], [GenericArray::from(l)] *)
Definition carray (n : nat) (l : bytes) : cparser bytes :=
  if (length l =? n)%nat then cret l else cpanic.
Definition cguard (b : bool) : cparser unit := if b then cret tt else crefuse.
(** run [p] on another string, keep going on the current one *)
Definition con {A} (s : bytes) (p : cparser A) : cparser A := fun i =>
  match p s with Good a _ => Good a i | Refuse => Refuse | Panic => Panic end.

(** ** crypto/dsa.rs *)
Fixpoint strip (l : bytes) : bytes :=
  match l with 0 :: t => strip t | _ => l end.
(** [BigUint::from_bytes_be(l).to_bytes_be()]: no leading zeros; zero is one zero byte *)
Definition big_bytes (l : bytes) : bytes := match strip l with [] => [0] | s => s end.
(** dsa.rs:66-82 [rectify] *)
Definition rectify (l : bytes) (n : nat) : cparser bytes :=
  let b := big_bytes l in
  if (length b =? n)%nat then cret b
  else if (n <? length b)%nat then cpanic
  else if (length b =? 0)%nat then cret (repeat 0 n)
  else cret (repeat 0 (n - length b) ++ b).
(** dsa.rs:103-112 [DsaSignature::from_bytes] *)
Definition dsa_signature (s : bytes) : cparser (bytes * bytes) :=
  if (length s <? 40)%nat then crefuse
  else (r <~ cslice 0 20 s ;; q <~ cslice 20 40 s ;; cret (r, q)).

Section WithExt.
Variable e : ext.

(** ** primitives/destination.rs *)
(** destination.rs:177-229 *)
Definition c_dest_key (initial : bytes) (kind clen : N) : cparser (vkey * nat) :=
  if kind =? 0 then
    (s <~ cslice (384 - 128) 384 initial ;;
     k <~ rectify s 128 ;;
     _ <~ cguard (dsa_valid e s) ;;
     cret (Dsa k, 387%nat))
  else if (kind =? 5) && (clen =? 4) then
    (sk <~ lift (be_uint 2) ;;
     _ <~ lift (be_uint 2) ;;
     if sk =? 7 then
       (s <~ cslice (384 - 32) 384 initial ;; k <~ carray 32 s ;;
        _ <~ cguard (ed_valid e k) ;; cret (Ed25519 k, 391%nat))
     else if sk =? 1 then
       (s <~ cslice (384 - 64) 384 initial ;; k <~ carray 64 s ;;
        _ <~ cguard (p256_valid e k) ;; cret (P256 k, 391%nat))
     else crefuse)
  else crefuse.

(** destination.rs:158-243 [Destination::parse_frame] *)
Definition c_dest : cparser destination := fun i =>
  if (length i <? 387)%nat then Refuse
  else
    (n <~ csub (length i) 384 ;;
     initial <~ lift (take 384) ;;
     rest <~ lift (take n) ;;
     fun _ =>
       (kind <~ lift (be_uint 1) ;;
        clen <~ lift (be_uint 2) ;;
        '(k, dl) <~ c_dest_key initial kind clen ;;
        h <~ cslice 0 dl i ;;
        s <~ cslice 0 dl i ;;
        cret (mkDest (sha256 e h) s k)) rest) i.

(** ** primitives/router_identity.rs:153-227 *)
Definition c_ri : cparser router_identity := fun i =>
  if (length i <? 391)%nat then Refuse
  else
    (n <~ csub (length i) 384 ;;
     initial <~ lift (take 384) ;;
     rest <~ lift (take n) ;;
     fun _ =>
       (ct <~ lift (be_uint 1) ;;
        cl <~ lift (be_uint 2) ;;
        sk <~ lift (be_uint 2) ;;
        pk <~ lift (be_uint 2) ;;
        _ <~ cguard ((ct =? 5) && (cl =? 4)) ;;
        st <~ (if pk =? 4 then
                 (s <~ cslice 0 32 initial ;;
                  (** crypto/mod.rs:96-100 [StaticPublicKey::from_bytes] *)
                  _ <~ cguard (length s =? 32)%nat ;; cret s)
               else crefuse) ;;
        sg <~ (if sk =? 7 then
                 (s <~ cslice (384 - 32) 384 initial ;; k <~ carray 32 s ;;
                  _ <~ cguard (ed_valid e k) ;; cret k)
               else crefuse) ;;
        h <~ cslice 0 391 i ;;
        pad <~ cslice 32 352 initial ;;
        cret (mkRi (sha256 e h) pad sg st)) rest) i.

(** ** primitives/router_info.rs:136-239 *)
Definition c_rinfo : cparser router_info := fun i =>
  (id <~ c_ri ;;
   published <~ lift (be_uint 8) ;;
   n <~ lift (be_uint 1) ;;
   addrs <~ lift (many (N.to_nat n) (parse_ra e)) ;;
   _ <~ lift (be_uint 1) ;;
   opts <~ lift parse_multi ;;
   let m := into_hashmap opts in
   match mget s_caps m with
   | None => crefuse
   | Some c =>
       match mget s_netid m with
       | None => crefuse
       | Some nid =>
           match parse_dec 255 nid with
           | None => crefuse
           | Some net =>
               k <~ csub (length i) 64 ;;
               signed <~ cslice 0 k i ;;
               fun rest =>
                 if (length rest =? 64)%nat && verify e (Ed25519 (ri_signing id)) signed rest
                 then
                   let ad := fold_left (fun m a => add_addr a m) addrs (None, None) in
                   Good (mkRinfo id published (fst ad) (snd ad) m (parse_caps c) net) rest
                 else Refuse
           end
       end
   end) i.

(** ** primitives/offline_signature.rs:43-102 *)
Definition c_offline (key : vkey) : cparser vkey := fun i =>
  (_ <~ lift (be_uint 4) ;;
   kind <~ lift (be_uint 2) ;;
   '(k, kl) <~ (if kind =? 7 then
                  (b <~ lift (take 32) ;; a <~ carray 32 b ;;
                   _ <~ cguard (ed_valid e a) ;; cret (Ed25519 a, 32%nat))
                else if kind =? 1 then
                  (b <~ lift (take 64) ;; a <~ carray 64 b ;;
                   _ <~ cguard (p256_valid e a) ;; cret (P256 a, 64%nat))
                else crefuse) ;;
   sg <~ lift (take (signature_len k)) ;;
   signed <~ cslice 0 (6 + kl) i ;;
   _ <~ cguard (verify e key signed sg) ;;
   cret k) i.

(** ** primitives/lease_set.rs *)
(** lease_set.rs:66-100 *)
Definition c_lsh : cparser ls_header :=
  d <~ c_dest ;;
  published <~ lift (be_uint 4) ;;
  expires <~ lift (be_uint 2) ;;
  flags <~ lift (be_uint 2) ;;
  let exp := N.min (published + expires) (2 ^ 32 - 1) in
  let unp := N.testbit flags 1 in
  if N.testbit flags 0 then
    (k <~ c_offline (d_key d) ;; cret (mkLsh d exp (Some k) published unp))
  else cret (mkLsh d exp None published unp).

(** lease_set.rs:262-397 *)
Definition c_ls : cparser lease_set := fun i =>
  (h <~ c_lsh ;;
   _ <~ lift parse_multi ;;
   nk <~ lift (be_uint 1) ;;
   ks <~ lift (many (N.to_nat nk) parse_pubkey) ;;
   _ <~ cguard (match somes ks with [] => false | _ => true end) ;;
   nl <~ lift (be_uint 1) ;;
   _ <~ cguard (negb ((16 <? nl) || (nl =? 0))) ;;
   ls <~ lift (many (N.to_nat nl) parse_lease2) ;;
   sg <~ lift (take (signature_len (d_key (h_dest h)))) ;;
   fun rest =>
     (a <~ csub (length i) (length rest) ;;
      b <~ csub a (signature_len (d_key (h_dest h))) ;;
      body <~ cslice 0 b i ;;
      _ <~ cguard (verify e (match h_offline h with None => d_key (h_dest h) | Some k => k end)
                     (3 :: body) sg) ;;
      cret (mkLs h (somes ks) ls)) rest) i.

(** ** i2np/database/store.rs *)
Variable gunzip : bytes -> option bytes.

(** store.rs:219-307 [DatabaseStore::parse_frame] *)
Definition c_store : cparser db_store :=
  key <~ lift (take 32) ;;
  tb <~ lift (be_uint 1) ;;
  token <~ lift (be_uint 4) ;;
  match store_of tb with
  | None => crefuse
  | Some ty =>
      reply <~ (if token =? 0 then cret SrNone
                else (tunnel <~ lift (be_uint 4) ;;
                      router <~ lift (take 32) ;;
                      cret (if tunnel =? 0 then SrRouter token router
                            else SrTunnel token tunnel router))) ;;
      match ty with
      | StRouterInfo =>
          size <~ lift (be_uint 2) ;;
          z <~ lift (take (N.to_nat size)) ;;
          match gunzip z with
          | None => crefuse
          | Some data => (ri <~ con data c_rinfo ;; cret (mkStore key (SpRouterInfo ri) reply))
          end
      | StLeaseSet2 => (ls <~ c_ls ;; cret (mkStore key (SpLeaseSet2 ls) reply))
      | _ => crefuse
      end
  end.

(** store.rs:315-338 [extraw_raw_data_payload] *)
Definition c_raw (router_info : bool) : cparser bytes :=
  _ <~ expect (take 32) ;;
  _ <~ expect (be_uint 1) ;;
  token <~ expect (be_uint 4) ;;
  _ <~ (if token =? 0 then cret tt
        else (_ <~ expect (be_uint 4) ;; _ <~ expect (take 32) ;; cret tt)) ;;
  if router_info then (size <~ expect (be_uint 2) ;; expect (take (N.to_nat size)))
  else fun r => Good r r.

(** netdb/mod.rs:474, 614, 1071, 1090: a store that was accepted has its payload extracted,
    with the function that belongs to its kind. *)
Definition store_and_raw : cparser (db_store * bytes) := fun i =>
  (s <~ c_store ;;
   raw <~ con i (c_raw (match st_payload s with SpRouterInfo _ => true | SpLeaseSet2 _ => false end)) ;;
   cret (s, raw)) i.

(** ** i2np/garlic.rs:545-581 [parse_next_key] *)
Definition c_next_key : cparser block :=
  _ <~ lift (be_uint 2) ;;
  flag <~ lift (be_uint 1) ;;
  id <~ lift (be_uint 2) ;;
  key <~ (if N.land flag 1 =? 0 then cret None
          else if N.land flag 1 =? 1 then
            (k <~ lift (take 32) ;; a <~ carray 32 k ;; cret (Some a))
          else cpanic) ;;
  let d := N.land (N.shiftr flag 1) 1 in
  if d =? 1 then cret (BNextKey (ReverseKey id key))
  else if d =? 0 then cret (BNextKey (ForwardKey id key (N.land (N.shiftr flag 2) 1 =? 1)))
  else cpanic.

(** ** i2cp/payload.rs *)
(** [payload[k]] *)
Definition cindex (k : nat) (l : bytes) : cparser N :=
  if (k <? length l)%nat then cret (nth k l 0) else cpanic.
(** payload.rs:148-164 [I2cpParameters::new]; the rest of the input is not used *)
Definition c_parameters (w : bytes) : cparser (N * N * protocol) :=
  if (length w <? 10)%nat then crefuse
  else
    (s <~ cslice 4 6 w ;; s' <~ carray 2 s ;;
     d <~ cslice 6 8 w ;; d' <~ carray 2 d ;;
     b <~ cindex 9 w ;;
     match protocol_of b with
     | None => crefuse
     | Some p => cret (be_val s', be_val d', p)
     end).
(** payload.rs:111-128 [I2cpPayload::decompress] *)
Definition c_decompress (w : bytes) : cparser i2cp_payload :=
  if (length w <? 10)%nat then crefuse
  else
    (s <~ cslice 4 6 w ;; s' <~ carray 2 s ;;
     d <~ cslice 6 8 w ;; d' <~ carray 2 d ;;
     b <~ cindex 9 w ;;
     match protocol_of b with
     | None => crefuse
     | Some p => match gunzip w with
                 | None => crefuse
                 | Some x => cret (mkPayload (be_val s') (be_val d') p x)
                 end
     end).

(** ** tunnel/garlic.rs:96-130 [GarlicHandler::handle_message], up to the decryption: the
    ephemeral key and the ciphertext. *)
Definition c_tunnel_garlic (payload : bytes) : cparser (bytes * bytes) :=
  if (length payload <? 36)%nat then crefuse
  else
    (k <~ cslice 4 36 payload ;;
     (** [EphemeralPublicKey::from_bytes] refuses what is not 32 bytes long *)
     _ <~ cguard (length k =? 32)%nat ;;
     ct <~ cslice 36 (length payload) payload ;;
     cret (k, ct)).

(** ** sam/protocol/streaming/mod.rs:376-392: the packet whose signature is checked: the
    signature, the last field before the payload, is replaced by zeros.  [copy_from_slice]
    panics when the lengths differ. *)
Definition c_blank (packet : bytes) (payload_len sig_len : nat) : cparser bytes :=
  if (length packet <? payload_len + sig_len)%nat then crefuse
  else
    (a <~ csub (length packet) payload_len ;;
     start <~ csub a sig_len ;;
     old <~ cslice start (start + sig_len) packet ;;
     new <~ carray (length old) (repeat 0 sig_len) ;;
     cret (firstn start packet ++ new ++ skipn (start + sig_len) packet)).
End WithExt.

(** ** Blocks and messages that carry their own size *)
(** [a - b] on u16: with overflow checks (debug builds, /repo/Cargo.toml profile testnet) an
    underflow panics, without it wraps round. *)
Definition csub16 (checks : bool) (a b : N) : cparser N :=
  if b <=? a then cret (a - b) else if checks then cpanic else cret (a + 65536 - b).

(** i2np/mod.rs:408-431 [Message::parse_frame_short] *)
Definition c_short : cparser message :=
  size <~ lift (be_uint 2) ;;
  t <~ lift (be_uint 1) ;;
  id <~ lift (be_uint 4) ;;
  x <~ lift (be_uint 4) ;;
  _ <~ cguard (negb (size <=? 9)) ;;
  n <~ csub (N.to_nat size) 9 ;;
  p <~ lift (take n) ;;
  ty <~ lift (opt (mtype_of t)) ;;
  cret (mkMsg ty id (of_secs x) p).
(** transport/ntcp2/message.rs:270-287 [parse_router_info] *)
Definition c_ntcp2_router_info (checks : bool) : cparser Ntcp2Model.nblock :=
  size <~ lift (be_uint 2) ;;
  _ <~ cguard (negb (size =? 0)) ;;
  flag <~ lift (be_uint 1) ;;
  n <~ csub16 checks size 1 ;;
  info <~ lift (take (N.to_nat n)) ;;
  cret (Ntcp2Model.BRouterInfo (N.land flag 1 =? 1) info).
(** transport/ssu2/message.rs:477-514 [parse_router_info] *)
Definition c_ssu2_router_info (e : ext) (checks : bool) : cparser Ssu2Model.block :=
  size <~ lift (be_uint 2) ;;
  _ <~ cguard (negb (size =? 0)) ;;
  flag <~ lift (be_uint 1) ;;
  _ <~ lift (be_uint 1) ;;
  n <~ csub16 checks size 2 ;;
  info <~ lift (take (N.to_nat n)) ;;
  _ <~ cguard (N.land (N.shiftr flag 1) 1 =? 0) ;;
  r <~ con info (c_rinfo e) ;;
  cret (Ssu2Model.SRouterInfo r).

(** ** Nested calls *)
(** garlic.rs:614-636: how many calls of [parse_frame] are active at once when a block is
    read: one, and one more for every block that is skipped first. *)
Fixpoint frame_depth (fuel : nat) (i : bytes) : nat :=
  match fuel with
  | O => 1%nat
  | S f =>
      match i with
      | [] => 1%nat
      | t :: r =>
          if existsb (N.eqb t) [0; 11; 254; 7; 9; 8] then 1%nat
          else match (bind (be_uint 2) (fun size => take (N.to_nat size))) r with
               | None => 1%nat
               | Some (_, r') => S (frame_depth f r')
               end
      end
  end.
(** garlic.rs:639-651: how many calls of [parse_inner] are active at once: one for every block
    of the message. *)
Fixpoint inner_depth (fuel : nat) (i : bytes) : nat :=
  match fuel with
  | O => 1%nat
  | S f =>
      match GarlicModel.parse_block (length i) i with
      | None => 1%nat
      | Some (_, []) => 1%nat
      | Some (_, rest) => S (inner_depth f rest)
      end
  end.
