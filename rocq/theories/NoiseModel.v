(** The keys and build records of tunnel creation.

    Models /repo/emissary-core/src/tunnel/noise.rs and the parts of crypto/ it uses.

    The cryptographic primitives are the fields of [ops]: X25519, SHA-256, HMAC-SHA256,
    ChaCha20Poly1305 and the ChaCha20 key stream.  Zeroizing is left out. *)
From Coq Require Import String List NArith Bool Ascii.
From Verif Require Import Bytes PrimModel I2npModel TunnelModel.
Import ListNotations.
Open Scope N_scope.

Record ops : Type := mkOps {
  x_ext : ext;                                       (** [sha256] is crypto/sha256.rs *)
  x_pub : bytes -> bytes;                            (** crypto/mod.rs [public()] of a private key *)
  x_dh : bytes -> bytes -> bytes;                    (** [diffie_hellman]: private, public *)
  x_hmac : bytes -> bytes -> bytes;                  (** crypto/hmac.rs: key, all updates *)
  x_seal : bytes -> N -> bytes -> bytes -> bytes;    (** chachapoly.rs: key, nonce, ad, plain; with tag *)
  x_open : bytes -> N -> bytes -> bytes -> option bytes;
  x_stream : bytes -> N -> nat -> bytes              (** chachapoly.rs [ChaCha]: key, nonce, length *)
}.
Definition x_sha (c : ops) (b : bytes) : bytes := sha256 (x_ext c) b.

Definition ascii_bytes (s : string) : bytes := map N_of_ascii (list_ascii_of_string s).

(** crypto/chachapoly.rs [ChaCha::with_nonce(key, n).encrypt_ref] and [decrypt_ref]: both apply
    the key stream. *)
Fixpoint xor_bytes (a b : bytes) : bytes :=
  match a, b with
  | x :: a', y :: b' => N.lxor x y :: xor_bytes a' b'
  | _, _ => []
  end.
Definition chacha (c : ops) (key : bytes) (nonce : N) (rec : bytes) : bytes :=
  xor_bytes rec (x_stream c key nonce (length rec)).

(** noise.rs:45-66 [TunnelKeys] *)
Record keys : Type := mkKeys {
  k_garlic : option (bytes * bytes);   (** garlic_key, garlic_tag *)
  k_iv : bytes;
  k_layer : bytes;
  k_reply : bytes
}.

(** One HKDF step of noise.rs:121-127, 131-137, 153-159, 163-171: chaining key and key. *)
Definition hkdf (c : ops) (ck : bytes) (info : string) : bytes * bytes :=
  let temp := x_hmac c ck [] in
  let ck' := x_hmac c temp (ascii_bytes info ++ [1]) in
  (ck', x_hmac c temp (ck' ++ ascii_bytes info ++ [2])).

(** noise.rs:120-186 [TunnelKeys::new] *)
Definition new_keys (c : ops) (chaining_key : bytes) (r : role) : keys :=
  let '(ck1, reply) := hkdf c chaining_key "SMTunnelReplyKey" in
  let '(ck2, layer) := hkdf c ck1 "SMTunnelLayerKey" in
  match r with
  | InboundGateway | Participant => mkKeys None ck2 layer reply
  | OutboundEndpoint =>
      let '(ck3, iv) := hkdf c ck2 "TunnelLayerIVKey" in
      let '(ck4, gk) := hkdf c ck3 "RGarlicKeyAndTag" in
      mkKeys (Some (gk, firstn 8 ck4)) iv layer reply
  end.

(** noise.rs:654-671 [NoiseContext::new] *)
Definition protocol_key : bytes := ascii_bytes "Noise_N_25519_ChaChaPoly_SHA256" ++ [0].
Definition outbound_state (c : ops) : bytes := x_sha c protocol_key.
Definition inbound_state (c : ops) (pub : bytes) : bytes := x_sha c (outbound_state c ++ pub).
(** [local_key], [local_router_hash] *)
Record noise : Type := mkNoise { no_priv : bytes; no_hash : bytes }.

(** noise.rs:704-707, 726-729, 744-747: chaining key and AEAD key. *)
Definition session_keys (c : ops) (shared : bytes) : bytes * bytes :=
  let temp := x_hmac c protocol_key shared in
  let ck := x_hmac c temp [1] in
  (ck, x_hmac c temp (ck ++ [2])).

(** noise.rs:688-719 [create_outbound_session]; [eph] is the random ephemeral private key *)
Record outbound : Type := mkOutbound { o_aead : bytes; o_eph : bytes; o_state : bytes; o_keys : keys }.
Definition create_outbound (c : ops) (remote_static eph : bytes) (r : role) : outbound :=
  let state := x_sha c (x_sha c (outbound_state c ++ remote_static) ++ x_pub c eph) in
  let '(ck, aead) := session_keys c (x_dh c eph remote_static) in
  mkOutbound aead (x_pub c eph) state (new_keys c ck r).

(** noise.rs:722-737 [create_short_inbound_session], 740-755 [create_long_inbound_session] *)
Record inbound : Type := mkInbound { i_ck : bytes; i_aead : bytes; i_state : bytes }.
Definition create_inbound (c : ops) (n : noise) (remote : bytes) : inbound :=
  let '(ck, aead) := session_keys c (x_dh c (no_priv n) remote) in
  mkInbound ck aead (x_sha c (inbound_state c (x_pub c (no_priv n)) ++ remote)).

(** noise.rs:278-307, 467-495 [decrypt_build_record]: the plain record and the next state.  The
    "state is poisoned" branches are not reached: the functions are called once each, in order
    (transit/mod.rs:235-240, 300, 319, 341-344 and 484-490, 564-565, 588-589, 606). *)
Definition decrypt_record (c : ops) (s : inbound) (rec : bytes) : option (bytes * bytes) :=
  match x_open c (i_aead s) 0 (i_state s) rec with
  | None => None
  | Some plain => Some (plain, x_sha c (i_state s ++ rec))
  end.

(** [for_each] over [enumerate()] *)
Fixpoint map_from {A B} (i : nat) (f : nat -> A -> B) (l : list A) : list B :=
  match l with
  | [] => []
  | x :: t => f i x :: map_from (S i) f t
  end.

(** noise.rs:343-378 [encrypt_build_records], on the records of the payload.  The [unwrap] at 358
    fails only for a nonce of 2^64 - 1. *)
Definition encrypt_records (c : ops) (k : keys) (state : bytes) (ours : nat) (recs : list bytes) : list bytes :=
  map_from 0 (fun i r =>
    if Nat.eqb i ours then x_seal c (k_reply k) (N.of_nat i) state (firstn 202 r)
    else chacha c (k_reply k) (N.of_nat i) r) recs.

(** noise.rs:501-528 [encrypt_build_record] *)
Definition encrypt_long (c : ops) (s : inbound) (state : bytes) (rec : bytes) : bytes :=
  x_seal c (i_ck s) 0 state (firstn 512 rec).

(** noise.rs:760-800 [derive_inbound_garlic_key] and [derive_outbound_garlic_key]: AEAD key and
    associated data. *)
Definition inbound_garlic (c : ops) (n : noise) (eph : bytes) : bytes * bytes :=
  (snd (session_keys c (x_dh c (no_priv n) eph)),
   x_sha c (inbound_state c (x_pub c (no_priv n)) ++ eph)).
Definition outbound_garlic (c : ops) (remote eph : bytes) : bytes * bytes :=
  (snd (session_keys c (x_dh c eph remote)),
   x_sha c (x_sha c (outbound_state c ++ remote) ++ x_pub c eph)).
