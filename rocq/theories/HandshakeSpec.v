(** What the NTCP2 handshake properties talk about. *)
From Coq Require Import List NArith Bool.
From Verif Require Import Bytes PrimModel TunnelModel TunnelSpec NoiseModel Ntcp2Model HandshakeModel.
Import ListNotations.
Open Scope N_scope.

(** What is assumed of the primitives: both ends of X25519 compute the same secret; public keys
    and SHA-256 digests are 32 bytes; ChaCha20-Poly1305 opens what it sealed and its tag is 16
    bytes; AES-CBC decryption and encryption undo each other. *)
Record primitives_ok (c : hops) : Prop := {
  p_dh : forall a b, x_dh (h_ops c) a (x_pub (h_ops c) b) = x_dh (h_ops c) b (x_pub (h_ops c) a);
  p_pub : forall k, length (x_pub (h_ops c) k) = 32%nat;
  p_sha : forall b, length (x_sha (h_ops c) b) = 32%nat;
  p_open : forall k n ad p, x_open (h_ops c) k n ad (x_seal (h_ops c) k n ad p) = Some p;
  p_seal_len : forall k n ad p, length (x_seal (h_ops c) k n ad p) = (length p + 16)%nat;
  p_open_len : forall k n ad b p, x_open (h_ops c) k n ad b = Some p -> length b = (length p + 16)%nat;
  p_aes : aes_ok (h_aes c)
}.

(** Two different inputs with the same SHA-256 digest. *)
Definition sha_collision (c : hops) : Prop :=
  exists a b, a <> b /\ x_sha (h_ops c) a = x_sha (h_ops c) b.

(** A dialing router: an IV of 16 bytes, 32 bytes of padding, a network id that is a byte, and a
    router info short enough for the 16-bit length fields of the handshake. *)
Definition dialer_ok (d : dialer) : Prop :=
  length (dl_iv d) = 16%nat /\ length (dl_padding d) = 32%nat /\ dl_net d < 256 /\
  N.of_nat (length (dl_info d)) <= 65515.
(** A listening router. *)
Definition acceptor_ok (a : acceptor) : Prop :=
  length (ac_iv a) = 16%nat /\ length (ac_padding a) = 32%nat /\ ac_net a < 256.
(** [d] dials [a] with the static key, the IV and the identity hash that [a] publishes. *)
Definition dials (c : hops) (d : dialer) (a : acceptor) : Prop :=
  dl_remote d = x_pub (h_ops c) (ac_static a) /\ dl_hash d = ac_hash a /\ dl_iv d = ac_iv a.

(** What one end sends with is what the other end receives with, in both directions. *)
Definition mirrored (x y : key_context) : Prop :=
  kc_send x = kc_recv y /\ kc_recv x = kc_send y /\
  sip_send (kc_sip x) = sip_recv (kc_sip y) /\ sip_recv (kc_sip x) = sip_send (kc_sip y).

(** ** Addresses that are not globally routable *)
(** IANA special-purpose IPv4 blocks: first address and prefix length. *)
Definition special_blocks : list (N * N) :=
  [ (v4 0 0 0 0, 32);          (* this host *)
    (v4 10 0 0 0, 8);          (* private *)
    (v4 100 64 0 0, 10);       (* carrier-grade NAT *)
    (v4 127 0 0 0, 8);         (* loopback *)
    (v4 169 254 0 0, 16);      (* link local *)
    (v4 172 16 0 0, 12);       (* private *)
    (v4 192 0 2 0, 24);        (* documentation *)
    (v4 192 168 0 0, 16);      (* private *)
    (v4 198 18 0 0, 15);       (* benchmarking *)
    (v4 198 51 100 0, 24);     (* documentation *)
    (v4 203 0 113 0, 24);      (* documentation *)
    (v4 240 0 0 0, 4) ].       (* reserved and broadcast *)
Definition in_block (x : N) (b : N * N) : Prop :=
  fst b <= x /\ x < fst b + 2 ^ (32 - snd b).
Definition special (x : N) : Prop := exists b, In b special_blocks /\ in_block x b.

(** ** The session that follows *)
(** active.rs:153-188 [Ntcp2Session::new]: how an end sends and receives. *)
Definition session_writer (k : key_context) : nwriter := nwriter_new (sip_send (kc_sip k)) (kc_send k).
Definition session_reader (k : key_context) : nreader := nreader_new (sip_recv (kc_sip k)) (kc_recv k).
