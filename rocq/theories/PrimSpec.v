(** What the properties of the I2P primitive structures talk about. *)
From Coq Require Import List NArith Bool Sorted.
From Verif Require Import Bytes PrimModel.
Import ListNotations.
Open Scope N_scope.

(** UTF-8 encoding of a Unicode scalar value (RFC 3629). *)
Definition scalar (c : N) : Prop := c < 55296 \/ (57344 <= c < 1114112).
Definition utf8_enc (c : N) : list N :=
  if c <? 128 then [c]
  else if c <? 2048 then [192 + c / 64; 128 + c mod 64]
  else if c <? 65536 then [224 + c / 4096; 128 + (c / 64) mod 64; 128 + c mod 64]
  else [240 + c / 262144; 128 + (c / 4096) mod 64; 128 + (c / 64) mod 64; 128 + c mod 64].
Definition text (cs : list N) : list N := flat_map utf8_enc cs.

(** A string that fits the one-byte length: at most 255 bytes of UTF-8 text. *)
Definition str_ok (s : list N) : Prop :=
  (exists cs, Forall scalar cs /\ s = text cs) /\ (length s <= 255)%nat.

Definition map_ok (m : list mapping) : Prop :=
  Forall (fun kv => str_ok (fst kv) /\ str_ok (snd kv)) m.

(** Strictly increasing keys: what a map without duplicate keys looks like when its entries
    are listed in key order. *)
Definition key_lt (a b : mapping) : Prop := scmp (fst a) (fst b) = Lt.
Definition sorted_map (m : list mapping) : Prop := StronglySorted key_lt m.

(** Size in bytes of the entries of a map. *)
Definition map_size (m : list mapping) : nat :=
  fold_right (fun kv a => (length (fst kv) + length (snd kv) + 4 + a)%nat) 0%nat m.

(** The laws of the external signature scheme that the round trips use. *)
Record ext_ok (e : ext) : Prop := {
  pub_len : forall k, length (ed_public e k) = 32%nat;
  pub_valid : forall k, ed_valid e (ed_public e k) = true;
  xpub_len : forall k, length (x_public e k) = 32%nat;
  sign_len : forall k m, length (ed_sign e k m) = 64%nat;
  sign_verify : forall k m, verify e (Ed25519 (ed_public e k)) m (ed_sign e k m) = true
}.

(** A destination that is either freshly made from a key pair or was parsed. *)
Definition dest_ok (e : ext) (d : destination) : Prop :=
  forall r, parse_dest e (ser_dest d ++ r) = Some (d, r).

(** What a lease set looks like after a trip over the wire: the expiry becomes absolute and
    lease expiries lose their milliseconds. *)
Definition on_the_wire (l : lease_set) : lease_set :=
  let h := ls_header' l in
  mkLs (mkLsh (h_dest h) (N.min (h_published h + h_expires h) 4294967295) None
          (h_published h) (h_unpublished h))
       (ls_keys l)
       (map (fun x => mkLease (l_router x) (l_tunnel x) (l_expires_ms x / 1000 * 1000))
          (ls_leases l)).

Definition lease_ok (l : lease) : Prop :=
  length (l_router l) = 32%nat /\ l_tunnel l < 2 ^ 32 /\ l_expires_ms l / 1000 < 2 ^ 32.

Definition ls_ok (e : ext) (priv : list N) (l : lease_set) : Prop :=
  dest_ok e (h_dest (ls_header' l)) /\
  d_key (h_dest (ls_header' l)) = Ed25519 (ed_public e priv) /\
  h_expires (ls_header' l) < 2 ^ 16 /\ h_published (ls_header' l) < 2 ^ 32 /\
  (1 <= length (ls_keys l) <= 255)%nat /\ Forall (fun k => length k = 32%nat) (ls_keys l) /\
  (1 <= length (ls_leases l) <= 16)%nat /\ Forall lease_ok (ls_leases l).

(** Router infos. *)
Definition ra_ok (t : transport) (a : router_address) : Prop :=
  ra_transport a = t /\ ra_cost a < 256 /\ ra_expires a < 2 ^ 64 /\
  map_ok (ra_options a) /\ sorted_map (ra_options a) /\
  N.of_nat (map_size (ra_options a)) < 65536.

Definition ri_ok (e : ext) (priv : list N) (r : router_identity) : Prop :=
  length (ri_static r) = 32%nat /\ length (ri_padding r) = 320%nat /\
  ri_signing r = ed_public e priv /\ ri_hash r = sha256 e (ser_ri r).

(** The address a reader of the router info sees: the socket address is whatever the
    published host and port options say. *)
Definition published_address (e : ext) (a : router_address) : router_address :=
  mkRa (ra_cost a) (ra_expires a) (ra_transport a) (ra_options a) (socket_of e (ra_options a)).
