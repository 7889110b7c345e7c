(** What the operator of a router and its peers may rely on about transit tunnels. *)
From Coq Require Import List NArith Bool.
From Verif Require Import Bytes NMap I2npModel NoiseModel RouteModel TransitModel.
Import ListNotations.
Open Scope N_scope.

(** The configured limit: [None] is "transit tunnels disabled", [Some None] is "no limit". *)
Definition within (config : option (option N)) (n : nat) : Prop :=
  match config with
  | None => n = 0%nat
  | Some (Some max) => N.of_nat n <= max
  | Some None => True
  end.

(** The same tunnel at a later time: all but its phase. *)
Definition same_task (a b : task) : Prop :=
  tk_rx a = tk_rx b /\ tk_id a = tk_id b /\ tk_role a = tk_role b /\ tk_next_id a = tk_next_id b /\
  tk_next a = tk_next b /\ tk_keys a = tk_keys b.

(** The sizes of the primitives' results: an AEAD tag is 16 bytes, a key stream is as long as
    asked for. *)
Definition crypto_sizes (c : ops) : Prop :=
  (forall k n ad p, length (x_seal c k n ad p) = (length p + 16)%nat) /\
  (forall k n l, length (x_stream c k n l) = l).

(** What the rest of the router hands to the routing table: no garlic messages
    (tunnel/mod.rs:486-494), payloads whose length fits the 16-bit field they arrived with, and
    sequences of bytes. *)
Definition sane_op (o : mop) : Prop :=
  match o with
  | MOther (ORoute m) => m_type m <> Garlic /\ N.of_nat (length (m_payload m)) <= 65535
  | MOther (OSend _ b _) => Forall (fun x => x < 256) b
  | _ => True
  end.
