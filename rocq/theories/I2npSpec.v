(** What the message-codec properties talk about. *)
From Coq Require Import List NArith Bool.
From Verif Require Import Bytes PrimModel I2npModel GarlicModel.
Import ListNotations.
Open Scope N_scope.

(** Expiration times at the resolution of the wire format (nanoseconds in, nanoseconds out). *)
Definition whole_seconds (t : N) : N := t - t mod 1000000000.
Definition whole_millis (t : N) : N := t - t mod 1000000.

Definition hash_ok (h : list N) : Prop := length h = 32%nat.

(** Reply instructions that mean what they say: token and tunnel id 0 stand for "none". *)
Definition store_reply_ok (r : store_reply) : Prop :=
  match r with
  | SrNone => True
  | SrRouter token router => 0 < token < 2 ^ 32 /\ hash_ok router
  | SrTunnel token tunnel router => 0 < token < 2 ^ 32 /\ 0 < tunnel < 2 ^ 32 /\ hash_ok router
  end.

(** A value that the fields of the garlic block format can carry. *)
Definition delivery_ok (d : delivery) : Prop :=
  match d with
  | DLocal => True
  | DDestination h | DRouter h => hash_ok h
  | DTunnel h t => hash_ok h /\ t < 2 ^ 32
  end.
Definition overhead (d : delivery) : nat :=
  match d with DLocal => 10 | DDestination _ | DRouter _ => 42 | DTunnel _ _ => 46 end.
Definition key_ok (k : option (list N)) : Prop :=
  match k with None => True | Some b => length b = 32%nat end.
Definition block_ok (b : block) : Prop :=
  match b with
  | BDateTime t => t < 2 ^ 32
  | BNextKey (ForwardKey id k rev) => id < 2 ^ 16 /\ key_ok k /\ (k <> None \/ rev = true)
  | BNextKey (ReverseKey id k) => id < 2 ^ 16 /\ key_ok k
  | BAck l => N.of_nat (length l) < 16384 /\
              Forall (fun x => fst x < 2 ^ 16 /\ snd x < 2 ^ 16) l
  | BAckRequest => True
  | BClove _ id x d body =>
      id < 2 ^ 32 /\ x < 1000000000 * 2 ^ 32 /\ delivery_ok d /\
      N.of_nat (overhead d + length body) < 2 ^ 16
  | BPadding _ => False     (* the builder has no way to add padding *)
  end.
(** The block as the receiver sees it: clove expirations are whole seconds. *)
Definition received (b : block) : block :=
  match b with
  | BClove t id x d body => BClove t id (whole_seconds x) d body
  | b => b
  end.

(** A block of a type this implementation does not know. *)
Definition unknown_block (t : N) (body : list N) : list N :=
  be_bytes 1 t ++ be_bytes 2 (N.of_nat (length body)) ++ body.
Definition unknown_type (t : N) : Prop :=
  t < 256 /\ ~ In t [0; 7; 8; 9; 11; 254].

(** A garlic message as any I2P router may send it: blocks this implementation can build,
    padding, and blocks it does not know. *)
Inductive item : Type :=
| Known (b : block)
| Pad (p : list N)
| Unknown (t : N) (body : list N).
Definition item_ok (x : item) : Prop :=
  match x with
  | Known b => block_ok b
  | Pad p => N.of_nat (length p) < 2 ^ 16
  | Unknown t body => unknown_type t /\ N.of_nat (length body) < 2 ^ 16
  end.
Definition item_wire (x : item) : option (list N) :=
  match x with
  | Known b => ser_block b
  | Pad p => Some (unknown_block 254 p)
  | Unknown t body => Some (unknown_block t body)
  end.
Fixpoint items_wire (l : list item) : option (list N) :=
  match l with
  | [] => Some []
  | x :: t => match item_wire x, items_wire t with
              | Some a, Some b => Some (a ++ b)
              | _, _ => None
              end
  end.
Definition item_seen (x : item) : list block :=
  match x with
  | Known b => [received b]
  | Pad p => [BPadding p]
  | Unknown _ _ => []
  end.
Definition understood (x : item) : Prop :=
  match x with Unknown _ _ => False | _ => True end.

(** The 464-byte variable tunnel build record. *)
Definition var_wire (v : var_record) (reply_key reply_iv reserved times options padding : list N)
  : list N :=
  be_bytes 4 (vr_tunnel v) ++ be_bytes 4 (vr_next_tunnel v) ++ vr_next_router v ++
  vr_layer v ++ vr_iv v ++ reply_key ++ reply_iv ++ be_bytes 1 (role_u8 (vr_role v)) ++
  reserved ++ times ++ be_bytes 4 (vr_next_msg v) ++
  be_bytes 2 (N.of_nat (length options)) ++ options ++ padding.
