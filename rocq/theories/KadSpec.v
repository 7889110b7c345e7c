(** Specification vocabulary for the Kademlia table (C20, C21). *)
From Coq Require Import List NArith ZArith Bool Arith Sorting.Sorted Permutation.
From Verif Require Import ListUtil Bytes NMap KadModel.
Import ListNotations.
Open Scope N_scope.

(** A router id is a 256 bit number. *)
Definition router_id (k : N) : Prop := k < 2 ^ 256.

(** The routers in the table, bucket by bucket. *)
Definition entries (t : table) : list (N * Z) := flat_map (t_bucket t) (seq 0 num_buckets).
Definition known (t : table) : list N := map fst (entries t).

(** The bucket a router belongs to: the number of the highest bit in which it differs from the
    local router. *)
Definition belongs (local k : N) (i : nat) : Prop :=
  N.testbit local (N.of_nat i) <> N.testbit k (N.of_nat i) /\
  forall j, (i < j)%nat -> N.testbit local (N.of_nat j) = N.testbit k (N.of_nat j).

Definition op_key (o : kop) : N := match o with KAdd k => k | KScore k _ => k end.

(** Tables that can come to be: any sequence of insertions and score changes. *)
Definition reachable (t : table) : Prop :=
  exists local ops, router_id local /\ Forall (fun o => router_id (op_key o)) ops /\ t = kruns (table_new local) ops.

(** The router next to the local one (they differ in the last bit only) is in the table. *)
Definition neighbour (t : table) : N := N.lxor (t_local t) 1.

(** Listed from the closest to the target to the farthest, no two at the same distance. *)
Definition closest_first (target : N) (l : list N) : Prop :=
  StronglySorted (fun a b => N.lxor target a < N.lxor target b) l.

(** When the local id and the target differ in the last bit, or are the same, the search for
    close routers meets the local router's neighbour twice. *)
Definition meets_twice (t : table) (target : N) : Prop :=
  target = t_local t \/ N.testbit (t_local t) 0 <> N.testbit target 0.
