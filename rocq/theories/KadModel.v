(** Model of the network database's Kademlia table: k-buckets, routing table and the order in
    which buckets are visited.  emissary-core/src/netdb/{bucket,routing_table,dht,types}.rs. *)
From Coq Require Import List NArith ZArith Bool Arith.
From Verif Require Import ListUtil Bytes NMap.
Import ListNotations.
Open Scope N_scope.

(** netdb/types.rs:101-149: [Key<RouterId>] is the 32 byte router id read as a big-endian U256;
    router ids are represented by that number.  [Key::distance] is XOR. *)
Definition kdist (a b : N) : N := N.lxor a b.

(** netdb/types.rs:160-168: [Distance::ilog2], [None] for distance zero. *)
Definition ilog2 (d : N) : option nat := if d =? 0 then None else Some (N.to_nat (N.log2 d)).

(** netdb/routing_table.rs:41 *)
Definition num_buckets : nat := 256.

(** netdb/bucket.rs:44,61 *)
Definition bucket_size : nat := 20.

(** netdb/bucket.rs:35-38, types.rs:171-203: a bucket is a vector of floodfills, each with a
    score.  Scores are [isize] in the code; overflow of a 64 bit score is not modelled. *)
Definition bucket := list (N * Z).

(** netdb/bucket.rs:66: [iter_mut().min()] is the first element of least score; the function
    returns its position and its score. *)
Fixpoint first_min (b : bucket) : option (nat * Z) :=
  match b with
  | [] => None
  | (_, s) :: r =>
      match first_min r with
      | None => Some (0%nat, s)
      | Some (i, s') => if (s' <? s)%Z then Some (S i, s') else Some (0%nat, s)
      end
  end.

(** Assignment to the element at a position. *)
Fixpoint set_nth {A} (i : nat) (x : A) (l : list A) : list A :=
  match l, i with
  | [], _ => []
  | _ :: r, O => x :: r
  | y :: r, S j => y :: set_nth j x r
  end.

(** netdb/bucket.rs:56-84 *)
Definition try_insert (k : N) (b : bucket) : bool * bucket :=
  if existsb (fun f => fst f =? k) b then (true, b)
  else if (length b <? bucket_size)%nat then (true, b ++ [(k, 0%Z)])
  else match first_min b with
       | Some (i, s) => if (s <? 0)%Z then (true, set_nth i (k, 0%Z) b) else (false, b)
       | None => (false, b)
       end.

(** netdb/bucket.rs:87-103 *)
Fixpoint bucket_adjust (k : N) (a : Z) (b : bucket) : bucket :=
  match b with
  | [] => []
  | (k', s) :: r => if k' =? k then (k', (s + a)%Z) :: r else (k', s) :: bucket_adjust k a r
  end.

(** Stable insertion sort by a numeric measure, standing for [slice::sort_by]. *)
Fixpoint ins_by {A} (f : A -> N) (x : A) (l : list A) : list A :=
  match l with
  | [] => [x]
  | y :: r => if f x <=? f y then x :: l else y :: ins_by f x r
  end.
Fixpoint sort_by {A} (f : A -> N) (l : list A) : list A :=
  match l with [] => [] | x :: r => ins_by f x (sort_by f r) end.

(** netdb/bucket.rs:107-112 *)
Definition closest_iter (target : N) (b : bucket) : list N :=
  map fst (sort_by (fun f => kdist target (fst f)) b).

(** netdb/routing_table.rs:43-49: the vector of 256 buckets is a function from the index. *)
Record table := mkTable { t_local : N; t_bucket : nat -> bucket }.

(** netdb/routing_table.rs:79-84 *)
Definition table_new (local : N) : table := mkTable local (fun _ => []).

(** netdb/routing_table.rs:72-74, 89-100 *)
Definition bucket_index (t : table) (k : N) : option nat := ilog2 (kdist (t_local t) k).

Definition set_bucket (t : table) (i : nat) (b : bucket) : table :=
  mkTable (t_local t) (fun j => if (j =? i)%nat then b else t_bucket t j).

(** netdb/routing_table.rs:103-120 *)
Definition add_router (t : table) (k : N) : table :=
  match bucket_index t k with
  | Some i => set_bucket t i (snd (try_insert k (t_bucket t i)))
  | None => t
  end.

(** netdb/routing_table.rs:123-129 *)
Definition adjust_score (t : table) (k : N) (a : Z) : table :=
  match bucket_index t k with
  | Some i => set_bucket t i (bucket_adjust k a (t_bucket t i))
  | None => t
  end.

(** netdb/routing_table.rs:164-194 *)
Inductive iter_state := IStart (i : nat) | IZoomIn (i : nat) | IZoomOut (i : nat) | IDone.

(** netdb/routing_table.rs:197-203 *)
Definition iter_new (d : N) : iter_state :=
  match ilog2 d with Some i => IStart i | None => IStart 0 end.

(** netdb/routing_table.rs:205-207: the greatest set bit below [i]. *)
Fixpoint next_in (d : N) (i : nat) : option nat :=
  match i with
  | O => None
  | S j => if N.testbit d (N.of_nat j) then Some j else next_in d j
  end.

(** netdb/routing_table.rs:209-211: the least clear bit above [i], below 256. *)
Definition next_out (d : N) (i : nat) : option nat :=
  find (fun j => negb (N.testbit d (N.of_nat j))) (seq (i + 1) (num_buckets - (i + 1))).

(** netdb/routing_table.rs:217-242 *)
Definition iter_next (d : N) (s : iter_state) : option nat * iter_state :=
  match s with
  | IStart i => (Some i, IZoomIn i)
  | IZoomIn i => match next_in d i with Some j => (Some j, IZoomIn j) | None => (Some 0%nat, IZoomOut 0) end
  | IZoomOut i => match next_out d i with Some j => (Some j, IZoomOut j) | None => (None, IDone) end
  | IDone => (None, IDone)
  end.

(** Draining the iterator.  The iteration count is bounded by [fuel]; running out of it is the
    value [None]. *)
Fixpoint iter_run (fuel : nat) (d : N) (s : iter_state) : option (list nat) :=
  match fuel with
  | O => None
  | S f => match iter_next d s with
           | (None, _) => Some []
           | (Some i, s') => match iter_run f d s' with Some r => Some (i :: r) | None => None end
           end
  end.

Definition bucket_order (d : N) : option (list nat) := iter_run 520 d (iter_new d).

(** netdb/routing_table.rs:144-154, dht.rs:152-162: filter first, then take.  [target] is the
    SHA-256 of the key and today's date. *)
Definition closest_with_ignore (t : table) (target : N) (limit : nat) (ignore : list N) : option (list N) :=
  match bucket_order (kdist (t_local t) target) with
  | Some is =>
      Some (firstn limit
              (filter (fun k => negb (smem k ignore))
                 (flat_map (fun i => closest_iter target (t_bucket t i)) is)))
  | None => None
  end.

(** netdb/routing_table.rs:132-140 *)
Definition closest (t : table) (target : N) (limit : nat) : option (list N) :=
  match bucket_order (kdist (t_local t) target) with
  | Some is => Some (firstn limit (flat_map (fun i => closest_iter target (t_bucket t i)) is))
  | None => None
  end.

(** netdb/dht.rs:165-182: the candidates are collected in a map ordered by distance and the
    first is taken. *)
Definition get_closest (target : N) (routers : list N) : option N :=
  match sort_by (kdist target) routers with [] => None | k :: _ => Some k end.

(** netdb/dht.rs:37-49 *)
Definition score_no_reply : Z := (-5)%Z.
Definition score_success : Z := 10%Z.
Definition score_failure : Z := 1%Z.

(** The operations the router performs on a table: netdb/dht.rs:117-137. *)
Inductive kop := KAdd (k : N) | KScore (k : N) (a : Z).
Definition kstep (t : table) (o : kop) : table :=
  match o with KAdd k => add_router t k | KScore k a => adjust_score t k a end.
Definition kruns (t : table) (ops : list kop) : table := fold_left kstep ops t.

(** netdb/dht.rs:64-100: a fresh table filled with the known routers, best score first. *)
Definition dht_new (local : N) (routers : list N) : table := fold_left add_router routers (table_new local).
