(** Choosing the hops of a tunnel, and counting how many tunnels a router is part of.

    Models /repo/emissary-core/src/tunnel/pool/selector.rs and util/mod.rs:171-178. *)
From Coq Require Import List NArith Bool Arith.
From Verif Require Import NMap Bytes ProfileModel.
Import ListNotations.
Open Scope N_scope.

(** ** Accounting: selector.rs:110-131, 203-256, 272-297, 633-699 *)
(** A tunnel is registered under its pool (0 is the exploratory pool), direction and id.  All the
    pools' maps are one list here. *)
Definition tkey : Type := (N * bool * N)%type.
Definition tkey_eqb (a b : tkey) : bool :=
  let '(p, d, i) := a in let '(p', d', i') := b in (p =? p') && Bool.eqb d d' && (i =? i').
Record acct : Type := mkAcct {
  a_num : N;                       (** [num_tunnels], an AtomicUsize *)
  a_part : nmap N;                 (** [router_participation] *)
  a_tunnels : list (tkey * list N) (** the hop sets *) }.
Definition acct_new : acct := mkAcct 0 [] [].
Definition USIZE : N := 2 ^ 64.

Definition part_of (m : nmap N) (r : N) : N := match nget r m with Some v => v | None => 0 end.
(** selector.rs:203-211 [add_tunnel] *)
Definition count_up (m : nmap N) (hops : list N) : nmap N :=
  fold_left (fun m r => nput r (part_of m r + 1) m) hops m.
(** selector.rs:213-241 [remove_tunnel]; the second result: a router was not counted (warning) *)
Fixpoint count_down (m : nmap N) (hops : list N) : nmap N * bool :=
  match hops with
  | [] => (m, false)
  | r :: t =>
      match nget r m with
      | Some v => if v =? 1 then count_down (ndel r m) t else count_down (nput r (v - 1) m) t
      | None => let '(m', _) := count_down m t in (m', true)
      end
  end.
Definition without (k : tkey) (l : list (tkey * list N)) : list (tkey * list N) :=
  filter (fun x => negb (tkey_eqb (fst x) k)) l.
Definition lookup (k : tkey) (l : list (tkey * list N)) : option (list N) :=
  match find (fun x => tkey_eqb (fst x) k) l with Some x => Some (snd x) | None => None end.

Inductive aop : Type :=
| AAdd (k : tkey) (hops : list N)
| ARemove (k : tkey)
| AShutdown (pool : N).  (** a client's tunnel pool is shut down (pool/mod.rs:1409-1437): its
                             selector, and with it the maps, are dropped *)
(** The second result: a counter would go below zero (the warnings of 214-221 and 232-239). *)
Definition astep (s : acct) (o : aop) : acct * bool :=
  match o with
  | AAdd k hops =>
      (mkAcct ((a_num s + 1) mod USIZE) (count_up (a_part s) hops) ((k, hops) :: without k (a_tunnels s)), false)
  | ARemove k =>
      match lookup k (a_tunnels s) with
      | None => (s, false)
      | Some hops =>
          let '(m, w) := count_down (a_part s) hops in
          (mkAcct ((a_num s + USIZE - 1) mod USIZE) m (without k (a_tunnels s)), w || (a_num s =? 0))
      end
  | AShutdown pool =>
      (mkAcct (a_num s) (a_part s) (filter (fun x => negb (fst (fst (fst x)) =? pool)) (a_tunnels s)), false)
  end.
Fixpoint arun (s : acct) (l : list aop) : acct * bool :=
  match l with
  | [] => (s, false)
  | o :: t => let '(s1, w) := astep s o in let '(s2, v) := arun s1 t in (s2, w || v)
  end.

(** selector.rs:243-256 [can_participate]: [participation / total < 0.33] in floating point,
    which for totals below 2^40 is this comparison. *)
Definition can_participate (s : acct) (r : N) : bool :=
  (a_num s =? 0) || (100 * part_of (a_part s) r <? 33 * a_num s).

(** ** util/mod.rs:171-178 [shuffle]; [d i] is the random number drawn for index [i] *)
Definition swap_at (i j : nat) (l : list N) : list N :=
  map (fun k => nth (if Nat.eqb k i then j else if Nat.eqb k j then i else k) l 0) (seq 0 (length l)).
Fixpoint shuffle_from (d : nat -> N) (i : nat) (l : list N) : list N :=
  match i with
  | O => l
  | S i' => shuffle_from d i' (swap_at i (N.to_nat (d i mod N.of_nat (i + 1))) l)
  end.
Definition shuffle (d : nat -> N) (l : list N) : list N := shuffle_from d (length l - 1) l.

(** ** Grouping: selector.rs:152-201 *)
Definition v4_of (o : option ip) : list N := match o with Some (V4 a) => [a] | _ => [] end.
Definition v4_addresses (i : rinfo) : list N := nodup N.eq_dec (v4_of (f_ntcp2 i) ++ v4_of (f_ssu2 i)).
Definition subnet (a : N) : N := a / 65536.
Definition group_add (r : N) (g : nmap (list N)) (a : N) : nmap (list N) :=
  nput (subnet a) (match nget (subnet a) g with Some l => l ++ [r] | None => [r] end) g.
Definition group_by_subnet (s : store) (ids : list N) : nmap (list N) :=
  fold_left (fun g r => match nget r (s_infos s) with
                        | Some i => fold_left (group_add r) (v4_addresses i) g
                        | None => g end) ids [].

(** ** Selection: selector.rs:377-619 (exploratory) and 763-1012 (client) *)
(** The random choices: one draw for each subnet, and the draws of each shuffle. *)
Record luck : Type := mkLuck { k_pick : N -> N; k_shuffle : nat -> nat -> N }.
Inductive selection : Type := SelPanic | SelNone | SelHops (l : list N).

Definition and_then (a : option bool) (b : bool) : option bool :=
  match a with None => None | Some x => Some (negb x && b) end.
(** 380-385, 479-483, 525-527 *)
Definition strict (now : N) (c : N -> bool) : filter_t :=
  fun r i p => and_then (is_failing now p) (f_reachable i && f_usable i && c r).
Definition relaxed (now : N) (c : N -> bool) : filter_t :=
  fun r i p => and_then (is_failing now p) (f_reachable i && c r).
Definition any_router (c : N -> bool) : filter_t := fun r i _ => Some (f_reachable i && c r).

(** A random router of every group (586-591); the last one of every group (552-555) *)
Definition picks (k : luck) (g : nmap (list N)) : list N :=
  map (fun x => nth (N.to_nat (k_pick k (fst x) mod N.of_nat (length (snd x)))) (snd x) 0) g.
Definition lasts (g : nmap (list N)) : list N := map (fun x => last (snd x) 0) g.
Definition outside (a : nmap (list N)) (g : nmap (list N)) : nmap (list N) :=
  filter (fun x => negb (nhas (fst x) a)) g.

(** 601-618: the first [n] routers; every one gets [selected_for_tunnel] (a panic without a
    profile) and its router info is read (a panic without one). *)
Definition finish (s : store) (n : nat) (l : list N) : selection :=
  if Nat.ltb (length l) n then SelPanic
  else if forallb (fun r => nhas r (s_profiles s) && nhas r (s_infos s)) (firstn n l) then SelHops (firstn n l)
  else SelPanic.

Definition bind_ids {A} (x : option (list N)) (panic : A) (f : list N -> A) : A :=
  match x with None => panic | Some l => f l end.

(** [first], [second]: Standard and Fast for exploratory tunnels, Fast and Standard for client
    tunnels. *)
Definition select_secure (s : store) (a : acct) (now : N) (k : luck) (first second : bucket) (n : nat) : selection :=
  let c := can_participate a in
  bind_ids (get_router_ids s first (strict now c)) SelPanic (fun ids =>
  let g1 := group_by_subnet s ids in
  if Nat.ltb (length g1) n then
    let l1 := picks k g1 in
    bind_ids (get_router_ids s second (relaxed now c)) SelPanic (fun ids2 =>
    let g2 := outside g1 (group_by_subnet s ids2) in
    let short2 := Nat.ltb (length g1 + length g2) n in
    bind_ids (if short2 then get_router_ids s BUntracked (relaxed now c) else Some []) SelPanic (fun ids3 =>
    let g3 := outside g2 (outside g1 (group_by_subnet s ids3)) in
    let short3 := Nat.ltb (length g1 + length g2 + length g3) n in
    bind_ids (if short3 then get_router_ids s BAny (any_router c) else Some []) SelPanic (fun ids4 =>
    let g4 := outside g3 (outside g2 (outside g1 (group_by_subnet s ids4))) in
    if Nat.ltb (length g1 + length g2 + length g3 + length g4) n then SelNone
    else finish s n (shuffle (k_shuffle k 0%nat) l1 ++ shuffle (k_shuffle k 1%nat) (lasts g2) ++
                     shuffle (k_shuffle k 2%nat) (lasts g3) ++ shuffle (k_shuffle k 3%nat) (lasts g4)))))
  else finish s n (shuffle (k_shuffle k 0%nat) (picks k g1))).

(** Insecure mode: 389-460 and 775-848.  Exploratory pools shuffle the extra routers, client pools
    do not.  Going through a [HashSet] removes duplicates. *)
Definition select_insecure (s : store) (now : N) (k : luck) (client : bool) (first second : bucket) (n : nat) : selection :=
  let c := fun _ : N => true in
  bind_ids (get_router_ids s first (strict now c)) SelPanic (fun ids =>
  let l1 := shuffle (k_shuffle k 0%nat) ids in
  if Nat.ltb (length l1) n then
    let needed := (n - length l1)%nat in
    bind_ids (get_router_ids s second (relaxed now c)) SelPanic (fun e1 =>
    bind_ids (if Nat.ltb (length e1) needed then
                option_map (fun u => nodup N.eq_dec (e1 ++ u)) (get_router_ids s BUntracked (relaxed now c))
              else Some e1) SelPanic (fun e2 =>
    bind_ids (if Nat.ltb (length e2) needed then
                option_map (fun u => nodup N.eq_dec (e2 ++ u)) (get_router_ids s BAny (any_router c))
              else Some e2) SelPanic (fun e3 =>
    if Nat.ltb (length e3) needed then SelNone
    else finish s n (l1 ++ firstn needed (if client then e3 else shuffle (k_shuffle k 1%nat) e3)))))
  else finish s n l1).

Definition select_hops (insecure client : bool) (s : store) (a : acct) (now : N) (k : luck) (n : nat) : selection :=
  let '(first, second) := if client then (BFast, BStandard) else (BStandard, BFast) in
  if insecure then select_insecure s now k client first second n
  else select_secure s a now k first second n.
