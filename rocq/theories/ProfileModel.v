(** Router profiles and the buckets hops are chosen from.

    Models /repo/emissary-core/src/profile.rs.  Routers are numbers; of a router info only what
    is used here is kept.  Counters are unbounded.  [None] stands for a panic. *)
From Coq Require Import List NArith Bool.
From Verif Require Import NMap Bytes.
Import ListNotations.
Open Scope N_scope.

(** A socket address; an IPv4 address is its 32-bit value. *)
Inductive ip : Type := V4 (a : N) | V6.
(** [RouterInfo]: router_info.rs:312-334 [is_reachable], 339-341 [is_usable], 349-357
    [is_reachable_ntcp2], capabilities.rs [is_fast], and the two socket addresses. *)
Record rinfo : Type := mkRi {
  f_reachable : bool; f_usable : bool; f_fast : bool; f_ntcp2ok : bool;
  f_ntcp2 : option ip; f_ssu2 : option ip }.

(** profile.rs:71-119 [Profile]; times in nanoseconds since the epoch *)
Record profile : Type := mkProf {
  pr_activity : N; pr_declined : option N; pr_dial_failure : option N;
  pr_accepted : N; pr_connections : N; pr_dial_failures : N;
  pr_lookup_failures : N; pr_lookup_no_responses : N; pr_lookup_successes : N;
  pr_rejected : N; pr_selected : N; pr_test_failures : N; pr_test_successes : N; pr_unanswered : N }.
(** profile.rs:123-140 *)
Definition profile_new : profile := mkProf 0 None None 0 0 0 0 0 0 0 0 0 0 0.

(** profile.rs:42, 45 *)
Definition THRESHOLD : N := 180 * 1000000000.
(** [Duration - Duration] panics if the result is negative. *)
Definition since (now t : N) : option N := if now <? t then None else Some (now - t).
(** profile.rs:145-150 *)
Definition recently_declined (now : N) (p : profile) : option bool :=
  match pr_declined p with
  | None => Some false
  | Some t => match since now t with None => None | Some d => Some (d <? THRESHOLD) end
  end.
(** profile.rs:176-183.  The comparison is as in the code. *)
Definition unreachable (now : N) (p : profile) : option bool :=
  match pr_dial_failure p with
  | None => Some false
  | Some t => match since now t with None => None | Some d => Some (THRESHOLD <? d) end
  end.
(** profile.rs:153-155, 186-188 *)
Definition low_participation (p : profile) : bool := 4 * pr_accepted p <? pr_rejected p.
Definition always_declining (p : profile) : bool := (pr_accepted p =? 0) && (5 <=? pr_rejected p).
(** profile.rs:191-196 [is_failing] *)
Definition is_failing (now : N) (p : profile) : option bool :=
  match recently_declined now p with
  | None => None
  | Some true => Some true
  | Some false =>
      match unreachable now p with
      | None => None
      | Some true => Some true
      | Some false => Some (always_declining p || low_participation p)
      end
  end.
(** profile.rs:158-167: the router has a participation rate *)
Definition tracked (p : profile) : bool := negb (pr_accepted p + pr_rejected p + pr_unanswered p =? 0).

(** profile.rs:228-250 [ProfileStorage]; sets are lists *)
Record store : Type := mkStore {
  s_infos : nmap rinfo; s_profiles : nmap profile;
  s_fast : list N; s_standard : list N; s_untracked : list N;
  s_discovered : nmap bytes }.

(** *** Construction: profile.rs:254-422 *)
(** The order the routers are sorted in by participation rate (floating point) is an argument. *)
Definition order : Type := list N -> list N.
Definition is_tracked (profs : nmap profile) (r : N) : bool :=
  match nget r profs with Some p => tracked p | None => false end.
(** 301-349, and the same code again in 357-407: the best [cap] routers that have a rate, and
    the others.  As in the code, routers without a rate are the second result only if no router
    has one. *)
Definition split_bucket (cap : nat) (ord : order) (profs : nmap profile) (l : list N) : list N * list N :=
  match filter (is_tracked profs) l with
  | [] => ([], filter (fun r => negb (is_tracked profs r)) l)
  | t => (firstn cap (ord t), skipn cap (ord t))
  end.
Definition NUM_FAST : nat := 100.
Definition NUM_STANDARD : nat := 300.

Definition storage_new (ord1 ord2 : order) (routers : list (N * rinfo)) (profiles : list (N * profile)) : store :=
  (** 262-267: later entries replace earlier ones *)
  let infos := fold_left (fun m x => nput (fst x) (snd x) m) routers [] in
  (** 269-284 *)
  let known := fold_left (fun m x => if nhas (fst x) infos then nput (fst x) (snd x) m else m) profiles [] in
  let profs := fold_left (fun m r => if nhas r m then m else nput r profile_new m) (nkeys infos) known in
  (** 287-299 *)
  let ok := filter (fun x => f_reachable (snd x) && f_usable (snd x)) infos in
  let fast0 := map fst (filter (fun x => f_fast (snd x)) ok) in
  let standard0 := map fst (filter (fun x => negb (f_fast (snd x))) ok) in
  let '(fast, rest) := split_bucket NUM_FAST ord1 profs fast0 in
  let '(standard, untracked) := split_bucket NUM_STANDARD ord2 profs (standard0 ++ rest) in
  mkStore infos profs fast standard untracked [].

(** *** Adding routers: profile.rs:425-467, in the three steps between which no lock is held *)
Definition add_buckets (s : store) (r : N) (i : rinfo) : store :=
  if f_fast i then mkStore (s_infos s) (s_profiles s) (sadd r (s_fast s)) (sdel r (s_standard s)) (s_untracked s) (s_discovered s)
  else mkStore (s_infos s) (s_profiles s) (sdel r (s_fast s)) (sadd r (s_standard s)) (s_untracked s) (s_discovered s).
Definition add_info (s : store) (r : N) (i : rinfo) : store :=
  mkStore (nput r i (s_infos s)) (s_profiles s) (s_fast s) (s_standard s) (s_untracked s) (s_discovered s).
Definition add_profile (s : store) (r : N) : store :=
  mkStore (s_infos s) (nput r profile_new (s_profiles s)) (s_fast s) (s_standard s) (s_untracked s) (s_discovered s).
Definition acceptable (i : rinfo) : bool := f_reachable i && f_usable i && f_ntcp2ok i.
Definition add_router (s : store) (r : N) (i : rinfo) : store * bool :=
  if acceptable i then
    let s1 := add_buckets s r i in
    let s2 := add_info s1 r i in
    (if nhas r (s_infos s1) then s2 else add_profile s2 r, true)
  else (s, false).
(** profile.rs:470-481 *)
Definition discover_router (s : store) (r : N) (i : rinfo) (b : bytes) : store :=
  let '(s1, ok) := add_router s r i in
  if ok then mkStore (s_infos s1) (s_profiles s1) (s_fast s1) (s_standard s1) (s_untracked s1) (nput r b (s_discovered s1))
  else s1.

(** *** Lookup: profile.rs:500-568 *)
Inductive bucket : Type := BAny | BFast | BStandard | BUntracked.
Definition bucket_ids (s : store) (b : bucket) : list N :=
  match b with
  | BAny => s_fast s ++ s_standard s ++ s_untracked s
  | BFast => s_fast s
  | BStandard => s_standard s
  | BUntracked => s_untracked s
  end.
Definition filter_t : Type := N -> rinfo -> profile -> option bool.
Fixpoint choose (s : store) (f : filter_t) (l : list N) : option (list N) :=
  match l with
  | [] => Some []
  | r :: t =>
      match nget r (s_profiles s), nget r (s_infos s) with
      | Some p, Some i =>
          match f r i p with
          | None => None
          | Some b => match choose s f t with None => None | Some x => Some (if b then r :: x else x) end
          end
      | _, _ => None
      end
  end.
Definition get_router_ids (s : store) (b : bucket) (f : filter_t) : option (list N) := choose s f (bucket_ids s b).

(** *** Updates: profile.rs:589-738 *)
Definition set_profile (s : store) (r : N) (p : profile) : store :=
  mkStore (s_infos s) (nput r p (s_profiles s)) (s_fast s) (s_standard s) (s_untracked s) (s_discovered s).
Inductive event : Type :=
| ESelected | EUnselected
| EAccepted (now : N) | ERejected (now : N) | EUnanswered (now : N)
| ETestOk (now : N) | ETestFailed (now : N)
| EDialOk (now : N) | EDialFailed (now : N)
| ELookupNoResponse | ELookupOk | ELookupFailed.
Definition update (e : event) (p : profile) : profile :=
  let '(mkProf act dec df acc con dfs lf ln ls rej sel tf ts un) := p in
  match e with
  | ESelected => mkProf act dec df acc con dfs lf ln ls rej (sel + 1) tf ts un
  | EUnselected => mkProf act dec df acc con dfs lf ln ls rej (sel - 1) tf ts un
  | EAccepted now => mkProf now None df (acc + 1) con dfs lf ln ls rej sel tf ts un
  | ERejected now => mkProf now (Some now) df acc con dfs lf ln ls (rej + 1) sel tf ts un
  | EUnanswered now => mkProf now (Some now) df acc con dfs lf ln ls rej sel tf ts (un + 1)
  | ETestOk now => mkProf now dec df acc con dfs lf ln ls rej sel tf (ts + 1) un
  | ETestFailed now => mkProf now dec df acc con dfs lf ln ls rej sel (tf + 1) ts un
  | EDialOk now => mkProf now dec df acc (con + 1) dfs lf ln ls rej sel tf ts un
  | EDialFailed now => mkProf now dec (Some now) acc con (dfs + 1) lf ln ls rej sel tf ts un
  | ELookupNoResponse => mkProf act dec df acc con dfs lf (ln + 1) ls rej sel tf ts un
  | ELookupOk => mkProf act dec df acc con dfs lf ln (ls + 1) rej sel tf ts un
  | ELookupFailed => mkProf act dec df acc con dfs (lf + 1) ln ls rej sel tf ts un
  end.
(** Dial results create a missing profile, lookup results ignore it, the others panic. *)
Definition record_event (s : store) (r : N) (e : event) : option store :=
  match nget r (s_profiles s) with
  | Some p => Some (set_profile s r (update e p))
  | None =>
      match e with
      | EDialOk _ | EDialFailed _ => Some (set_profile s r (update e profile_new))
      | ELookupNoResponse | ELookupOk | ELookupFailed => Some s
      | _ => None
      end
  end.

(** *** Backup: profile.rs:741-755 *)
Definition backup (s : store) : store * list (N * option bytes * profile) :=
  (mkStore (s_infos s) (s_profiles s) (s_fast s) (s_standard s) (s_untracked s)
     (fold_left (fun m r => ndel r m) (nkeys (s_profiles s)) (s_discovered s)),
   map (fun x => (fst x, nget (fst x) (s_discovered s), snd x)) (s_profiles s)).

(** *** Maintenance: profile.rs:810-897, one round *)
Fixpoint place (infos : nmap rinfo) (l : list N) (fast standard untracked : list N) : list N * list N * list N :=
  match l with
  | [] => (fast, standard, untracked)
  | r :: t =>
      match nget r infos with
      | None => place infos t fast standard untracked
      | Some i =>
          if negb (f_reachable i) then place infos t fast standard untracked
          else if f_fast i && Nat.ltb (length fast) NUM_FAST then place infos t (sadd r fast) standard untracked
          else if Nat.ltb (length standard) NUM_STANDARD then place infos t fast (sadd r standard) untracked
          else place infos t fast standard (sadd r untracked)
      end
  end.
Definition maintain (ord : order) (s : store) : option store :=
  let all := bucket_ids s BAny in
  if forallb (fun r => nhas r (s_profiles s)) all then
    let t := fold_right sadd [] (filter (is_tracked (s_profiles s)) all) in
    let u := fold_right sadd [] (filter (fun r => negb (is_tracked (s_profiles s) r)) all) in
    match t with
    | [] => Some s
    | _ =>
        let '(fast, standard, untracked) := place (s_infos s) (ord t) [] [] [] in
        Some (mkStore (s_infos s) (s_profiles s) fast standard (fold_right sadd untracked u) (s_discovered s))
    end
  else None.

(** *** Runs *)
Inductive pop : Type :=
| PAdd (r : N) (i : rinfo)
| PDiscover (r : N) (i : rinfo) (b : bytes)
| PGet (b : bucket) (f : filter_t)
| PEvent (r : N) (e : event)
| PMaintain (ord : order)
| PBackup.
Inductive pout : Type :=
| PNothing
| PIds (l : list N)
| PBackedUp (l : list (N * option bytes * profile)).
Definition pstep (s : store) (o : pop) : option (store * pout) :=
  match o with
  | PAdd r i => Some (fst (add_router s r i), PNothing)
  | PDiscover r i b => Some (discover_router s r i b, PNothing)
  | PGet b f => match get_router_ids s b f with Some l => Some (s, PIds l) | None => None end
  | PEvent r e => match record_event s r e with Some s' => Some (s', PNothing) | None => None end
  | PMaintain ord => match maintain ord s with Some s' => Some (s', PNothing) | None => None end
  | PBackup => let '(s', l) := backup s in Some (s', PBackedUp l)
  end.
Fixpoint prun (s : store) (l : list pop) : option (store * list pout) :=
  match l with
  | [] => Some (s, [])
  | o :: t =>
      match pstep s o with
      | None => None
      | Some (s1, u) => match prun s1 t with None => None | Some (s2, v) => Some (s2, u :: v) end
      end
  end.
