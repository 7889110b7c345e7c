(** What a tunnel pool's history says, without the pool's state: which tunnels are live, which are
    about to expire, which builds are under way, which routing table entries and reply listeners are
    needed.  Only operations, outputs and times are used. *)
From Coq Require Import List NArith Bool.
From Verif Require Import NMap PoolModel.
Import ListNotations.
Open Scope N_scope.

Definition history := list (op * list out).
Definition minutes (n : N) : N := n * 60000.
Definition seconds (n : N) : N := n * 1000.

(** The time at the end of a history that begins at [t0]. *)
Fixpoint clock (t0 : N) (tr : history) : N :=
  match tr with [] => t0 | (OTick n, _) :: r => clock (N.max n t0) r | _ :: r => clock t0 r end.

Inductive dir := Inb | Outb.
Definition dir_eqb (a b : dir) : bool := match a, b with Inb, Inb | Outb, Outb => true | _, _ => false end.
Inductive stage := Built | Expiring | Expired.
(** What a report says about which tunnel. *)
Definition says (r : report) : option (dir * N * stage) :=
  match r with
  | RInBuilt gw _ _ => Some (Inb, gw, Built)
  | ROutBuilt id => Some (Outb, id, Built)
  | RInExpired gw => Some (Inb, gw, Expired)
  | ROutExpired id => Some (Outb, id, Expired)
  | RInExpiring gw => Some (Inb, gw, Expiring)
  | ROutExpiring id => Some (Outb, id, Expiring)
  | RShutDown => None
  end.

(** A tunnel that has been reported built and not yet reported expired: when it was built and
    whether it has been reported to be about to expire. *)
Record life := mkLife { l_dir : dir; l_id : N; l_at : N; l_exp : bool }.
Definition is (d : dir) (id : N) (x : life) : bool := dir_eqb (l_dir x) d && (l_id x =? id).
Definition hear (t : N) (L : list life) (u : out) : list life :=
  match u with
  | Rep r =>
      match says r with
      | Some (d, id, Built) => mkLife d id t false :: L
      | Some (d, id, Expiring) => map (fun x => if is d id x then mkLife d id (l_at x) true else x) L
      | Some (d, id, Expired) => filter (fun x => negb (is d id x)) L
      | None => L
      end
  | _ => L
  end.
Fixpoint live_from (t : N) (L : list life) (tr : history) : list life :=
  match tr with
  | [] => L
  | (o, us) :: r => let t' := clock t [(o, us)] in live_from t' (fold_left (hear t') us L) r
  end.
Definition live (t0 : N) (tr : history) : list life := live_from t0 [] tr.
Definition lives (d : dir) (L : list life) : list life := filter (fun x => dir_eqb (l_dir x) d) L.
Definition expiring (d : dir) (L : list life) : list life := filter l_exp (lives d L).

(** The builds under way: serial numbers of those that have started and not ended. *)
Definition begin_out (B : list N) (u : out) : list N := match u with StartOut sn _ _ _ => B ++ [sn] | _ => B end.
Definition begin_in (B : list N) (u : out) : list N := match u with StartIn sn _ _ => B ++ [sn] | _ => B end.
Definition drop_sn (sn : N) (B : list N) : list N := filter (fun x => negb (x =? sn)) B.
Definition building_step (d : dir) (B : list N) (e : op * list out) : list N :=
  match d with
  | Outb => fold_left begin_out (snd e) (match e with (OOutDone sn _, _ :: _) => drop_sn sn B | _ => B end)
  | Inb => fold_left begin_in (snd e) (match e with (OInDone sn _, _ :: _) => drop_sn sn B | _ => B end)
  end.
Definition building (d : dir) (tr : history) : list N := fold_left (building_step d) tr [].

(** The pool has not ended. *)
Definition ends (e : op * list out) : bool := existsb (fun u => match u with Ended => true | _ => false end) (snd e).
Definition running (tr : history) : Prop := existsb ends tr = false.

(** No timer is a minute late: a tunnel that is ten minutes old has been reported to be about to
    expire, which is due when it is nine minutes old. *)
Definition on_time (t0 : N) (tr : history) : Prop :=
  forall tr1 tr2 x, tr = tr1 ++ tr2 -> In x (live t0 tr1) ->
    l_at x + minutes 10 <= clock t0 tr1 -> l_exp x = true.
(** No tunnel is built under the id of a live one.  (Ids are 32 random bits.) *)
Definition distinct_ids (t0 : N) (tr : history) : Prop :=
  forall tr1 e tr2 r d id, tr = tr1 ++ e :: tr2 -> In (Rep r) (snd e) -> says r = Some (d, id, Built) ->
    existsb (is d id) (live t0 tr1) = false.

(** Maintenance finds hops for every build and makes every build message. *)
Definition wanted (d : dir) (num_in num_out : nat) : nat := match d with Inb => num_in | Outb => num_out end.
Definition willing (want_out want_in : nat) (rt : list N) (a : marg) : Prop :=
  (want_out <= length (m_outs a))%nat /\ (want_in <= length (m_ins a))%nat /\
  forall b, In b (m_outs a ++ m_ins a) -> b_hops b = true /\ b_ok b = true /\ NoDup (b_draws b) /\
    (length rt + length (m_outs a) + length (m_ins a) <= length (b_draws b))%nat.

(** The time of the last maintenance, and whether a build has failed since the poll began. *)
Definition maintained (us : list out) : bool := existsb (fun u => match u with Maintained => true | _ => false end) us.
Fixpoint last_maintenance (t0 : N) (acc : option N) (tr : history) : option N :=
  match tr with
  | [] => acc
  | e :: r => let t := clock t0 [e] in last_maintenance t (if maintained (snd e) then Some t else acc) r
  end.
Definition fails (us : list out) : bool := existsb (fun u => match u with Failed _ => true | _ => false end) us.
Fixpoint failed_since (acc : bool) (tr : history) : bool :=
  match tr with
  | [] => acc
  | e :: r => failed_since (match fst e with OEnd _ => false | _ => acc || fails (snd e) end) r
  end.
Definition build_failed (tr : history) : bool := failed_since false tr.

(** The routing table entries the pool's inbound tunnels need: from the start of a build until it
    fails or its tunnel ends. *)
Definition enter (E : list (N * N)) (u : out) : list (N * N) :=
  match u with StartIn sn tid _ => (sn, tid) :: E | _ => E end.
Definition leave (sn : N) (E : list (N * N)) : list (N * N) := filter (fun x => negb (fst x =? sn)) E.
Definition entries_step (E : list (N * N)) (e : op * list out) : list (N * N) :=
  fold_left enter (snd e)
    (match e with
     | (OInDone _ BGood, _) => E
     | (OInDone sn _, _ :: _) => leave sn E
     | (OInEnd sn, _ :: _) => leave sn E
     | _ => E
     end).
Definition entries (tr : history) : list (N * N) := fold_left entries_step tr [].
(** Those of its 0-hop tunnels and of the rest of the router. *)
Definition enter_zero (Z : list N) (u : out) : list N :=
  match u with StartOut _ _ _ (Some g) => g :: Z | _ => Z end.
Definition zeros (tr : history) : list N :=
  fold_left (fun Z e => fold_left enter_zero (snd e) (match fst e with OZeroEnd g => sdel g Z | _ => Z end)) tr [].

(** The reply listeners: of builds and tests under way, and those left behind. *)
Definition begin_wait (W : list N) (u : out) : list N :=
  match u with StartOut sn _ _ None | StartIn sn _ _ | Tested sn _ _ => sn :: W | _ => W end.
Definition waits_step (W : list N) (e : op * list out) : list N :=
  fold_left begin_wait (snd e)
    (match e with
     | (OOutDone sn _, _ :: _) | (OInDone sn _, _ :: _) | (OTestDone sn _, _ :: _) => sdel sn W
     | _ => W
     end).
Definition waits (tr : history) : list N := fold_left waits_step tr [].

(** A build or test that ended without using its reply listener: the first hop could not be dialed, or
    the test timed out. *)
Definition left_behind (tr : history) (sn : N) : Prop :=
  exists u us, In (OOutDone sn BDial, u :: us) tr \/ In (OInDone sn BDial, u :: us) tr \/ In (OTestDone sn TTimeout, u :: us) tr.

(** The tests under way: serial number, the two tunnels, when it began. *)
Record trial := mkTrial { tr_sn : N; tr_out : N; tr_in : N; tr_at : N }.
Definition try_it (t : N) (Q : list trial) (u : out) : list trial :=
  match u with Tested sn o i => mkTrial sn o i t :: Q | _ => Q end.
Fixpoint trials_from (t : N) (Q : list trial) (tr : history) : list trial :=
  match tr with
  | [] => Q
  | e :: r => let t' := clock t [e] in
              trials_from t' (fold_left (try_it t') (snd e)
                (match e with (OTestDone sn _, _ :: _) => filter (fun x => negb (tr_sn x =? sn)) Q | _ => Q end)) r
  end.
Definition trials (t0 : N) (tr : history) : list trial := trials_from t0 [] tr.
(** The tunnels tested in one step. *)
Definition tested_out (us : list out) : list N := flat_map (fun u => match u with Tested _ o _ => [o] | _ => [] end) us.
Definition tested_in (us : list out) : list N := flat_map (fun u => match u with Tested _ _ i => [i] | _ => [] end) us.
(** When the last round of tests was due: at a maintenance fifteen seconds or more after the one before,
    the first at least fifteen seconds after [t0]. *)
Fixpoint last_round (t0 acc : N) (tr : history) : N :=
  match tr with
  | [] => acc
  | e :: r => let t := clock t0 [e] in
              last_round t (if maintained (snd e) && (acc + seconds 15 <=? t) then t else acc) r
  end.
(** The live tunnels that are not about to expire. *)
Definition steady (d : dir) (L : list life) (id : N) : Prop :=
  (exists x, In x L /\ l_dir x = d /\ l_id x = id) /\
  (forall x, In x L -> l_dir x = d -> l_id x = id -> l_exp x = false).

(** How a request to send a message may be answered, given the live tunnels. *)
Definition up (L : list life) (id : N) : Prop := exists x, In x L /\ l_dir x = Outb /\ l_id x = id.
Definition dest (q : request) : option (target * N) :=
  match q with
  | QRouter _ r m | QRouterVia r _ m => Some (ToRouter r, m)
  | QTunnel r t m | QTunnelVia r t _ m => Some (ToTunnel r t, m)
  | QInbound _ => None
  end.
Definition asked (q : request) : option N :=
  match q with QRouter g _ _ => Some g | QRouterVia _ v _ | QTunnelVia _ _ v _ => v | _ => None end.
Definition only_asked (q : request) : bool := match q with QRouter _ _ _ => true | _ => false end.
Definition started (tr : history) (id hop : N) : Prop :=
  exists e sn z, In e tr /\ In (StartOut sn id hop z) (snd e).
Definition right_answer (L : list life) (tr : history) (q : request) (us : list out) : Prop :=
  match us with
  | [Sent via hop t m] =>
      up L via /\ dest q = Some (t, m) /\ started tr via hop /\
      (forall g, asked q = Some g -> up L g \/ only_asked q = true -> via = g)
  | [Lost q'] =>
      q' = q /\ (dest q <> None ->
                 if only_asked q then forall g, asked q = Some g -> ~ up L g else forall id, ~ up L id)
  | _ => False
  end.

(** Report [r] was made at time [t]. *)
Definition reported (t0 : N) (tr : history) (t : N) (r : report) : Prop :=
  exists tr1 e tr2, tr = tr1 ++ e :: tr2 /\ clock t0 (tr1 ++ [e]) = t /\ In (Rep r) (snd e).
