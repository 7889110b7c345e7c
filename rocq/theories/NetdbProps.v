(** C22: lookups of lease sets and router infos. *)
From Coq Require Import List NArith ZArith Bool Arith Lia ZifyBool ZifyNat ZifyN Sorting.Sorted Permutation.
From Verif Require Import ListUtil Bytes NMap KadModel KadSpec KadProofs KadProofs2 KadProofs3 NetdbModel NetdbSpec NetdbProofs NetdbProofs2 NetdbProofs3 NetdbProofs4 NetdbProofs5 NetdbProofs6.
Import ListNotations.
Open Scope N_scope.

(** ** Each floodfill at most once *)
(** Whatever happens, a lookup of a lease set asks no floodfill twice. *)
Theorem C22_lease_set_asks_once :
  forall t ops s tr id,
    reachable t -> wf ops -> NoDup (callers ops) -> nrun (netdb_new t) ops = (s, tr) ->
    NoDup (asked true id tr).
Proof.
  intros t ops s tr id R W ND H. apply (NoDup_count_occ N.eq_dec). intro f.
  destruct (run_once t (reachable_ok t R) true f ops s tr W ND (or_introl eq_refl) H) as [C _]. apply C.
Qed.
Print Assumptions C22_lease_set_asks_once.

(** The full statement for router infos is the same with [asked false]; it is false, see
    [C22_refuted_router_info_asks_twice].  What holds: a floodfill whose own router info is known
    all the time is not asked twice. *)
Theorem C22_router_info_asks_once_partial :
  forall t ops s tr id f,
    reachable t -> wf ops -> NoDup (callers ops) -> nrun (netdb_new t) ops = (s, tr) ->
    (forall e o, In (e, o) ops -> e_has e f = true) ->
    (count_occ N.eq_dec (asked false id tr) f <= 1)%nat.
Proof.
  intros t ops s tr id f R W ND H Hf.
  destruct (run_once t (reachable_ok t R) false f ops s tr W ND (or_intror Hf) H) as [C _]. apply C.
Qed.
Print Assumptions C22_router_info_asks_once_partial.

(** ** Every lookup ends *)
(** Every caller is waiting or has been told exactly one thing: a result, or that there will be
    none.  Nobody is told anything unasked. *)
Theorem C22_every_caller_told_once :
  forall t ops s tr,
    reachable t -> wf ops -> nrun (netdb_new t) ops = (s, tr) ->
    Permutation (callers ops) (settled tr ++ waiting s) /\ forall n, ~ In (n, EvStuck) tr.
Proof. intros t ops s tr R W H. exact (run_account t (reachable_ok t R) ops s tr W H). Qed.
Print Assumptions C22_every_caller_told_once.

(** When timers are not late, a caller is told the outcome within 21.6 seconds, and once. *)
Theorem C22_ends_in_time :
  forall t ops s tr now e lease key tx,
    reachable t -> wf ops -> NoDup (callers ops) -> clock 0 ops ->
    nrun (netdb_new t) ops = (s, tr) -> none_overdue now s ->
    In (e, request lease key tx) ops -> e_now e + patience <= now ->
    count_occ N.eq_dec (settled tr) tx = 1%nat.
Proof.
  intros t ops s tr now e lease key tx R W ND C H No Hin L. pose proof (reachable_ok t R) as Ht.
  destruct (run_account t Ht ops s tr W H) as [P _].
  assert (count_occ N.eq_dec (callers ops) tx = 1%nat) as C1.
  { pose proof (proj1 (NoDup_count_occ N.eq_dec _) ND tx). pose proof (In_callers _ _ _ _ _ Hin) as X.
    apply (count_occ_In N.eq_dec) in X. lia. }
  rewrite (proj1 (Permutation_count_occ N.eq_dec _ _) P) in C1. rewrite count_occ_app in C1.
  assert (~ In tx (waiting s)) as Nw.
  { intro X. apply in_flat_map in X as [[k v] [X1 X2]]. cbn in X2. apply kind_subs_mk in X2 as [l [q [-> Hq]]].
    destruct (run_base t Ht _ _ _ W H) as [Hs _].
    assert (G : nget k (n_active s) = Some (mk l q)).
    { clear - Hs X1. revert Hs X1. generalize (n_active s) as m. induction m as [|[j w] m IH]; intros Hs X; [contradiction|].
      cbn [nkeys map fst] in Hs. pose proof (sorted_NoDup _ Hs) as ND. apply StronglySorted_inv in Hs as [Hs _].
      apply NoDup_cons_iff in ND as [Nj _]. cbn [nget]. destruct (N.eqb_spec k j) as [->|Nk].
      - destruct X as [X|X]; [congruence|]. exfalso. apply Nj. apply in_map_iff. now exists (j, mk l q).
      - destruct X as [X|X]; [congruence|]. now apply IH. }
    destruct (run_timer t Ht _ _ _ _ _ _ W H G) as [d [D1 D2]]. apply No in D1.
    destruct (run_born t Ht _ _ _ _ _ _ W H G) as [_ Bn]. destruct (Bn _ Hq) as [e' [Y Z]]. specialize (Z C).
    destruct (one_request _ _ _ _ _ _ _ _ ND Hin Y) as [-> _]. lia. }
  apply (count_occ_not_In N.eq_dec) in Nw. lia.
Qed.
Print Assumptions C22_ends_in_time.

(** Timers can always be brought up to date: whatever the state and the time, finitely many
    timer events lead to a state in which no timer is overdue. *)
Lemma timer_fires : forall e s d k, In (d, k) (n_timers s) -> d <= e_now e ->
  exists ts, remove_timer d k (n_timers s) = Some ts /\
   forall x, In x (n_timers (fst (nstep e s (OTimer d k)))) -> In x ts \/ x = (e_now e + query_timeout, k).
Proof.
  intros e s d k Hd L. destruct (remove_timer_some _ _ _ Hd) as [ts [E _]]. exists ts. split; [exact E|].
  cbn [nstep]. unfold on_timer. destruct (N.leb_spec d (e_now e)); [|lia]. rewrite E. cbn [n_active].
  destruct (nget k (n_active s)) as [kd|]; [|intros x Hx; now left].
  assert (Bt : forall q, n_timers (blame q (del_active k (mkNetdb (n_dht s) (n_active s) ts))) = ts).
  { intro q. unfold blame. now destruct (q_selected q). }
  destruct kd as [q|q| |]; cbn [handle_timeout]; try (intros x Hx; now left).
  - destruct (pick_floodfill _ _ _ _ _) as [[[err|f] q1]|]; [|destruct (e_tunnels e); [destruct (e_room e k)|]|];
      cbn [fst n_timers put_active arm]; rewrite Bt; intros x Hx; try (now left).
    apply in_app_or in Hx as [Hx|[<-|[]]]; [now left|now right].
  - destruct (next_floodfill _ _ _ _) as [[err|f] q1]; [|destruct (e_tunnels e && e_room e k)];
      cbn [fst n_timers put_active arm]; rewrite Bt; intros x Hx; try (now left);
      (apply in_app_or in Hx as [Hx|[<-|[]]]; [now left|now right]).
Qed.

Theorem C22_time_can_pass :
  forall e s, exists fired,
    none_overdue (e_now e) (fst (nrun s (map (fun x => (e, OTimer (fst x) (snd x))) fired))) /\
    genuine s (map (fun x => (e, OTimer (fst x) (snd x))) fired).
Proof.
  intro e.
  set (past := fun x : N * N => fst x <? e_now e).
  set (late := fun s => filter past (n_timers s)).
  assert (Rm : forall d k l r, remove_timer d k l = Some r -> d < e_now e ->
     (length (filter past r) < length (filter past l))%nat).
  { intros d k. induction l as [|[d' k'] l IH]; intros r H L; [discriminate|]. cbn in H.
    destruct (N.eqb_spec d' d) as [->|]; cbn [andb] in H.
    - destruct (N.eqb_spec k' k).
      + injection H as <-. cbn. unfold past at 2. cbn [fst]. destruct (N.ltb_spec d (e_now e)); [cbn; lia|lia].
      + destruct (remove_timer d k l) as [r'|]; [|discriminate]. injection H as <-. specialize (IH r' eq_refl L).
        cbn. destruct (past (d, k')); cbn; lia.
    - destruct (remove_timer d k l) as [r'|]; [|discriminate]. injection H as <-. specialize (IH r' eq_refl L).
      cbn. destruct (past (d', k')); cbn; lia. }
  assert (Ind : forall n s, (length (late s) <= n)%nat -> exists fired,
    none_overdue (e_now e) (fst (nrun s (map (fun x => (e, OTimer (fst x) (snd x))) fired))) /\
    genuine s (map (fun x => (e, OTimer (fst x) (snd x))) fired)).
  { induction n as [|n IH]; intros s L.
    - exists []. split; [|exact I]. intros d k Hd. destruct (N.ltb_spec d (e_now e)) as [X|X]; [|exact X]. exfalso.
      assert (In (d, k) (late s)) as Y by (apply filter_In; unfold past; cbn; split; [assumption|lia]).
      destruct (late s); [contradiction|cbn in L; lia].
    - destruct (late s) as [|[d k] r] eqn:El.
      + apply IH. rewrite El. cbn. lia.
      + assert (In (d, k) (late s)) as Y by (rewrite El; now left). apply filter_In in Y as [Y1 Y2]. unfold past in Y2. cbn in Y2.
        destruct (timer_fires e s d k Y1) as [ts [E F]]; [lia|].
        destruct (nstep e s (OTimer d k)) as [s1 ev] eqn:Es. cbn [fst] in F.
        assert (length (late s1) < length (late s))%nat as L1.
        { specialize (Rm d k _ _ E ltac:(lia)). fold (late s) in Rm.
          cbn [nstep] in Es. unfold on_timer in Es. destruct (N.leb_spec d (e_now e)); [|lia]. rewrite E in Es. cbn [n_active] in Es.
          assert (Lt : late s1 = filter past ts).
          { unfold late.
            assert (Bt : forall q, n_timers (blame q (del_active k (mkNetdb (n_dht s) (n_active s) ts))) = ts).
            { intro q. unfold blame. now destruct (q_selected q). }
            assert (Ap : filter past (ts ++ [(e_now e + query_timeout, k)]) =
                         filter past ts).
            { rewrite filter_app. cbn [filter]. unfold past at 2. cbn [fst]. destruct (N.ltb_spec (e_now e + query_timeout) (e_now e)); [lia|apply app_nil_r]. }
            destruct (nget k (n_active s)) as [[q|q| |]|]; cbn [handle_timeout] in Es;
              try (apply pair_equal_spec in Es as [<- _]; reflexivity).
            - destruct (pick_floodfill _ _ _ _ _) as [[[err|f] q1]|]; [|destruct (e_tunnels e); [destruct (e_room e k)|]|];
                apply pair_equal_spec in Es as [<- _]; cbn [n_timers put_active arm]; rewrite Bt; (reflexivity || exact Ap).
            - destruct (next_floodfill _ _ _ _) as [[err|f] q1]; [|destruct (e_tunnels e && e_room e k)];
                apply pair_equal_spec in Es as [<- _]; cbn [n_timers put_active arm]; rewrite Bt; (reflexivity || exact Ap). }
          rewrite Lt. exact Rm. }
        destruct (IH s1) as [fired [F1 F2]]; [rewrite El in L1; cbn in L, L1; lia|].
        exists ((d, k) :: fired). cbn [map fst snd nrun genuine]. rewrite Es. cbn [fst].
        destruct (nrun s1 _) as [s2 tr2]. split; [exact F1|]. split; [|exact F2].
        intros d0 k0 [= <- <-]. split; [assumption|lia]. }
  intro s. now apply (Ind (length (late s))).
Qed.
Print Assumptions C22_time_can_pass.

(** Success means that a matching record arrived under the key after the request. *)
Theorem C22_success_comes_from_a_record :
  forall t ops s tr n tx r,
    reachable t -> wf ops -> nrun (netdb_new t) ops = (s, tr) -> In (n, EvAnswer tx r) tr ->
    match r with
    | RLeaseSet ls => exists a e key sender b e',
        ops = a ++ (e, OStore key (PLease ls) sender) :: b /\ In (e', OLease key tx) a
    | ROk => exists a e key id ff v sender b e',
        ops = a ++ (e, OStore key (PInfo id ff v true) sender) :: b /\ In (e', OInfo key tx) a
    | RErr _ => True
    end.
Proof. intros t ops s tr n tx r R W H Hin. exact (run_answer t (reachable_ok t R) ops s tr n tx r W H Hin). Qed.
Print Assumptions C22_success_comes_from_a_record.

(** A caller gets no result at all only in the four cases of [closing].  The property as stated
    in English has no such exception, see [C22_refuted_no_result]. *)
Theorem C22_result_unless_partial :
  forall t ops s tr n tx,
    reachable t -> wf ops -> nrun (netdb_new t) ops = (s, tr) -> In (n, EvDrop tx) tr ->
    exists a e o b, ops = a ++ (e, o) :: b /\ e_now e = n /\ closing (fst (nrun (netdb_new t) a)) a tx o.
Proof. intros t ops s tr n tx R W H Hin. exact (run_drop t (reachable_ok t R) ops s tr n tx W H Hin). Qed.
Print Assumptions C22_result_unless_partial.

(** ** Floodfills that do not answer *)
(** When a timer of an ongoing lookup fires, the floodfill that owes an answer, if any, loses
    five points, and no other score changes. *)
Theorem C22_unanswered_floodfill_blamed :
  forall t ops s tr e d key lease id,
    reachable t -> wf ops -> NoDup (callers ops) -> genuine (netdb_new t) ops ->
    nrun (netdb_new t) ops = (s, tr) -> ongoing lease id key s ->
    In (d, key) (n_timers s) -> d <= e_now e -> (forall k, router_id (e_target e k)) ->
    let s' := fst (nstep e s (OTimer d key)) in
    match owes id key (history (netdb_new t) ops) with
    | Some f => rescored f (-5) (n_dht s) (n_dht s')
    | None => n_dht s' = n_dht s
    end.
Proof.
  intros t ops s tr e d key lease id R W ND Ge H [q [G <-]] Hd L He s'. pose proof (reachable_ok t R) as Ht.
  assert (G' : nget key (n_active s) = Some (mk lease q)) by (rewrite G; now destruct lease).
  rewrite <- (run_owes t Ht ops s tr key lease q W ND Ge H G').
  pose proof (run_base t Ht _ _ _ W H) as B. unfold s'. rewrite (timer_scores e s d key lease q B He Hd L G').
  destruct (q_selected q) as [f|]; [|reflexivity].
  unfold rescored. rewrite (adjust_entries _ _ _ (proj2 B)). reflexivity.
Qed.
Print Assumptions C22_unanswered_floodfill_blamed.

(** ** Examples *)
(** Two floodfills, 5 and 9; the local router is 1000.  Floodfill 9 is closest to the key 9 and
    its time runs out; 5 is asked next and answers. *)
Definition ex_env (now : N) (has : N -> bool) : env := mkEnv now has (fun k => k mod 256) true (fun _ => true).
Definition all (_ : N) : bool := true.
Definition ex_table : table := add_router (add_router (table_new 1000) 5) 9.

Lemma ex_reachable : reachable ex_table.
Proof.
  exists 1000, [KAdd 5; KAdd 9]. split; [unfold router_id; lia|]. split; [|reflexivity].
  repeat constructor; unfold router_id; lia.
Qed.
Lemma ex_target : forall now has k, router_id (e_target (ex_env now has) k).
Proof. intros. cbn. unfold router_id. pose proof (N.mod_upper_bound k 256). change (2 ^ 256) with (2 ^ 8 * 2 ^ 248).
  assert (0 < 2 ^ 248) by (apply N.neq_0_lt_0; now apply N.pow_nonzero). lia. Qed.

Definition ex_ops : list (env * nop) :=
  [(ex_env 0 all, OLease 9 1); (ex_env 5 all, OLease 9 2); (ex_env 1600 all, OTimer 1600 9);
   (ex_env 1700 all, OStore 9 (PLease 77) (Some 5))].

Example ex_lookup :
  wf ex_ops /\ NoDup (callers ex_ops) /\ clock 0 ex_ops /\ genuine (netdb_new ex_table) ex_ops /\
  snd (nrun (netdb_new ex_table) ex_ops) =
    [(0, EvAsk true 1 9 9); (1600, EvAsk true 1 9 5); (1700, EvAnswer 1 (RLeaseSet 77)); (1700, EvAnswer 2 (RLeaseSet 77))].
Proof.
  split; [repeat constructor; apply ex_target|]. split; [repeat constructor; cbn; lia|]. split; [cbn; lia|]. split.
  - cbn [genuine ex_ops]. split; [discriminate|]. split; [discriminate|]. split; [|split; [discriminate|exact I]].
    intros d k [= <- <-]. vm_compute. split; [now left|discriminate].
  - vm_compute. reflexivity.
Qed.

(** After the timer of 1600 ms floodfill 9 has lost five points, 5 has not. *)
Example ex_blame :
  let s := fst (nrun (netdb_new ex_table) (firstn 2 ex_ops)) in
  ongoing true 1 9 s /\ owes 1 9 (history (netdb_new ex_table) (firstn 2 ex_ops)) = Some 9 /\
  In (1600, 9) (n_timers s) /\
  t_bucket (n_dht (fst (nstep (ex_env 1600 all) s (OTimer 1600 9)))) 9 = [(5, 0%Z); (9, (-5)%Z)].
Proof.
  cbv zeta. split; [eexists; vm_compute; split; reflexivity|]. split; [vm_compute; reflexivity|].
  split; [vm_compute; now left|vm_compute; reflexivity].
Qed.

(** Nobody answers: the callers are told so. *)
Example ex_unanswered :
  let ops := [(ex_env 0 all, OLease 9 1); (ex_env 1600 all, OTimer 1600 9); (ex_env 3200 all, OTimer 3200 9)] in
  snd (nrun (netdb_new ex_table) ops) =
    [(0, EvAsk true 1 9 9); (1600, EvAsk true 1 9 5); (3200, EvAnswer 1 (RErr ENoFloodfills))] /\
  n_timers (fst (nrun (netdb_new ex_table) ops)) = [].
Proof. vm_compute. split; reflexivity. Qed.

(** ** Where the property fails *)
(** A router info lookup asks a floodfill twice: 5 is asked while its router info is still being
    downloaded, and again when it has arrived. *)
Definition only9 (r : N) : bool := r =? 9.
Theorem C22_refuted_router_info_asks_twice :
  exists t ops id,
    reachable t /\ wf ops /\ NoDup (callers ops) /\ clock 0 ops /\ genuine (netdb_new t) ops /\
    asked false id (snd (nrun (netdb_new t) ops)) = [9; 5; 5].
Proof.
  exists ex_table,
    [(ex_env 0 only9, OInfo 9 1); (ex_env 100 only9, OReply (Some (9, [5], 9)) (Some 9));
     (ex_env 1600 only9, OTimer 1600 9); (ex_env 3200 all, OTimer 3200 9)], 1.
  split; [exact ex_reachable|]. split; [repeat constructor; apply ex_target|]. split; [repeat constructor; cbn; lia|].
  split; [cbn; lia|]. split; [|vm_compute; reflexivity].
  cbn [genuine]. split; [discriminate|]. split; [discriminate|]. split; [|split; [|exact I]];
    intros d k [= <- <-]; vm_compute; (split; [tauto|discriminate]).
Qed.
Print Assumptions C22_refuted_router_info_asks_twice.

(** A caller gets neither success nor failure nor timeout: a router info arrives under the key
    of a lease set being looked up; somebody looks up the router info of the same key; a reply
    to another lookup names the key. *)
Theorem C22_refuted_no_result :
  exists t ops1 ops2 ops3, reachable t /\ wf ops1 /\ wf ops2 /\ wf ops3 /\
    In (100, EvDrop 1) (snd (nrun (netdb_new t) ops1)) /\
    In (100, EvDrop 2) (snd (nrun (netdb_new t) ops2)) /\
    In (100, EvDrop 1) (snd (nrun (netdb_new t) ops3)).
Proof.
  exists ex_table,
    [(ex_env 0 all, OLease 9 1); (ex_env 100 all, OStore 9 (PInfo 9 true true true) (Some 5))],
    [(ex_env 0 all, OLease 9 1); (ex_env 100 all, OInfo 9 2)],
    [(ex_env 0 only9, OInfo 7 1); (ex_env 10 only9, OInfo 8 2); (ex_env 100 only9, OReply (Some (8, [7], 9)) (Some 9))].
  split; [exact ex_reachable|].
  do 3 (split; [repeat constructor; cbn; try apply ex_target; unfold router_id; lia|]).
  vm_compute. split; [|split]; tauto.
Qed.
Print Assumptions C22_refuted_no_result.

(** A floodfill is blamed before its 1600 ms are over: the timer of an earlier lookup of the same
    key, answered in the meantime, fires.  Floodfill 9 is asked at 1500 and loses its points at
    1600. *)
Theorem C22_refuted_blamed_early :
  exists t ops e s tr,
    reachable t /\ wf ops /\ NoDup (callers ops) /\ clock 0 ops /\ genuine (netdb_new t) ops /\
    nrun (netdb_new t) ops = (s, tr) /\
    In (1500, EvAsk true 2 9 9) tr /\ In (1600, 9) (n_timers s) /\ e_now e = 1600 /\
    In (9, 0%Z) (entries (n_dht s)) /\ In (9, (-5)%Z) (entries (n_dht (fst (nstep e s (OTimer 1600 9))))).
Proof.
  exists ex_table,
    [(ex_env 0 all, OLease 9 1); (ex_env 100 all, OStore 9 (PLease 77) None); (ex_env 1500 all, OLease 9 2)],
    (ex_env 1600 all).
  eexists. eexists.
  split; [exact ex_reachable|]. split; [repeat constructor; apply ex_target|]. split; [repeat constructor; cbn; lia|].
  split; [cbn; lia|]. split; [cbn [genuine]; repeat (split; [discriminate|]); exact I|].
  split; [apply surjective_pairing|]. split; [vm_compute; tauto|]. split; [vm_compute; tauto|]. split; [reflexivity|].
  split; vm_compute; tauto.
Qed.
Print Assumptions C22_refuted_blamed_early.
