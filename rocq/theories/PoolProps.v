(** C94, C95, C96: how many tunnels a pool keeps, when it rebuilds them, how long they live.
    Statements use PoolSpec.v. *)
From Coq Require Import List NArith PeanoNat Bool Lia.
From Verif Require Import ListUtil NMap PoolModel PoolSpec PoolProofs PoolProofs2 PoolProofs3 PoolProofs4.
Import ListNotations.
Open Scope N_scope.

(** Checks of the hypotheses of this file on concrete histories. *)
Definition never_built (L : list life) (u : out) : bool :=
  match u with
  | Rep r => match says r with Some (d, id, Built) => negb (existsb (is d id) L) | _ => true end
  | _ => true
  end.
Fixpoint check (late : bool) (t : N) (L : list life) (tr : history) : bool :=
  (late || forallb (fun x => negb (l_at x + minutes 10 <=? t) || l_exp x) L) &&
  match tr with
  | [] => true
  | e :: r => forallb (never_built L) (snd e) &&
              check late (clock t [e]) (fold_left (hear (clock t [e])) (snd e) L) r
  end.
Lemma check_prefix late t L a b : check late t L (a ++ b) = true -> check late (clock t a) (live_from t L a) b = true.
Proof.
  revert t L. induction a as [|[o us] r IH]; intros t L H; [exact H|].
  rewrite clock_cons. cbn [app check live_from] in *. apply andb_true_iff in H as [_ H]. apply andb_true_iff in H as [_ H]. now apply IH.
Qed.
Lemma check_on_time t0 tr : check false t0 [] tr = true -> on_time t0 tr.
Proof.
  intros H tr1 tr2 x -> I D. apply check_prefix in H. fold (live t0 tr1) in H.
  assert (F : forallb (fun x => negb (l_at x + minutes 10 <=? clock t0 tr1) || l_exp x) (live t0 tr1) = true).
  { destruct tr2; cbn [check] in H; now apply andb_true_iff in H as [H _]. }
  rewrite forallb_forall in F. specialize (F x I). apply orb_true_iff in F as [F|F]; [|exact F].
  apply negb_true_iff, N.leb_gt in F. lia.
Qed.
Lemma check_distinct late t0 tr : check late t0 [] tr = true -> distinct_ids t0 tr.
Proof.
  intros H tr1 e tr2 r d id -> I S. apply check_prefix in H. fold (live t0 tr1) in H. cbn [check] in H.
  apply andb_true_iff in H as [_ H]. apply andb_true_iff in H as [H _]. rewrite forallb_forall in H. specialize (H _ I).
  cbn in H. rewrite S in H. now apply negb_true_iff in H.
Qed.

(** ** C94: a pool has no more tunnels than it is configured to have *)

(** Live tunnels and builds under way are never more than the configured number and one replacement
    for each tunnel that is about to expire.  What is missing: the hypothesis [on_time], that no
    timer of the pool is a minute late. *)
Theorem C94_never_too_many_partial : forall ni no t0 ops p tr d,
  run (p_new ni no t0) ops = (p, tr) -> running tr -> on_time t0 tr -> distinct_ids t0 tr ->
  (length (lives d (live t0 tr)) + length (building d tr) <= wanted d ni no + length (expiring d (live t0 tr)))%nat.
Proof.
  intros ni no t0 ops p tr d H R OT DI.
  destruct (counted _ _ _ _ _ _ H R OT DI) as (C1 & C2 & C3 & C4). destruct (run_nums _ _ _ _ _ _ H) as [N1 N2].
  pose proof (run_books _ _ _ _ _ _ H R) as B. pose proof (run_tidy _ _ _ _ _ _ H R OT DI) as T.
  pose proof (b_po _ _ B) as BO. pose proof (b_pi _ _ B) as BI. cbn in BO, BI. pose proof (d_co _ _ T). pose proof (d_ci _ _ T).
  destruct d; cbn [wanted]; rewrite ?BO, ?BI, ?map_length; lia.
Qed.
Print Assumptions C94_never_too_many_partial.

(** A pool with one inbound and one outbound tunnel, both of which are replaced after nine minutes
    and expire after ten. *)
Definition arg (gw : N) : marg :=
  let b := mkB true true (gw + 50) [gw + 100; gw + 101; gw + 102; gw + 103; gw + 104; gw + 105] false 9 gw in
  let b' := mkB true true (gw + 51) [gw + 100; gw + 101; gw + 102; gw + 103; gw + 104; gw + 105] true 8 (gw + 1) in mkM [b; b'] [b; b'] [] [] [].
Definition two_lives : list op :=
  [OEnd (arg 10); OOutDone 0 BGood; OInDone 1 BGood; OTick 20000; OEnd (arg 20); OTestDone 2 TGood; OTick 540000; OTimer 0; OTimer 1; OEnd (arg 30);
   OInDone 4 BGood; OTick 600000; OTimer 0; OInEnd 1].
Example C94_example :
  let tr := snd (run (p_new 1 1 0) two_lives) in
  running tr /\ on_time 0 tr /\ distinct_ids 0 tr /\
  map (fun x => (l_dir x, l_id x)) (live 0 (firstn 11 tr)) = [(Inb, 30); (Inb, 10); (Outb, 60)] /\
  map l_id (expiring Inb (live 0 (firstn 11 tr))) = [10] /\
  map l_id (live 0 tr) = [30] /\ building Outb tr = [3].
Proof.
  split; [vm_compute; reflexivity|]. split; [apply check_on_time; vm_compute; reflexivity|].
  split; [apply (check_distinct false); vm_compute; reflexivity|]. vm_compute. repeat split.
Qed.

(** If a timer is late, a tunnel expires before the pool notes that it is about to, the pool then
    waits for ever for it to expire, and has one tunnel more than it should. *)
Theorem C94_refuted : exists ops p tr,
  run (p_new 1 1 0) ops = (p, tr) /\ running tr /\ distinct_ids 0 tr /\
  (length (lives Inb (live 0 tr)) + length (building Inb tr) > 1 + length (expiring Inb (live 0 tr)))%nat /\
  live 0 tr = [].
Proof.
  exists [OEnd (arg 10); OInDone 1 BGood; OTick 600000; OInEnd 1; OTimer 0; OEnd (arg 20)].
  eexists _, _. split; [apply surjective_pairing|]. split; [vm_compute; reflexivity|].
  split; [apply (check_distinct true); vm_compute; reflexivity|]. vm_compute. split; [lia | reflexivity].
Qed.
Print Assumptions C94_refuted.

(** ** C95: expiring and failed tunnels are replaced *)

(** A poll ends with maintenance if there was none in the last ten seconds, or if a build has failed
    during the poll. *)
Theorem C95_maintenance_is_done : forall ni no t0 ops p tr a p' us,
  run (p_new ni no t0) ops = (p, tr) -> running tr -> step p (OEnd a) = (p', us) ->
  (match last_maintenance t0 None tr with None => True | Some t => t + seconds 10 <= clock t0 tr end) \/ build_failed tr = true ->
  maintained us = true.
Proof.
  intros ni no t0 ops p tr a p' us H R S D. destruct (run_all _ _ _ _ _ _ H R) as (A & B & G & U).
  unfold step in S. rewrite U in S. cbn [negb] in S. unfold poll_end in S.
  assert (M : forall q q' o, core q = core p -> side q = side (s_maint p (p_maint q)) -> maintain q a = (q', o) -> maintained o = true).
  { intros q q' o C E HM. unfold core in C. injection C as _ _ Cn _ Co _ _ _ Ci _ _ _ _. unfold side in E. injection E as _ El _.
    apply maintain_side in HM; [tauto|rewrite Co; apply (g_so _ _ _ G)|rewrite Ci; apply (g_si _ _ _ G)|rewrite Cn, El; apply (g_le _ _ _ G)]. }
  destruct (N.leb_spec (p_maint p) (p_now p)) as [L|L].
  - destruct (maintain _ a) as [p1 o] eqn:E. apply pair_equal_spec in S as [<- <-]. eapply M; [| |exact E]; reflexivity.
  - destruct D as [D|D].
    + exfalso. pose proof (g_maint _ _ _ G) as X. rewrite (a_now _ _ _ A) in L. pose proof (clock_ge t0 tr).
      destruct (last_maintenance t0 None tr); [|lia]. unfold MAINTENANCE, seconds in *. lia.
    + rewrite (g_failed _ _ _ G), D in S.
      destruct (maintain p a) as [p1 o] eqn:E. apply pair_equal_spec in S as [<- <-]. eapply M; [| |exact E]; reflexivity.
Qed.
Print Assumptions C95_maintenance_is_done.

(** After maintenance for which there are hops and free ids, live tunnels and builds under way are
    exactly as many as configured, plus one for each tunnel that is about to expire. *)
Theorem C95_all_replaced_partial : forall ni no t0 ops p tr a p' us d,
  run (p_new ni no t0) ops = (p, tr) -> running tr -> on_time t0 tr -> distinct_ids t0 tr ->
  step p (OEnd a) = (p', us) -> maintained us = true ->
  willing (no + length (expiring Outb (live t0 tr))) (ni + length (expiring Inb (live t0 tr))) (p_rt p) a ->
  (length (lives d (live t0 (tr ++ [(OEnd a, us)]))) + length (building d (tr ++ [(OEnd a, us)])) =
   wanted d ni no + length (expiring d (live t0 (tr ++ [(OEnd a, us)]))))%nat.
Proof.
  intros ni no t0 ops p tr a p' us d H R OT DI S M (W1 & W2 & W3).
  destruct (run_all _ _ _ _ _ _ H R) as (A & B & G & U). destruct (run_nums _ _ _ _ _ _ H) as [N1 N2].
  destruct (counted _ _ _ _ _ _ H R OT DI) as (C1 & C2 & C3 & C4). pose proof (run_tidy _ _ _ _ _ _ H R OT DI) as T.
  pose proof (d_co _ _ T) as DCO. pose proof (d_ci _ _ T) as DCI.
  unfold step in S. rewrite U in S. cbn [negb] in S. pose proof S as PC. apply poll_end_core in PC as [PC PQ].
  rewrite live_snoc. cbn [snd]. rewrite hear_quiet by exact PQ.
  assert (B' : books p' (of_history (tr ++ [(OEnd a, us)]))).
  { rewrite of_snoc. apply (books_step p); auto; [unfold step; now rewrite U | now apply ends_quiet]. }
  pose proof (b_po _ _ B') as BO. pose proof (b_pi _ _ B') as BI. cbn [of_history k_bo k_bi] in BO, BI.
  assert (K : (length (p_out p) + length (p_po p') = p_num_out p + length (p_exp_out p))%nat /\
              (length (p_inb p) + length (p_pi p') = p_num_in p + length (p_exp_in p))%nat).
  { unfold poll_end in S. rewrite <- C3, <- N2 in W1. rewrite <- C4, <- N1 in W2.
    destruct (_ <=? _).
    - destruct (maintain _ a) as [p1 o] eqn:E. apply pair_equal_spec in S as [<- <-].
      apply maintain_ok in E as [E1 E2]; auto.
    - destruct (0 <? _).
      + destruct (maintain _ a) as [p1 o] eqn:E. apply pair_equal_spec in S as [<- <-].
        apply maintain_ok in E as [E1 E2]; auto.
      + apply pair_equal_spec in S as [<- <-]. discriminate. }
  destruct d; cbn [wanted]; rewrite ?BO, ?BI, ?map_length; lia.
Qed.
Print Assumptions C95_all_replaced_partial.

(** The maintenance after nine minutes of the history above. *)
Example C95_example :
  let tr := snd (run (p_new 1 1 0) (firstn 9 two_lives)) in let p := fst (run (p_new 1 1 0) (firstn 9 two_lives)) in
  let us := snd (step p (OEnd (arg 30))) in
  running tr /\ on_time 0 tr /\ distinct_ids 0 tr /\ last_maintenance 0 None tr = Some 20000 /\ clock 0 tr = 540000 /\
  willing 2 2 (p_rt p) (arg 30) /\ length (expiring Inb (live 0 tr)) = 1%nat /\ building Inb (tr ++ [(OEnd (arg 30), us)]) = [4].
Proof.
  split; [vm_compute; reflexivity|]. split; [apply check_on_time; vm_compute; reflexivity|].
  split; [apply (check_distinct false); vm_compute; reflexivity|]. split; [vm_compute; reflexivity|]. split; [vm_compute; reflexivity|].
  split; [|split; vm_compute; reflexivity].
  split; [vm_compute; lia|]. split; [vm_compute; lia|].
  assert (L : (length (p_rt (fst (run (p_new 1 1 0) (firstn 9 two_lives)))) + length (m_outs (arg 30)) + length (m_ins (arg 30)) = 6)%nat) by (vm_compute; reflexivity).
  intros b I. rewrite L. cbn in I. destruct I as [<-|[<-|[<-|[<-|[]]]]]; (split; [reflexivity|]; split; [reflexivity|]; split; [|vm_compute; lia]; cbn;
    repeat (constructor; [cbn; intuition lia|]); constructor).
Qed.
(** A failed build: maintenance at once. *)
Example C95_example_failed :
  let ops := [OEnd (arg 10); OTick 100; OInDone 1 BNone] in let tr := snd (run (p_new 1 1 0) ops) in
  build_failed tr = true /\ last_maintenance 0 None tr = Some 0 /\
  maintained (snd (step (fst (run (p_new 1 1 0) ops)) (OEnd (arg 20)))) = true.
Proof. vm_compute. repeat split. Qed.

(** ** C96: tunnels live for ten minutes *)

(** A tunnel is reported expired ten minutes or more after it was reported built, and about to expire
    nine minutes or more after; the expiry time of a reported inbound tunnel is ten minutes from then. *)
Theorem C96_lifetimes : forall ni no t0 ops p tr o p' us r,
  run (p_new ni no t0) ops = (p, tr) -> running tr -> step p o = (p', us) -> In (Rep r) us ->
  match says r with
  | Some (d, id, Expired) => exists t r0, reported t0 tr t r0 /\ says r0 = Some (d, id, Built) /\ t + minutes 10 <= clock t0 tr
  | Some (d, id, Expiring) => exists t r0, reported t0 tr t r0 /\ says r0 = Some (d, id, Built) /\ t + minutes 9 <= clock t0 tr
  | Some (d, id, Built) => match r with RInBuilt _ _ e => e = clock t0 tr + minutes 10 | _ => True end
  | None => True
  end.
Proof.
  intros ni no t0 ops p tr o p' us r H R S I. destruct (run_agree _ _ _ _ _ _ H R) as [A U].
  destruct o; unfold step in S; rewrite ?U in S; cbn [negb] in S.
  - apply pair_equal_spec in S as [<- <-]. destruct I.
  - unfold out_done in S. destruct (pull po_sn sn (p_po p)) as [[x rest]|]; [destruct r0|]; apply pair_equal_spec in S as [<- <-];
      cbn in I; destruct I as [I|[]] || destruct I; try discriminate. injection I as <-. exact Logic.I.
  - unfold in_done in S. destruct (pull pi_sn sn (p_pi p)) as [[x rest]|]; [destruct r0|]; apply pair_equal_spec in S as [<- <-];
      cbn in I; destruct I as [I|[]] || destruct I; try discriminate. injection I as <-. cbn. now rewrite (a_now _ _ _ A).
  - unfold in_end in S. destruct (pull in_sn sn (p_inb p)) as [[x rest]|] eqn:P; [|apply pair_equal_spec in S as [<- <-]; destruct I].
    destruct (N.leb_spec (in_at x + TUNNEL_EXPIRATION) (p_now p)) as [D|D]; apply pair_equal_spec in S as [<- <-]; [|destruct I].
    destruct I as [I|[]]. injection I as <-. cbn. apply pull_spec in P as (_ & a & b & EP & _).
    destruct (a_task _ _ _ A x) as [r RP]; [rewrite EP; apply in_or_app; right; now left|].
    exists (in_at x). eexists. split; [exact RP|]. split; [reflexivity|]. rewrite <- (a_now _ _ _ A). exact D.
  - unfold in_panic in S. destruct (pull in_sn sn (p_inb p)) as [[? ?]|]; apply pair_equal_spec in S as [<- <-]; destruct I as [I|[]] || destruct I. discriminate.
  - apply pair_equal_spec in S as [<- <-]. destruct (message_quiet _ _ _ _ I r) as [Q _]. now elim Q.
  - apply pair_equal_spec in S as [<- <-]. destruct I as [I|[]]. discriminate.
  - apply test_done_core in S as [_ Q]. destruct (Q _ I r) as [Q' _]. now elim Q'.
  - unfold timer in S. destruct (pull_at i (p_timers p)) as [[[d ev] rest]|] eqn:P; [|apply pair_equal_spec in S as [<- <-]; destruct I].
    destruct (N.ltb_spec (p_now p) d) as [D|D]; [apply pair_equal_spec in S as [<- <-]; destruct I|].
    apply pull_at_spec in P as (a & b & EP & _).
    assert (TI : In (d, ev) (p_timers p)) by (rewrite EP; apply in_or_app; right; now left).
    pose proof (a_timer _ _ _ A _ _ TI) as W. rewrite (a_now _ _ _ A) in D.
    destruct ev; apply pair_equal_spec in S as [<- <-]; destruct I as [I|[]]; injection I as <-; cbn [says].
    + destruct W as (t & -> & W). exists t. eexists. split; [exact W|]. split; [reflexivity | exact D].
    + destruct W as (t & r & -> & W). exists t. eexists. split; [exact W|]. split; [reflexivity | exact D].
    + destruct W as (t & -> & W). exists t. eexists. split; [exact W|]. split; [reflexivity | exact D].
  - apply pair_equal_spec in S as [<- <-]. destruct I as [I|[I|[]]]; [|discriminate]. injection I as <-. exact Logic.I.
  - apply poll_end_core in S as [_ Q]. destruct (Q _ I r) as [Q' _]. now elim Q'.
  - destruct (smem g (p_zero p)); apply pair_equal_spec in S as [<- <-]; destruct I.
  - destruct (waited p sn); apply pair_equal_spec in S as [<- <-]; destruct I.
  - destruct (smem id (p_rt p)); apply pair_equal_spec in S as [<- <-]; destruct I.
  - destruct (smem id (p_alien p)); apply pair_equal_spec in S as [<- <-]; destruct I.
Qed.
Print Assumptions C96_lifetimes.

(** Nor do they live longer: when no timer and no tunnel of the pool is due, every live tunnel is
    less than ten minutes old. *)
Theorem C96_expire_when_due : forall ni no t0 ops p tr x,
  run (p_new ni no t0) ops = (p, tr) -> running tr ->
  (forall i, snd (step p (OTimer i)) = []) -> (forall sn, snd (step p (OInEnd sn)) = []) ->
  In x (live t0 tr) -> clock t0 tr < l_at x + minutes 10.
Proof.
  intros ni no t0 ops p tr x H R HT HI I. destruct (run_all _ _ _ _ _ _ H R) as (A & B & _ & U).
  apply N.nle_gt. intro D. rewrite <- (a_now _ _ _ A) in D. destruct (l_dir x) eqn:DX.
  - destruct (a_inb _ _ _ A x I DX) as (y & IY & E1 & E2). specialize (HI (in_sn y)). unfold step in HI. rewrite U in HI. cbn [negb] in HI.
    unfold in_end in HI. destruct (pull_some _ in_sn _ _ IY) as (z & r & P). rewrite P in HI.
    assert (Z : z = y).
    { apply pull_spec in P as (Q & a & b & EP & _). pose proof (b_nd _ _ B) as N. rewrite !app_assoc in N.
      apply (Permutation.Permutation_NoDup (Permutation.Permutation_app_comm _ _)) in N. apply NoDup_left in N.
      rewrite EP in N, IY. apply in_mid_map in N as [_ N]. apply in_mid in IY as [->|IY]; [reflexivity|]. now elim (N y IY). }
    subst z. rewrite E2 in HI. apply N.leb_le in D. unfold minutes in D. cbn [N.mul] in D.
    replace (l_at x + TUNNEL_EXPIRATION <=? p_now p) with true in HI by (symmetry; exact D). discriminate.
  - pose proof (a_destroy _ _ _ A x I DX) as TI. apply In_nth_error in TI as [i TI]. specialize (HT i).
    unfold step in HT. rewrite U in HT. cbn [negb] in HT. unfold timer in HT. apply pull_at_nth in TI as [r P]. rewrite P in HT.
    replace (p_now p <? l_at x + TUNNEL_EXPIRATION) with false in HT by (symmetry; apply N.ltb_ge; exact D). discriminate.
Qed.
Print Assumptions C96_expire_when_due.

(** The tunnels from which hops and reply gateways are selected are the live ones. *)
Theorem C96_selected_from_live : forall ni no t0 ops p tr id,
  run (p_new ni no t0) ops = (p, tr) -> running tr ->
  (In id (p_sel_out p) <-> exists x, In x (live t0 tr) /\ l_dir x = Outb /\ l_id x = id) /\
  (In id (p_sel_in p) <-> exists x, In x (live t0 tr) /\ l_dir x = Inb /\ l_id x = id).
Proof.
  intros ni no t0 ops p tr id H R. destruct (run_agree _ _ _ _ _ _ H R) as [A U]. split; [apply (a_so _ _ _ A) | apply (a_si _ _ _ A)].
Qed.
Print Assumptions C96_selected_from_live.

Example C96_example :
  let tr := snd (run (p_new 1 1 0) two_lives) in let p := fst (run (p_new 1 1 0) two_lives) in
  map snd (skipn 12 tr) = [[Rep (ROutExpired 60)]; [Rep (RInExpired 10)]] /\ nth_error tr 2 = Some (OInDone 1 BGood, [Rep (RInBuilt 10 9 600000)]) /\
  live 0 tr = [mkLife Inb 30 540000 false] /\ p_sel_in p = [30] /\ p_sel_out p = [] /\ p_timers p = [(1080000, TRebuildIn 30)].
Proof. vm_compute. repeat split. Qed.
