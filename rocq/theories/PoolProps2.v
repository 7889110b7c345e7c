(** C97, C98: what a tunnel pool leaves in the routing table and among the reply listeners.
    Statements use PoolSpec.v. *)
From Coq Require Import List NArith PeanoNat Bool Lia.
From Verif Require Import ListUtil NMap RouteProofs PoolModel PoolSpec PoolProofs PoolProofs2 PoolProofs3 PoolProofs4 PoolProps.
Import ListNotations.
Open Scope N_scope.

(** ** C97: routing table entries *)

(** While the pool runs, the routing table has an entry for each inbound build under way, each live
    inbound tunnel and each 0-hop tunnel, and no other of this pool's; no id is used twice. *)
Theorem C97_entries_while_running : forall ni no t0 ops p tr,
  run (p_new ni no t0) ops = (p, tr) -> running tr ->
  (forall id, In id (p_rt p) <-> (exists sn, In (sn, id) (entries tr)) \/ In id (zeros tr) \/ In id (p_alien p)) /\
  (forall sn sn' id, In (sn, id) (entries tr) -> In (sn', id) (entries tr) -> sn = sn') /\
  (forall sn id, In (sn, id) (entries tr) -> ~ In id (zeros tr) /\ ~ In id (p_alien p)) /\
  (forall id, In id (zeros tr) -> ~ In id (p_alien p)).
Proof.
  intros ni no t0 ops p tr H R. pose proof (run_books _ _ _ _ _ _ H R) as B.
  pose proof (b_en _ _ B) as BE. pose proof (b_ze _ _ B) as BZ. pose proof (b_rt _ _ B) as BR. pose proof (b_rn _ _ B) as BN.
  cbn [of_history k_en k_ze] in BE, BZ. rewrite app_assoc in BN. rewrite BZ.
  assert (EN : forall id, (exists sn, In (sn, id) (entries tr)) <-> In id (map pi_tid (p_pi p) ++ map in_tid (p_inb p))).
  { intro id. rewrite in_app_iff, !in_map_iff. split.
    - intros [sn I]. apply BE in I as [(x & I & _ & E)|(x & I & _ & E)]; eauto.
    - intros [(x & E & I)|(x & E & I)]; [exists (pi_sn x)|exists (in_sn x)]; apply BE; eauto. }
  split; [|split; [|split]].
  - intro id. rewrite BR, EN, !in_app_iff. tauto.
  - intros sn sn' id I J. apply BE in I. apply BE in J. apply NoDup_left in BN.
    assert (ND : NoDup (map snd (map (fun x => (pi_sn x, pi_tid x)) (p_pi p) ++ map (fun x => (in_sn x, in_tid x)) (p_inb p)))).
    { rewrite map_app, !map_map. exact BN. }
    assert (Q : forall s, (exists x, In x (p_pi p) /\ pi_sn x = s /\ pi_tid x = id) \/ (exists y, In y (p_inb p) /\ in_sn y = s /\ in_tid y = id) ->
       In (s, id) (map (fun x => (pi_sn x, pi_tid x)) (p_pi p) ++ map (fun x => (in_sn x, in_tid x)) (p_inb p))).
    { intros s K. rewrite in_app_iff, !in_map_iff. destruct K as [(x & K & <- & <-)|(x & K & <- & <-)]; [left|right]; exists x; auto. }
    apply Q in I. apply Q in J. revert I J ND. generalize (map (fun x => (pi_sn x, pi_tid x)) (p_pi p) ++ map (fun x => (in_sn x, in_tid x)) (p_inb p)).
    intros l I J N. induction l as [|[s i] l IH]; [destruct I|]. cbn in N. inversion N as [|? ? NI N']; subst.
    destruct I as [I|I], J as [J|J].
    + congruence.
    + injection I as -> ->. elim NI. change id with (snd (sn', id)). now apply in_map.
    + injection J as -> ->. elim NI. change id with (snd (sn, id)). now apply in_map.
    + now apply IH.
  - intros sn id I. assert (J : In id (map pi_tid (p_pi p) ++ map in_tid (p_inb p))) by (apply EN; eauto).
    pose proof (NoDup_app_disj _ _ _ _ BN J) as K. rewrite in_app_iff in K. tauto.
  - intros id I. apply (Permutation.Permutation_NoDup (Permutation.Permutation_app_comm _ _)), NoDup_left in BN.
    now apply (NoDup_app_disj _ _ _ _ BN).
Qed.
Print Assumptions C97_entries_while_running.

(** When the pool is shut down, the entries of its live inbound tunnels are removed. *)
Lemma fold_sdel (l : nmap (N * N)) rt id :
  In id (fold_left (fun rt e => sdel (fst (snd e)) rt) l rt) <-> In id rt /\ forall e, In e l -> fst (snd e) <> id.
Proof.
  revert rt. induction l as [|e l IH]; intro rt; cbn [fold_left]; [split; [intro I; split; [exact I | intros e []] | tauto]|].
  rewrite IH, sdel_In. split.
  - intros [[NE I] F]. split; [exact I|]. intros x [<-|Hx]; [congruence | auto].
  - intros [I F]. split; [split; [|exact I]|].
    + intro E. apply (F e); [now left | congruence].
    + intros x Hx. apply F. now right.
Qed.
Theorem C97_shut_down : forall ni no t0 ops p tr p' us sn id,
  run (p_new ni no t0) ops = (p, tr) -> running tr -> on_time t0 tr -> distinct_ids t0 tr ->
  step p OShutdown = (p', us) ->
  In (sn, id) (entries tr) -> ~ In sn (building Inb tr) -> ~ In id (p_rt p').
Proof.
  intros ni no t0 ops p tr p' us sn id H R OT DI S I NB. destruct (run_all _ _ _ _ _ _ H R) as (A & B & G & U).
  pose proof (run_tidy _ _ _ _ _ _ H R OT DI) as T. unfold step in S. rewrite U in S. cbn [negb] in S.
  unfold shutdown in S. apply pair_equal_spec in S as [<- _]. cbn [p_rt s_up s_rt]. rewrite fold_sdel. intros [_ F].
  apply (b_en _ _ B) in I as [(x & I & E1 & E2)|(y & I & E1 & E2)].
  - apply NB. pose proof (b_pi _ _ B) as Q. cbn in Q. rewrite Q, <- E1. now apply in_map.
  - destruct (d_tid _ _ T y I) as [r Q]. apply nget_In in Q. now apply (F _ Q).
Qed.
Print Assumptions C97_shut_down.

Example C97_example :
  let ops := OAlien 110 :: firstn 10 two_lives in
  let tr := snd (run (p_new 1 1 0) ops) in let p := fst (run (p_new 1 1 0) ops) in
  running tr /\ entries tr = [(4, 131); (1, 112)] /\ zeros tr = [130; 111] /\ p_rt p = [131; 130; 112; 111; 110] /\ building Inb tr = [4] /\
  p_rt (fst (step p OShutdown)) = [131; 130; 111; 110].
Proof. vm_compute. repeat split. Qed.

(** The entries of builds under way stay in the routing table for ever, so their ids can not be used
    again, if the pool is shut down. *)
Lemma ended_keeps id ops p p' tr :
  run p ops = (p', tr) -> p_up p = false -> In id (p_rt p) -> ~ In id (p_alien p) -> ~ In id (p_zero p) -> In id (p_rt p').
Proof.
  revert p p' tr. induction ops as [|o ops IH]; intros p p' tr H U I NA NZ; cbn [run] in H.
  { apply pair_equal_spec in H as [<- _]. exact I. }
  destruct (step p o) as [p1 u] eqn:S. destruct (run p1 ops) as [p2 tr2] eqn:E. apply pair_equal_spec in H as [<- _].
  assert (K : p_up p1 = false /\ In id (p_rt p1) /\ ~ In id (p_alien p1) /\ ~ In id (p_zero p1)).
  2: { destruct K as (K1 & K2 & K3 & K4). eapply IH; eauto. }
  destruct o; unfold step in S; rewrite ?U in S; cbn [negb] in S; try (apply pair_equal_spec in S as [<- _]; auto; fail).
  - destruct (smem g (p_zero p)) eqn:M; apply pair_equal_spec in S as [<- _]; [|auto]. apply smem_In in M.
    cbn. rewrite !sdel_In. split; [exact U|]. split; [split; [intros ->; auto | exact I]|]. split; [exact NA | tauto].
  - destruct (waited p sn); apply pair_equal_spec in S as [<- _]; auto.
  - destruct (smem id0 (p_rt p)) eqn:M; apply pair_equal_spec in S as [<- _]; [auto|]. cbn. split; [exact U|]. split; [auto|]. split; [|exact NZ].
    intros [->|J]; [|auto]. apply smem_In in I. congruence.
  - destruct (smem id0 (p_alien p)) eqn:M; apply pair_equal_spec in S as [<- _]; [|auto]. apply smem_In in M.
    cbn. rewrite !sdel_In. split; [exact U|]. split; [split; [intros ->; auto | exact I]|]. split; [tauto | exact NZ].
Qed.
Lemma run_after ni no t0 ops more p tr :
  run (p_new ni no t0) ops = (p, tr) -> forall p' tr', run (p_new ni no t0) (ops ++ more) = (p', tr') -> exists tr'', run p more = (p', tr'').
Proof.
  intros H p' tr' H'. rewrite run_app, H in H'. destruct (run p more) as [q tr'']. apply pair_equal_spec in H' as [<- _]. eauto.
Qed.
Theorem C97_refuted_shutdown_leaks : exists ops,
  let '(p, tr) := run (p_new 1 1 0) ops in
  running tr /\ entries tr = [(1, 111)] /\
  forall more p' tr', run (p_new 1 1 0) (ops ++ [OShutdown] ++ more) = (p', tr') -> In 111 (p_rt p').
Proof.
  exists [OEnd (arg 10)]. destruct (run (p_new 1 1 0) [OEnd (arg 10)]) as [p tr] eqn:E.
  pose proof (f_equal snd E) as ET. cbn [snd] in ET. split; [rewrite <- ET; vm_compute; reflexivity|]. split; [rewrite <- ET; vm_compute; reflexivity|].
  intros more p' tr' H. rewrite app_assoc in H.
  destruct (run (p_new 1 1 0) ([OEnd (arg 10)] ++ [OShutdown])) as [q tr2] eqn:E2. pose proof (f_equal fst E2) as EQ. cbn [fst] in EQ.
  destruct (run_after _ _ _ _ _ _ _ E2 _ _ H) as [tr'' K]. apply (ended_keeps 111 _ _ _ _ K); rewrite <- EQ; vm_compute; intuition discriminate.
Qed.
Print Assumptions C97_refuted_shutdown_leaks.

(** ** C98: reply listeners *)

(** A reply listener is there as long as the build or test it is for is under way; others are only
    those of builds whose first hop could not be dialed and of tests that timed out. *)
Theorem C98_listeners : forall ni no t0 ops p tr sn,
  run (p_new ni no t0) ops = (p, tr) -> running tr ->
  (In sn (waits tr) -> In sn (p_listen p)) /\ (In sn (p_listen p) -> In sn (waits tr) \/ left_behind tr sn).
Proof.
  intros ni no t0 ops p tr sn H R. pose proof (run_books _ _ _ _ _ _ H R) as B. split.
  - apply (b_li _ _ B).
  - apply (run_heard _ _ _ _ _ _ H R).
Qed.
Print Assumptions C98_listeners.

Example C98_example :
  let ops := firstn 5 two_lives ++ [OTestDone 2 TTimeout; OTick 30000; OTestDone 2 TTimeout; OTick 540000; OTimer 0; OTimer 1; OEnd (arg 30)] in
  let tr := snd (run (p_new 1 1 0) ops) in let p := fst (run (p_new 1 1 0) ops) in
  running tr /\ waits tr = [4] /\ p_listen p = [4; 2] /\ nth_error tr 7 = Some (OTestDone 2 TTimeout, [TestBad 60 10]).
Proof. vm_compute. repeat split. Qed.

(** These are never removed unless a message comes for them: any number of listeners while nothing is
    under way. *)
Definition dial_fails (n : nat) : list op := flat_map (fun k => [OEnd (arg 10); OInDone (N.of_nat k) BDial]) (seq 0 n).
Definition idle_pool (k : N) (l : list N) (m f : N) : pool :=
  mkPool 1 0 0 true k [] [] [] [] [] [] [] [] [] 0 m f [] [] [] l [] [].
Lemma dial_round k l m f : (m = 0 /\ f = 0) \/ (m = 10000 /\ f = 1) ->
  run (idle_pool k l m f) [OEnd (arg 10); OInDone k BDial] =
  (idle_pool (k + 1) (k :: l) 10000 1, [(OEnd (arg 10), [Maintained; StartIn k 110 10]); (OInDone k BDial, [Failed k])]).
Proof.
  intros H. cbn [run].
  assert (E : step (idle_pool k l m f) (OEnd (arg 10)) =
    (mkPool 1 0 0 true (k + 1) [] [] [] [] [] [] [mkPI k 110 10 9] [] [] 0 10000 0 [110] [] [] (k :: l) [] [], [Maintained; StartIn k 110 10])).
  { destruct H as [[-> ->]|[-> ->]]; reflexivity. }
  rewrite E. unfold step, in_done. cbn [negb p_up p_pi pull pi_sn]. rewrite N.eqb_refl. reflexivity.
Qed.
Lemma dial_fails_run n : exists l m f, (length l = n)%nat /\ ((m = 0 /\ f = 0) \/ (m = 10000 /\ f = 1)) /\
  fst (run (p_new 1 0 0) (dial_fails n)) = idle_pool (N.of_nat n) l m f /\ running (snd (run (p_new 1 0 0) (dial_fails n))).
Proof.
  induction n as [|n (l & m & f & L & C & E & R)].
  - exists [], 0, 0. repeat split. now left.
  - unfold dial_fails in *. rewrite seq_S, flat_map_app. cbn [plus flat_map]. rewrite app_nil_r, run_app.
    destruct (run (p_new 1 0 0) (flat_map _ (seq 0 n))) as [q tr]. cbn [fst snd] in E, R. subst q.
    rewrite (dial_round (N.of_nat n) l m f C). exists (N.of_nat n :: l), 10000, 1. cbn [fst snd].
    split; [cbn; lia|]. split; [now right|]. split; [f_equal; lia|].
    unfold running in *. rewrite existsb_app, R. reflexivity.
Qed.
Theorem C98_refuted_listeners_pile_up : forall n, exists ops,
  let '(p, tr) := run (p_new 1 0 0) ops in
  running tr /\ waits tr = [] /\ building Inb tr = [] /\ building Outb tr = [] /\ live 0 tr = [] /\ (length (p_listen p) = n)%nat.
Proof.
  intro n. exists (dial_fails n). destruct (dial_fails_run n) as (l & m & f & L & C & E & R).
  destruct (run (p_new 1 0 0) (dial_fails n)) as [p tr] eqn:H. cbn [fst snd] in E, R. subst p.
  destruct (run_all _ _ _ _ _ _ H R) as (A & B & _ & _). split; [exact R|].
  pose proof (b_po _ _ B) as B1. pose proof (b_pi _ _ B) as B2. cbn in B1, B2. split; [|split; [exact B2|split; [exact B1|split; [|exact L]]]].
  - destruct (waits tr) as [|x w] eqn:W; [reflexivity|]. exfalso. assert (I : In x (k_wa (of_history tr))) by (cbn; rewrite W; now left).
    apply (b_wa _ _ B) in I. cbn in I. destruct I as [(y & [] & _)|[(y & [] & _)|(y & [] & _)]].
  - destruct (live 0 tr) as [|x w] eqn:W; [reflexivity|]. exfalso. assert (I : In x (live 0 tr)) by (rewrite W; now left).
    destruct (l_dir x) eqn:D.
    + destruct (a_inb _ _ _ A x I D) as (y & [] & _).
    + destruct (a_destroy _ _ _ A x I D).
Qed.
Print Assumptions C98_refuted_listeners_pile_up.
