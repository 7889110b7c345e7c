(** C99, C100, C101: the messages sent through a pool's tunnels, the tests of its tunnels, its end.
    Statements use PoolSpec.v. *)
From Coq Require Import List NArith PeanoNat Bool Lia.
From Verif Require Import ListUtil NMap RouteProofs RpathProofs PoolModel PoolSpec PoolProofs PoolProofs2 PoolProofs3 PoolProofs4 PoolProps PoolProps2.
Import ListNotations.
Open Scope N_scope.

(** ** C99: messages go out through live tunnels *)

Lemma pool_choose_in A r (l : list A) x : PoolModel.choose r l = Some x -> In x l.
Proof. destruct l as [|y l]; cbn [PoolModel.choose]; [discriminate|]. apply nth_error_In. Qed.
Lemma pool_choose_none A r (l : list A) : PoolModel.choose r l = None -> l = [].
Proof.
  destruct l as [|y l]; [auto|]. cbn [PoolModel.choose]. intro H. apply nth_error_None in H. exfalso.
  assert (r mod N.of_nat (length (y :: l)) < N.of_nat (length (y :: l))) by (apply N.mod_upper_bound; cbn [length]; lia). lia.
Qed.
(** Every request is answered: the message goes, to the router or tunnel it is for, out through a live
    outbound tunnel of the pool, to that tunnel's first hop; through the tunnel that was asked for, if
    it is live; it is lost only if there is no live tunnel, or not the one it must go through. *)
Theorem C99_right_answer : forall ni no t0 ops p tr q r p' us,
  run (p_new ni no t0) ops = (p, tr) -> running tr -> step p (OMessage q r) = (p', us) ->
  right_answer (live t0 tr) tr q us.
Proof.
  intros ni no t0 ops p tr q r p' us H R S. destruct (run_all _ _ _ _ _ _ H R) as (A & B & G & U).
  unfold step in S. rewrite U in S. cbn [negb] in S. apply pair_equal_spec in S as [_ <-].
  assert (UP : forall id, up (live t0 tr) id <-> exists h, nget id (p_out p) = Some h).
  { intro id. rewrite nget_Some_nkeys. symmetry. apply (a_out _ _ _ A). }
  assert (AN : forall id h, any_tunnel p r = Some (id, h) -> nget id (p_out p) = Some h).
  { intros id h E. apply pool_choose_in in E. apply In_nget_nodup; [apply sorted_NoDup, (g_so _ _ _ G) | exact E]. }
  assert (NO : any_tunnel p r = None -> forall id, ~ up (live t0 tr) id).
  { intros E id. apply pool_choose_none in E. rewrite UP, E. intros [h Q]. discriminate. }
  assert (SENT : forall q id h t m, nget id (p_out p) = Some h -> dest q = Some (t, m) ->
     (forall g, asked q = Some g -> up (live t0 tr) g \/ only_asked q = true -> id = g) -> right_answer (live t0 tr) tr q [Sent id h t m]).
  { intros q0 id h t m E D F. split; [apply UP; eauto|]. split; [exact D|]. split; [now apply (g_out _ _ _ G) | exact F]. }
  assert (VIA : forall q v t m, dest q = Some (t, m) -> asked q = v -> only_asked q = false ->
     right_answer (live t0 tr) tr q (send (via_tunnel p v r) t m q)).
  { intros q0 v t m D E O. unfold via_tunnel. destruct v as [g|].
    - destruct (nget g (p_out p)) as [h|] eqn:NG.
      + cbn [send]. apply SENT; auto. intros g' E' _. congruence.
      + destruct (any_tunnel p r) as [[id h]|] eqn:AT; cbn [send].
        * apply SENT; auto. intros g' E' [X|X]; [|congruence]. apply UP in X as [h' X]. congruence.
        * cbn. split; [reflexivity|]. intros _. rewrite O. now apply NO.
    - destruct (any_tunnel p r) as [[id h]|] eqn:AT; cbn [send].
      + apply SENT; auto. intros g' E'. congruence.
      + cbn. split; [reflexivity|]. intros _. rewrite O. now apply NO. }
  destruct q; cbn [message].
  - destruct (nget gateway (p_out p)) as [h|] eqn:NG; cbn [send].
    + apply SENT; auto. intros g' E _. cbn in E. congruence.
    + cbn. split; [reflexivity|]. intros _ g E. injection E as <-. rewrite UP, NG. intros [h Q]. discriminate.
  - apply (VIA (QTunnel router tunnel msg) None); reflexivity.
  - apply (VIA (QRouterVia router via msg) via); reflexivity.
  - apply (VIA (QTunnelVia router tunnel via msg) via); reflexivity.
  - cbn. split; [reflexivity|]. intro X. now elim X.
Qed.
Print Assumptions C99_right_answer.

Example C99_example :
  let ops := firstn 3 two_lives in let tr := snd (run (p_new 1 1 0) ops) in let p := fst (run (p_new 1 1 0) ops) in
  running tr /\ map l_id (lives Outb (live 0 tr)) = [60] /\
  snd (step p (OMessage (QTunnelVia 5 6 (Some 61) 7) 0)) = [Sent 60 9 (ToTunnel 5 6) 7] /\
  snd (step p (OMessage (QRouter 61 5 7) 0)) = [Lost (QRouter 61 5 7)] /\
  snd (step (p_new 1 1 0) (OMessage (QTunnel 5 6 7) 0)) = [Lost (QTunnel 5 6 7)].
Proof. vm_compute. repeat split. Qed.

(** ** C100: tunnel tests *)

Lemma tested_in_us us o : In o (tested_out us) <-> exists sn i, In (Tested sn o i) us.
Proof.
  unfold tested_out. rewrite in_flat_map. split.
  - intros (u & I & J). destruct u; cbn in J; try contradiction. destruct J as [<-|[]]. eauto.
  - intros (sn & i & I). exists (Tested sn o i). split; [exact I | now left].
Qed.
Lemma step_tests_only p o p' us : p_up p = true -> step p o = (p', us) -> (forall a, o <> OEnd a) -> tested_out us = [] /\ tested_in us = [].
Proof.
  intros U S N. destruct o; unfold step in S; rewrite ?U in S; cbn [negb] in S; try (apply pair_equal_spec in S as [_ <-]; auto; fail).
  - unfold out_done in S. destruct (pull po_sn sn (p_po p)) as [[? ?]|]; [destruct r|]; apply pair_equal_spec in S as [_ <-]; auto.
  - unfold in_done in S. destruct (pull pi_sn sn (p_pi p)) as [[? ?]|]; [destruct r|]; apply pair_equal_spec in S as [_ <-]; auto.
  - unfold in_end in S. destruct (pull in_sn sn (p_inb p)) as [[? ?]|]; [destruct (_ <=? _)|]; apply pair_equal_spec in S as [_ <-]; auto.
  - unfold in_panic in S. destruct (pull in_sn sn (p_inb p)) as [[? ?]|]; apply pair_equal_spec in S as [_ <-]; auto.
  - apply pair_equal_spec in S as [_ <-].
    assert (PS : forall t to m q', tested_out (send t to m q') = [] /\ tested_in (send t to m q') = []) by (intros [[? ?]|] to m q'; auto).
    destruct q; cbn [message]; auto.
  - unfold test_done in S. destruct (pull t_sn sn (p_tests p)) as [[? ?]|]; [destruct r; [|destruct (_ <=? _)]|]; apply pair_equal_spec in S as [_ <-]; auto.
  - unfold timer in S. destruct (pull_at i (p_timers p)) as [[[d ev] ?]|]; [destruct (_ <? _); [|destruct ev]|]; apply pair_equal_spec in S as [_ <-]; auto.
  - now elim (N a).
  - destruct (smem g (p_zero p)); apply pair_equal_spec in S as [_ <-]; auto.
  - destruct (waited p sn); apply pair_equal_spec in S as [_ <-]; auto.
  - destruct (smem id (p_rt p)); apply pair_equal_spec in S as [_ <-]; auto.
  - destruct (smem id (p_alien p)); apply pair_equal_spec in S as [_ <-]; auto.
Qed.
(** What maintenance says about tests, in terms of the history. *)
Lemma steady_out t0 p tr o : agree t0 p tr -> In o (nkeys (p_out p)) -> ~ In o (p_exp_out p) -> steady Outb (live t0 tr) o.
Proof.
  intros A I N. split; [now apply (a_out _ _ _ A)|]. intros x Hx D E. destruct (l_exp x) eqn:X; [|reflexivity]. exfalso. apply N.
  pose proof (a_exp _ _ _ A x Hx X) as Q. rewrite D, E in Q. exact Q.
Qed.
Lemma steady_in t0 p tr o : agree t0 p tr -> In o (nkeys (p_intun p)) -> ~ In o (p_exp_in p) -> steady Inb (live t0 tr) o.
Proof.
  intros A I N. split; [now apply (a_in _ _ _ A)|]. intros x Hx D E. destruct (l_exp x) eqn:X; [|reflexivity]. exfalso. apply N.
  pose proof (a_exp _ _ _ A x Hx X) as Q. rewrite D, E in Q. exact Q.
Qed.
Lemma end_maintains t0 p tr a p' us : agree t0 p tr -> ledger t0 p tr -> p_up p = true -> step p (OEnd a) = (p', us) ->
  us = [] \/ exists q q', core q = core p /\ p_last_test q = p_last_test p /\ maintain q a = (q', us).
Proof.
  intros A G U S. unfold step in S. rewrite U in S. cbn [negb] in S. unfold poll_end in S.
  destruct (_ <=? _); [|destruct (0 <? _)]; [| |apply pair_equal_spec in S as [_ <-]; auto];
    (destruct (maintain _ a) as [p1 o] eqn:E; apply pair_equal_spec in S as [_ <-]; right; eexists _, _; split; [|split; [|exact E]]; reflexivity).
Qed.

(** Only tunnels that are live and not about to expire are tested, each once in a round, and rounds
    are fifteen seconds or more apart. *)
Theorem C100_what_is_tested : forall ni no t0 ops p tr o p' us,
  run (p_new ni no t0) ops = (p, tr) -> running tr -> step p o = (p', us) ->
  (forall id, In id (tested_out us) -> steady Outb (live t0 tr) id) /\ NoDup (tested_out us) /\
  (forall id, In id (tested_in us) -> steady Inb (live t0 tr) id) /\ NoDup (tested_in us) /\
  (tested_out us <> [] -> maintained us = true /\ last_round t0 t0 tr + seconds 15 <= clock t0 tr).
Proof.
  intros ni no t0 ops p tr o p' us H R S. destruct (run_all _ _ _ _ _ _ H R) as (A & B & G & U).
  assert (X : (exists a, o = OEnd a) \/ forall a, o <> OEnd a) by (destruct o; try (right; discriminate); left; eauto).
  assert (E : tested_out us = [] -> tested_in us = [] -> (forall id, In id (tested_out us) -> steady Outb (live t0 tr) id) /\ NoDup (tested_out us) /\
     (forall id, In id (tested_in us) -> steady Inb (live t0 tr) id) /\ NoDup (tested_in us) /\
     (tested_out us <> [] -> maintained us = true /\ last_round t0 t0 tr + seconds 15 <= clock t0 tr)).
  { intros -> ->. split; [intros id []|]. split; [constructor|]. split; [intros id []|]. split; [constructor|]. intro N. now elim N. }
  destruct X as [[a ->]|N]; [|destruct (step_tests_only _ _ _ _ U S N) as [E1 E2]; auto].
  destruct (end_maintains _ _ _ _ _ _ A G U S) as [->|(q & q' & C & L & M)]; [apply E; reflexivity|].
  unfold core in C. injection C as _ _ Cn _ Co Ceo Cei _ Ci _ _ _ _.
  apply maintain_side in M as (M1 & M2 & M3 & M4 & M5 & M6 & M7 & M8 & M9 & M10 & M11 & M12 & M13);
    [|rewrite Co; apply (g_so _ _ _ G)|rewrite Ci; apply (g_si _ _ _ G)|rewrite Cn, L; apply (g_le _ _ _ G)].
  rewrite Co, Ceo in M10. rewrite Ci, Cei in M11.
  split; [intros id I; destruct (M10 id I); now apply (steady_out t0 p)|]. split; [exact M8|].
  split; [intros id I; destruct (M11 id I); now apply (steady_in t0 p)|]. split; [exact M9|].
  intro N. split; [exact M1|]. destruct (due q) eqn:D; [|now elim N; apply M12].
  unfold due in D. apply N.leb_le in D. rewrite Cn, L in D. rewrite <- (g_last _ _ _ G), <- (a_now _ _ _ A). exact D.
Qed.
Print Assumptions C100_what_is_tested.

(** In a round in which all test messages can be sent, either every outbound or every inbound tunnel
    that is not about to expire is tested, if timers are not a minute late and ids are distinct. *)
Theorem C100_round_is_complete : forall ni no t0 ops p tr a p' us,
  run (p_new ni no t0) ops = (p, tr) -> running tr -> on_time t0 tr -> distinct_ids t0 tr ->
  step p (OEnd a) = (p', us) -> maintained us = true ->
  last_round t0 t0 tr + seconds 15 <= clock t0 tr -> forallb (fun b => b) (m_sent a) = true ->
  (forall id, steady Outb (live t0 tr) id -> In id (tested_out us)) \/ (forall id, steady Inb (live t0 tr) id -> In id (tested_in us)).
Proof.
  intros ni no t0 ops p tr a p' us H R OT DI S MT D FA. destruct (run_all _ _ _ _ _ _ H R) as (A & B & G & U).
  pose proof (run_tidy _ _ _ _ _ _ H R OT DI) as T.
  destruct (end_maintains _ _ _ _ _ _ A G U S) as [->|(q & q' & C & L & M)]; [discriminate|].
  unfold core in C. injection C as _ _ Cn _ Co Ceo Cei _ Ci _ _ _ _.
  apply maintain_side in M as (M1 & M2 & M3 & M4 & M5 & M6 & M7 & M8 & M9 & M10 & M11 & M12 & M13);
    [|rewrite Co; apply (g_so _ _ _ G)|rewrite Ci; apply (g_si _ _ _ G)|rewrite Cn, L; apply (g_le _ _ _ G)].
  assert (DU : due q = true).
  { unfold due. apply N.leb_le. rewrite Cn, L. rewrite <- (g_last _ _ _ G), <- (a_now _ _ _ A) in D. exact D. }
  specialize (M13 DU FA). rewrite Co, Ceo, Ci, Cei in M13.
  destruct M13 as [K|K]; [left|right]; intros id [Q1 Q2]; apply K.
  - now apply (a_out _ _ _ A).
  - intro X. apply (d_eo _ _ T) in X as (x & Hx & Kx & Ex). injection Kx as K1 K2. rewrite (Q2 x Hx K1 K2) in Ex. discriminate.
  - now apply (a_in _ _ _ A).
  - intro X. apply (d_ei _ _ T) in X as (x & Hx & Kx & Ex). injection Kx as K1 K2. rewrite (Q2 x Hx K1 K2) in Ex. discriminate.
Qed.
Print Assumptions C100_round_is_complete.

Definition work (u : out) : Prop := match u with Maintained | StartOut _ _ _ _ | StartIn _ _ _ | Tested _ _ _ => True | _ => False end.
Lemma builds_work f : (forall p b p' us u, f p b = (p', us) -> In u us -> work u) ->
  forall n bs p p' us u, builds f n bs p = (p', us) -> In u us -> work u.
Proof.
  intros F n. induction n as [|n IH]; intros [|b bs] p p' us u H I; cbn [builds] in H; try (apply pair_equal_spec in H as [_ <-]; destruct I).
  destruct (f p b) as [p1 o1] eqn:E1. destruct (builds f n bs p1) as [p2 o2] eqn:E2. apply pair_equal_spec in H as [_ <-].
  apply in_app_or in I as [I|I]; eauto.
Qed.
Lemma build_out_work p b p' us u : build_out p b = (p', us) -> In u us -> work u.
Proof.
  unfold build_out. destruct (b_hops b); cbn [negb]; [destruct (b_via b); [destruct (b_ok b)|destruct (draw _ _); [destruct (b_ok b)|]]|];
    intro H; apply pair_equal_spec in H as [_ <-]; cbn; intuition (subst; exact Logic.I).
Qed.
Lemma build_in_work p b p' us u : build_in p b = (p', us) -> In u us -> work u.
Proof.
  unfold build_in. destruct (b_hops b); cbn [negb]; [destruct (draw _ _); [destruct (b_ok b)|]|];
    intro H; apply pair_equal_spec in H as [_ <-]; cbn; intuition (subst; exact Logic.I).
Qed.
Lemma test_all_work l : forall sent p p' us u, test_all l sent p = (p', us) -> In u us -> work u.
Proof.
  induction l as [|[o i] l IH]; intros sent p p' us u H I; cbn [test_all] in H; [apply pair_equal_spec in H as [_ <-]; destruct I|].
  destruct (test_one p o i (hd true sent)) as [p1 o1] eqn:E1. destruct (test_all l (tl sent) p1) as [p2 o2] eqn:E2. apply pair_equal_spec in H as [_ <-].
  apply in_app_or in I as [I|I]; [|eauto]. unfold test_one in E1. destruct (hd true sent); apply pair_equal_spec in E1 as [_ <-]; [|destruct I].
  destruct I as [<-|[]]. exact Logic.I.
Qed.
Lemma maintain_work p a p' us u : maintain p a = (p', us) -> In u us -> work u.
Proof.
  unfold maintain. destruct (builds build_out (out_count p) (m_outs a) p) as [p1 o1] eqn:E1.
  destruct (builds build_in (in_count p1) (m_ins a) p1) as [p2 o2] eqn:E2. intro H.
  assert (W1 : In u o1 -> work u) by (intro I; eapply (builds_work _ build_out_work); eauto).
  assert (W2 : In u o2 -> work u) by (intro I; eapply (builds_work _ build_in_work); eauto).
  destruct (_ <? _).
  - apply pair_equal_spec in H as [_ <-]. intros [<-|I]; [exact Logic.I|]. apply in_app_or in I as [I|I]; auto.
  - destruct (test_all _ _ _) as [p4 o4] eqn:E4 in H. apply pair_equal_spec in H as [_ <-].
    intros [<-|I]; [exact Logic.I|]. apply in_app_or in I as [I|I]; auto. apply in_app_or in I as [I|I]; auto. eapply test_all_work; eauto.
Qed.
Lemma poll_work p a p' us u : poll_end p a = (p', us) -> In u us -> work u.
Proof.
  unfold poll_end. destruct (_ <=? _); [|destruct (0 <? _)]; [| |intro H; apply pair_equal_spec in H as [_ <-]; intros []];
    (destruct (maintain _ a) as [p1 o] eqn:E; intro H; apply pair_equal_spec in H as [_ <-]; eapply maintain_work; exact E).
Qed.
Ltac chew I := repeat (destruct I as [<-|I]; [exact Logic.I|]); destruct I.
Ltac chews I := repeat (let Q := fresh in destruct I as [Q|I]; [discriminate Q|]); destruct I.
(** Which operations give test results, and which the end. *)
Lemma step_shape p o p' us u : step p o = (p', us) -> In u us ->
  match u with
  | TestGood _ _ | TestBad _ _ => exists sn r, o = OTestDone sn r
  | Ended => o = OShutdown \/ o = OClosed \/ exists sn, o = OInPanic sn
  | _ => True
  end.
Proof.
  intros S I. destruct (p_up p) eqn:U.
  2: { destruct o; unfold step in S; rewrite ?U in S; cbn [negb] in S; try (apply pair_equal_spec in S as [_ <-]; destruct I; fail);
       destruct (_ : bool) in S; apply pair_equal_spec in S as [_ <-]; destruct I. }
  destruct o; unfold step in S; rewrite ?U in S; cbn [negb] in S; try (apply pair_equal_spec in S as [_ <-]; destruct I; fail).
  - unfold out_done in S. destruct (pull po_sn sn (p_po p)) as [[? ?]|]; [destruct r|]; apply pair_equal_spec in S as [_ <-]; chew I.
  - unfold in_done in S. destruct (pull pi_sn sn (p_pi p)) as [[? ?]|]; [destruct r|]; apply pair_equal_spec in S as [_ <-]; chew I.
  - unfold in_end in S. destruct (pull in_sn sn (p_inb p)) as [[? ?]|]; [destruct (_ <=? _)|]; apply pair_equal_spec in S as [_ <-]; chew I.
  - destruct u; eauto. unfold in_panic in S. destruct (pull in_sn sn (p_inb p)) as [[? ?]|]; apply pair_equal_spec in S as [_ <-]; chews I.
    unfold in_panic in S. destruct (pull in_sn sn (p_inb p)) as [[? ?]|]; apply pair_equal_spec in S as [_ <-]; chews I.
  - apply pair_equal_spec in S as [_ <-].
    assert (PS : forall t to m q', In u (send t to m q') -> match u with Sent _ _ _ _ | Lost _ => True | _ => False end) by (intros [[? ?]|] to m q' [<-|[]]; exact Logic.I).
    assert (X : match u with Sent _ _ _ _ | Lost _ => True | _ => False end) by (destruct q; cbn [message] in I; try (eapply PS; exact I); destruct I as [<-|[]]; exact Logic.I).
    destruct u; auto; contradiction.
  - destruct u; auto; apply pair_equal_spec in S as [_ <-]; chews I.
  - destruct u; eauto. unfold test_done in S. destruct (pull t_sn sn (p_tests p)) as [[? ?]|]; [destruct r; [|destruct (_ <=? _)]|]; apply pair_equal_spec in S as [_ <-];
      chews I.
  - unfold timer in S. destruct (pull_at i (p_timers p)) as [[[d ev] ?]|]; [destruct (_ <? _); [|destruct ev]|]; apply pair_equal_spec in S as [_ <-];
      chew I.
  - destruct u; auto; unfold shutdown in S; apply pair_equal_spec in S as [_ <-]; chews I.
  - apply (poll_work _ _ _ _ _ S) in I. destruct u; auto; contradiction.
  - destruct (smem g (p_zero p)); apply pair_equal_spec in S as [_ <-]; destruct I.
  - destruct (waited p sn); apply pair_equal_spec in S as [_ <-]; destruct I.
  - destruct (smem id (p_rt p)); apply pair_equal_spec in S as [_ <-]; destruct I.
  - destruct (smem id (p_alien p)); apply pair_equal_spec in S as [_ <-]; destruct I.
Qed.
(** The result of a test is that of a test under way, of the same two tunnels; a test fails no earlier
    than eight seconds after it began; it has one result. *)
Theorem C100_results : forall ni no t0 ops p tr o p' us u x y,
  run (p_new ni no t0) ops = (p, tr) -> running tr -> step p o = (p', us) -> In u us -> u = TestGood x y \/ u = TestBad x y ->
  exists sn t, In (mkTrial sn x y t) (trials t0 tr) /\
    o = OTestDone sn (match u with TestGood _ _ => TGood | _ => TTimeout end) /\ us = [u] /\
    (u = TestBad x y -> t + seconds 8 <= clock t0 tr) /\
    forall x' y' t', ~ In (mkTrial sn x' y' t') (trials t0 (tr ++ [(o, us)])).
Proof.
  intros ni no t0 ops p tr o p' us u x y H R S I E. destruct (run_all _ _ _ _ _ _ H R) as (A & B & G & U).
  assert (N : forall tr sn r v x' y' t', ~ In (mkTrial sn x' y' t') (trials t0 (tr ++ [(OTestDone sn r, [v])])) \/ exists sn x y, v = Tested sn x y).
  { intros tr0 sn r v x' y' t'. destruct v; try (left; rewrite trials_snoc; cbn; rewrite filter_In; intros [_ Q]; cbn in Q; rewrite N.eqb_refl in Q; discriminate).
    right. eauto. }
  assert (NT : forall sn r x' y' t', ~ In (mkTrial sn x' y' t') (trials t0 (tr ++ [(OTestDone sn r, [u])]))).
  { intros sn r x' y' t'. destruct (N tr sn r u x' y' t') as [Q|(? & ? & ? & Q)]; [exact Q|]. destruct E; congruence. }
  assert (X : exists sn r, o = OTestDone sn r).
  { pose proof (step_shape _ _ _ _ _ S I) as Q. destruct E; subst u; exact Q. }
  destruct X as (sn & r & ->).
  unfold step in S. rewrite U in S. cbn [negb] in S. unfold test_done in S. destruct (pull t_sn sn (p_tests p)) as [[z rest]|] eqn:P.
  2: { apply pair_equal_spec in S as [_ <-]. destruct I. }
  apply pull_spec in P as (P1 & l1 & l2 & P2 & _).
  assert (Z : In (mkTrial sn (t_out z) (t_in z) (t_at z)) (trials t0 tr)).
  { apply (g_tr _ _ _ G). rewrite P2, in_app_iff. right. left. rewrite <- P1. now destruct z. }
  destruct r.
  - apply pair_equal_spec in S as [_ <-]. destruct I as [<-|[]]. destruct E as [E|E]; [|discriminate]. injection E as <- <-.
    exists sn, (t_at z). split; [exact Z|]. split; [reflexivity|]. split; [reflexivity|]. split; [discriminate|]. apply NT.
  - destruct (N.leb_spec (t_at z + TEST_EXPIRATION) (p_now p)) as [LE|LE]; apply pair_equal_spec in S as [_ <-]; [|destruct I].
    destruct I as [<-|[]]. destruct E as [E|E]; [discriminate|]. injection E as <- <-.
    exists sn, (t_at z). split; [exact Z|]. split; [reflexivity|]. split; [reflexivity|]. split; [intros _; rewrite <- (a_now _ _ _ A); exact LE|]. apply NT.
Qed.
Print Assumptions C100_results.

Example C100_example :
  let tr := snd (run (p_new 1 1 0) (firstn 4 two_lives)) in let p := fst (run (p_new 1 1 0) (firstn 4 two_lives)) in
  let us := snd (step p (OEnd (arg 20))) in
  running tr /\ on_time 0 tr /\ distinct_ids 0 tr /\ last_round 0 0 tr = 0 /\ clock 0 tr = 20000 /\ maintained us = true /\
  steady Outb (live 0 tr) 60 /\ us = [Maintained; Tested 2 60 10] /\
  trials 0 (tr ++ [(OEnd (arg 20), us)]) = [mkTrial 2 60 10 20000] /\
  snd (step (fst (run (p_new 1 1 0) (firstn 5 two_lives ++ [OTick 28000]))) (OTestDone 2 TTimeout)) = [TestBad 60 10].
Proof.
  split; [vm_compute; reflexivity|]. split; [apply check_on_time; vm_compute; reflexivity|].
  split; [apply (check_distinct false); vm_compute; reflexivity|]. split; [vm_compute; reflexivity|]. split; [vm_compute; reflexivity|].
  split; [vm_compute; reflexivity|]. split; [|vm_compute; repeat split].
  assert (L : live 0 (snd (run (p_new 1 1 0) (firstn 4 two_lives))) = [mkLife Inb 10 0 false; mkLife Outb 60 0 false]) by (vm_compute; reflexivity).
  rewrite L. split; [exists (mkLife Outb 60 0 false); cbn; auto|]. intros x [<-|[<-|[]]]; auto.
Qed.

(** ** C101: the end of the pool *)

Lemma down_silent p o p' us : p_up p = false -> step p o = (p', us) -> us = [] /\ p_up p' = false.
Proof.
  intros U S. destruct o; unfold step in S; rewrite ?U in S; cbn [negb] in S; try (apply pair_equal_spec in S as [<- <-]; auto; fail).
  - destruct (smem g (p_zero p)); apply pair_equal_spec in S as [<- <-]; auto.
  - destruct (waited p sn); apply pair_equal_spec in S as [<- <-]; auto.
  - destruct (smem id (p_rt p)); apply pair_equal_spec in S as [<- <-]; auto.
  - destruct (smem id (p_alien p)); apply pair_equal_spec in S as [<- <-]; auto.
Qed.
Lemma ended_down p o p' us : step p o = (p', us) -> In Ended us -> p_up p' = false.
Proof.
  intros S I. destruct (p_up p) eqn:U; [|now destruct (down_silent _ _ _ _ U S)].
  destruct (step_shape _ _ _ _ _ S I) as [->|[->|[sn ->]]]; unfold step in S; rewrite U in S; cbn [negb] in S.
  - unfold shutdown in S. apply pair_equal_spec in S as [<- _]. reflexivity.
  - apply pair_equal_spec in S as [<- _]. reflexivity.
  - unfold in_panic in S. destruct (pull in_sn sn (p_inb p)) as [[? ?]|]; apply pair_equal_spec in S as [<- <-]; [reflexivity | destruct I].
Qed.
Lemma run_down ops : forall p p' tr, run p ops = (p', tr) -> existsb ends tr = true \/ p_up p = false -> p_up p' = false.
Proof.
  induction ops as [|o ops IH]; intros p p' tr H E; cbn [run] in H.
  - apply pair_equal_spec in H as [<- <-]. destruct E as [E|E]; [discriminate | exact E].
  - destruct (step p o) as [p1 u] eqn:S. destruct (run p1 ops) as [p2 tr2] eqn:R. apply pair_equal_spec in H as [<- <-].
    apply (IH _ _ _ R). cbn [existsb] in E. destruct E as [E|E].
    + apply orb_true_iff in E as [E|E]; [|auto]. right. unfold ends in E. cbn [snd] in E. apply existsb_exists in E as (v & I & V). destruct v; try discriminate. eapply ended_down; eauto.
    + right. eapply down_silent; eauto.
Qed.

(** The pool ends only when it is told to, when everyone who could ask anything of it is gone, or when
    one of its inbound tunnels fails; when told to, it says so; from then on it does nothing. *)
Theorem C101_the_end : forall ni no t0 ops p tr o p' us,
  run (p_new ni no t0) ops = (p, tr) -> step p o = (p', us) ->
  (In Ended us -> running tr /\ (o = OShutdown \/ o = OClosed \/ exists sn, o = OInPanic sn)) /\
  (running tr -> o = OShutdown -> us = [Rep RShutDown; Ended]) /\
  (~ running tr -> us = []).
Proof.
  intros ni no t0 ops p tr o p' us H S.
  assert (D : ~ running tr -> us = []).
  { intro N. eapply down_silent; [|exact S]. eapply run_down; [exact H|]. left. unfold running in N. now destruct (existsb ends tr). }
  split; [|split; [|exact D]].
  - intro I. split.
    + unfold running. destruct (existsb ends tr) eqn:E; [|reflexivity]. rewrite D in I; [destruct I|]. unfold running. congruence.
    + exact (step_shape _ _ _ _ _ S I).
  - intros R ->. destruct (run_all _ _ _ _ _ _ H R) as (_ & _ & _ & U). unfold step in S. rewrite U in S. cbn [negb] in S. unfold shutdown in S.
    now apply pair_equal_spec in S as [_ <-].
Qed.
Print Assumptions C101_the_end.

(** A fault in one inbound tunnel ends the whole pool: its other tunnels are never reported expired,
    messages for them get no answer, and the routing table keeps their entries for ever. *)
Theorem C101_refuted_one_tunnel_ends_all : exists ops,
  let '(p, tr) := run (p_new 2 1 0) ops in
  running tr /\ map l_id (lives Inb (live 0 tr)) = [11; 10] /\ In (Outb, 60) (map (fun x => (l_dir x, l_id x)) (live 0 tr)) /\
  snd (step p (OInPanic 1)) = [Ended] /\
  forall more p' tr', run (fst (step p (OInPanic 1))) more = (p', tr') ->
    (forall e, In e tr' -> snd e = []) /\ In 111 (p_rt p') /\ In 112 (p_rt p').
Proof.
  exists [OEnd (arg 10); OOutDone 0 BGood; OInDone 1 BGood; OInDone 2 BGood].
  set (ops := [OEnd (arg 10); OOutDone 0 BGood; OInDone 1 BGood; OInDone 2 BGood]).
  destruct (run (p_new 2 1 0) ops) as [p tr] eqn:E.
  assert (EP : p = fst (run (p_new 2 1 0) ops)) by (rewrite E; reflexivity).
  assert (ET : tr = snd (run (p_new 2 1 0) ops)) by (rewrite E; reflexivity).
  clear E. split; [rewrite ET; vm_compute; reflexivity|]. split; [rewrite ET; vm_compute; reflexivity|]. split; [rewrite ET; vm_compute; auto|].
  split; [rewrite EP; vm_compute; reflexivity|]. intros more p' tr' H.
  assert (U : p_up (fst (step p (OInPanic 1))) = false) by (rewrite EP; vm_compute; reflexivity).
  assert (KA : p_alien (fst (step p (OInPanic 1))) = []) by (rewrite EP; vm_compute; reflexivity).
  assert (KZ : p_zero (fst (step p (OInPanic 1))) = [110]) by (rewrite EP; vm_compute; reflexivity).
  split; [|split].
  - revert H U. generalize (fst (step p (OInPanic 1))). clear. revert p' tr'.
    induction more as [|o more IH]; intros p' tr' q H U; cbn [run] in H; [apply pair_equal_spec in H as [_ <-]; intros e []|].
    destruct (step q o) as [p1 u] eqn:S. destruct (run p1 more) as [p2 tr2] eqn:R. apply pair_equal_spec in H as [_ <-].
    destruct (down_silent _ _ _ _ U S) as [-> U1]. intros e [<-|I]; [reflexivity|]. exact (IH _ _ _ R U1 e I).
  - apply (ended_keeps 111 _ _ _ _ H U); [apply smem_In | rewrite KA; intros [] | rewrite KZ; intros [Q|[]]; discriminate Q]. rewrite EP. vm_compute. reflexivity.
  - apply (ended_keeps 112 _ _ _ _ H U); [apply smem_In | rewrite KA; intros [] | rewrite KZ; intros [Q|[]]; discriminate Q]. rewrite EP. vm_compute. reflexivity.
Qed.
Print Assumptions C101_refuted_one_tunnel_ends_all.

Example C101_example :
  let p := fst (run (p_new 1 1 0) two_lives) in
  running (snd (run (p_new 1 1 0) two_lives)) /\ snd (step p OShutdown) = [Rep RShutDown; Ended] /\
  step (fst (step p OShutdown)) (OEnd (arg 50)) = (fst (step p OShutdown), []).
Proof. vm_compute. repeat split. Qed.
