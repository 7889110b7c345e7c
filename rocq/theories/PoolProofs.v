(** Proofs about the tunnel pool: histories, and the tunnels that are live. *)
From Coq Require Import List NArith Bool Lia.
From Verif Require Import ListUtil NMap RouteProofs DestProofs PoolModel PoolSpec.
Import ListNotations.
Open Scope N_scope.

(** ** Histories *)
Lemma run_app p a b :
  run p (a ++ b) = let '(p1, t1) := run p a in let '(p2, t2) := run p1 b in (p2, t1 ++ t2).
Proof.
  revert p. induction a as [|o a IH]; intro p; cbn [app run].
  - now destruct (run p b).
  - destruct (step p o) as [p1 u]. rewrite IH. destruct (run p1 a) as [p2 t2].
    now destruct (run p2 b).
Qed.
Lemma run_snoc p a o :
  run p (a ++ [o]) = let '(p1, t1) := run p a in let '(p2, u) := step p1 o in (p2, t1 ++ [(o, u)]).
Proof. rewrite run_app. destruct (run p a) as [p1 t1]. cbn [run]. now destruct (step p1 o). Qed.

Lemma run_ind (P : pool -> history -> Prop) p0 :
  P p0 [] ->
  (forall p tr o p' u, P p tr -> step p o = (p', u) -> P p' (tr ++ [(o, u)])) ->
  forall ops p tr, run p0 ops = (p, tr) -> P p tr.
Proof.
  intros H0 HS ops. induction ops as [|o ops IH] using rev_ind; intros p tr H.
  - cbn in H. injection H as <- <-. exact H0.
  - rewrite run_snoc in H. destruct (run p0 ops) as [p1 t1]. destruct (step p1 o) as [p2 u] eqn:E.
    apply pair_equal_spec in H as [<- <-]. eapply HS; eauto.
Qed.

Lemma clock_app t tr1 tr2 : clock t (tr1 ++ tr2) = clock (clock t tr1) tr2.
Proof. revert t. induction tr1 as [|[o us] r IH]; intro t; [reflexivity|]. cbn [app clock]. destruct o; apply IH. Qed.
Lemma live_from_app t L tr1 tr2 : live_from t L (tr1 ++ tr2) = live_from (clock t tr1) (live_from t L tr1) tr2.
Proof.
  revert t L. induction tr1 as [|[o us] r IH]; intros t L; [reflexivity|].
  change (clock t ((o, us) :: r)) with (clock t ([(o, us)] ++ r)). rewrite clock_app.
  cbn [app live_from]. apply IH.
Qed.
Lemma live_snoc t0 tr e : live t0 (tr ++ [e]) = fold_left (hear (clock t0 (tr ++ [e]))) (snd e) (live t0 tr).
Proof. unfold live. rewrite live_from_app, clock_app. destruct e as [o us]. reflexivity. Qed.
Lemma building_snoc d tr e : building d (tr ++ [e]) = building_step d (building d tr) e.
Proof. unfold building. now rewrite fold_left_app. Qed.
Lemma running_snoc tr e : running (tr ++ [e]) <-> running tr /\ ends e = false.
Proof. unfold running. rewrite existsb_app. cbn. rewrite orb_false_r, orb_false_iff. tauto. Qed.
Lemma clock_not_tick t o us : (forall n, o <> OTick n) -> clock t [(o, us)] = t.
Proof. intro H. destruct o; cbn; auto. now elim (H now). Qed.

Lemma reported_snoc t0 tr e t r :
  reported t0 (tr ++ [e]) t r <->
  reported t0 tr t r \/ (clock t0 (tr ++ [e]) = t /\ In (Rep r) (snd e)).
Proof.
  split.
  - intros (a & x & b & E & C & I). destruct b as [|y b] using rev_ind.
    + apply app_inj_tail in E as [-> ->]. auto.
    + left. rewrite app_comm_cons, app_assoc in E. apply app_inj_tail in E as [-> ->].
      exists a, x, b. auto.
  - intros [(a & x & b & -> & C & I)|[C I]].
    + exists a, x, (b ++ [e]). rewrite <- app_assoc. auto.
    + exists tr, e, []. auto.
Qed.

(** ** What maintenance leaves alone *)
Definition core (p : pool) :=
  (p_num_in p, p_num_out p, (p_now p, p_up p), (p_out p, p_exp_out p, p_exp_in p),
   (p_inb p, p_intun p), (p_timers p, p_alien p), (p_sel_out p, p_sel_in p)).
Definition quiet (us : list out) : Prop := forall u, In u us -> forall r, u <> Rep r /\ u <> Ended.

Lemma quiet_app a b : quiet a -> quiet b -> quiet (a ++ b).
Proof. intros A B u H. apply in_app_or in H as [H|H]; auto. Qed.
Lemma quiet_nil : quiet [].
Proof. intros u []. Qed.
Lemma quiet_one u : (forall r, u <> Rep r /\ u <> Ended) -> quiet [u].
Proof. intros H x [<-|[]]. exact H. Qed.
Lemma hear_quiet t us L : quiet us -> fold_left (hear t) us L = L.
Proof.
  revert L. induction us as [|u us IH]; intros L Q; [reflexivity|]. cbn [fold_left].
  replace (hear t L u) with L.
  - apply IH. intros x Hx. apply Q. now right.
  - destruct u; try reflexivity. destruct (Q (Rep r) (or_introl eq_refl) r). congruence.
Qed.
Lemma ends_quiet o us : quiet us -> ends (o, us) = false.
Proof.
  unfold ends. cbn [snd]. induction us as [|u us IH]; intro Q; [reflexivity|]. cbn [existsb].
  rewrite IH by (intros x Hx; apply Q; now right). destruct u; try reflexivity.
  destruct (Q Ended (or_introl eq_refl) RShutDown). congruence.
Qed.

Lemma build_out_core p b p' us : build_out p b = (p', us) -> core p' = core p /\ quiet us.
Proof.
  unfold build_out. destruct (b_hops b); cbn [negb].
  - destruct (b_via b).
    + destruct (b_ok b); intro H; apply pair_equal_spec in H as [<- <-]; split; try reflexivity;
        [apply quiet_one; intro r; split; discriminate | apply quiet_nil].
    + destruct (draw (b_draws b) (p_rt p)); [destruct (b_ok b)|]; intro H; apply pair_equal_spec in H as [<- <-];
        split; try reflexivity; try apply quiet_nil; apply quiet_one; intro r; split; discriminate.
  - intro H; apply pair_equal_spec in H as [<- <-]. split; [reflexivity | apply quiet_nil].
Qed.
Lemma build_in_core p b p' us : build_in p b = (p', us) -> core p' = core p /\ quiet us.
Proof.
  unfold build_in. destruct (b_hops b); cbn [negb].
  - destruct (draw (b_draws b) (p_rt p)); [destruct (b_ok b)|]; intro H; apply pair_equal_spec in H as [<- <-];
      split; try reflexivity; try apply quiet_nil; apply quiet_one; intro r; split; discriminate.
  - intro H; apply pair_equal_spec in H as [<- <-]. split; [reflexivity | apply quiet_nil].
Qed.
Lemma builds_core f :
  (forall p b p' us, f p b = (p', us) -> core p' = core p /\ quiet us) ->
  forall n bs p p' us, builds f n bs p = (p', us) -> core p' = core p /\ quiet us.
Proof.
  intros F n. induction n as [|n IH]; intros bs p p' us H.
  - cbn in H. apply pair_equal_spec in H as [<- <-]. split; [reflexivity | apply quiet_nil].
  - destruct bs as [|b bs]; [cbn in H; apply pair_equal_spec in H as [<- <-]; split; [reflexivity | apply quiet_nil]|].
    cbn [builds] in H. destruct (f p b) as [p1 o1] eqn:E1. destruct (builds f n bs p1) as [p2 o2] eqn:E2.
    apply pair_equal_spec in H as [<- <-]. apply F in E1 as [C1 Q1]. apply IH in E2 as [C2 Q2].
    split; [congruence | now apply quiet_app].
Qed.
Lemma test_all_core l sent p p' us : test_all l sent p = (p', us) -> core p' = core p /\ quiet us.
Proof.
  revert sent p p' us. induction l as [|[o i] l IH]; intros sent p p' us H.
  - cbn in H. apply pair_equal_spec in H as [<- <-]. split; [reflexivity | apply quiet_nil].
  - cbn [test_all] in H. destruct (test_one p o i (hd true sent)) as [p1 o1] eqn:E1.
    destruct (test_all l (tl sent) p1) as [p2 o2] eqn:E2. apply pair_equal_spec in H as [<- <-].
    apply IH in E2 as [C2 Q2]. unfold test_one in E1. destruct (hd true sent); apply pair_equal_spec in E1 as [<- <-].
    + split; [exact C2|]. apply quiet_app; [apply quiet_one; intro r; split; discriminate | exact Q2].
    + split; [exact C2 | exact Q2].
Qed.
Lemma maintain_core p a p' us : maintain p a = (p', us) -> core p' = core p /\ quiet us.
Proof.
  unfold maintain. destruct (builds build_out (out_count p) (m_outs a) p) as [p1 o1] eqn:E1.
  destruct (builds build_in (in_count p1) (m_ins a) p1) as [p2 o2] eqn:E2.
  apply (builds_core _ build_out_core) in E1 as [C1 Q1]. apply (builds_core _ build_in_core) in E2 as [C2 Q2].
  assert (QM : quiet [Maintained]) by (apply quiet_one; intro r; split; discriminate).
  destruct (_ <? _).
  - intro H; apply pair_equal_spec in H as [<- <-]. split; [congruence|].
    change (quiet ([Maintained] ++ o1 ++ o2)). auto using quiet_app.
  - destruct (test_all _ _ _) as [p4 o4] eqn:E4. apply test_all_core in E4 as [C4 Q4].
    intro H; apply pair_equal_spec in H as [<- <-].
    split; [rewrite C4; change (core p2 = core p); congruence|].
    change (quiet ([Maintained] ++ o1 ++ o2 ++ o4)). auto using quiet_app.
Qed.
Lemma poll_end_core p a p' us : poll_end p a = (p', us) -> core p' = core p /\ quiet us.
Proof.
  unfold poll_end. destruct (p_maint p <=? p_now p).
  - destruct (maintain _ a) as [p1 o] eqn:E. apply maintain_core in E as [C Q].
    intro H; apply pair_equal_spec in H as [<- <-]. split; [exact C | exact Q].
  - destruct (0 <? p_failed p).
    + destruct (maintain p a) as [p1 o] eqn:E. apply maintain_core in E as [C Q].
      intro H; apply pair_equal_spec in H as [<- <-]. split; [exact C | exact Q].
    + intro H; apply pair_equal_spec in H as [<- <-]. split; [reflexivity | apply quiet_nil].
Qed.

Lemma message_quiet p q r : quiet (message p q r).
Proof.
  assert (S : forall t to m q', quiet (send t to m q')).
  { intros [[? ?]|] to m q'; apply quiet_one; intro x; split; discriminate. }
  destruct q; cbn [message]; try apply S. apply quiet_one; intro x; split; discriminate.
Qed.

(** ** Lists *)
Lemma pull_spec A (f : A -> N) sn l x r : pull f sn l = Some (x, r) ->
  f x = sn /\ exists a b, l = a ++ x :: b /\ r = a ++ b /\ (forall y, In y a -> f y <> sn).
Proof.
  revert x r. induction l as [|y l IH]; intros x r H; cbn in H; [discriminate|].
  destruct (N.eqb_spec (f y) sn) as [E|E].
  - injection H as <- <-. split; [exact E|]. exists [], l. repeat split. intros z [].
  - destruct (pull f sn l) as [[z r']|] eqn:P; [|discriminate]. injection H as <- <-.
    destruct (IH _ _ eq_refl) as (E1 & a & b & -> & -> & Ha). split; [exact E1|].
    exists (y :: a), b. repeat split. intros w [<-|Hw]; auto.
Qed.
Lemma pull_none A (f : A -> N) sn l : pull f sn l = None -> forall y, In y l -> f y <> sn.
Proof.
  induction l as [|x l IH]; intros H y []; cbn in H; destruct (N.eqb_spec (f x) sn); try discriminate; subst; auto;
    destruct (pull f sn l) as [[? ?]|]; try discriminate; auto.
Qed.
Lemma pull_some A (f : A -> N) l y : In y l -> exists x r, pull f (f y) l = Some (x, r).
Proof.
  intro H. destruct (pull f (f y) l) as [[x r]|] eqn:E; [eauto|]. now elim (pull_none _ _ _ _ E y H).
Qed.
Lemma pull_at_spec A i (l : list A) x r : pull_at i l = Some (x, r) -> exists a b, l = a ++ x :: b /\ r = a ++ b.
Proof.
  revert i x r. induction l as [|y l IH]; intros [|i] x r H; cbn in H; try discriminate.
  - injection H as <- <-. exists [], l. auto.
  - destruct (pull_at i l) as [[z r']|] eqn:P; [|discriminate]. injection H as <- <-.
    destruct (IH _ _ _ P) as (a & b & -> & ->). exists (y :: a), b. auto.
Qed.
Lemma pull_at_nth A i (l : list A) x : nth_error l i = Some x -> exists r, pull_at i l = Some (x, r).
Proof.
  revert i. induction l as [|y l IH]; intros [|i] H; cbn in *; try discriminate.
  - injection H as ->. eauto.
  - destruct (IH _ H) as [r ->]. eauto.
Qed.
Lemma is_spec d id x : is d id x = true <-> l_dir x = d /\ l_id x = id.
Proof. unfold is. rewrite andb_true_iff, N.eqb_eq. destruct (l_dir x), d; cbn; intuition congruence. Qed.

(** ** The live tunnels *)
Record agree (t0 : N) (p : pool) (tr : history) : Prop := mkAgree {
  a_now : p_now p = clock t0 tr;
  a_out : forall id, In id (nkeys (p_out p)) <-> exists x, In x (live t0 tr) /\ l_dir x = Outb /\ l_id x = id;
  a_in : forall gw, In gw (nkeys (p_intun p)) <-> exists x, In x (live t0 tr) /\ l_dir x = Inb /\ l_id x = gw;
  a_so : forall id, In id (p_sel_out p) <-> exists x, In x (live t0 tr) /\ l_dir x = Outb /\ l_id x = id;
  a_si : forall gw, In gw (p_sel_in p) <-> exists x, In x (live t0 tr) /\ l_dir x = Inb /\ l_id x = gw;
  a_exp : forall x, In x (live t0 tr) -> l_exp x = true ->
            In (l_id x) (match l_dir x with Outb => p_exp_out p | Inb => p_exp_in p end);
  a_destroy : forall x, In x (live t0 tr) -> l_dir x = Outb ->
            In (l_at x + TUNNEL_EXPIRATION, TDestroy (l_id x)) (p_timers p);
  a_inb : forall x, In x (live t0 tr) -> l_dir x = Inb ->
            exists y, In y (p_inb p) /\ in_gw y = l_id x /\ in_at y = l_at x;
  a_timer : forall d e, In (d, e) (p_timers p) ->
            match e with
            | TDestroy id => exists t, d = t + TUNNEL_EXPIRATION /\ reported t0 tr t (ROutBuilt id)
            | TRebuildOut id => exists t, d = t + REBUILD_TIMEOUT /\ reported t0 tr t (ROutBuilt id)
            | TRebuildIn gw => exists t r, d = t + REBUILD_TIMEOUT /\ reported t0 tr t (RInBuilt gw r (t + TUNNEL_EXPIRATION))
            end;
  a_task : forall y, In y (p_inb p) ->
            exists r, reported t0 tr (in_at y) (RInBuilt (in_gw y) r (in_at y + TUNNEL_EXPIRATION)) }.

Lemma agree_new ni no t0 : agree t0 (p_new ni no t0) [].
Proof.
  constructor; cbn; try tauto; try (intros; contradiction); try reflexivity;
    intro; (split; [tauto | intros (x & [] & _)]).
Qed.

(** Steps that change nothing of this. *)
Lemma agree_same t0 p p' tr e :
  agree t0 p tr -> core p' = core p -> quiet (snd e) -> (forall n, fst e <> OTick n) -> agree t0 p' (tr ++ [e]).
Proof.
  intros [] C Q NT. destruct e as [o us]. cbn [snd fst] in *. unfold core in C.
  injection C as _ _ C1 C2 C3 C4 C5 C6 C7 C8 C9 C10 C11.
  assert (CK : clock t0 (tr ++ [(o, us)]) = clock t0 tr) by (rewrite clock_app; now apply clock_not_tick).
  assert (LV : live t0 (tr ++ [(o, us)]) = live t0 tr) by (rewrite live_snoc; now apply hear_quiet).
  constructor; rewrite ?CK, ?LV, ?C1, ?C2, ?C3, ?C4, ?C5, ?C6, ?C7, ?C8, ?C9, ?C10, ?C11; auto.
  - intros d e He. specialize (a_timer0 d e He). destruct e;
      [destruct a_timer0 as (t & -> & R); exists t | destruct a_timer0 as (t & r & -> & R); exists t, r
      |destruct a_timer0 as (t & -> & R); exists t]; (split; [reflexivity|]; apply reported_snoc; auto).
  - intros y Hy. destruct (a_task0 y Hy) as [r R]. exists r. apply reported_snoc. auto.
Qed.

Lemma hear_one t L r : fold_left (hear t) [Rep r] L = hear t L (Rep r).
Proof. reflexivity. Qed.

Lemma in_filter_not d id x L :
  In x (filter (fun y => negb (is d id y)) L) <-> In x L /\ ~ (l_dir x = d /\ l_id x = id).
Proof.
  rewrite filter_In, negb_true_iff, <- is_spec. destruct (is d id x); intuition congruence.
Qed.

Lemma in_flag d id x L :
  In x (map (fun y => if is d id y then mkLife d id (l_at y) true else y) L) ->
  exists y, In y L /\ l_dir x = l_dir y /\ l_id x = l_id y /\ l_at x = l_at y /\
            (l_exp x = true -> l_exp y = true \/ (l_dir y = d /\ l_id y = id)).
Proof.
  intro H. apply in_map_iff in H as (y & E & Hy). exists y. split; [exact Hy|].
  destruct (is d id y) eqn:I.
  - apply is_spec in I as [<- <-]. subst x. cbn. auto 7.
  - subst x. auto 7.
Qed.
Lemma in_flag_conv d id y L :
  In y L -> exists x, In x (map (fun y => if is d id y then mkLife d id (l_at y) true else y) L) /\
            l_dir x = l_dir y /\ l_id x = l_id y /\ l_at x = l_at y.
Proof.
  intro H. eexists. split; [apply in_map_iff; exists y; split; [reflexivity | exact H]|].
  destruct (is d id y) eqn:I; [apply is_spec in I as [<- <-]|]; auto.
Qed.

Lemma flag_ids d id d' L k :
  (exists x, In x (map (fun y => if is d id y then mkLife d id (l_at y) true else y) L) /\ l_dir x = d' /\ l_id x = k)
  <-> (exists x, In x L /\ l_dir x = d' /\ l_id x = k).
Proof.
  split.
  - intros (x & Hx & D & I). apply in_flag in Hx as (y & Hy & Dy & Iy & _). exists y.
    rewrite <- Dy, <- Iy. auto.
  - intros (y & Hy & D & I). destruct (in_flag_conv d id y L Hy) as (x & Hx & Dx & Ix & _). exists x.
    rewrite Dx, Ix. auto.
Qed.

Lemma agree_tick t0 p tr n : agree t0 p tr -> agree t0 (s_now p (N.max n (p_now p))) (tr ++ [(OTick n, [])]).
Proof.
  intros [].
  assert (LV : live t0 (tr ++ [(OTick n, [])]) = live t0 tr) by (rewrite live_snoc; reflexivity).
  constructor; rewrite ?LV; auto.
  - rewrite clock_app. cbn. now rewrite a_now0.
  - intros d e He. specialize (a_timer0 d e He). destruct e;
      [destruct a_timer0 as (t & -> & R); exists t | destruct a_timer0 as (t & r & -> & R); exists t, r
      |destruct a_timer0 as (t & -> & R); exists t]; (split; [reflexivity|]; apply reported_snoc; auto).
  - intros y Hy. destruct (a_task0 y Hy) as [r R]. exists r. apply reported_snoc. auto.
Qed.

Lemma timer_keeps t0 tr e (l : list (N * tev)) :
  (forall d x, In (d, x) l ->
     match x with
     | TDestroy id => exists t, d = t + TUNNEL_EXPIRATION /\ reported t0 tr t (ROutBuilt id)
     | TRebuildOut id => exists t, d = t + REBUILD_TIMEOUT /\ reported t0 tr t (ROutBuilt id)
     | TRebuildIn gw => exists t r, d = t + REBUILD_TIMEOUT /\ reported t0 tr t (RInBuilt gw r (t + TUNNEL_EXPIRATION))
     end) ->
  (forall d x, In (d, x) l ->
     match x with
     | TDestroy id => exists t, d = t + TUNNEL_EXPIRATION /\ reported t0 (tr ++ [e]) t (ROutBuilt id)
     | TRebuildOut id => exists t, d = t + REBUILD_TIMEOUT /\ reported t0 (tr ++ [e]) t (ROutBuilt id)
     | TRebuildIn gw => exists t r, d = t + REBUILD_TIMEOUT /\ reported t0 (tr ++ [e]) t (RInBuilt gw r (t + TUNNEL_EXPIRATION))
     end).
Proof.
  intros H d x Hx. specialize (H d x Hx). destruct x;
    [destruct H as (t & -> & R); exists t | destruct H as (t & r & -> & R); exists t, r
    |destruct H as (t & -> & R); exists t]; (split; [reflexivity|]; apply reported_snoc; auto).
Qed.

Lemma agree_out_built t0 p tr sn p' us :
  agree t0 p tr -> out_done p sn BGood = (p', us) -> agree t0 p' (tr ++ [(OOutDone sn BGood, us)]).
Proof.
  intros A. unfold out_done. destruct (pull po_sn sn (p_po p)) as [[x rest]|] eqn:E.
  2: { intro H; apply pair_equal_spec in H as [<- <-].
       apply (agree_same _ p); [exact A | reflexivity | apply quiet_nil | intro; discriminate]. }
  intro H; apply pair_equal_spec in H as [<- <-]. destruct A.
  set (id := po_id x) in *.
  set (e := (OOutDone sn BGood, [Rep (ROutBuilt id)])).
  assert (CK : clock t0 (tr ++ [e]) = clock t0 tr) by (rewrite clock_app; reflexivity).
  assert (LV : live t0 (tr ++ [e]) = mkLife Outb id (clock t0 tr) false :: live t0 tr)
    by (rewrite live_snoc, CK; reflexivity).
  constructor; rewrite ?CK, ?LV;
    cbn [p_now p_out p_intun p_sel_out p_sel_in p_exp_out p_exp_in p_timers p_inb
         s_timers s_out s_sel_out s_listen s_po].
  - exact a_now0.
  - intro k. rewrite In_nkeys_nput, a_out0. split.
    + intros [->|(y & Hy & D & I)]; [eexists; split; [now left|]; auto | exists y; split; [now right|]; auto].
    + intros (y & [<-|Hy] & D & I); [cbn in I; auto | right; exists y; auto].
  - intro k. rewrite a_in0. split.
    + intros (y & Hy & D & I). exists y; split; [now right|]; auto.
    + intros (y & [<-|Hy] & D & I); [discriminate | exists y; auto].
  - intro k. rewrite sadd_In, a_so0. split.
    + intros [->|(y & Hy & D & I)]; [eexists; split; [now left|]; auto | exists y; split; [now right|]; auto].
    + intros (y & [<-|Hy] & D & I); [cbn in I; auto | right; exists y; auto].
  - intro k. rewrite a_si0. split.
    + intros (y & Hy & D & I). exists y; split; [now right|]; auto.
    + intros (y & [<-|Hy] & D & I); [discriminate | exists y; auto].
  - intros y [<-|Hy] X; [discriminate | now apply a_exp0].
  - intros y [<-|Hy] D; apply in_or_app; [right; cbn; rewrite <- a_now0; auto | left; now apply a_destroy0].
  - intros y [<-|Hy] D; [discriminate | now apply a_inb0].
  - intros d y Hy. apply in_app_or in Hy as [Hy|[Hy|[Hy|[]]]].
    + now apply (timer_keeps t0 tr e _ a_timer0).
    + injection Hy as <- <-. exists (p_now p). split; [reflexivity|]. apply reported_snoc. right.
      rewrite CK, a_now0. split; [reflexivity | now left].
    + injection Hy as <- <-. exists (p_now p). split; [reflexivity|]. apply reported_snoc. right.
      rewrite CK, a_now0. split; [reflexivity | now left].
  - intros y Hy. destruct (a_task0 y Hy) as [r R]. exists r. apply reported_snoc. auto.
Qed.

Lemma agree_in_built t0 p tr sn p' us :
  agree t0 p tr -> in_done p sn BGood = (p', us) -> agree t0 p' (tr ++ [(OInDone sn BGood, us)]).
Proof.
  intros A. unfold in_done. destruct (pull pi_sn sn (p_pi p)) as [[x rest]|] eqn:E.
  2: { intro H; apply pair_equal_spec in H as [<- <-].
       apply (agree_same _ p); [exact A | reflexivity | apply quiet_nil | intro; discriminate]. }
  intro H; apply pair_equal_spec in H as [<- <-]. destruct A.
  set (gw := pi_gw x) in *.
  set (e := (OInDone sn BGood, [Rep (RInBuilt gw (pi_router x) (p_now p + TUNNEL_EXPIRATION))])).
  assert (CK : clock t0 (tr ++ [e]) = clock t0 tr) by (rewrite clock_app; reflexivity).
  assert (LV : live t0 (tr ++ [e]) = mkLife Inb gw (clock t0 tr) false :: live t0 tr)
    by (rewrite live_snoc, CK; reflexivity).
  assert (RP : reported t0 (tr ++ [e]) (p_now p) (RInBuilt gw (pi_router x) (p_now p + TUNNEL_EXPIRATION))).
  { apply reported_snoc. right. rewrite CK, a_now0. split; [reflexivity | cbn; rewrite a_now0; auto]. }
  constructor; rewrite ?CK, ?LV;
    cbn [p_now p_out p_intun p_sel_out p_sel_in p_exp_out p_exp_in p_timers p_inb
         s_timers s_intun s_sel_in s_listen s_pi s_inb].
  - exact a_now0.
  - intro k. rewrite a_out0. split.
    + intros (y & Hy & D & I). exists y; split; [now right|]; auto.
    + intros (y & [<-|Hy] & D & I); [discriminate | exists y; auto].
  - intro k. rewrite In_nkeys_nput, a_in0. split.
    + intros [->|(y & Hy & D & I)]; [eexists; split; [now left|]; auto | exists y; split; [now right|]; auto].
    + intros (y & [<-|Hy] & D & I); [cbn in I; auto | right; exists y; auto].
  - intro k. rewrite a_so0. split.
    + intros (y & Hy & D & I). exists y; split; [now right|]; auto.
    + intros (y & [<-|Hy] & D & I); [discriminate | exists y; auto].
  - intro k. rewrite sadd_In, a_si0. split.
    + intros [->|(y & Hy & D & I)]; [eexists; split; [now left|]; auto | exists y; split; [now right|]; auto].
    + intros (y & [<-|Hy] & D & I); [cbn in I; auto | right; exists y; auto].
  - intros y [<-|Hy] X; [discriminate | now apply a_exp0].
  - intros y [<-|Hy] D; [discriminate | apply in_or_app; left; now apply a_destroy0].
  - intros y [<-|Hy] D.
    + exists (mkIn sn (pi_tid x) gw (p_now p)). split; [apply in_or_app; right; now left|]. cbn. auto.
    + destruct (a_inb0 y Hy D) as (z & Hz & Z). exists z. split; [apply in_or_app; auto | exact Z].
  - intros d y Hy. apply in_app_or in Hy as [Hy|[Hy|[]]].
    + now apply (timer_keeps t0 tr e _ a_timer0).
    + injection Hy as <- <-. exists (p_now p), (pi_router x). auto.
  - intros y Hy. apply in_app_or in Hy as [Hy|[<-|[]]].
    + destruct (a_task0 y Hy) as [r R]. exists r. apply reported_snoc. auto.
    + exists (pi_router x). exact RP.
Qed.

Lemma out_failed_core p sn r p' us : r <> BGood -> out_done p sn r = (p', us) -> core p' = core p /\ quiet us.
Proof.
  intros NG. unfold out_done. destruct (pull po_sn sn (p_po p)) as [[x rest]|];
    [destruct r; try congruence|]; intro H; apply pair_equal_spec in H as [<- <-]; split; try reflexivity;
    try apply quiet_nil; apply quiet_one; intro; split; discriminate.
Qed.
Lemma in_failed_core p sn r p' us : r <> BGood -> in_done p sn r = (p', us) -> core p' = core p /\ quiet us.
Proof.
  intros NG. unfold in_done. destruct (pull pi_sn sn (p_pi p)) as [[x rest]|];
    [destruct r; try congruence|]; intro H; apply pair_equal_spec in H as [<- <-]; split; try reflexivity;
    try apply quiet_nil; apply quiet_one; intro; split; discriminate.
Qed.

Lemma agree_in_end t0 p tr sn p' us :
  agree t0 p tr -> in_end p sn = (p', us) -> agree t0 p' (tr ++ [(OInEnd sn, us)]).
Proof.
  intros A. unfold in_end.
  assert (K : forall us, us = [] -> agree t0 p (tr ++ [(OInEnd sn, us)])).
  { intros ? ->. apply (agree_same _ p); [exact A | reflexivity | apply quiet_nil | intro; discriminate]. }
  destruct (pull in_sn sn (p_inb p)) as [[x rest]|] eqn:E;
    [|intro H; apply pair_equal_spec in H as [<- <-]; now apply K].
  destruct (_ <=? _); [|intro H; apply pair_equal_spec in H as [<- <-]; now apply K].
  intro H; apply pair_equal_spec in H as [<- <-]. destruct A.
  set (gw := in_gw x) in *. set (e := (OInEnd sn, [Rep (RInExpired gw)])).
  apply pull_spec in E as (_ & la & lb & EL & -> & _).
  assert (CK : clock t0 (tr ++ [e]) = clock t0 tr) by (rewrite clock_app; reflexivity).
  assert (LV : live t0 (tr ++ [e]) = filter (fun y => negb (is Inb gw y)) (live t0 tr))
    by (rewrite live_snoc; reflexivity).
  constructor; rewrite ?CK, ?LV;
    cbn [p_now p_out p_intun p_sel_out p_sel_in p_exp_out p_exp_in p_timers p_inb
         s_intun s_sel_in s_rt s_exp_in s_inb].
  - exact a_now0.
  - intro k. rewrite a_out0. split; intros (y & Hy & D & I); exists y.
    + split; [|auto]. apply in_filter_not. split; [exact Hy|]. intros [D' _]. congruence.
    + apply in_filter_not in Hy as [Hy _]. auto.
  - intro k. rewrite In_nkeys_ndel, a_in0. split.
    + intros (NE & y & Hy & D & I). exists y. split; [|auto]. apply in_filter_not. split; [exact Hy|]. intros [_ I']. congruence.
    + intros (y & Hy & D & I). apply in_filter_not in Hy as [Hy N]. split; [intro; subst; now apply N|]. exists y; auto.
  - intro k. rewrite a_so0. split; intros (y & Hy & D & I); exists y.
    + split; [|auto]. apply in_filter_not. split; [exact Hy|]. intros [D' _]. congruence.
    + apply in_filter_not in Hy as [Hy _]. auto.
  - intro k. rewrite sdel_In, a_si0. split.
    + intros (NE & y & Hy & D & I). exists y. split; [|auto]. apply in_filter_not. split; [exact Hy|]. intros [_ I']. congruence.
    + intros (y & Hy & D & I). apply in_filter_not in Hy as [Hy N]. split; [intro; subst; now apply N|]. exists y; auto.
  - intros y Hy X. apply in_filter_not in Hy as [Hy N]. specialize (a_exp0 y Hy X).
    destruct (l_dir y) eqn:D; [|exact a_exp0]. apply sdel_In. split; [intro I; apply N; auto | exact a_exp0].
  - intros y Hy D. apply in_filter_not in Hy as [Hy N]. auto.
  - intros y Hy D. apply in_filter_not in Hy as [Hy N]. destruct (a_inb0 y Hy D) as (z & Hz & G & T).
    exists z. split; [|auto]. rewrite EL in Hz. apply in_app_or in Hz as [Hz|[<-|Hz]]; apply in_or_app; auto.
    exfalso. apply N. auto.
  - apply (timer_keeps t0 tr e _ a_timer0).
  - intros y Hy. destruct (a_task0 y) as [r R]; [rewrite EL; apply in_app_or in Hy as [Hy|Hy]; apply in_or_app; cbn; auto|].
    exists r. apply reported_snoc. auto.
Qed.

Lemma agree_timer t0 p tr i p' us :
  agree t0 p tr -> timer p i = (p', us) -> agree t0 p' (tr ++ [(OTimer i, us)]).
Proof.
  intros A. unfold timer.
  assert (K : forall us, us = [] -> agree t0 p (tr ++ [(OTimer i, us)])).
  { intros ? ->. apply (agree_same _ p); [exact A | reflexivity | apply quiet_nil | intro; discriminate]. }
  destruct (pull_at i (p_timers p)) as [[[d ev] rest]|] eqn:E;
    [|intro H; apply pair_equal_spec in H as [<- <-]; now apply K].
  destruct (N.ltb_spec (p_now p) d); [intro H'; apply pair_equal_spec in H' as [<- <-]; now apply K|].
  apply pull_at_spec in E as (la & lb & EL & ->). destruct A.
  assert (TK : forall e dd x, In (dd, x) (la ++ lb) ->
     match x with
     | TDestroy id => exists t, dd = t + TUNNEL_EXPIRATION /\ reported t0 (tr ++ [e]) t (ROutBuilt id)
     | TRebuildOut id => exists t, dd = t + REBUILD_TIMEOUT /\ reported t0 (tr ++ [e]) t (ROutBuilt id)
     | TRebuildIn gw => exists t r, dd = t + REBUILD_TIMEOUT /\ reported t0 (tr ++ [e]) t (RInBuilt gw r (t + TUNNEL_EXPIRATION))
     end).
  { intros e dd x Hx. apply (timer_keeps t0 tr e _ a_timer0). rewrite EL.
    apply in_app_or in Hx as [Hx|Hx]; apply in_or_app; cbn; auto. }
  assert (KT : forall dd id, In (dd, TDestroy id) (p_timers p) -> ev <> TDestroy id -> In (dd, TDestroy id) (la ++ lb)).
  { intros dd id Hx NE. rewrite EL in Hx. apply in_app_or in Hx as [Hx|[Hx|Hx]]; apply in_or_app; auto.
    exfalso. apply NE. now apply (f_equal snd) in Hx. }
  assert (TT : forall e y, In y (p_inb p) -> exists r, reported t0 (tr ++ [e]) (in_at y) (RInBuilt (in_gw y) r (in_at y + TUNNEL_EXPIRATION))).
  { intros e y Hy. destruct (a_task0 y Hy) as [r R]. exists r. apply reported_snoc. auto. }
  destruct ev as [id|gw|id]; intro H'; apply pair_equal_spec in H' as [<- <-].
  - set (e := (OTimer i, [Rep (ROutExpiring id)])).
    assert (CK : clock t0 (tr ++ [e]) = clock t0 tr) by (rewrite clock_app; reflexivity).
    assert (LV : live t0 (tr ++ [e]) = map (fun y => if is Outb id y then mkLife Outb id (l_at y) true else y) (live t0 tr))
      by (rewrite live_snoc; reflexivity).
    constructor; rewrite ?CK, ?LV;
      cbn [p_now p_out p_intun p_sel_out p_sel_in p_exp_out p_exp_in p_timers p_inb s_timers s_exp_out].
    + exact a_now0.
    + intro k. rewrite flag_ids. apply a_out0.
    + intro k. rewrite flag_ids. apply a_in0.
    + intro k. rewrite flag_ids. apply a_so0.
    + intro k. rewrite flag_ids. apply a_si0.
    + intros y Hy X. apply in_flag in Hy as (z & Hz & D & I & _ & F). rewrite D, I. specialize (a_exp0 z Hz).
      destruct (F X) as [F'|[F1 F2]]; [specialize (a_exp0 F'); destruct (l_dir z); [exact a_exp0 | apply sadd_In; auto]|].
      rewrite F1. apply sadd_In. auto.
    + intros y Hy D. apply in_flag in Hy as (z & Hz & D' & I & T & F). rewrite I, T.
      apply KT; [apply a_destroy0; congruence | discriminate].
    + intros y Hy D. apply in_flag in Hy as (z & Hz & D' & I & T & F). rewrite I, T. apply a_inb0; congruence.
    + apply TK.
    + apply TT.
  - set (e := (OTimer i, [Rep (RInExpiring gw)])).
    assert (CK : clock t0 (tr ++ [e]) = clock t0 tr) by (rewrite clock_app; reflexivity).
    assert (LV : live t0 (tr ++ [e]) = map (fun y => if is Inb gw y then mkLife Inb gw (l_at y) true else y) (live t0 tr))
      by (rewrite live_snoc; reflexivity).
    constructor; rewrite ?CK, ?LV;
      cbn [p_now p_out p_intun p_sel_out p_sel_in p_exp_out p_exp_in p_timers p_inb s_timers s_exp_in].
    + exact a_now0.
    + intro k. rewrite flag_ids. apply a_out0.
    + intro k. rewrite flag_ids. apply a_in0.
    + intro k. rewrite flag_ids. apply a_so0.
    + intro k. rewrite flag_ids. apply a_si0.
    + intros y Hy X. apply in_flag in Hy as (z & Hz & D & I & _ & F). rewrite D, I. specialize (a_exp0 z Hz).
      destruct (F X) as [F'|[F1 F2]]; [specialize (a_exp0 F'); destruct (l_dir z); [apply sadd_In; auto | exact a_exp0]|].
      rewrite F1. apply sadd_In. auto.
    + intros y Hy D. apply in_flag in Hy as (z & Hz & D' & I & T & F). rewrite I, T.
      apply KT; [apply a_destroy0; congruence | discriminate].
    + intros y Hy D. apply in_flag in Hy as (z & Hz & D' & I & T & F). rewrite I, T. apply a_inb0; congruence.
    + apply TK.
    + apply TT.
  - set (e := (OTimer i, [Rep (ROutExpired id)])).
    assert (CK : clock t0 (tr ++ [e]) = clock t0 tr) by (rewrite clock_app; reflexivity).
    assert (LV : live t0 (tr ++ [e]) = filter (fun y => negb (is Outb id y)) (live t0 tr))
      by (rewrite live_snoc; reflexivity).
    constructor; rewrite ?CK, ?LV;
      cbn [p_now p_out p_intun p_sel_out p_sel_in p_exp_out p_exp_in p_timers p_inb s_timers s_exp_out s_out s_sel_out].
    + exact a_now0.
    + intro k. rewrite In_nkeys_ndel, a_out0. split.
      * intros (NE & y & Hy & D & I). exists y. split; [|auto]. apply in_filter_not. split; [exact Hy|]. intros [_ I']. congruence.
      * intros (y & Hy & D & I). apply in_filter_not in Hy as [Hy N]. split; [intro; subst; now apply N|]. exists y; auto.
    + intro k. rewrite a_in0. split; intros (y & Hy & D & I); exists y.
      * split; [|auto]. apply in_filter_not. split; [exact Hy|]. intros [D' _]. congruence.
      * apply in_filter_not in Hy as [Hy _]. auto.
    + intro k. rewrite sdel_In, a_so0. split.
      * intros (NE & y & Hy & D & I). exists y. split; [|auto]. apply in_filter_not. split; [exact Hy|]. intros [_ I']. congruence.
      * intros (y & Hy & D & I). apply in_filter_not in Hy as [Hy N]. split; [intro; subst; now apply N|]. exists y; auto.
    + intro k. rewrite a_si0. split; intros (y & Hy & D & I); exists y.
      * split; [|auto]. apply in_filter_not. split; [exact Hy|]. intros [D' _]. congruence.
      * apply in_filter_not in Hy as [Hy _]. auto.
    + intros y Hy X. apply in_filter_not in Hy as [Hy N]. specialize (a_exp0 y Hy X).
      destruct (l_dir y) eqn:D; [exact a_exp0|]. apply sdel_In. split; [intro I; apply N; auto | exact a_exp0].
    + intros y Hy D. apply in_filter_not in Hy as [Hy N]. apply KT; [now apply a_destroy0|].
      intro C. injection C as C. apply N. auto.
    + intros y Hy D. apply in_filter_not in Hy as [Hy N]. auto.
    + apply TK.
    + apply TT.
Qed.

(** Every step of a pool that goes on. *)
Lemma test_done_core p sn r p' us : test_done p sn r = (p', us) -> core p' = core p /\ quiet us.
Proof.
  unfold test_done. destruct (pull t_sn sn (p_tests p)) as [[x rest]|]; [destruct r; [|destruct (_ <=? _)]|];
    intro H; apply pair_equal_spec in H as [<- <-]; split; try reflexivity; try apply quiet_nil;
    apply quiet_one; intro; split; discriminate.
Qed.

Lemma agree_step t0 p tr o p' us :
  agree t0 p tr -> p_up p = true -> step p o = (p', us) -> ends (o, us) = false ->
  agree t0 p' (tr ++ [(o, us)]) /\ p_up p' = true.
Proof.
  intros A U S E.
  assert (SAME : forall us', core p' = core p -> us' = us -> quiet us -> (forall n, o <> OTick n) ->
            agree t0 p' (tr ++ [(o, us)]) /\ p_up p' = true).
  { intros us' C _ Q NT. split; [now apply (agree_same _ p)|].
    pose proof (f_equal (fun c => snd (snd (fst (fst (fst (fst c)))))) C) as X. cbn in X. congruence. }
  destruct o; unfold step in S; rewrite ?U in S; cbn [negb] in S.
  - apply pair_equal_spec in S as [<- <-]. split; [now apply agree_tick | exact U].
  - destruct r.
    1-3: apply out_failed_core in S as [C Q]; [|discriminate]; apply (SAME us); auto; discriminate.
    split; [eapply agree_out_built; eauto|]. unfold out_done in S.
    destruct (pull po_sn sn (p_po p)) as [[? ?]|]; apply pair_equal_spec in S as [<- _]; exact U.
  - destruct r.
    1-3: apply in_failed_core in S as [C Q]; [|discriminate]; apply (SAME us); auto; discriminate.
    split; [eapply agree_in_built; eauto|]. unfold in_done in S.
    destruct (pull pi_sn sn (p_pi p)) as [[? ?]|]; apply pair_equal_spec in S as [<- _]; exact U.
  - split; [eapply agree_in_end; eauto|]. unfold in_end in S.
    destruct (pull in_sn sn (p_inb p)) as [[? ?]|]; [destruct (_ <=? _)|]; apply pair_equal_spec in S as [<- _]; exact U.
  - unfold in_panic in S. destruct (pull in_sn sn (p_inb p)) as [[? ?]|]; apply pair_equal_spec in S as [<- <-];
      [discriminate|]. apply (SAME []); auto using quiet_nil; discriminate.
  - apply pair_equal_spec in S as [<- <-]. apply (SAME (message p q r)); auto using message_quiet. discriminate.
  - apply pair_equal_spec in S as [<- <-]. discriminate.
  - apply test_done_core in S as [C Q]. apply (SAME us); auto; discriminate.
  - split; [eapply agree_timer; eauto|]. unfold timer in S.
    destruct (pull_at i (p_timers p)) as [[[d ev] ?]|]; [destruct (_ <? _); [|destruct ev]|];
      apply pair_equal_spec in S as [<- _]; exact U.
  - apply pair_equal_spec in S as [<- <-]. discriminate.
  - apply poll_end_core in S as [C Q]. apply (SAME us); auto; discriminate.
  - destruct (smem g (p_zero p)); apply pair_equal_spec in S as [<- <-]; apply (SAME []); auto using quiet_nil; discriminate.
  - destruct (waited p sn); apply pair_equal_spec in S as [<- <-]; apply (SAME []); auto using quiet_nil; discriminate.
  - destruct (smem id (p_rt p)); apply pair_equal_spec in S as [<- <-];
      [apply (SAME []); auto using quiet_nil; discriminate|].
    split; [|exact U]. set (p' := s_alien _ _).
    assert (X : agree t0 p (tr ++ [(OAlien id, [])]))
      by (apply (agree_same _ p); [exact A | reflexivity | apply quiet_nil | discriminate]).
    destruct X. constructor; assumption.
  - destruct (smem id (p_alien p)); apply pair_equal_spec in S as [<- <-];
      [|apply (SAME []); auto using quiet_nil; discriminate].
    split; [|exact U].
    assert (X : agree t0 p (tr ++ [(OAlienEnd id, [])]))
      by (apply (agree_same _ p); [exact A | reflexivity | apply quiet_nil | discriminate]).
    destruct X. constructor; assumption.
Qed.

Theorem run_agree ni no t0 ops p tr :
  run (p_new ni no t0) ops = (p, tr) -> running tr -> agree t0 p tr /\ p_up p = true.
Proof.
  revert p tr. apply (run_ind (fun p tr => running tr -> agree t0 p tr /\ p_up p = true)).
  - intros _. split; [apply agree_new | reflexivity].
  - intros p tr o p' us IH S R. apply running_snoc in R as [R E]. destruct (IH R) as [A U].
    eapply agree_step; eauto.
Qed.
