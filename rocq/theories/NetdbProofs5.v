(** Proofs about lookups: whole runs. *)
From Coq Require Import List NArith ZArith Bool Arith Lia ZifyBool ZifyNat ZifyN Sorting.Sorted Permutation.
From Verif Require Import ListUtil Bytes NMap KadModel KadSpec KadProofs KadProofs2 KadProofs3 NetdbModel NetdbSpec NetdbProofs NetdbProofs2 NetdbProofs3 NetdbProofs4.
Import ListNotations.
Open Scope N_scope.

Definition stamp (e : env) (evs : list nevent) : list (N * nevent) := map (fun x => (e_now e, x)) evs.

Lemma nrun_app : forall a b s, nrun s (a ++ b) =
  let (s1, t1) := nrun s a in let (s2, t2) := nrun s1 b in (s2, t1 ++ t2).
Proof.
  induction a as [|[e o] a IH]; intros b s; [cbn; now destruct (nrun s b)|]. cbn [app nrun].
  destruct (nstep e s o) as [s1 ev]. rewrite IH. destruct (nrun s1 a) as [s2 t2]. destruct (nrun s2 b) as [s3 t3].
  now rewrite app_assoc.
Qed.

Lemma nrun_snoc : forall ops s e o s1 t1 s2 ev, nrun s ops = (s1, t1) -> nstep e s1 o = (s2, ev) ->
  nrun s (ops ++ [(e, o)]) = (s2, t1 ++ stamp e ev).
Proof. intros. rewrite nrun_app, H. cbn [nrun]. rewrite H0. now rewrite app_nil_r. Qed.

Lemma nrun_snoc_inv : forall ops s e o s2 t, nrun s (ops ++ [(e, o)]) = (s2, t) ->
  exists s1 t1 ev, nrun s ops = (s1, t1) /\ nstep e s1 o = (s2, ev) /\ t = t1 ++ stamp e ev.
Proof.
  intros ops s e o s2 t H. destruct (nrun s ops) as [s1 t1] eqn:E1. destruct (nstep e s1 o) as [s3 ev] eqn:E2.
  rewrite (nrun_snoc _ _ _ _ _ _ _ _ E1 E2) in H. apply pair_equal_spec in H as [<- <-]. now exists s1, t1, ev.
Qed.

Lemma settled_stamp : forall e evs, settled (stamp e evs) = evs_settled evs.
Proof. intros e evs. unfold settled, stamp, evs_settled. induction evs as [|x l IH]; [reflexivity|]. cbn. now rewrite IH. Qed.
Lemma asked_stamp : forall e evs l id, asked l id (stamp e evs) = flat_map (ev_asked l id) evs.
Proof. intros e evs l id. unfold asked, stamp. induction evs as [|x r IH]; [reflexivity|]. cbn. now rewrite IH. Qed.
Lemma asked_app : forall l id a b, asked l id (a ++ b) = asked l id a ++ asked l id b.
Proof. intros. apply flat_map_app. Qed.
Lemma callers_app : forall a b, callers (a ++ b) = callers a ++ callers b.
Proof. intros. apply flat_map_app. Qed.
Lemma callers_one : forall e o, callers [(e, o)] = op_callers o.
Proof. intros. cbn. apply app_nil_r. Qed.
Lemma In_callers : forall ops e l k tx, In (e, request l k tx) ops -> In tx (callers ops).
Proof.
  intros ops e l k tx H. apply in_flat_map. exists (e, request l k tx). split; [assumption|]. destruct l; now left.
Qed.

Lemma request_inj : forall l k tx l' k' tx', request l k tx = request l' k' tx' -> l = l' /\ k = k' /\ tx = tx'.
Proof. intros [] k tx [] k' tx' H; cbn in H; inversion H; subst; now repeat split. Qed.

Lemma nodup_app_r : forall A (a b : list A), NoDup (a ++ b) -> NoDup b.
Proof. induction a as [|x a IH]; intros b H; [exact H|]. apply NoDup_cons_iff in H as [_ H]. auto. Qed.
Lemma nodup_app_l : forall A (a b : list A), NoDup (a ++ b) -> NoDup a.
Proof.
  induction a as [|x a IH]; intros b H; [constructor|]. apply NoDup_cons_iff in H as [N H]. constructor; [|eauto].
  intro X. apply N, in_or_app. now left.
Qed.
Lemma nodup_app_sep : forall A (a b : list A) x, NoDup (a ++ b) -> In x a -> In x b -> False.
Proof.
  induction a as [|y a IH]; intros b x H Ha Hb; [contradiction|]. apply NoDup_cons_iff in H as [N H].
  destruct Ha as [->|Ha]; [apply N, in_or_app; now right|eauto].
Qed.

(** A caller's channel is used for one request only. *)
Lemma one_request : forall ops e l k e' l' k' tx, NoDup (callers ops) ->
  In (e, request l k tx) ops -> In (e', request l' k' tx) ops -> e = e' /\ l = l' /\ k = k'.
Proof.
  induction ops as [|[e0 o0] ops IH]; intros e l k e' l' k' tx ND H H'; [contradiction|].
  change (callers ((e0, o0) :: ops)) with (op_callers o0 ++ callers ops) in ND.
  assert (O : forall l k, In tx (op_callers (request l k tx))) by (intros [] ?; now left).
  destruct H as [H|H], H' as [H'|H'].
  - rewrite H in H'. injection H' as E1 E2. apply request_inj in E2 as [? [? _]]. now repeat split.
  - exfalso. injection H as -> ->. eapply nodup_app_sep; [exact ND|apply O|eapply In_callers; eauto].
  - exfalso. injection H' as -> ->. eapply nodup_app_sep; [exact ND|apply O|eapply In_callers; eauto].
  - eapply IH; eauto. eapply nodup_app_r; eauto.
Qed.

Lemma wf_snoc : forall ops e o, wf (ops ++ [(e, o)]) -> wf ops /\ op_ids o /\ env_ok e.
Proof.
  intros ops e o H. unfold wf in H. apply Forall_app in H as [H1 H2]. split; [exact H1|].
  apply Forall_inv in H2. exact H2.
Qed.

Lemma clock_weaken : forall ops a b, b <= a -> clock a ops -> clock b ops.
Proof. intros [|[e o] ops] a b L H; [exact I|]. destruct H as [H1 H2]. split; [lia|exact H2]. Qed.
Lemma clock_all : forall ops a, clock a ops -> forall e o, In (e, o) ops -> a <= e_now e.
Proof.
  induction ops as [|[e0 o0] ops IH]; intros a H e o Hin; [contradiction|]. destruct H as [H1 H2].
  destruct Hin as [[= -> ->]|Hin]; [exact H1|]. specialize (IH _ H2 _ _ Hin). lia.
Qed.
Lemma clock_snoc : forall ops e o a, clock a (ops ++ [(e, o)]) ->
  clock a ops /\ forall e' o', In (e', o') ops -> e_now e' <= e_now e.
Proof.
  induction ops as [|[e0 o0] ops IH]; intros e o a H; [split; [exact I|contradiction]|].
  destruct H as [H1 H2]. destruct (IH _ _ _ H2) as [C1 C2]. split; [now split|].
  intros e' o' [[= -> ->]|Hin]; [|eauto]. eapply clock_all; [exact H2|]. apply in_or_app. right. now left.
Qed.

Section Run.
Variable t0 : table.
Hypothesis Ht0 : table_ok t0.

Lemma run_base : forall ops s tr, wf ops -> nrun (netdb_new t0) ops = (s, tr) -> base s.
Proof.
  induction ops as [|[e o] ops IH] using rev_ind; intros s tr W H.
  - cbn in H. apply pair_equal_spec in H as [<- <-]. split; [constructor|exact Ht0].
  - apply nrun_snoc_inv in H as [s1 [t1 [ev [E1 [E2 ->]]]]]. apply wf_snoc in W as [W [Wo We]].
    eapply step_base; [|exact We|exact Wo|exact E2]. eauto.
Qed.

Lemma run_account : forall ops s tr, wf ops -> nrun (netdb_new t0) ops = (s, tr) ->
  Permutation (callers ops) (settled tr ++ waiting s) /\ forall t, ~ In (t, EvStuck) tr.
Proof.
  induction ops as [|[e o] ops IH] using rev_ind; intros s tr W H.
  - cbn in H. apply pair_equal_spec in H as [<- <-]. split; [reflexivity|auto].
  - apply nrun_snoc_inv in H as [s1 [t1 [ev [E1 [E2 ->]]]]]. apply wf_snoc in W as [W [Wo We]].
    pose proof (run_base _ _ _ W E1) as B. destruct (IH _ _ W E1) as [P N].
    destruct (step_account _ _ _ _ _ B We E2) as [P2 N2]. split.
    + rewrite callers_app, callers_one, P. unfold settled at 2. rewrite flat_map_app. fold (settled t1) (settled (stamp e ev)).
      rewrite settled_stamp, <- !app_assoc. apply Permutation_app_head.
      rewrite (Permutation_app_comm (waiting s1)). exact P2.
    + intros t X. apply in_app_or in X as [X|X]; [exact (N _ X)|]. apply in_map_iff in X as [y [[= _ ->] X]]. contradiction.
Qed.

(** Where the queries come from. *)
Definition born (ops : list (env * nop)) (k : N) (l : bool) (q : query) : Prop :=
  (exists e, In (e, request l k (q_id q)) ops /\ e_now e = q_started q) /\
  forall tx, In tx (q_subs q) -> exists e, In (e, request l k tx) ops /\ (clock 0 ops -> q_started q <= e_now e).

Lemma born_more : forall ops x k l q q', born ops k l q -> q_id q' = q_id q -> q_started q' = q_started q ->
  q_subs q' = q_subs q -> born (ops ++ [x]) k l q'.
Proof.
  intros ops [e o] k l q q' [[e1 [A B]] C] H1 H2 H3. split.
  - exists e1. rewrite H1, H2. split; [apply in_or_app; now left|exact B].
  - intros tx. rewrite H3, H2. intros Hx. destruct (C _ Hx) as [e2 [D1 D2]]. exists e2. split; [apply in_or_app; now left|].
    intro K. apply D2. apply (clock_snoc _ _ _ _ K).
Qed.

Lemma run_born : forall ops s tr k l q, wf ops -> nrun (netdb_new t0) ops = (s, tr) ->
  nget k (n_active s) = Some (mk l q) -> born ops k l q.
Proof.
  induction ops as [|[e o] ops IH] using rev_ind; intros s tr k l q W H Hg.
  - cbn in H. apply pair_equal_spec in H as [<- <-]. discriminate.
  - apply nrun_snoc_inv in H as [s1 [t1 [ev [E1 [E2 ->]]]]]. apply wf_snoc in W as [W [Wo We]].
    pose proof (run_base _ _ _ W E1) as B.
    destruct (step_entry _ _ _ _ _ _ _ _ B We E2 Hg) as
      [q G _ _ _ _ _|q tx G _ Eo _|tx f G Eo _ _|q q' routers from sender u G _ _ Eh _|q q' f d t G _ _ _ _ Tt Ep|q q' f d t G _ _ _ _ Tt El Ep].
    + eapply born_more; [eapply IH; eauto|reflexivity..].
    + destruct (born_more _ (e, o) _ _ _ q (IH _ _ _ _ _ W E1 G) eq_refl eq_refl eq_refl) as [[e1 [A1 A2]] C].
      split; [exists e1; now split|]. cbn [q_subs q_started add_sub]. intros tx' Hx. apply in_app_or in Hx as [Hx|[<-|[]]]; [exact (C _ Hx)|].
      exists e. split; [apply in_or_app; right; left; now rewrite Eo|]. intro K. apply clock_snoc in K as [_ K].
      apply in_app_or in A1 as [A1|[[= A1 A3]|[]]]; [rewrite <- A2; eapply K; eauto|rewrite <- A2, A1; lia].
    + split; cbn.
      * exists e. split; [apply in_or_app; right; left; now rewrite Eo|reflexivity].
      * intros tx' [<-|[]]. exists e. split; [apply in_or_app; right; left; now rewrite Eo|lia].
    + apply search_reply_spec in Eh as [[H1 [H2 H3]] _]. eapply born_more; [eapply IH; eauto|assumption..].
    + assert (same_head (set_selected None q) q') as [H1 [H2 H3]].
      { destruct l; [destruct Ep as [n Ep]; eapply pick_spec; eauto|eapply next_floodfill_spec; eauto]. }
      eapply born_more; [eapply IH; eauto|assumption..].
    + assert (same_head (set_selected None q) q') as [H1 [H2 H3]] by (eapply next_floodfill_spec; eauto).
      eapply born_more; [eapply IH; eauto|assumption..].
Qed.

(** Every query has a timer that ends before its callers' patience. *)
Lemma run_timer : forall ops s tr k l q, wf ops -> nrun (netdb_new t0) ops = (s, tr) ->
  nget k (n_active s) = Some (mk l q) -> exists d, In (d, k) (n_timers s) /\ d < q_started q + patience.
Proof.
  induction ops as [|[e o] ops IH] using rev_ind; intros s tr k l q W H Hg.
  - cbn in H. apply pair_equal_spec in H as [<- <-]. discriminate.
  - apply nrun_snoc_inv in H as [s1 [t1 [ev [E1 [E2 ->]]]]]. apply wf_snoc in W as [W [Wo We]].
    pose proof (run_base _ _ _ W E1) as B. unfold patience.
    destruct (step_entry _ _ _ _ _ _ _ _ B We E2 Hg) as
      [q G K _ _ _ _|q tx G K Eo _|tx f G Eo _ T|q q' routers from sender u G K _ Eh _|q q' f d t G _ _ T L Tt Ep|q q' f d t G _ _ T L Tt El Ep].
    + destruct (IH _ _ _ _ _ W E1 G) as [d [D1 D2]]. exists d. split; [now apply K|exact D2].
    + destruct (IH _ _ _ _ _ W E1 G) as [d [D1 D2]]. exists d. split; [now apply K|exact D2].
    + eexists. split; [exact T|]. cbn. unfold query_timeout. lia.
    + apply search_reply_spec in Eh as [[H1 [H2 H3]] _]. rewrite H2.
      destruct (IH _ _ _ _ _ W E1 G) as [d [D1 D2]]. exists d. split; [now apply K|exact D2].
    + assert (same_head (set_selected None q) q') as [H1 [H2 H3]].
      { destruct l; [destruct Ep as [n Ep]; eapply pick_spec; eauto|eapply next_floodfill_spec; eauto]. }
      eexists. split; [exact T|]. cbn in *. rewrite H2. unfold query_timeout, query_total_timeout in *. lia.
    + assert (same_head (set_selected None q) q') as [H1 [H2 H3]] by (eapply next_floodfill_spec; eauto).
      eexists. split; [exact T|]. cbn in *. rewrite H2. unfold query_timeout, query_total_timeout in *. lia.
Qed.

(** A question is asked by a caller's query. *)
Lemma run_ask_id : forall ops s tr t l id k f, wf ops -> nrun (netdb_new t0) ops = (s, tr) ->
  In (t, EvAsk l id k f) tr -> exists e, In (e, request l k id) ops.
Proof.
  induction ops as [|[e o] ops IH] using rev_ind; intros s tr t l id k f W H Hin.
  - cbn in H. apply pair_equal_spec in H as [<- <-]. contradiction.
  - pose proof H as H0. pose proof W as W0.
    apply nrun_snoc_inv in H as [s1 [t1 [ev [E1 [E2 ->]]]]]. apply wf_snoc in W as [W [Wo We]].
    apply in_app_or in Hin as [Hin|Hin].
    + destruct (IH _ _ _ _ _ _ _ W E1 Hin) as [e' X]. exists e'. apply in_or_app. now left.
    + apply in_map_iff in Hin as [x [[= _ ->] Hin]].
      destruct (step_ask _ _ _ _ _ _ _ _ _ (run_base _ _ _ W E1) We E2 Hin) as [_ [q [G [Eid _]]]].
      destruct (run_born _ _ _ _ _ _ W0 H0 G) as [[e' [X _]] _]. exists e'. now rewrite <- Eid.
Qed.

Lemma asked_In : forall tr l id f, In f (asked l id tr) -> exists t k, In (t, EvAsk l id k f) tr.
Proof.
  intros tr l id f H. apply in_flat_map in H as [[t ev] [H1 H2]]. destruct ev as [l' i k f'| | | |]; try contradiction.
  cbn in H2. destruct (Bool.eqb l' l && (i =? id)) eqn:E; [|contradiction]. apply andb_true_iff in E as [E1 E2].
  apply Bool.eqb_prop in E1 as ->. apply N.eqb_eq in E2 as ->. destruct H2 as [<-|[]]. now exists t, k.
Qed.

(** ** No floodfill is asked twice *)
Lemma run_once : forall l f ops s tr, wf ops -> NoDup (callers ops) ->
  (l = true \/ forall e o, In (e, o) ops -> e_has e f = true) ->
  nrun (netdb_new t0) ops = (s, tr) ->
  (forall id, (count_occ N.eq_dec (asked l id tr) f <= 1)%nat) /\
  (forall k q, nget k (n_active s) = Some (mk l q) ->
     (In f (asked l (q_id q) tr) -> done_with q f) /\ (l = false -> ~ In f (q_pending q))).
Proof.
  intros l f. induction ops as [|[e o] ops IH] using rev_ind; intros s tr W ND Hf H.
  - cbn in H. apply pair_equal_spec in H as [<- <-]. split; [intro; cbn; lia|discriminate].
  - pose proof H as H0. pose proof W as W0. pose proof ND as ND0.
    apply nrun_snoc_inv in H as [s1 [t1 [ev [E1 [E2 ->]]]]]. apply wf_snoc in W as [W [Wo We]].
    rewrite callers_app in ND. pose proof (nodup_app_l _ _ _ ND) as ND1.
    assert (Hf1 : l = true \/ forall e o, In (e, o) ops -> e_has e f = true).
    { destruct Hf as [->|Hf]; [now left|right]. intros e' o' X. eapply Hf. apply in_or_app. left. exact X. }
    assert (Hfe : l = true \/ e_has e f = true).
    { destruct Hf as [->|Hf]; [now left|right]. apply (Hf e o). apply in_or_app. right. now left. }
    pose proof (run_base _ _ _ W E1) as B. destruct (IH _ _ W ND1 Hf1 E1) as [C A]. clear IH.
    (* an earlier question of the same query comes from the same key *)
    assert (Key : forall id k, (exists e', In (e', request l k id) (ops ++ [(e, o)])) -> forall k' f' l', In (EvAsk l' id k' f') ev ->
      l' = l /\ k' = k).
    { intros id k [e' X] k' f' l' Y.
      destruct (run_ask_id _ _ _ (e_now e) l' id k' f' W0 H0) as [e'' Z].
      { apply in_or_app. right. apply in_map_iff. now exists (EvAsk l' id k' f'). }
      destruct (one_request _ _ _ _ _ _ _ _ ND0 X Z) as [_ [? ?]]. now split. }
    assert (Fresh : forall id k q, nget k (n_active s) = Some (mk l q) -> q_id q = id ->
       (forall f', ~ In (EvAsk l id k f') ev) -> asked l id (t1 ++ stamp e ev) = asked l id t1).
    { intros id k q G Eid N. rewrite asked_app, asked_stamp.
      destruct (flat_map (ev_asked l id) ev) as [|x r] eqn:Ef; [apply app_nil_r|]. exfalso.
      assert (In x (flat_map (ev_asked l id) ev)) as X by (rewrite Ef; now left).
      apply in_flat_map in X as [y [X1 X2]]. destruct y as [l' i k' f'| | | |]; try contradiction.
      cbn in X2. destruct (Bool.eqb l' l && (i =? id)) eqn:E; [|contradiction]. apply andb_true_iff in E as [Ea Eb].
      apply Bool.eqb_prop in Ea as ->. apply N.eqb_eq in Eb as ->.
      destruct (run_born _ _ _ _ _ _ W0 H0 G) as [[e' [Y _]] _]. rewrite Eid in Y.
      destruct (Key id k (ex_intro _ e' Y) _ _ _ X1) as [_ ->]. exact (N _ X1). }
    (* the picked floodfill is new and then settled *)
    assert (Pick : forall k q q' f' t, nget k (n_active s1) = Some (mk l q) -> table_ok t ->
       (if l then exists n, pick_floodfill n e t k (set_selected None q) = Some (inr f', q')
        else next_floodfill e t k (set_selected None q) = (inr f', q')) ->
       (f = f' -> ~ done_with q f) /\
       (f = f' -> done_with (set_selected (Some f') (mark_queried f' q')) f) /\
       (done_with q f -> done_with (set_selected (Some f') (mark_queried f' q')) f) /\
       (l = false -> ~ In f (q_pending q'))).
    { intros k q q' f' t G Tt Ep. destruct (A _ _ G) as [_ Ap]. destruct l.
      - destruct Ep as [n Ep]. destruct (pick_spec _ _ _ _ _ _ _ Tt (We k) Ep) as [_ [_ [P1 [P2 _]]]].
        destruct (P2 f' eq_refl) as [_ [_ [Q1 [Q2 Q3]]]]. split; [intros ->; exact Q1|]. split; [|split; [|discriminate]].
        + intros ->. repeat split; cbn; [apply sadd_In; now left|assumption..].
        + intros D. destruct (P1 f D) as [D1 [D2 D3]]. repeat split; cbn; [apply sadd_In; now right|assumption..].
      - destruct (next_floodfill_spec _ _ _ _ _ _ Tt (We k) Ep) as [_ [_ [Eq [P1 [P2 [P3 _]]]]]]. cbn in *.
        specialize (Ap eq_refl). destruct (P3 f' eq_refl) as [_ [Q1 Q2]].
        assert (Np : ~ In f (q_pending q')) by (intro X; apply P2 in X as [X _]; contradiction).
        split; [|split; [|split; [|auto]]].
        + intros -> [D1 [D2 D3]]. destruct Q2 as [X|[[X _]|[X _]]]; contradiction.
        + intros ->. repeat split; cbn; [apply sadd_In; now left|assumption..].
        + intros [D1 [D2 D3]]. repeat split; cbn; [apply sadd_In; right; now rewrite Eq| |exact Np].
          intro X. apply P1 in X as [X|[X _]]; contradiction. }
    split.
    + intro id. rewrite asked_app, count_occ_app, asked_stamp. specialize (C id).
      destruct (in_dec N.eq_dec f (flat_map (ev_asked l id) ev)) as [X|X].
      2:{ apply count_occ_not_In with (eq_dec := N.eq_dec) in X. lia. }
      apply in_flat_map in X as [y [X1 X2]]. destruct y as [l' i k f'| | | |]; try contradiction.
      cbn in X2. destruct (Bool.eqb l' l && (i =? id)) eqn:E; [|contradiction]. apply andb_true_iff in E as [Ea Eb].
      apply Bool.eqb_prop in Ea as ->. apply N.eqb_eq in Eb as ->. destruct X2 as [->|[]].
      destruct (step_ask _ _ _ _ _ _ _ _ _ B We E2 X1) as [Ev [q [G [Eid Es]]]].
      assert (count_occ N.eq_dec (flat_map (ev_asked l id) ev) f <= 1)%nat as C1.
      { rewrite Ev. cbn. destruct (Bool.eqb l l && (id =? id)); cbn; [destruct (N.eq_dec f f)|]; lia. }
      assert (~ In f (asked l id t1)) as Nf.
      { intro Hin.
        destruct (step_entry _ _ _ _ _ _ _ _ B We E2 G) as
          [q G' _ _ _ _ N|q tx G' _ Eo En|tx f' G' Eo _ _|q q' routers from sender u G' _ _ Eh N|q q' f' d t G' _ En _ _ Tt Ep|q q' f' d t G' _ En _ _ Tt El Ep].
        - exact (N _ _ _ X1).
        - rewrite En in X1. contradiction.
        - cbn in Eid. subst tx. destruct (asked_In _ _ _ _ Hin) as [t [k' Y]].
          destruct (run_ask_id _ _ _ _ _ _ _ _ W E1 Y) as [e' Z].
          eapply nodup_app_sep; [exact ND|eapply In_callers; exact Z|]. rewrite callers_one, Eo. destruct l; now left.
        - exact (N _ _ _ _ X1).
        - assert (q_id q = id /\ f' = f) as [Eq ->] by (rewrite En in X1; destruct X1 as [X1|[]]; injection X1; auto).
          destruct (Pick _ _ _ _ _ G' Tt Ep) as [P _]. apply P; [reflexivity|]. apply (A _ _ G'). now rewrite Eq.
        - rewrite En in X1. contradiction. }
      apply count_occ_not_In with (eq_dec := N.eq_dec) in Nf. lia.
    + intros k q G. pose proof (Fresh _ _ _ G eq_refl) as Fr. pose proof Hfe as Hfe'.
      destruct (step_entry _ _ _ _ _ _ _ _ B We E2 G) as
          [q G' _ _ _ _ N|q tx G' _ Eo En|tx f' G' Eo En _|q q' routers from sender u G' _ Eo Eh N|q q' f' d t G' _ En _ _ Tt Ep|q q' f' d t G' _ En _ _ Tt El Ep].
      * rewrite Fr by (intros f' X; exact (N _ _ _ X)). exact (A _ _ G').
      * rewrite Fr by (intros f' X; rewrite En in X; contradiction). exact (A _ _ G').
      * cbn [q_id query_new q_pending]. split; [|auto]. intro X. repeat split; cbn; auto.
        rewrite asked_app in X. apply in_app_or in X as [X|X].
        -- exfalso. destruct (asked_In _ _ _ _ X) as [t [k' Y]].
           destruct (run_ask_id _ _ _ _ _ _ _ _ W E1 Y) as [e' Z].
           eapply nodup_app_sep; [exact ND|eapply In_callers; exact Z|]. rewrite callers_one, Eo. destruct l; now left.
        -- rewrite asked_stamp, En in X. cbn in X. rewrite Bool.eqb_reflx, N.eqb_refl in X. exact X.
      * rewrite Fr by (intros f' X; exact (N _ _ _ _ X)). destruct (A _ _ G') as [A1 A2].
        pose proof (search_reply_spec _ _ _ _ _ Eh) as [[H1 _] [_ H3]]. rewrite H1.
        split; [auto|]. intro El. specialize (A2 El). destruct Hfe' as [->|He]; [discriminate|].
        clear - Eh A2 He. unfold handle_search_reply in Eh. fold (search_body e) in Eh.
        set (q0 := mkQuery _ _ _ _ _ _ _) in Eh. assert (~ In f (q_pending q0)) as Nf by exact A2.
        clearbody q0. revert Eh Nf. generalize (@nil N) as u0. revert q0.
        induction routers as [|r rs IHr]; intros q0 u0 Eh Nf; cbn [fold_left] in Eh.
        { apply pair_equal_spec in Eh as [<- _]. exact Nf. }
        cbn [search_body] in Eh. destruct (smem r (q_queried q0)); [eauto|]. destruct (e_has e r) eqn:Er.
        { eapply IHr; [exact Eh|]. exact Nf. }
        { eapply IHr; [exact Eh|]. cbn. rewrite sadd_In. intros [->|X]; [congruence|contradiction]. }
      * destruct (Pick _ _ _ _ _ G' Tt Ep) as [P1 [P2 [P3 P4]]]. destruct (A _ _ G') as [A1 A2]. split; [|exact P4].
        assert (q_id q' = q_id q) as Hid.
        { destruct l; [destruct Ep as [n Ep]; eapply pick_spec in Ep as [[Hid _] _]; eauto|
            eapply next_floodfill_spec in Ep as [[Hid _] _]; eauto]. }
        cbn [q_id set_selected mark_queried]. rewrite Hid, asked_app. intro X. apply in_app_or in X as [X|X]; [now apply P3, A1|].
        rewrite asked_stamp, En in X. cbn in X. rewrite Bool.eqb_reflx, N.eqb_refl in X. destruct X as [->|[]]. now apply P2.
      * rewrite Fr by (intros x X; rewrite En in X; contradiction). destruct (A _ _ G') as [A1 A2].
        subst l. destruct (next_floodfill_spec _ _ _ _ _ _ Tt (We k) Ep) as [[Hid _] [_ [Eq [P1 [P2 _]]]]]. cbn in *.
        specialize (A2 eq_refl). rewrite Hid.
        assert (Np : ~ In f (q_pending q')) by (intro X; apply P2 in X as [X _]; contradiction).
        split; [|auto]. intro X. destruct (A1 X) as [D1 [D2 D3]]. repeat split; [now rewrite Eq| |exact Np].
        intro Y. apply P1 in Y as [Y|[Y _]]; contradiction.
Qed.
End Run.
