(** Proofs about the transit tunnel manager, continued: what a step changes, and no panics. *)
From Coq Require Import List NArith Bool Arith Lia ZifyBool ZifyNat ZifyN.
From Verif Require Import ListUtil Bytes NMap PrimModel I2npModel I2npProofs GarlicModel TunnelModel TunnelProofs
  NoiseModel RouteModel RouteSpec RouteProofs RouteProofs2 TransitModel TransitSpec TransitProofs.
Import ListNotations.
Open Scope N_scope.

Lemma inv_mrun c ops : forall m, inv m -> inv (fst (mrun c m ops)).
Proof.
  induction ops as [|o l IH]; intros m I; cbn [mrun]; [exact I|].
  pose proof (inv_mstep c m o I) as I1. destruct (mstep c m o) as [m1 u]. cbn in I1.
  specialize (IH m1 I1). destruct (mrun c m1 l). exact IH.
Qed.

(** ** What a step does to the tasks *)
Lemma same_refl a : same_task a a. Proof. unfold same_task; auto 6. Qed.
Lemma same_trans a b d : same_task a b -> same_task b d -> same_task a d.
Proof. unfold same_task. intuition congruence. Qed.

Definition covers (l l' : list task) : Prop := forall k, In k l -> exists k', In k' l' /\ same_task k k'.
Lemma covers_refl l : covers l l. Proof. intros k H. exists k. split; [exact H | apply same_refl]. Qed.
Lemma covers_trans a b d : covers a b -> covers b d -> covers a d.
Proof.
  intros X Y k H. apply X in H as (k1 & H1 & S1). apply Y in H1 as (k2 & H2 & S2).
  exists k2. split; [exact H2 | eapply same_trans; eauto].
Qed.
Lemma covers_app l x : covers l (l ++ x).
Proof. intros k H. exists k. split; [apply in_or_app; auto | apply same_refl]. Qed.
Lemma covers_phase h p l : covers l (set_phase h p l) /\ covers (set_phase h p l) l.
Proof.
  split; intros k H.
  - exists (if tk_rx k =? h then mkTask (tk_rx k) (tk_id k) (tk_role k) (tk_next_id k) (tk_next k) (tk_keys k) p else k).
    split; [unfold set_phase; apply in_map_iff; exists k; auto|].
    destruct (tk_rx k =? h); unfold same_task; cbn; auto 6.
  - apply in_map_iff in H as (k0 & <- & H). exists k0. split; [exact H|].
    destruct (tk_rx k0 =? h); unfold same_task; cbn; auto 6.
Qed.

Lemma resolve_tasks m h b : covers (tm_tasks m) (tm_tasks (resolve m h b)) /\ covers (tm_tasks (resolve m h b)) (tm_tasks m).
Proof.
  unfold resolve. destruct (find_task h (tm_tasks m)) as [k|]; [|split; apply covers_refl].
  destruct (tk_phase k); [|split; apply covers_refl|split; apply covers_refl].
  destruct b; cbn; apply covers_phase.
Qed.

Lemma send_tasks m r : covers (tm_tasks m) (tm_tasks (fst (send_reply m r))) /\ covers (tm_tasks (fst (send_reply m r))) (tm_tasks m).
Proof.
  unfold send_reply. destruct r as [[[router out] h]|]; [|split; apply covers_refl].
  destruct (send_message (tm_table m) router out h) as [t s].
  destruct s as [res f|]; [|split; apply covers_refl].
  destruct h as [h|], f; cbn [fst]; try (split; apply covers_refl); apply (resolve_tasks (m_table m t)).
Qed.

Lemma handled_tasks m m' r : handled m m' r ->
  (tm_tasks m' = tm_tasks m /\ forall router out h, r = Some (router, out, Some h) -> False) \/
  (exists q k h out, tm_tasks m' = tm_tasks m ++ [mkTask h (rq_tunnel q) (rq_role q) (rq_next_tunnel q) (rq_next_router q) k Waiting] /\
     can_accept m = true /\ h = rt_next (tm_table m) /\ nget (rq_tunnel q) (rt_tunnels (tm_table m)) = None /\
     r = Some (rq_next_router q, out, Some h)).
Proof.
  intros [[-> ->]|(w & q & k & m1 & h & out & A & -> & ->)]; [left; split; [reflexivity | discriminate]|].
  apply admit_spec in A as [[-> ->]|(hh & -> & C & _ & Nid & Eh & Em & _)].
  - left. split; [reflexivity|]. intros r o x E. discriminate.
  - right. exists q, k, hh, out. split; [rewrite Em; reflexivity|]. auto.
Qed.

(** The request a message carries was accepted: a task was started for it. *)
Lemma message_tasks c now m msg :
  let res := on_message c now m msg in
  (covers (tm_tasks m) (tm_tasks (fst res)) /\ covers (tm_tasks (fst res)) (tm_tasks m) /\
   forall router out h s, snd res <> AReply router out (Some h) s) \/
  (can_accept m = true /\ exists k,
     nget (tk_id k) (rt_tunnels (tm_table m)) = None /\ tk_rx k = rt_next (tm_table m) /\
     covers (tm_tasks m ++ [k]) (tm_tasks (fst res)) /\ covers (tm_tasks (fst res)) (tm_tasks m ++ [k]) /\
     (snd res = APanic \/ exists out s, snd res = AReply (tk_next k) out (Some (tk_rx k)) s)).
Proof.
  cbv zeta.
  assert (G : forall m1 r, handled m m1 r ->
    let res := send_reply m1 r in
    (covers (tm_tasks m) (tm_tasks (fst res)) /\ covers (tm_tasks (fst res)) (tm_tasks m) /\
     forall router out h s, snd res <> AReply router out (Some h) s) \/
    (can_accept m = true /\ exists k,
       nget (tk_id k) (rt_tunnels (tm_table m)) = None /\ tk_rx k = rt_next (tm_table m) /\
       covers (tm_tasks m ++ [k]) (tm_tasks (fst res)) /\ covers (tm_tasks (fst res)) (tm_tasks m ++ [k]) /\
       (snd res = APanic \/ exists out s, snd res = AReply (tk_next k) out (Some (tk_rx k)) s))).
  { intros m1 r H. cbv zeta. destruct (send_tasks m1 r) as [S1 S2].
    apply handled_tasks in H as [[E N]|(q & k & h & out & E & C & Eh & Nid & Er)].
    - left. rewrite E in S1, S2. split; [exact S1|]. split; [exact S2|].
      intros router out h s X. unfold send_reply in X. destruct r as [[[ro ou] hh]|]; [|discriminate].
      destruct (send_message (tm_table m1) ro ou hh) as [t s']. destruct s'; [|discriminate].
      cbn in X. injection X as X1 X2 X3 X4. subst ro ou hh. exact (N _ _ _ eq_refl).
    - right. split; [exact C|]. eexists. rewrite E in S1, S2.
      split; [|split; [|split; [exact S1 | split; [exact S2|]]]]; [exact Nid | exact Eh |].
      rewrite Er. unfold send_reply. destruct (send_message (tm_table m1) (rq_next_router q) out (Some h)) as [t s].
      destruct s; [right|left; reflexivity]. cbn. eauto. }
  assert (Z : forall a, (forall router out h s, a <> AReply router out (Some h) s) ->
    (covers (tm_tasks m) (tm_tasks (fst (m, a))) /\ covers (tm_tasks (fst (m, a))) (tm_tasks m) /\
     forall router out h s, snd (m, a) <> AReply router out (Some h) s)).
  { intros a Ha. split; [apply covers_refl|]. split; [apply covers_refl | exact Ha]. }
  unfold on_message. destruct (m_type msg); try (left; apply Z; discriminate).
  - left. destruct (length (m_payload msg) <? 12)%nat; apply Z; discriminate.
  - destruct (handle_variable c m msg) as [m1 r] eqn:E. apply (G m1 r), (variable_handled _ _ _ _ _ E).
  - destruct (handle_short c now m msg) as [m1 r] eqn:E. apply (G m1 r), (short_handled _ _ _ _ _ _ E).
Qed.

Lemma recv_transit_spec t t' msg : recv_transit t = (t', Some msg) ->
  rt_tunnels t' = rt_tunnels t /\ rt_next t' = rt_next t /\ ch_q (rt_transit t) = msg :: ch_q (rt_transit t') /\
  rt_self t' = rt_self t.
Proof.
  unfold recv_transit. destruct (ch_q (rt_transit t)) as [|x q] eqn:E; [discriminate|].
  intro H. injection H as <- <-. auto.
Qed.

Lemma collect_tasks m h k : In k (tm_tasks m) -> tk_rx k <> h -> In k (tm_tasks (collect m h)).
Proof.
  intros Ik N. unfold collect. destruct (find_task h (tm_tasks m)) as [x|]; [|exact Ik].
  destruct (tk_phase x); try exact Ik. cbv zeta.
  assert (X : In k (filter (fun x => negb (tk_rx x =? h)) (tm_tasks m))).
  { apply filter_In. split; [exact Ik|]. now apply negb_true_iff, N.eqb_neq. }
  cbn [tm_tasks m_table m_tasks tm_shutting].
  destruct (filter (fun x => negb (tk_rx x =? h)) (tm_tasks m)) eqn:F; [contradiction|].
  cbn [tm_tasks m_table m_tasks]. exact X.
Qed.
Lemma collect_sub m h k : In k (tm_tasks (collect m h)) -> In k (tm_tasks m).
Proof.
  unfold collect. destruct (find_task h (tm_tasks m)) as [x|]; [|auto].
  destruct (tk_phase x); auto. cbv zeta. cbn [tm_tasks m_table m_tasks tm_shutting].
  destruct (filter (fun x => negb (tk_rx x =? h)) (tm_tasks m)) eqn:F.
  - destruct (tm_shutting m); cbn; intros [].
  - cbn. intro X. change (In k (t :: l)) in X. rewrite <- F in X. now apply filter_In in X.
Qed.

Lemma mstep_keeps c m o k :
  In k (tm_tasks m) -> o <> MCollect (tk_rx k) ->
  exists k', In k' (tm_tasks (fst (mstep c m o))) /\ same_task k k'.
Proof.
  intros Ik No. assert (Z : exists k', In k' (tm_tasks m) /\ same_task k k') by (exists k; split; [exact Ik | apply same_refl]).
  destruct o; cbn [mstep].
  - destruct (tm_done m); [exact Z|]. destruct (recv_transit (tm_table m)) as [t [msg|]]; [|exact Z].
    pose proof (message_tasks c now (m_table m t) msg) as X. cbv zeta in X.
    destruct (on_message c now (m_table m t) msg) as [m1 a]. cbn [fst snd] in *.
    destruct X as [(X & _)|(_ & k0 & _ & _ & X & _)]; apply X; [exact Ik | apply in_or_app; left; exact Ik].
  - now apply resolve_tasks.
  - now apply resolve_tasks.
  - destruct (find_task h (tm_tasks m)) as [x|]; [|exact Z]. destruct (tk_phase x); try exact Z.
    destruct (step (tm_table m) (ORecvTunnel h)) as [t u]. exact Z.
  - destruct (find_task h (tm_tasks m)) as [x|]; [|exact Z]. destruct (tk_phase x); try exact Z.
    cbn. now apply covers_phase.
  - destruct (tm_done m); [exact Z|]. exists k. split; [|apply same_refl]. apply collect_tasks; [exact Ik|]. congruence.
  - destruct (tm_done m); [exact Z|]. cbn. destruct (tm_tasks m) eqn:E; [contradiction|]. cbn. rewrite E. exact Z.
  - destruct (other_may m o); [|exact Z]. destruct (step (tm_table m) o) as [t u].
    destruct o; try exact Z; destruct u; exact Z.
Qed.

(** A task that was not there before was started by this step, for a build request. *)
Lemma mstep_new c m o k' :
  In k' (tm_tasks (fst (mstep c m o))) ->
  (exists k, In k (tm_tasks m) /\ same_task k k') \/
  (can_accept m = true /\ nget (tk_id k') (rt_tunnels (tm_table m)) = None /\ tk_rx k' = rt_next (tm_table m) /\
   exists now msg, o = MPoll now /\
     (snd (mstep c m o) = OAnswer msg APanic \/
      exists out s, snd (mstep c m o) = OAnswer msg (AReply (tk_next k') out (Some (tk_rx k')) s))).
Proof.
  assert (Z : In k' (tm_tasks m) -> exists k, In k (tm_tasks m) /\ same_task k k') by (intro X; exists k'; split; [exact X | apply same_refl]).
  destruct o; cbn [mstep].
  - destruct (tm_done m); [left; auto|]. destruct (recv_transit (tm_table m)) as [t [msg|]] eqn:Er; [|left; auto].
    apply recv_transit_spec in Er as (E1 & E2 & _).
    pose proof (message_tasks c now (m_table m t) msg) as X. cbv zeta in X.
    destruct (on_message c now (m_table m t) msg) as [m1 a]. cbn [fst snd] in *. intro Ik.
    destruct X as [(_ & X & _)|(C & k0 & N0 & R0 & _ & X & A)].
    + left. apply X in Ik as (k1 & I1 & S1). exists k1. split; [exact I1|]. unfold same_task in *. intuition congruence.
    + apply X in Ik as (k1 & I1 & S1). apply in_app_or in I1 as [I1|[<-|[]]].
      * left. exists k1. split; [exact I1|]. unfold same_task in *. intuition congruence.
      * right. cbn [tm_table m_table] in N0, R0. rewrite E1 in N0. rewrite E2 in R0.
        destruct S1 as (S1 & S2 & S3 & S4 & S5 & S6). rewrite S1, S2, S5.
        split; [exact C|]. split; [exact N0|]. split; [exact R0|]. exists now, msg. split; [reflexivity|].
        destruct A as [->|(out & s & ->)]; [left; reflexivity | right; exists out, s; reflexivity].
  - intro X. left. apply resolve_tasks in X as (k & I1 & S1). exists k. split; [exact I1|]. unfold same_task in *. intuition congruence.
  - intro X. left. apply resolve_tasks in X as (k & I1 & S1). exists k. split; [exact I1|]. unfold same_task in *. intuition congruence.
  - destruct (find_task h (tm_tasks m)) as [x|]; [|left; auto]. destruct (tk_phase x); try (left; auto; fail).
    destruct (step (tm_table m) (ORecvTunnel h)) as [t u]. left; auto.
  - destruct (find_task h (tm_tasks m)) as [x|]; [|left; auto]. destruct (tk_phase x); try (left; auto; fail).
    cbn. intro X. left. apply covers_phase in X as (k & I1 & S1). exists k. split; [exact I1|]. unfold same_task in *. intuition congruence.
  - destruct (tm_done m); [left; auto|]. cbn. intro X. left. apply Z. now apply collect_sub in X.
  - destruct (tm_done m); [left; auto|]. cbn. destruct (tm_tasks m) eqn:E; cbn; rewrite E; [intros [] | left; auto].
  - destruct (other_may m o); [|left; auto]. destruct (step (tm_table m) o) as [t u].
    destruct o; try (left; auto; fail); destruct u; left; auto.
Qed.

(** ** Fixed parts *)
Lemma send_config m r : let m' := fst (send_reply m r) in
  tm_config m' = tm_config m /\ tm_noise m' = tm_noise m /\ tm_shutting m' = tm_shutting m.
Proof.
  cbv zeta. unfold send_reply. destruct r as [[[router out] h]|]; [|auto].
  destruct (send_message (tm_table m) router out h) as [t s]. destruct s as [res f|]; [|auto].
  assert (R : forall hh b, tm_config (resolve (m_table m t) hh b) = tm_config m /\
              tm_noise (resolve (m_table m t) hh b) = tm_noise m /\ tm_shutting (resolve (m_table m t) hh b) = tm_shutting m).
  { intros hh b. unfold resolve. destruct (find_task hh (tm_tasks (m_table m t))) as [k|]; [|auto].
    destruct (tk_phase k), b; auto. }
  destruct h as [h|], f; cbn [fst]; auto.
Qed.
Lemma handled_config m m' r : handled m m' r ->
  tm_config m' = tm_config m /\ tm_noise m' = tm_noise m /\ tm_shutting m' = tm_shutting m.
Proof.
  intros [[-> _]|(w & q & k & m1 & h & out & A & -> & _)]; [auto|].
  apply admit_spec in A as [[-> ->]|(hh & -> & _ & _ & _ & _ & -> & _)]; auto.
Qed.

Lemma mstep_config c m o : let m' := fst (mstep c m o) in
  tm_config m' = tm_config m /\ tm_noise m' = tm_noise m /\ (tm_shutting m = true -> tm_shutting m' = true).
Proof.
  cbv zeta.
  assert (R : forall h b, tm_config (resolve m h b) = tm_config m /\
              tm_noise (resolve m h b) = tm_noise m /\ (tm_shutting m = true -> tm_shutting (resolve m h b) = true)).
  { intros hh b. unfold resolve. destruct (find_task hh (tm_tasks m)) as [k|]; [|auto]. destruct (tk_phase k), b; auto. }
  destruct o; cbn [mstep].
  - destruct (tm_done m); [auto|]. destruct (recv_transit (tm_table m)) as [t [msg|]]; [|auto].
    assert (X : let m' := fst (on_message c now (m_table m t) msg) in
       tm_config m' = tm_config m /\ tm_noise m' = tm_noise m /\ tm_shutting m' = tm_shutting m).
    { cbv zeta. unfold on_message. destruct (m_type msg); auto.
      - destruct (length (m_payload msg) <? 12)%nat; auto.
      - destruct (handle_variable c (m_table m t) msg) as [m1 r] eqn:E.
        apply variable_handled, handled_config in E. pose proof (send_config m1 r) as Y. cbv zeta in Y.
        cbn [tm_config tm_noise tm_shutting m_table] in E. intuition congruence.
      - destruct (handle_short c now (m_table m t) msg) as [m1 r] eqn:E.
        apply short_handled, handled_config in E. pose proof (send_config m1 r) as Y. cbv zeta in Y.
        cbn [tm_config tm_noise tm_shutting m_table] in E. intuition congruence. }
    cbv zeta in X. destruct (on_message c now (m_table m t) msg) as [m1 a]. cbn [fst] in *. intuition congruence.
  - apply R.
  - apply R.
  - destruct (find_task h (tm_tasks m)) as [x|]; [|auto]. destruct (tk_phase x); auto.
    destruct (step (tm_table m) (ORecvTunnel h)) as [t u]; auto.
  - destruct (find_task h (tm_tasks m)) as [x|]; [|auto]. destruct (tk_phase x); auto.
  - destruct (tm_done m); [auto|]. unfold collect. destruct (find_task h (tm_tasks m)) as [x|]; [|auto].
    destruct (tk_phase x); auto. cbv zeta. cbn [m_table m_tasks tm_tasks tm_shutting].
    destruct (filter _ _); [|auto]. destruct (tm_shutting m) eqn:S; cbn; intuition congruence.
  - destruct (tm_done m); [auto|]. cbn. destruct (tm_tasks m); auto.
  - destruct (other_may m o); [|auto]. destruct (step (tm_table m) o) as [t u].
    destruct o; auto; destruct u; auto.
Qed.
Lemma mrun_config c ops : forall m, let m' := fst (mrun c m ops) in
  tm_config m' = tm_config m /\ tm_noise m' = tm_noise m /\ (tm_shutting m = true -> tm_shutting m' = true).
Proof.
  induction ops as [|o l IH]; intros m; cbn [mrun]; [auto|].
  pose proof (mstep_config c m o) as X. cbv zeta in *. destruct (mstep c m o) as [m1 u]. cbn in X.
  specialize (IH m1). destruct (mrun c m1 l) as [m2 us]. cbn [fst] in *. intuition congruence.
Qed.

Lemma mrun_app c a : forall m b, mrun c m (a ++ b) =
  let '(m1, u) := mrun c m a in let '(m2, v) := mrun c m1 b in (m2, u ++ v).
Proof.
  induction a as [|o a IH]; intros m b; cbn [mrun app].
  - destruct (mrun c m b); reflexivity.
  - destruct (mstep c m o) as [m1 u]. rewrite IH. destruct (mrun c m1 a) as [m2 us]. destruct (mrun c m2 b); reflexivity.
Qed.

Lemma mrun_keeps c ops : forall m k, In k (tm_tasks m) -> ~ In (MCollect (tk_rx k)) ops ->
  exists k', In k' (tm_tasks (fst (mrun c m ops))) /\ same_task k k'.
Proof.
  induction ops as [|o l IH]; intros m k Ik N; cbn [mrun]; [exists k; split; [exact Ik | apply same_refl]|].
  assert (No : o <> MCollect (tk_rx k)) by (intro X; apply N; left; exact X).
  destruct (mstep_keeps c m o k Ik No) as (k1 & I1 & S1). destruct (mstep c m o) as [m1 u]. cbn [fst] in I1.
  assert (E1 : tk_rx k1 = tk_rx k) by (symmetry; apply S1).
  destruct (IH m1 k1 I1) as (k2 & I2 & S2); [rewrite E1; intro X; apply N; right; exact X|].
  exists k2. destruct (mrun c m1 l). cbn [fst] in *. split; [exact I2 | eapply same_trans; eauto].
Qed.

(** ** While shutting down nothing is accepted *)
Lemma shutting_step c m o : tm_shutting m = true ->
  covers (tm_tasks (fst (mstep c m o))) (tm_tasks m) /\
  (forall msg router out h s, snd (mstep c m o) <> OAnswer msg (AReply router out (Some h) s)).
Proof.
  intro S. assert (C : can_accept m = false) by (unfold can_accept; now rewrite S).
  split.
  - intros k Ik. apply mstep_new in Ik as [(k0 & I0 & S0)|(X & _)]; [|congruence].
    exists k0. split; [exact I0|]. unfold same_task in *. intuition congruence.
  - intros msg router out h s. destruct o; cbn [mstep]; try (cbn; discriminate).
    + destruct (tm_done m); [cbn; discriminate|]. destruct (recv_transit (tm_table m)) as [t [ms|]]; [|cbn; discriminate].
      pose proof (message_tasks c now (m_table m t) ms) as X. cbv zeta in X.
      destruct (on_message c now (m_table m t) ms) as [m1 a]. cbn [fst snd] in *.
      destruct X as [(_ & _ & X)|(X & _)]; [intro E; injection E as -> ->; exact (X _ _ _ _ eq_refl)|].
      unfold can_accept in X. cbn in X. rewrite S in X. discriminate.
    + destruct (find_task h0 (tm_tasks m)) as [x|]; [|cbn; discriminate]. destruct (tk_phase x); cbn; try discriminate.
      destruct (recv_tunnel (tm_table m) h0) as [? [?|]]; cbn; discriminate.
    + destruct (find_task h0 (tm_tasks m)) as [x|]; [|cbn; discriminate]. destruct (tk_phase x); cbn; discriminate.
    + destruct (tm_done m); cbn; discriminate.
    + destruct (tm_done m); cbn; discriminate.
    + destruct (other_may m o); [|cbn; discriminate]. destruct (step (tm_table m) o). cbn. discriminate.
Qed.
Lemma shutting_run c ops : forall m, tm_shutting m = true ->
  covers (tm_tasks (fst (mrun c m ops))) (tm_tasks m) /\
  (forall o msg router out h s, ~ In (o, OAnswer msg (AReply router out (Some h) s)) (snd (mrun c m ops))).
Proof.
  induction ops as [|o l IH]; intros m S; cbn [mrun]; [split; [apply covers_refl | intros; exact (fun x => x)]|].
  destruct (shutting_step c m o S) as [A B]. destruct (mstep_config c m o) as (_ & _ & Q). specialize (Q S).
  destruct (mstep c m o) as [m1 u]. cbn [fst snd] in *. destruct (IH m1 Q) as [A1 B1].
  destruct (mrun c m1 l) as [m2 us]. cbn [fst snd] in *. split; [eapply covers_trans; eauto|].
  intros o' msg router out h s [X|X]; [injection X as -> ->; exact (B _ _ _ _ _ eq_refl) | exact (B1 _ _ _ _ _ _ X)].
Qed.

(** The manager ends once it is shutting down and its last tunnel is gone. *)
Lemma covers_nil l : covers l [] -> l = [].
Proof. destruct l as [|x l]; [reflexivity|]. intro H. destruct (H x (or_introl eq_refl)) as (k & [] & _). Qed.

Definition ending (m : manager) : Prop := tm_shutting m = true -> tm_tasks m = [] -> tm_done m = true.

Lemma resolve_done m h b : tm_done (resolve m h b) = tm_done m.
Proof. unfold resolve. destruct (find_task h (tm_tasks m)) as [k|]; [|auto]. destruct (tk_phase k), b; auto. Qed.

Lemma message_done c now m msg : tm_done (fst (on_message c now m msg)) = tm_done m.
Proof.
  assert (S : forall m1 r, tm_done (fst (send_reply m1 r)) = tm_done m1).
  { intros m1 r. unfold send_reply. destruct r as [[[router out] h]|]; [|auto].
    destruct (send_message (tm_table m1) router out h) as [t s]. destruct s as [res f|]; [|auto].
    destruct h as [h|], f; cbn [fst]; auto; rewrite resolve_done; reflexivity. }
  assert (H : forall m1 r, handled m m1 r -> tm_done m1 = tm_done m).
  { intros m1 r [[-> _]|(w & q & k & m2 & h & out & A & -> & _)]; [auto|].
    apply admit_spec in A as [[-> ->]|(hh & -> & _ & _ & _ & _ & -> & _)]; auto. }
  unfold on_message. destruct (m_type msg); auto.
  - destruct (length (m_payload msg) <? 12)%nat; auto.
  - destruct (handle_variable c m msg) as [m1 r] eqn:E. rewrite S. apply (H _ _ (variable_handled _ _ _ _ _ E)).
  - destruct (handle_short c now m msg) as [m1 r] eqn:E. rewrite S. apply (H _ _ (short_handled _ _ _ _ _ _ E)).
Qed.

Lemma set_phase_nil h p l : set_phase h p l = [] -> l = [].
Proof. destruct l; [auto | discriminate]. Qed.
Lemma resolve_nil m h b : tm_tasks (resolve m h b) = [] -> tm_tasks m = [].
Proof.
  unfold resolve. destruct (find_task h (tm_tasks m)) as [k|]; [|auto].
  destruct (tk_phase k), b; auto; cbn; apply set_phase_nil.
Qed.
Lemma covers_nil_r l : covers l [] -> l = []. Proof. apply covers_nil. Qed.

Lemma ending_step c m o : ending m -> ending (fst (mstep c m o)).
Proof.
  intro E. destruct o; cbn [mstep].
  - destruct (tm_done m) eqn:D; [intros _ _; exact D|]. destruct (recv_transit (tm_table m)) as [t [msg|]]; [|exact E].
    pose proof (message_done c now (m_table m t) msg) as MD.
    pose proof (message_tasks c now (m_table m t) msg) as X. cbv zeta in X.
    assert (SH : tm_shutting (fst (on_message c now (m_table m t) msg)) = tm_shutting m).
    { unfold on_message. destruct (m_type msg); auto.
      - destruct (length (m_payload msg) <? 12)%nat; auto.
      - destruct (handle_variable c (m_table m t) msg) as [m1 r] eqn:Eh.
        apply variable_handled, handled_config in Eh. pose proof (send_config m1 r) as Y. cbv zeta in Y.
        cbn [tm_config tm_noise tm_shutting m_table] in Eh. intuition congruence.
      - destruct (handle_short c now (m_table m t) msg) as [m1 r] eqn:Eh.
        apply short_handled, handled_config in Eh. pose proof (send_config m1 r) as Y. cbv zeta in Y.
        cbn [tm_config tm_noise tm_shutting m_table] in Eh. intuition congruence. }
    destruct (on_message c now (m_table m t) msg) as [m1 a]. cbn [fst snd] in *. intros S N. rewrite MD. apply E; [congruence|].
    destruct X as [(X & _)|(_ & k & _ & _ & X & _)].
    + rewrite N in X. now apply covers_nil.
    + rewrite N in X. apply covers_nil in X. destruct (tm_tasks (m_table m t)); discriminate.
  - intros S N. cbn [fst] in *. rewrite resolve_done. apply E; [|now apply resolve_nil in N].
    cbn in S. unfold resolve in S. destruct (find_task h (tm_tasks m)) as [k|]; [|exact S]. destruct (tk_phase k), fired; exact S.
  - intros S N. cbn [fst] in *. rewrite resolve_done. apply E; [|now apply resolve_nil in N].
    cbn in S. unfold resolve in S. destruct (find_task h (tm_tasks m)) as [k|]; [|exact S]. destruct (tk_phase k); exact S.
  - destruct (find_task h (tm_tasks m)) as [x|]; [|exact E]. destruct (tk_phase x); try exact E.
    destruct (step (tm_table m) (ORecvTunnel h)) as [t u]. exact E.
  - destruct (find_task h (tm_tasks m)) as [x|]; [|exact E]. destruct (tk_phase x); try exact E.
    intros S N. cbn in N. apply set_phase_nil in N. now apply E.
  - destruct (tm_done m) eqn:D; [intros _ _; exact D|]. unfold collect.
    destruct (find_task h (tm_tasks m)) as [x|]; [|exact E]. destruct (tk_phase x); try exact E. cbv zeta.
    destruct (tm_tasks _) eqn:F; [|intros S N; cbn [fst] in N; rewrite F in N; discriminate].
    destruct (tm_shutting _) eqn:S; [intros _ _; reflexivity | intros S' _; cbn [fst] in S'; congruence].
  - destruct (tm_done m) eqn:D; [intros _ _; exact D|]. cbn. destruct (tm_tasks m) eqn:F; [intros _ _; reflexivity|].
    intros _ N. cbn in N. congruence.
  - destruct (other_may m o); [|exact E]. destruct (step (tm_table m) o) as [t u].
    destruct o; try exact E; destruct u; exact E.
Qed.
Lemma ending_run c ops : forall m, ending m -> ending (fst (mrun c m ops)).
Proof.
  induction ops as [|o l IH]; intros m I; cbn [mrun]; [exact I|].
  pose proof (ending_step c m o I) as I1. destruct (mstep c m o) as [m1 u]. cbn in I1.
  specialize (IH m1 I1). destruct (mrun c m1 l). exact IH.
Qed.
