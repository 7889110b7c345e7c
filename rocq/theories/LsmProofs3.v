(** Proofs about publishing the local lease set, continued: an unconfirmed lease set is published
    again in time. *)
From Coq Require Import List NArith Bool Lia.
From Verif Require Import ListUtil Bytes NMap RouteProofs PrimModel RpathModel RpathProofs KadModel KadProofs2 DestProofs LsmModel LsmSpec LsmProofs LsmProofs2.
Import ListNotations.
Open Scope N_scope.

(** Waiting for flooding until [D], or verifying since [S] at the latest. *)
Definition Q (D : option N) (S : N) (m : lsm) : Prop :=
  m_tunnels m <> [] /\ m_floods m <> [] /\
  match m_state m with
  | AwaitingFlooding d => D = Some d
  | VerifyStorage s _ => s <= S
  | Retry (ReVerify s) t => s <= S /\ t < s + 16000
  | PublishLeaseSet => True
  | _ => False
  end.
Definition resting (now : N) (m : lsm) : Prop :=
  match m_state m with
  | AwaitingFlooding d => now < d
  | VerifyStorage s _ => now < s + 15000
  | Retry _ t => now < t
  | _ => False
  end.
Lemma Q_mono D S S' m : S <= S' -> Q D S m -> Q D S' m.
Proof.
  intros HS (H1 & H2 & H). split; [exact H1|]. split; [exact H2|]. destruct (m_state m) as [| |?|[] ?|[?|]| |?|? ?]; auto; lia.
Qed.
Lemma create_store_some e m : m_tunnels m <> [] -> m_floods m <> [] -> exists f ls rr rt, create_store e m = Some (Store f ls rr rt).
Proof.
  intros H1 H2. unfold create_store. destruct (choose_some _ (e_r1 e) (map snd (m_tunnels m))) as [l ->].
  { destruct (m_tunnels m); [congruence|discriminate]. }
  unfold or_else. destruct (get_closest (e_target e) (fresh _ _)); [eauto 10|].
  pose proof (get_closest_spec (e_target e) (m_floods m)) as G. destruct (get_closest _ _); [eauto 10|contradiction].
Qed.
Lemma turn_q e D S m : Q D S m -> e_store e = true -> (D <> None -> S = e_now e) -> S <= e_now e -> (m_state m = PublishLeaseSet \/ True) ->
  exists m1 o b, turn e m = Some (m1, o, b) /\
    ((existsb is_store o = true /\ m_tunnels m1 <> [] /\ m_floods m1 <> [] /\ m_state m1 = AwaitingFlooding (e_now e + 10000) /\ b = true) \/
     (existsb is_store o = false /\ Q D S m1 /\ (b = false -> resting (e_now e) m1))).
Proof.
  intros (H1 & H2 & H) Hst HD HS _. unfold turn. destruct (m_state m) as [| |?|[| |s] t|[?|]| |t|s t] eqn:Es; try contradiction.
  - destruct (N.leb_spec t (e_now e)).
    + do 3 eexists. split; [reflexivity|]. right. split; [reflexivity|]. split; [|discriminate]. split; [exact H1|]. split; [exact H2|]. cbn. lia.
    + do 3 eexists. split; [reflexivity|]. right. split; [reflexivity|]. unfold Q, resting. rewrite Es. auto.
  - destruct (create_store_some e m H1 H2) as (f & ls & rr & rt & ->). rewrite Hst. do 3 eexists. split; [reflexivity|]. left. repeat split; auto.
  - destruct (N.leb_spec t (e_now e)).
    + do 3 eexists. split; [reflexivity|]. right. split; [reflexivity|]. split; [|discriminate]. split; [exact H1|]. split; [exact H2|]. cbn.
      rewrite HD by congruence. lia.
    + do 3 eexists. split; [reflexivity|]. right. split; [reflexivity|]. unfold Q, resting. rewrite Es. auto.
  - unfold STORAGE_VERIFICATION_TOTAL_TIMEOUT. destruct (N.leb_spec (s + 15000) (e_now e)) as [L|L].
    { do 3 eexists. split; [reflexivity|]. right. split; [reflexivity|]. split; [|discriminate]. split; [exact H1|]. split; [exact H2|]. exact I. }
    assert (R : Q D S (s_state m (Retry (ReVerify s) (e_now e + RETRY_TIMEOUT)))).
    { split; [exact H1|]. split; [exact H2|]. cbn. unfold RETRY_TIMEOUT. lia. }
    destruct t as [x|].
    + destruct (x <=? e_now e).
      * do 3 eexists. split; [reflexivity|]. right. split; [reflexivity|]. split; [|discriminate]. split; [exact H1|]. split; [exact H2|]. exact H.
      * do 3 eexists. split; [reflexivity|]. right. split; [reflexivity|]. unfold Q, resting. rewrite Es. auto.
    + destruct (create_lookup e m) as [[| |f rr rt| |]|]; try (do 3 eexists; split; [reflexivity|]; right; split; [reflexivity|]; split; [exact R|discriminate]).
      destruct (e_lookup e); [|do 3 eexists; split; [reflexivity|]; right; split; [reflexivity|]; split; [exact R|discriminate]].
      do 3 eexists. split; [reflexivity|]. right. split; [reflexivity|]. split; [|discriminate]. split; [exact H1|]. split; [exact H2|]. exact H.
Qed.
Definition stored_now (now : N) (m : lsm) : Prop := m_tunnels m <> [] /\ m_floods m <> [] /\ m_state m = AwaitingFlooding (now + 10000).
Lemma turns_q e D S : e_store e = true -> (D <> None -> S = e_now e) -> S <= e_now e ->
  forall n m, (depth e m < n)%nat -> Q D S m ->
  exists m1 o, turns n e m = Some (Some (m1, o)) /\
    ((existsb is_store o = true /\ stored_now (e_now e) m1) \/ (existsb is_store o = false /\ Q D S m1 /\ resting (e_now e) m1)).
Proof.
  intros Hst HD HS. induction n as [|n IH]; intros m Hd H; [lia|]. cbn [turns].
  destruct (turn_q e D S m H Hst HD HS (or_intror I)) as (m1 & o & b & E & [(A & B1 & B2 & B3 & ->)|(A & B & C)]); rewrite E.
  - apply turn_depth in E. destruct n as [|n]; [lia|]. cbn [turns]. unfold turn at 1. rewrite B3, later_no by reflexivity.
    exists m1, (o ++ []). split; [reflexivity|]. left. rewrite existsb_app, A. split; [reflexivity|]. split; auto.
  - destruct b.
    + apply turn_depth in E. destruct (IH m1 ltac:(lia) B) as (m2 & o2 & -> & [[A2 B2]|(A2 & B2 & C2)]).
      * exists m2, (o ++ o2). split; [reflexivity|]. left. now rewrite existsb_app, A, A2.
      * exists m2, (o ++ o2). split; [reflexivity|]. right. rewrite existsb_app, A, A2. auto.
    + exists m1, o. split; [reflexivity|]. right. auto.
Qed.
Lemma poll_q e D S m : e_store e = true -> (D <> None -> S = e_now e) -> S <= e_now e -> Q D S m ->
  exists m1 o, lstep m (Poll e) = Some (m1, o) /\
    ((existsb is_store o = true /\ stored_now (e_now e) m1) \/ (existsb is_store o = false /\ Q D S m1 /\ resting (e_now e) m1)).
Proof.
  intros Hst HD HS H. cbn [lstep]. unfold l_poll.
  destruct (turns_q e D S Hst HD HS 8 m ltac:(pose proof (depth_bound e m); lia) H) as (m1 & o & -> & HH). eauto.
Qed.

(** Between polls. *)
Definition stable (m : lsm) : Prop := m_state m <> PublishLeaseSet.
Lemma rest_stable now m : resting now m -> stable m.
Proof. unfold resting, stable. intros H E. rewrite E in H. exact H. Qed.
Lemma sadd_not_nil r a : sadd r a <> [].
Proof. intros E. assert (In r (sadd r a)) as H by (apply sadd_In; auto). rewrite E in H. exact H. Qed.
Lemma other_q key D S m op : m_key m = key -> undisturbed key op -> (forall e, op <> Poll e) -> Q D S m -> stable m ->
  exists m1 o, lstep m op = Some (m1, o) /\ existsb is_store o = false /\ Q D S m1 /\ stable m1.
Proof.
  intros Hk Hu Hp HQ Hs. assert (HQ' := HQ). destruct HQ' as (H1 & H2 & H).
  destruct op as [ls now room|k ls|k rs known room|now l|t|t|l|r ok known|e]; cbn [lstep].
  - exists (s_ls m ls), []. split; [|auto]. unfold register_lease_set. destruct (m_unpublished m); [reflexivity|]. destruct (m_state m); try reflexivity; contradiction.
  - exists m, []. split; [|auto]. unfold register_store. cbn in Hu. rewrite Hk. destruct (N.eqb_spec key k); [congruence|reflexivity].
  - unfold register_reply. destruct (m_unpublished m); [eauto 10|]. destruct (negb _); [eauto 10|]. do 2 eexists. split; [reflexivity|].
    assert (F : forall a, a <> [] -> fold_left (fun a r => if known r then sadd r a else a) rs a <> []).
    { clear Hu Hp. induction rs as [|x rs IH]; cbn; intros a Ha; [exact Ha|]. apply IH. destruct (known x); [apply sadd_not_nil|exact Ha]. }
    split; [induction (filter room _) as [|x l IH]; [reflexivity|exact IH]|]. split; [|exact Hs]. split; [exact H1|]. split; [apply F; exact H2|exact H].
  - contradiction.
  - contradiction.
  - do 2 eexists. split; [reflexivity|]. auto.
  - exists m, []. split; [|auto]. destruct (m_state m) as [| |?|? ?|[?|]| |?|? ?]; try reflexivity. contradiction.
  - do 2 eexists. split; [reflexivity|]. split; [reflexivity|]. split; [|exact Hs]. split; [exact H1|]. split; [|exact H].
    cbn. destruct (ok && known); [apply sadd_not_nil|exact H2].
  - exfalso. now apply (Hp e).
Qed.

Fixpoint last_time (t : N) (ops : list lop) : N :=
  match ops with [] => t | Poll e :: rest => last_time (e_now e) rest | _ :: rest => last_time t rest end.
Lemma in_time_app t a b : in_time t (a ++ b) <-> in_time t a /\ in_time (last_time t a) b.
Proof.
  revert t. induction a as [|op a IH]; intros t; cbn; [tauto|]. destruct op; try apply IH. rewrite IH. tauto.
Qed.
Lemma last_time_ge a : forall t, in_time t a -> t <= last_time t a.
Proof. induction a as [|op a IH]; intros t H; cbn; [lia|]. destruct op; try (apply IH; exact H). destruct H as (H1 & _ & H2). apply IH in H2. lia. Qed.

Lemma lrun_cons m op ops m1 o m2 os : lstep m op = Some (m1, o) -> lrun m1 ops = Some (m2, os) -> lrun m (op :: ops) = Some (m2, o :: os).
Proof. intros E1 E2. cbn. now rewrite E1, E2. Qed.
Lemma lrun_app : forall a m b m1 o1 m2 o2, lrun m a = Some (m1, o1) -> lrun m1 b = Some (m2, o2) -> lrun m (a ++ b) = Some (m2, o1 ++ o2).
Proof.
  induction a as [|op a IH]; intros m b m1 o1 m2 o2; cbn [lrun app].
  - intros E; injection E as <- <-. auto.
  - destruct (lstep m op) as [[m' o']|]; [|discriminate]. destruct (lrun m' a) as [[m'' o'']|] eqn:E; [|discriminate].
    intros E'; injection E' as <- <-. intros E2. now rewrite (IH _ _ _ _ _ _ E E2).
Qed.

(** While waiting for flooding is possible. *)
Lemma run_D key : forall ops T d m, m_key m = key -> Forall (undisturbed key) ops -> in_time T ops -> Q (Some d) T m -> stable m ->
  exists m' os d', lrun m ops = Some (m', os) /\ m_key m' = key /\ Q (Some d') (last_time T ops) m' /\ stable m' /\
    (existsb is_store (concat os) = false -> d' = d).
Proof.
  induction ops as [|op ops IH]; intros T d m Hk Hu Ht HQ Hs.
  { exists m, [], d. cbn. auto 10. }
  inversion Hu as [|? ? Hu1 Hu2]; subst.
  assert (P : (exists e, op = Poll e) \/ forall e, op <> Poll e) by (destruct op; eauto; right; discriminate). destruct P as [[e ->]|P].
  - cbn [in_time] in Ht. destruct Ht as (T1 & T2 & T3).
    destruct (poll_q e (Some d) (e_now e) m T2 (fun _ => eq_refl) (N.le_refl _) (Q_mono _ _ _ _ T1 HQ)) as (m1 & o & E & HH).
    assert (Hk1 := step_key _ _ _ _ E).
    destruct HH as [[A (B1 & B2 & B3)]|(A & B & C)].
    + destruct (IH (e_now e) (e_now e + 10000) m1 Hk1 Hu2 T3) as (m2 & os & d' & E2 & K2 & Q2 & S2 & _).
      { split; [exact B1|]. split; [exact B2|]. now rewrite B3. }
      { unfold stable. now rewrite B3. }
      exists m2, (o :: os), d'. split; [eapply lrun_cons; eauto|]. cbn [last_time concat]. rewrite existsb_app, A. repeat split; auto; try apply Q2. discriminate.
    + destruct (IH (e_now e) d m1 Hk1 Hu2 T3 B (rest_stable _ _ C)) as (m2 & os & d' & E2 & K2 & Q2 & S2 & ND).
      exists m2, (o :: os), d'. split; [eapply lrun_cons; eauto|]. cbn [last_time concat]. rewrite existsb_app, A. auto.
  - destruct (other_q (m_key m) _ _ _ _ eq_refl Hu1 P HQ Hs) as (m1 & o & E & A & B & C).
    assert (Hk1 := step_key _ _ _ _ E).
    assert (Ht' : in_time T ops) by (destruct op; auto; now destruct (P e)).
    destruct (IH T d m1 Hk1 Hu2 Ht' B C) as (m2 & os & d' & E2 & K2 & Q2 & S2 & ND).
    exists m2, (o :: os), d'. split; [eapply lrun_cons; eauto|]. cbn [concat]. rewrite existsb_app, A.
    replace (last_time T (op :: ops)) with (last_time T ops) by (destruct op; auto; now destruct (P e)). auto.
Qed.
(** While verifying. *)
Lemma run_V key : forall ops T S m, m_key m = key -> Forall (undisturbed key) ops -> in_time T ops -> S <= T -> Q None S m -> stable m ->
  exists m' os D, lrun m ops = Some (m', os) /\ m_key m' = key /\ Q D (match D with None => S | _ => last_time T ops end) m' /\ stable m' /\
    (existsb is_store (concat os) = false -> D = None).
Proof.
  induction ops as [|op ops IH]; intros T S m Hk Hu Ht HS HQ Hs.
  { exists m, [], None. cbn. auto 10. }
  inversion Hu as [|? ? Hu1 Hu2]; subst.
  assert (P : (exists e, op = Poll e) \/ forall e, op <> Poll e) by (destruct op; eauto; right; discriminate). destruct P as [[e ->]|P].
  - cbn [in_time] in Ht. destruct Ht as (T1 & T2 & T3).
    destruct (poll_q e None S m T2 ltac:(congruence) ltac:(lia) HQ) as (m1 & o & E & HH).
    assert (Hk1 := step_key _ _ _ _ E).
    destruct HH as [[A (B1 & B2 & B3)]|(A & B & C)].
    + destruct (run_D (m_key m) ops (e_now e) (e_now e + 10000) m1 Hk1 Hu2 T3) as (m2 & os & d' & E2 & K2 & Q2 & S2 & _).
      { split; [exact B1|]. split; [exact B2|]. now rewrite B3. }
      { unfold stable. now rewrite B3. }
      exists m2, (o :: os), (Some d'). split; [eapply lrun_cons; eauto|]. cbn [last_time concat]. rewrite existsb_app, A.
      split; [exact K2|]. split; [exact Q2|]. split; [exact S2|]. discriminate.
    + destruct (IH (e_now e) S m1 Hk1 Hu2 T3 ltac:(lia) B (rest_stable _ _ C)) as (m2 & os & D & E2 & K2 & Q2 & S2 & ND).
      exists m2, (o :: os), D. split; [eapply lrun_cons; eauto|]. cbn [last_time concat]. rewrite existsb_app, A. auto.
  - destruct (other_q (m_key m) _ _ _ _ eq_refl Hu1 P HQ Hs) as (m1 & o & E & A & B & C).
    assert (Hk1 := step_key _ _ _ _ E).
    assert (Ht' : in_time T ops) by (destruct op; auto; now destruct (P e)).
    destruct (IH T S m1 Hk1 Hu2 Ht' HS B C) as (m2 & os & D & E2 & K2 & Q2 & S2 & ND).
    exists m2, (o :: os), D. split; [eapply lrun_cons; eauto|]. cbn [concat]. rewrite existsb_app, A.
    replace (last_time T (op :: ops)) with (last_time T ops) by (destruct op; auto; now destruct (P e)). auto.
Qed.

Lemma republished key m t0 ops1 e1 ops2 e2 : m_key m = key -> stored_now t0 m ->
  Forall (undisturbed key) (ops1 ++ Poll e1 :: ops2 ++ [Poll e2]) -> in_time t0 (ops1 ++ Poll e1 :: ops2 ++ [Poll e2]) ->
  t0 + 10000 <= e_now e1 -> e_now e1 + 16000 <= e_now e2 ->
  exists m' os, lrun m (ops1 ++ Poll e1 :: ops2 ++ [Poll e2]) = Some (m', os) /\ existsb is_store (concat os) = true.
Proof.
  intros Hk (B1 & B2 & B3) Hu Ht H1 H2.
  assert (HQ : Q (Some (t0 + 10000)) t0 m) by (split; [exact B1|]; split; [exact B2|]; now rewrite B3).
  assert (Hs : stable m) by (unfold stable; now rewrite B3).
  apply Forall_app in Hu as [U1 U2]. inversion U2 as [|? ? _ U3]; subst. apply Forall_app in U3 as [U3 _].
  apply in_time_app in Ht as [T1 T2]. cbn [in_time] in T2. destruct T2 as (T2 & T3 & T4).
  apply in_time_app in T4 as [T4 T5]. cbn [in_time] in T5. destruct T5 as (T5 & T6 & _).
  destruct (run_D (m_key m) ops1 t0 _ m eq_refl U1 T1 HQ Hs) as (m1 & os1 & d1 & R1 & K1 & Q1 & S1 & D1).
  destruct (poll_q e1 (Some d1) (e_now e1) m1 T3 (fun _ => eq_refl) (N.le_refl _) (Q_mono _ _ _ _ T2 Q1)) as (m2 & o2 & E2 & HH2).
  assert (K2 := step_key _ _ _ _ E2). rewrite K1 in K2.
  destruct HH2 as [[A (C1 & C2 & C3)]|(A & QB & RB)].
  { destruct (run_D (m_key m) (ops2 ++ [Poll e2]) (e_now e1) (e_now e1 + 10000) m2 K2) as (m3 & os3 & d3 & R3 & _).
    - apply Forall_app; split; auto. constructor; [exact I|constructor].
    - apply in_time_app. split; [exact T4|]. cbn. auto.
    - split; [exact C1|]. split; [exact C2|]. now rewrite C3.
    - unfold stable. now rewrite C3.
    - exists m3, (os1 ++ o2 :: os3). split; [eapply lrun_app; [exact R1|eapply lrun_cons; eauto]|].
      rewrite concat_app, existsb_app. cbn [concat]. rewrite existsb_app, A. apply orb_true_r. }
  destruct (existsb is_store (concat os1)) eqn:X1.
  { destruct (run_D (m_key m) (ops2 ++ [Poll e2]) (e_now e1) d1 m2 K2) as (m3 & os3 & d3 & R3 & _); auto.
    - apply Forall_app; split; auto. constructor; [exact I|constructor].
    - apply in_time_app. split; [exact T4|]. cbn. auto.
    - eapply rest_stable; eauto.
    - exists m3, (os1 ++ o2 :: os3). split; [eapply lrun_app; [exact R1|eapply lrun_cons; eauto]|].
      rewrite concat_app, existsb_app, X1. reflexivity. }
  rewrite (D1 eq_refl) in *.
  assert (QN : Q None (e_now e1) m2).
  { destruct QB as (G1 & G2 & G3). split; [exact G1|]. split; [exact G2|]. unfold resting in RB.
    destruct (m_state m2) as [| |?|[] ?|[?|]| |?|? ?]; auto. injection G3 as <-. lia. }
  destruct (run_V (m_key m) ops2 (e_now e1) (e_now e1) m2 K2 U3 T4 (N.le_refl _) QN (rest_stable _ _ RB)) as (m3 & os3 & D3 & R3 & K3 & Q3 & S3 & N3).
  assert (T7 := last_time_ge _ _ T4).
  destruct (poll_q e2 D3 (match D3 with None => e_now e1 | _ => e_now e2 end) m3 T6) as (m4 & o4 & E4 & HH4).
  { destruct D3; congruence. } { destruct D3; lia. } { destruct D3; [eapply Q_mono; [|exact Q3]; lia|exact Q3]. }
  exists m4, (os1 ++ o2 :: os3 ++ [o4]). split.
  { eapply lrun_app; [exact R1|]. eapply lrun_cons; [exact E2|]. eapply lrun_app; [exact R3|]. cbn [lrun]. now rewrite E4. }
  rewrite concat_app, existsb_app. cbn [concat]. rewrite existsb_app, concat_app, existsb_app. cbn [concat]. rewrite app_nil_r.
  destruct (existsb is_store (concat os3)) eqn:X3; [rewrite orb_true_l, !orb_true_r; reflexivity|].
  destruct HH4 as [[A4 _]|(A4 & B4 & C4)]; [rewrite A4, !orb_true_r; reflexivity|]. exfalso.
  rewrite (N3 eq_refl) in B4. destruct B4 as (_ & _ & B4). unfold resting in C4. destruct (m_state m4) as [| |?|[] ?|[?|]| |?|? ?]; try contradiction; try discriminate; lia.
Qed.

(** A store leaves the manager waiting for the flooding. *)
Lemma store_waits e m m' o : lstep m (Poll e) = Some (m', o) -> existsb is_store o = true -> m_tunnels m' <> [] /\ stored_now (e_now e) m'.
Proof.
  intros E H. cbn [lstep] in E. unfold l_poll in E. destruct (turns 8 e m) as [[[m1 o1]|]|] eqn:Et; try discriminate. injection E as <- <-.
  assert (G : forall n m m' o, turns n e m = Some (Some (m', o)) -> existsb is_store o = true -> m_tunnels m' <> []).
  { clear. induction n as [|n IH]; intros m m' o; [discriminate|]. cbn [turns].
    destruct (turn e m) as [[[m1 o1] b]|] eqn:E; [|discriminate].
    destruct (turn_picked _ _ _ _ _ E) as [[N1 S1]|(f & ls & rr & rt & -> & P & S1 & E1 & ->)].
    - assert (N2 : existsb is_store o1 = false).
      { destruct (existsb is_store o1) eqn:X; [|reflexivity]. apply existsb_exists in X as ([] & X1 & X2); try discriminate. exfalso. eapply N1; eauto. }
      destruct b; [|intros E'; injection E' as <- <-; congruence].
      destruct (turns n e m1) as [[[m2 o2]|]|] eqn:E2; try discriminate. intros E'; injection E' as <- <-. rewrite existsb_app, N2. eapply IH; eauto.
    - assert (T1 : m_tunnels m1 <> []).
      { unfold turn in E. destruct (m_state m) as [| |?|[] ?|[[?|]|]| |?|? [?|]] eqn:Es; cbv zeta in E;
          repeat match type of E with
                 | context [ask ?a ?b ?c] => unfold ask in E; destruct (e_room e)
                 | context [if ?c then _ else _] => destruct c
                 | context [match m_floods ?x with _ => _ end] => destruct (m_floods x)
                 | context [match create_lookup ?a ?b with _ => _ end] => destruct (create_lookup a b) as [[]|]
                 end; try discriminate.
        all: destruct (create_store e m) as [[]|] eqn:Ec; try discriminate.
        injection E as <- _ _ _ _. cbn. unfold create_store in Ec. intros E0. rewrite E0 in Ec. discriminate. }
      destruct n as [|n]; [discriminate|]. cbn [turns]. unfold turn. rewrite E1, later_no by reflexivity.
      intros E'; injection E' as <- <-. auto. }
  split; [eapply G; eauto|]. destruct (turns_picked _ _ _ _ _ Et) as [[N1 _]|(a & f & ls & rr & rt & -> & Na & [P1 P2] & S2 & St)].
  - apply existsb_exists in H as ([] & X1 & X2); try discriminate. exfalso. eapply N1; eauto.
  - split; [eapply G; eauto|]. split; [|exact St]. intros E0. rewrite E0 in P1. destruct P1.
Qed.
