(** Proofs about publishing the local lease set, continued: which floodfill is chosen, one router
    info lookup at a time, and publishing again when the storage is not confirmed. *)
From Coq Require Import List NArith Bool Lia.
From Verif Require Import ListUtil Bytes NMap RouteProofs PrimModel RpathModel RpathProofs KadModel KadProofs2 DestProofs LsmModel LsmSpec LsmProofs.
Import ListNotations.
Open Scope N_scope.

(** ** Which floodfill *)
Definition no_store (o : list lout) : Prop := forall f ls rr rt, ~ In (Store f ls rr rt) o.
Definition picked (e : env) (m2 : lsm) (tried : list N) (f : N) : Prop :=
  In f (m_floods m2) /\ (forall r, In r (m_floods m2) -> ~ In r tried -> ~ In f tried /\ kdist (e_target e) f <= kdist (e_target e) r).

Lemma in_fresh tried l r : In r l -> ~ In r tried -> In r (fresh tried l).
Proof. intros H1 H2. apply filter_In. split; [exact H1|]. destruct (smem r tried) eqn:E; [apply smem_In in E; contradiction|reflexivity]. Qed.
Lemma create_store_picked e m f ls rr rt : create_store e m = Some (Store f ls rr rt) -> picked e m (m_stored m) f.
Proof.
  unfold create_store. destruct (choose _ _); [|discriminate]. destruct (or_else _ _) as [g|] eqn:Eg; [|discriminate].
  intros E; injection E as -> <- <- <-. unfold or_else in Eg.
  pose proof (get_closest_spec (e_target e) (fresh (m_stored m) (m_floods m))) as G.
  destruct (get_closest (e_target e) (fresh (m_stored m) (m_floods m))) as [x|] eqn:E1.
  - injection Eg as ->. destruct G as [G1 G2]. apply fresh_in in G1 as [G1 G3]. split; [exact G1|].
    intros r H1 H2. split; [exact G3|]. apply G2. now apply in_fresh.
  - apply closest_in in Eg. split; [exact Eg|]. intros r H1 H2. pose proof (in_fresh _ _ _ H1 H2) as H3. rewrite G in H3. destruct H3.
Qed.
Lemma create_store_floods e m o : create_store e m = Some o -> exists f ls rr rt, o = Store f ls rr rt.
Proof. unfold create_store. destruct (choose _ _); [|discriminate]. destruct (or_else _ _); [|discriminate]. intros E; injection E as <-. eauto. Qed.

Lemma turn_picked e m m' o b : turn e m = Some (m', o, b) ->
  (no_store o /\ m_stored m' = m_stored m) \/
  (exists f ls rr rt, o = [Store f ls rr rt] /\ picked e m' (m_stored m) f /\ m_stored m' = sadd f (m_stored m) /\
                      m_state m' = AwaitingFlooding (e_now e + STORAGE_VERIFICATION_START_TIMEOUT) /\ b = true).
Proof.
  assert (N0 : no_store []) by (intros f ls rr rt []).
  assert (A : forall m1 o1, ask (e_now e) (e_room e) m = (m1, o1) -> no_store o1 /\ m_stored m1 = m_stored m).
  { intros m1 o1. unfold ask. destruct (e_room e); intros E; apply pair_equal_spec in E as [<- <-]; split; auto. intros f ls rr rt [H|[]]; discriminate. }
  unfold turn. destruct (m_state m) as [| |t|k t|a| |t|s t] eqn:Es.
  - intros E; injection E as <- <- <-. auto.
  - intros E; injection E as <- <- <-. auto.
  - destruct (t <=? e_now e).
    + destruct (ask (e_now e) (e_room e) m) as [m1 o1]. intros E; injection E as <- <- <-. left; auto.
    + intros E; injection E as <- <- <-. auto.
  - destruct (t <=? e_now e); [|intros E; injection E as <- <- <-; auto]. destruct k.
    + destruct (ask (e_now e) (e_room e) m) as [m1 o1]. intros E; injection E as <- <- <-. left; auto.
    + intros E; injection E as <- <- <-. auto.
    + intros E; injection E as <- <- <-. auto.
  - destruct a as [[l|]|]; [|discriminate|intros E; injection E as <- <- <-; auto].
    cbv zeta. set (m1 := s_floods m _ (m_pending m)) in *.
    destruct (m_floods m1) eqn:Ef; intros E; injection E as <- <- <-; auto.
  - destruct (create_store e m) as [[|f ls rr rt| | |]|] eqn:Ec; try (intros E; injection E as <- <- <-; auto).
    destruct (e_store e); [|intros E; injection E as <- <- <-; auto].
    intros E; injection E as <- <- <-. right. exists f, ls, rr, rt. apply create_store_picked in Ec. auto.
  - destruct (t <=? e_now e); intros E; injection E as <- <- <-; auto.
  - destruct (s + _ <=? e_now e).
    { intros E; injection E as <- <- <-. auto. }
    destruct t as [x|].
    + destruct (x <=? e_now e); intros E; injection E as <- <- <-; auto.
    + destruct (create_lookup e m) as [[| |f rr rt| |]|] eqn:Ec; try (intros E; injection E as <- <- <-; auto).
      destruct (e_lookup e); intros E; injection E as <- <- <-; [|auto].
      left. split; [|reflexivity]. intros f' ls rr' rt' [H|[]]; discriminate.
Qed.
Lemma no_store_app a b : no_store a -> no_store b -> no_store (a ++ b).
Proof. intros H1 H2 f ls rr rt H. apply in_app_or in H as [H|H]; [eapply H1|eapply H2]; eauto. Qed.
(** One poll stores at most once, and then the floodfill picked. *)
Lemma turns_picked e : forall n m m' o, turns n e m = Some (Some (m', o)) ->
  (no_store o /\ m_stored m' = m_stored m) \/
  (exists a f ls rr rt, o = a ++ [Store f ls rr rt] /\ no_store a /\ picked e m' (m_stored m) f /\ m_stored m' = sadd f (m_stored m) /\
     m_state m' = AwaitingFlooding (e_now e + STORAGE_VERIFICATION_START_TIMEOUT)).
Proof.
  induction n as [|n IH]; intros m m' o; [discriminate|]. cbn [turns].
  destruct (turn e m) as [[[m1 o1] b]|] eqn:E; [|discriminate]. apply turn_picked in E as [[N1 S1]|(f & ls & rr & rt & -> & P & S1 & E1 & ->)].
  - destruct b; [|intros E; injection E as <- <-; auto].
    destruct (turns n e m1) as [[[m2 o2]|]|] eqn:E2; try discriminate. intros E; injection E as <- <-.
    apply IH in E2 as [[N2 S2]|(a & f & ls & rr & rt & -> & Na & P & S2 & St)].
    + left. split; [now apply no_store_app|congruence].
    + right. exists (o1 ++ a), f, ls, rr, rt. rewrite app_assoc, <- S1. split; [reflexivity|]. split; [now apply no_store_app|]. auto.
  - destruct n as [|n]; [discriminate|]. cbn [turns]. unfold turn. rewrite E1, later_no by reflexivity.
    intros E; injection E as <- <-. right. exists [], f, ls, rr, rt. split; [reflexivity|]. split; [intros ? ? ? ? []|]. auto.
Qed.

(** ** Stored at *)
Lemma step_stored key m op m' o : m_key m = key -> lstep m op = Some (m', o) ->
  (exists a f ls rr rt, o = a ++ [Store f ls rr rt] /\ no_store a /\ m_stored m' = sadd f (m_stored m) /\ exists e, op = Poll e /\ picked e m' (m_stored m) f) \/
  (no_store o /\ (m_stored m' = m_stored m \/ (m_stored m' = [] /\ exists ls, op = StoreReceived key ls))).
Proof.
  intros Hk. assert (N0 : no_store []) by (intros f ls rr rt []).
  assert (NF : forall l, no_store (map FindRouter l)) by (intros l f ls rr rt H; apply in_map_iff in H as (x & H & _); discriminate).
  assert (A : forall now room m1 m2 o1, ask now room m1 = (m2, o1) -> no_store o1 /\ m_stored m2 = m_stored m1).
  { intros now room m1 m2 o1. unfold ask. destruct room; intros E; apply pair_equal_spec in E as [<- <-]; split; auto. intros f ls rr rt [H|[]]; discriminate. }
  destruct op as [ls now room|k ls|k rs known room|now l|t|t|l|r ok known|e]; cbn [lstep].
  - intros E; injection E as E. right. unfold register_lease_set in E. destruct (m_unpublished m); [apply pair_equal_spec in E as [<- <-]; auto|].
    destruct (m_state m); try (apply pair_equal_spec in E as [<- <-]; auto). apply A in E as [E1 E2]. auto.
  - intros E; injection E as <- <-. right. split; [exact N0|]. unfold register_store. rewrite Hk. destruct (N.eqb_spec key k) as [<-|]; cbn [negb]; [|auto].
    destruct (m_state m); auto. right. split; [reflexivity|]. eauto.
  - intros E; injection E as E. right. unfold register_reply in E. destruct (m_unpublished m); [apply pair_equal_spec in E as [<- <-]; auto|].
    destruct (negb _); apply pair_equal_spec in E as [<- <-]; auto.
  - intros E; injection E as E. right. unfold register_built in E.
    assert (NL : forall l, no_store [Leases l]) by (intros l' f ls rr rt [H|[]]; discriminate).
    destruct (m_unpublished m); [apply pair_equal_spec in E as [<- <-]; auto|]. destruct (_ =? m_num m); apply pair_equal_spec in E as [<- <-]; auto.
  - intros E; injection E as <- <-. right. unfold register_expiring. destruct (nget t _); auto.
  - intros E; injection E as <- <-. right. auto.
  - intros E; injection E as <- <-. right. destruct (m_state m) as [| |?|? ?|[?|]| |?|? ?]; auto.
  - intros E; injection E as <- <-. right. auto.
  - unfold l_poll. destruct (turns 8 e m) as [[[m1 o1]|]|] eqn:Et; try discriminate. intros E; injection E as <- <-.
    apply turns_picked in Et as [[H1 H2]|(a & f & ls & rr & rt & -> & Na & P & S2 & _)]; [auto|]. left. exists a, f, ls, rr, rt. eauto 10.
Qed.
Lemma attempts_none a o : no_store o -> fold_left attempts_out o a = a.
Proof.
  intros H. revert a. induction o as [|x o IH]; intros a; [reflexivity|]. cbn. rewrite IH by (intros f ls rr rt Hin; eapply H; right; eauto).
  destruct x; try reflexivity. exfalso. eapply H. now left.
Qed.
Lemma step_attempts key m op m' o a : m_key m = key -> lstep m op = Some (m', o) ->
  (forall r, In r a -> In r (m_stored m)) -> forall r, In r (fold_left attempts_out o (attempts_op key a op)) -> In r (m_stored m').
Proof.
  intros Hk E Ha r. destruct (step_stored key m op m' o Hk E) as [(a' & f & ls & rr & rt & -> & Na & S2 & e & -> & P)|[N S]].
  - rewrite fold_left_app, (attempts_none _ a') by exact Na. cbn. rewrite S2. intros [<-|H]; apply sadd_In; auto.
  - rewrite attempts_none by exact N. destruct S as [S|[S (ls & ->)]].
    + rewrite S. intros H. apply Ha. destruct op; cbn in H; auto. destruct (_ =? _); [destruct H|exact H].
    + cbn. rewrite N.eqb_refl. intros [].
Qed.

(** ** Router info lookups *)
Definition no_find (o : list lout) : Prop := forall r, ~ In (FindRouter r) o.
Lemma finding_none r o : no_find o -> forall a, fold_left (finding_out r) o a = a.
Proof.
  induction o as [|x o IH]; intros H a; [reflexivity|]. cbn. rewrite IH by (intros y Hy; apply (H y); now right).
  destruct x; try reflexivity. exfalso. eapply H. now left.
Qed.
Lemma turn_find e m m' o b : turn e m = Some (m', o, b) -> no_find o /\ m_pending m' = m_pending m /\ m_key m' = m_key m.
Proof.
  assert (N0 : no_find []) by (intros r []).
  assert (A : forall m1 o1, ask (e_now e) (e_room e) m = (m1, o1) -> no_find o1 /\ m_pending m1 = m_pending m /\ m_key m1 = m_key m).
  { intros m1 o1. unfold ask. destruct (e_room e); intros E; apply pair_equal_spec in E as [<- <-]; repeat split; auto. intros r [H|[]]; discriminate. }
  unfold turn. destruct (m_state m) as [| |t|k t|a| |t|s t] eqn:Es.
  - intros E; injection E as <- <- <-. auto.
  - intros E; injection E as <- <- <-. auto.
  - destruct (t <=? e_now e).
    + destruct (ask (e_now e) (e_room e) m) as [m1 o1]. intros E; injection E as <- <- <-. auto.
    + intros E; injection E as <- <- <-. auto.
  - destruct (t <=? e_now e); [|intros E; injection E as <- <- <-; auto]. destruct k.
    + destruct (ask (e_now e) (e_room e) m) as [m1 o1]. intros E; injection E as <- <- <-. auto.
    + intros E; injection E as <- <- <-. auto.
    + intros E; injection E as <- <- <-. auto.
  - destruct a as [[l|]|]; [|discriminate|intros E; injection E as <- <- <-; auto].
    cbv zeta. set (m1 := s_floods m _ (m_pending m)) in *.
    destruct (m_floods m1) eqn:Ef; intros E; injection E as <- <- <-; auto.
  - destruct (create_store e m) as [[|f ls rr rt| | |]|] eqn:Ec; try (intros E; injection E as <- <- <-; auto).
    destruct (e_store e); intros E; injection E as <- <- <-; [|auto]. repeat split; auto. intros r [H|[]]; discriminate.
  - destruct (t <=? e_now e); intros E; injection E as <- <- <-; auto.
  - destruct (s + _ <=? e_now e).
    { intros E; injection E as <- <- <-. auto. }
    destruct t as [x|].
    + destruct (x <=? e_now e); intros E; injection E as <- <- <-; auto.
    + destruct (create_lookup e m) as [[| |f rr rt| |]|] eqn:Ec; try (intros E; injection E as <- <- <-; auto).
      destruct (e_lookup e); intros E; injection E as <- <- <-; [|auto]. repeat split; auto. intros r [H|[]]; discriminate.
Qed.
Lemma turns_find e : forall n m m' o, turns n e m = Some (Some (m', o)) -> no_find o /\ m_pending m' = m_pending m /\ m_key m' = m_key m.
Proof.
  induction n as [|n IH]; intros m m' o; [discriminate|]. cbn [turns].
  destruct (turn e m) as [[[m1 o1] b]|] eqn:E; [|discriminate]. apply turn_find in E as (N1 & P1 & K1).
  destruct b; [|intros E; injection E as <- <-; auto].
  destruct (turns n e m1) as [[[m2 o2]|]|] eqn:E2; try discriminate. intros E; injection E as <- <-.
  apply IH in E2 as (N2 & P2 & K2). repeat split; try congruence. intros r H. apply in_app_or in H as [H|H]; [eapply N1|eapply N2]; eauto.
Qed.
Lemma step_key m op m' o : lstep m op = Some (m', o) -> m_key m' = m_key m.
Proof.
  assert (A : forall now room m1 m2 o1, ask now room m1 = (m2, o1) -> m_key m2 = m_key m1).
  { intros now room m1 m2 o1. unfold ask. destruct room; intros E; apply pair_equal_spec in E as [<- <-]; auto. }
  destruct op as [ls now room|k ls|k rs known room|now l|t|t|l|r ok known|e]; cbn [lstep].
  - intros E; injection E as E. unfold register_lease_set in E. destruct (m_unpublished m); [apply pair_equal_spec in E as [<- <-]; auto|].
    destruct (m_state m); try (apply pair_equal_spec in E as [<- <-]; auto). apply A in E. auto.
  - intros E; injection E as <- <-. unfold register_store. destruct (negb _); [auto|]. destruct (m_state m); auto.
  - intros E; injection E as E. unfold register_reply in E. destruct (m_unpublished m); [apply pair_equal_spec in E as [<- <-]; auto|].
    destruct (negb _); apply pair_equal_spec in E as [<- <-]; auto.
  - intros E; injection E as E. unfold register_built in E.
    destruct (m_unpublished m); [apply pair_equal_spec in E as [<- <-]; auto|]. destruct (_ =? m_num m); apply pair_equal_spec in E as [<- <-]; auto.
  - intros E; injection E as <- <-. unfold register_expiring. destruct (nget t _); auto.
  - intros E; injection E as <- <-. auto.
  - intros E; injection E as <- <-. destruct (m_state m) as [| |?|? ?|[?|]| |?|? ?]; auto.
  - intros E; injection E as <- <-. auto.
  - unfold l_poll. destruct (turns 8 e m) as [[[m1 o1]|]|] eqn:Et; try discriminate. intros E; injection E as <- <-.
    now apply turns_find in Et as (_ & _ & ->).
Qed.
Lemma sadd_all_iff l : forall a r, In r (fold_left (fun a x => sadd x a) l a) <-> In r l \/ In r a.
Proof.
  induction l as [|x l IH]; cbn; intros a r; [tauto|]. rewrite IH, sadd_In. split; intros [H|H]; auto; destruct H; subst; auto.
Qed.
Definition wanted (known : N -> bool) (pending rs : list N) : list N :=
  fold_left (fun a r => if known r then a else if smem r pending then a else sadd r a) rs [].
Lemma wanted_spec known pending rs r : In r (wanted known pending rs) <-> In r rs /\ known r = false /\ ~ In r pending.
Proof.
  unfold wanted. assert (G : forall l a, In r (fold_left (fun a r => if known r then a else if smem r pending then a else sadd r a) l a) <->
    (In r l /\ known r = false /\ ~ In r pending) \/ In r a).
  { induction l as [|x l IH]; cbn; intros a; [tauto|]. rewrite IH. destruct (known x) eqn:Ek.
    - split; [tauto|]. intros [[[->|H] [H2 H3]]|H]; auto; congruence.
    - destruct (smem x pending) eqn:Es.
      + apply smem_In in Es. split; [tauto|]. intros [[[->|H] [H2 H3]]|H]; auto; contradiction.
      + assert (Hx : ~ In x pending) by (intros H; apply smem_In in H; congruence). rewrite sadd_In. split.
        * intros [H|[->|H]]; tauto.
        * intros [[[->|H] [H2 H3]]|H]; auto. }
  rewrite G. cbn. tauto.
Qed.
Lemma wanted_sorted known pending rs : sorted (wanted known pending rs).
Proof.
  unfold wanted. assert (G : forall l a, sorted a -> sorted (fold_left (fun a r => if known r then a else if smem r pending then a else sadd r a) l a)).
  { induction l as [|x l IH]; cbn; intros a Ha; [exact Ha|]. apply IH. destruct (known x); [exact Ha|]. destruct (smem x pending); [exact Ha|]. now apply sadd_sorted. }
  apply G. constructor.
Qed.
Lemma finding_map r l : forall a, fold_left (finding_out r) (map FindRouter l) a = smem r l || a.
Proof.
  induction l as [|x l IH]; intros a; [reflexivity|]. cbn [map fold_left finding_out]. rewrite IH.
  cbn [smem]. rewrite (N.eqb_sym r x). destruct (x =? r), (smem r l); reflexivity.
Qed.
Lemma step_pending m op m' o : lstep m op = Some (m', o) ->
  forall r, smem r (m_pending m') = fold_left (finding_out r) o (finding_op r (smem r (m_pending m)) op).
Proof.
  assert (A : forall now room m1 m2 o1, ask now room m1 = (m2, o1) -> no_find o1 /\ m_pending m2 = m_pending m1).
  { intros now room m1 m2 o1. unfold ask. destruct room; intros E; apply pair_equal_spec in E as [<- <-]; split; auto; intros r H; cbn in H; intuition discriminate. }
  destruct op as [ls now room|k ls|k rs known room|now l|t|t|l|r0 ok known|e]; cbn [lstep]; intros E r.
  - injection E as E. unfold register_lease_set in E. destruct (m_unpublished m); [apply pair_equal_spec in E as [<- <-]; auto|].
    destruct (m_state m); try (apply pair_equal_spec in E as [<- <-]; reflexivity).
    apply A in E as [E1 E2]. rewrite finding_none by exact E1. now rewrite E2.
  - injection E as <- <-. unfold register_store. destruct (negb _); [auto|]. destruct (m_state m); auto.
  - injection E as E. unfold register_reply in E. destruct (m_unpublished m); [apply pair_equal_spec in E as [<- <-]; auto|].
    destruct (negb _); apply pair_equal_spec in E as [<- <-]; auto. fold (wanted known (m_pending m) rs). rewrite finding_map.
    cbn [m_pending s_floods finding_op]. apply eq_true_iff_eq. rewrite orb_true_iff, !smem_In, sadd_all_iff. tauto.
  - injection E as E. unfold register_built in E.
    destruct (m_unpublished m); [apply pair_equal_spec in E as [<- <-]; auto|]. destruct (_ =? m_num m); apply pair_equal_spec in E as [<- <-]; auto.
  - injection E as <- <-. unfold register_expiring. destruct (nget t _); auto.
  - injection E as <- <-. auto.
  - injection E as <- <-. destruct (m_state m) as [| |?|? ?|[?|]| |?|? ?]; auto.
  - injection E as <- <-. cbn. rewrite smem_sdel. rewrite (N.eqb_sym r0). destruct (r =? r0); reflexivity.
  - unfold l_poll in E. destruct (turns 8 e m) as [[[m1 o1]|]|] eqn:Et; try discriminate. injection E as <- <-.
    apply turns_find in Et as (N1 & P1 & _). rewrite finding_none by exact N1. now rewrite P1.
Qed.
