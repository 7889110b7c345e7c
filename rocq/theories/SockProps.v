(** C141–C143: SSU2 sessions from the first packet to the end. *)
From Coq Require Import List NArith PeanoNat Bool Lia.
From Verif Require Import SockModel SockSpec.
Import ListNotations.
Open Scope N_scope.

(** * Sets and tasks *)
Lemma mem_in : forall x l, mem x l = true <-> In x l.
Proof.
  intros x l. unfold mem. rewrite existsb_exists. split.
  - intros (y & h & e). apply N.eqb_eq in e. subst. exact h.
  - intros h. exists x. split; [exact h | apply N.eqb_refl].
Qed.
Lemma mem_not : forall x l, mem x l = false <-> ~ In x l.
Proof. intros x l. rewrite <- mem_in. destruct (mem x l); split; congruence. Qed.
Lemma add_in : forall x y l, In x (add y l) <-> x = y \/ In x l.
Proof.
  intros x y l. unfold add. destruct (mem y l) eqn:e.
  - apply mem_in in e. split; [auto | intros [->|h]; auto].
  - cbn. split; intros [h|h]; auto.
Qed.
Lemma del_in : forall x y l, In x (del y l) <-> In x l /\ x <> y.
Proof.
  intros x y l. unfold del. rewrite filter_In, negb_true_iff, N.eqb_neq. split; intros [a b]; split; auto.
Qed.
Lemma drop_in : forall id k p l, In (k, p) (drop id l) <-> In (k, p) l /\ k <> id.
Proof.
  intros id k p l. unfold drop. rewrite filter_In, negb_true_iff, N.eqb_neq. cbn. reflexivity.
Qed.
Lemma task_in : forall id p l, task id l = Some p -> In (id, p) l.
Proof.
  induction l as [|[k q] l IH]; cbn; [discriminate|]. destruct (N.eqb_spec k id) as [->|ne].
  - intros e. injection e as ->. left. reflexivity.
  - intros e. right. auto.
Qed.
Lemma task_drop_same : forall id l, task id (drop id l) = None.
Proof.
  induction l as [|[k q] l IH]; [reflexivity|]. unfold drop. cbn [filter fst].
  destruct (N.eqb_spec k id) as [->|ne]; cbn [negb]; [exact IH|].
  cbn [task]. destruct (N.eqb_spec k id); [contradiction | exact IH].
Qed.
Lemma task_drop_other : forall id k l, k <> id -> task id (drop k l) = task id l.
Proof.
  intros id k l ne. induction l as [|[j q] l IH]; [reflexivity|]. unfold drop in *. cbn [filter fst task].
  destruct (N.eqb_spec j k) as [->|ne']; cbn [negb task].
  - destruct (N.eqb_spec k id); [contradiction | exact IH].
  - rewrite IH. reflexivity.
Qed.

(** * The invariant *)
Definition inv (s : state) : Prop :=
  (forall id p, In (id, p) (s_tasks s) -> In id (s_table s)) /\
  (forall id p q, In (id, p) (s_tasks s) -> In (id, q) (s_tasks s) -> p = q) /\
  (forall id r, In (id, Active r) (s_tasks s) -> In r (s_routers s)) /\
  (forall a b r, In (a, Active r) (s_tasks s) -> In (b, Active r) (s_tasks s) -> a = b).
Lemma inv_start : forall self, inv (start self).
Proof. intros self. unfold inv. cbn. repeat split; intros; contradiction. Qed.

Lemma inv_new : forall s id p pending, inv s -> (forall r, p <> Active r) ->
  inv (mkS (s_self s) (add id (s_table s)) ((id, p) :: drop id (s_tasks s)) (s_routers s) pending).
Proof.
  intros s id p pending (h1 & h2 & h3 & h4) hp.
  unfold inv. cbn [s_tasks s_table s_routers].
  split; [|split; [|split]].
  - intros k q [e|h]; apply add_in; [injection e as <- _; left; reflexivity|].
    apply drop_in in h as [h _]. right. eapply h1; exact h.
  - intros k q r [e|h] [e'|h'].
    + congruence.
    + injection e as <- <-. apply drop_in in h' as [_ n]. congruence.
    + injection e' as <- <-. apply drop_in in h as [_ n]. congruence.
    + apply drop_in in h as [h _]. apply drop_in in h' as [h' _]. eapply h2; eassumption.
  - intros k r [e|h]; [injection e as _ e; exfalso; exact (hp _ e)|].
    apply drop_in in h as [h _]. eapply h3; exact h.
  - intros a b r [e|h] [e'|h'].
    + injection e as _ e. exfalso; exact (hp _ e).
    + injection e as _ e. exfalso; exact (hp _ e).
    + injection e' as _ e'. exfalso; exact (hp _ e').
    + apply drop_in in h as [h _]. apply drop_in in h' as [h' _]. eapply h4; eassumption.
Qed.
Lemma inv_set : forall s id p pending, inv s -> In id (s_table s) -> (forall r, p <> Active r) ->
  inv (mkS (s_self s) (s_table s) ((id, p) :: drop id (s_tasks s)) (s_routers s) pending).
Proof.
  intros s id p pending h hi hp. pose proof (inv_new s id p pending h hp) as h'.
  unfold add in h'. apply mem_in in hi. rewrite hi in h'. exact h'.
Qed.
Lemma inv_less : forall s id routers pending, inv s -> incl (s_routers s) routers ->
  inv (mkS (s_self s) (s_table s) (drop id (s_tasks s)) routers pending).
Proof.
  intros s id routers pending (h1 & h2 & h3 & h4) hi. unfold inv. cbn [s_tasks s_table s_routers].
  split; [|split; [|split]].
  - intros k q h. apply drop_in in h as [h _]. eapply h1; exact h.
  - intros k q r h h'. apply drop_in in h as [h _]. apply drop_in in h' as [h' _]. eapply h2; eassumption.
  - intros k r h. apply drop_in in h as [h _]. apply hi. eapply h3; exact h.
  - intros a b r h h'. apply drop_in in h as [h _]. apply drop_in in h' as [h' _]. eapply h4; eassumption.
Qed.
Lemma inv_active : forall s id r pending, inv s -> In id (s_table s) -> ~ In r (s_routers s) ->
  inv (mkS (s_self s) (s_table s) ((id, Active r) :: drop id (s_tasks s)) (add r (s_routers s)) pending).
Proof.
  intros s id r pending (h1 & h2 & h3 & h4) hi hr. unfold inv. cbn [s_tasks s_table s_routers].
  split; [|split; [|split]].
  - intros k q [e|h]; [injection e as <- _; exact hi|]. apply drop_in in h as [h _]. eapply h1; exact h.
  - intros k q t [e|h] [e'|h'].
    + congruence.
    + injection e as <- <-. apply drop_in in h' as [_ n]. congruence.
    + injection e' as <- <-. apply drop_in in h as [_ n]. congruence.
    + apply drop_in in h as [h _]. apply drop_in in h' as [h' _]. eapply h2; eassumption.
  - intros k t [e|h]; apply add_in; [injection e as _ <-; left; reflexivity|].
    apply drop_in in h as [h _]. right. eapply h3; exact h.
  - intros a b t [e|h] [e'|h'].
    + congruence.
    + injection e as <- <-. apply drop_in in h' as [h' _]. exfalso. apply hr. eapply h3; exact h'.
    + injection e' as <- <-. apply drop_in in h as [h _]. exfalso. apply hr. eapply h3; exact h.
    + apply drop_in in h as [h _]. apply drop_in in h' as [h' _]. eapply h4; eassumption.
Qed.

Lemma established_cases : forall s inbound id r,
  (established s inbound id r = (without_task s id, [Rejected id r])) \/
  (~ In r (s_routers s) /\ mem r (s_pending s) = negb inbound /\
   established s inbound id r =
     (mkS (s_self s) (s_table s) ((id, Active r) :: drop id (s_tasks s)) (add r (s_routers s)) (del r (s_pending s)),
      [Accepted id r])).
Proof.
  intros s inbound id r. unfold established.
  destruct inbound, (mem r (s_pending s)) eqn:ep; try (left; reflexivity);
    (destruct (mem r (s_routers s)) eqn:er; [left; reflexivity|]; right;
     split; [apply mem_not; exact er|]; split; [reflexivity|]; reflexivity).
Qed.

Lemma step_inv : forall s o, inv s -> inv (fst (step s o)).
Proof.
  intros s o h. pose proof h as (h1 & _).
  destruct o as [id request | router id | id router | id | id reason now | id p | id now]; cbn [step].
  - destruct (mem id (s_table s)) eqn:em; [exact h|]. destruct request; [|exact h]. cbn [fst].
    assert (e : drop id (s_tasks s) = s_tasks s).
    { apply mem_not in em. clear h. revert h1. induction (s_tasks s) as [|[k p] l IH]; intros h1; [reflexivity|].
      unfold drop in *. cbn [filter fst]. destruct (N.eqb_spec k id) as [->|ne]; cbn [negb].
      - exfalso. apply em. eapply h1. left. reflexivity.
      - f_equal. apply IH. intros j q hj. eapply h1. right. exact hj. }
    rewrite <- e. apply inv_new; [exact h | discriminate].
  - destruct (mem router (s_pending s)); [exact h|]. cbn [fst].
    apply inv_new; [exact h | discriminate].
  - destruct (task id (s_tasks s)) as [[| |r|r t]|] eqn:et; try exact h; apply task_in in et; apply h1 in et.
    + destruct (established_cases s true id router) as [e|(hr & _ & e)]; rewrite e; cbn [fst].
      * apply inv_less; [exact h | apply incl_refl].
      * apply inv_active; assumption.
    + destruct (established_cases s false id (s_self s)) as [e|(hr & _ & e)]; rewrite e; cbn [fst].
      * apply inv_less; [exact h | apply incl_refl].
      * apply inv_active; assumption.
  - destruct (task id (s_tasks s)) as [[| |r|r t]|] eqn:et; try exact h; cbn [fst];
      (apply (inv_less s id); [exact h | apply incl_refl]).
  - destruct (task id (s_tasks s)) as [[| |r|r t]|] eqn:et; try exact h. cbn [terminate fst].
    apply task_in in et. apply h1 in et. apply inv_set; [exact h | exact et | discriminate].
  - destruct (task id (s_tasks s)) as [[| |r|r t]|] eqn:et; exact h.
  - destruct (task id (s_tasks s)) as [[| |r|r t]|] eqn:et; try exact h.
    destruct (t + TERMINATION_TIMEOUT <=? now); [|exact h]. cbn [fst]. apply inv_less; [exact h | apply incl_refl].
Qed.
Lemma run_step : forall s o ops, run s (o :: ops) =
  (fst (run (fst (step s o)) ops), snd (step s o) ++ snd (run (fst (step s o)) ops)).
Proof. intros s o ops. cbn [run]. destruct (step s o) as [s1 a]. cbn [fst snd]. destruct (run s1 ops). reflexivity. Qed.
Lemma run_inv : forall ops s, inv s -> inv (fst (run s ops)).
Proof.
  induction ops as [|o ops IH]; intros s h; [exact h|]. rewrite run_step. cbn [fst]. apply IH. apply step_inv, h.
Qed.

(** * C141: one session per router, and another one after it *)

(** There never are two active sessions with a router. *)
Theorem C141_one_session : forall self ops s outs a b r, run (start self) ops = (s, outs) ->
  In (a, Active r) (s_tasks s) -> In (b, Active r) (s_tasks s) -> a = b.
Proof.
  intros self ops s outs a b r h. pose proof (run_inv ops _ (inv_start self)) as (_ & _ & _ & h4).
  rewrite h in h4. apply h4.
Qed.
Print Assumptions C141_one_session.

(** routers that were accepted are exactly those known as connected *)
Lemma started_app : forall r a b, started r (a ++ b) = (started r a + started r b)%nat.
Proof. intros r a b. induction a as [|[] a IH]; cbn; auto. rewrite IH. lia. Qed.
Lemma step_routers : forall s o r,
  (In r (s_routers s) -> In r (s_routers (fst (step s o))) /\ started r (snd (step s o)) = 0%nat) /\
  (~ In r (s_routers s) ->
     (started r (snd (step s o)) = 0%nat /\ ~ In r (s_routers (fst (step s o)))) \/
     (started r (snd (step s o)) = 1%nat /\ In r (s_routers (fst (step s o))))).
Proof.
  intros s o r.
  assert (hest : forall inbound id x,
    (In r (s_routers s) -> In r (s_routers (fst (established s inbound id x))) /\
       started r (snd (established s inbound id x)) = 0%nat) /\
    (~ In r (s_routers s) ->
     (started r (snd (established s inbound id x)) = 0%nat /\ ~ In r (s_routers (fst (established s inbound id x)))) \/
     (started r (snd (established s inbound id x)) = 1%nat /\ In r (s_routers (fst (established s inbound id x)))))).
  { intros inbound id x. destruct (established_cases s inbound id x) as [e|(hr & _ & e)]; rewrite e; cbn.
    - split; [intros h; split; [exact h | reflexivity] | intros h; left; split; [reflexivity | exact h]].
    - destruct (N.eqb_spec x r) as [->|ne].
      + split; [intros h; contradiction|]. intros _. right. split; [reflexivity | apply add_in; left; reflexivity].
      + split; [intros h; split; [apply add_in; right; exact h | reflexivity]|].
        intros h. left. split; [reflexivity|]. rewrite add_in. intros [e'|h']; [congruence | contradiction]. }
  assert (hsame : forall s' outs, s_routers s' = s_routers s -> started r outs = 0%nat ->
    (In r (s_routers s) -> In r (s_routers s') /\ started r outs = 0%nat) /\
    (~ In r (s_routers s) -> (started r outs = 0%nat /\ ~ In r (s_routers s')) \/
                             (started r outs = 1%nat /\ In r (s_routers s')))).
  { intros s' outs e e'. rewrite e, e'. split; [intros h; auto | intros h; left; auto]. }
  destruct o as [id request | router id | id router | id | id reason now | id p | id now]; cbn [step].
  - destruct (mem id (s_table s)); [|destruct request]; apply hsame; reflexivity.
  - destruct (mem router (s_pending s)); apply hsame; reflexivity.
  - destruct (task id (s_tasks s)) as [[| |x|x t]|]; try apply hest; apply hsame; reflexivity.
  - destruct (task id (s_tasks s)) as [[| |x|x t]|]; apply hsame; reflexivity.
  - destruct (task id (s_tasks s)) as [[| |x|x t]|]; try (apply hsame; reflexivity).
    cbn [terminate fst snd]. apply hsame; [reflexivity|]. destruct (negb (reason =? TERMINATION_RECEIVED)); reflexivity.
  - destruct (task id (s_tasks s)) as [[| |x|x t]|]; try (apply hsame; reflexivity).
    destruct p as [|[]]; apply hsame; reflexivity.
  - destruct (task id (s_tasks s)) as [[| |x|x t]|]; try (apply hsame; reflexivity).
    destruct (t + TERMINATION_TIMEOUT <=? now); apply hsame; reflexivity.
Qed.
Lemma run_routers : forall ops s r,
  (In r (s_routers s) -> In r (s_routers (fst (run s ops))) /\ started r (snd (run s ops)) = 0%nat) /\
  (~ In r (s_routers s) ->
     (started r (snd (run s ops)) = 0%nat /\ ~ In r (s_routers (fst (run s ops)))) \/
     (started r (snd (run s ops)) = 1%nat /\ In r (s_routers (fst (run s ops))))).
Proof.
  induction ops as [|o ops IH]; intros s r.
  - cbn. split; [intros h; auto | intros h; left; auto].
  - rewrite run_step. cbn [fst snd]. rewrite started_app. destruct (step_routers s o r) as [a b].
    specialize (IH (fst (step s o)) r) as [c d]. split.
    + intros h. destruct (a h) as [a1 a2]. destruct (c a1) as [c1 c2]. rewrite a2, c2. auto.
    + intros h. destruct (b h) as [[b1 b2]|[b1 b2]]; rewrite b1.
      * exact (d b2).
      * destruct (c b2) as [c1 c2]. right. rewrite c2. auto.
Qed.

(** pending dials *)
Lemma step_pending : forall s o r, r <> s_self s -> In r (s_pending s) ->
  s_self (fst (step s o)) = s_self s /\ In r (s_pending (fst (step s o))) /\ started r (snd (step s o)) = 0%nat.
Proof.
  intros s o r hr hp.
  destruct o as [id request | router id | id router | id | id reason now | id p | id now]; cbn [step].
  - destruct (mem id (s_table s)); [|destruct request]; cbn; auto.
  - destruct (mem router (s_pending s)); cbn; auto. split; [reflexivity|]. split; [|reflexivity]. apply add_in; auto.
  - destruct (task id (s_tasks s)) as [[| |x|x t]|]; cbn [fst snd]; auto.
    + destruct (established_cases s true id router) as [e|(_ & hm & e)]; rewrite e; cbn; auto.
      apply mem_not in hm. assert (ne : router <> r) by (intros ->; contradiction).
      destruct (N.eqb_spec router r); [contradiction|]. split; [reflexivity|]. split; [|reflexivity].
      apply del_in. auto.
    + destruct (established_cases s false id (s_self s)) as [e|(_ & hm & e)]; rewrite e; cbn; auto.
      destruct (N.eqb_spec (s_self s) r); [congruence|]. split; [reflexivity|]. split; [|reflexivity].
      apply del_in. auto.
  - destruct (task id (s_tasks s)) as [[| |x|x t]|]; cbn; auto.
    split; [reflexivity|]. split; [|reflexivity]. apply del_in. auto.
  - destruct (task id (s_tasks s)) as [[| |x|x t]|]; cbn; auto.
    split; [reflexivity|]. split; [exact hp|]. destruct (negb (reason =? TERMINATION_RECEIVED)); reflexivity.
  - destruct (task id (s_tasks s)) as [[| |x|x t]|]; cbn; auto. destruct p as [|[]]; cbn; auto.
  - destruct (task id (s_tasks s)) as [[| |x|x t]|]; cbn; auto.
    destruct (t + TERMINATION_TIMEOUT <=? now); cbn; auto.
Qed.
Lemma step_self : forall s o, s_self (fst (step s o)) = s_self s.
Proof.
  intros s o. destruct o as [id request | router id | id router | id | id reason now | id p | id now]; cbn [step].
  - destruct (mem id (s_table s)); [|destruct request]; reflexivity.
  - destruct (mem router (s_pending s)); reflexivity.
  - destruct (task id (s_tasks s)) as [[| |x|x t]|]; try reflexivity.
    + destruct (established_cases s true id router) as [e|(_ & _ & e)]; rewrite e; reflexivity.
    + destruct (established_cases s false id (s_self s)) as [e|(_ & _ & e)]; rewrite e; reflexivity.
  - destruct (task id (s_tasks s)) as [[| |x|x t]|]; reflexivity.
  - destruct (task id (s_tasks s)) as [[| |x|x t]|]; reflexivity.
  - destruct (task id (s_tasks s)) as [[| |x|x t]|]; reflexivity.
  - destruct (task id (s_tasks s)) as [[| |x|x t]|]; try reflexivity.
    destruct (t + TERMINATION_TIMEOUT <=? now); reflexivity.
Qed.
Lemma run_self : forall ops s, s_self (fst (run s ops)) = s_self s.
Proof. induction ops as [|o ops IH]; intros s; [reflexivity|]. rewrite run_step. cbn [fst]. rewrite IH. apply step_self. Qed.
Lemma run_pending : forall ops s r, r <> s_self s -> In r (s_pending s) ->
  In r (s_pending (fst (run s ops))) /\ started r (snd (run s ops)) = 0%nat.
Proof.
  induction ops as [|o ops IH]; intros s r hr hp; [cbn; auto|]. rewrite run_step. cbn [fst snd]. rewrite started_app.
  destruct (step_pending s o r hr hp) as (e & hp' & e'). rewrite e'. apply IH; [rewrite e; exact hr | exact hp'].
Qed.
(** only dials make a router pending *)
Lemma step_not_pending : forall s o r, ~ In r (s_pending s) -> (forall id, o <> ODial r id) ->
  ~ In r (s_pending (fst (step s o))).
Proof.
  intros s o r hp ho.
  destruct o as [id request | router id | id router | id | id reason now | id p | id now]; cbn [step].
  - destruct (mem id (s_table s)); [|destruct request]; exact hp.
  - destruct (mem router (s_pending s)); [exact hp|]. cbn. rewrite add_in. intros [->|h]; [exact (ho _ eq_refl) | exact (hp h)].
  - destruct (task id (s_tasks s)) as [[| |x|x t]|]; try exact hp.
    + destruct (established_cases s true id router) as [e|(_ & _ & e)]; rewrite e; cbn; [exact hp|].
      rewrite del_in. intros [h _]. exact (hp h).
    + destruct (established_cases s false id (s_self s)) as [e|(_ & _ & e)]; rewrite e; cbn; [exact hp|].
      rewrite del_in. intros [h _]. exact (hp h).
  - destruct (task id (s_tasks s)) as [[| |x|x t]|]; try exact hp. intros h. cbn in h. apply del_in in h as [h _]. exact (hp h).
  - destruct (task id (s_tasks s)) as [[| |x|x t]|]; exact hp.
  - destruct (task id (s_tasks s)) as [[| |x|x t]|]; exact hp.
  - destruct (task id (s_tasks s)) as [[| |x|x t]|]; try exact hp.
    destruct (t + TERMINATION_TIMEOUT <=? now); exact hp.
Qed.
Lemma run_not_pending : forall ops s r, ~ In r (s_pending s) -> ~ dialed r ops -> ~ In r (s_pending (fst (run s ops))).
Proof.
  induction ops as [|o ops IH]; intros s r hp hd; [exact hp|]. rewrite run_step. cbn [fst]. apply IH.
  - apply step_not_pending; [exact hp|]. intros id ->. apply hd. exists id. left. reflexivity.
  - intros (id & h). apply hd. exists id. right. exact h.
Qed.

(** A router that was not dialed and had no session yet gets one when its handshake succeeds. *)
Theorem C141_first_session_partial : forall self ops s outs id r, run (start self) ops = (s, outs) ->
  ~ dialed r ops -> started r outs = 0%nat -> task id (s_tasks s) = Some Incoming ->
  snd (step s (ODone id r)) = [Accepted id r] /\
  task id (s_tasks (fst (step s (ODone id r)))) = Some (Active r).
Proof.
  intros self ops s outs id r h hd hs ht.
  pose proof (run_not_pending ops (start self) r (fun x => x) hd) as hp.
  destruct (run_routers ops (start self) r) as [_ b]. destruct (b (fun x => x)) as [[_ hr]|[b1 _]];
    rewrite h in *; cbn [fst snd] in *; [|congruence].
  cbn [step]. rewrite ht. unfold established. apply mem_not in hp, hr. rewrite hp, hr. cbn. rewrite N.eqb_refl.
  split; reflexivity.
Qed.
Print Assumptions C141_first_session_partial.
Example C141_first_session_example : exists s, run (start 1) [ODatagram 100 true] = (s, []) /\
  ~ dialed 7 [ODatagram 100 true] /\ task 100 (s_tasks s) = Some Incoming.
Proof.
  eexists. split; [reflexivity|]. split; [|reflexivity]. intros (id & [h|[]]). discriminate h.
Qed.

(** But there is never a second session with a router: not after the first one ended, in any
    history.  (The transport manager is not told that it ended.) *)
Theorem C141_another_session_refuted : forall self ops s outs r, run (start self) ops = (s, outs) ->
  (started r outs <= 1)%nat.
Proof.
  intros self ops s outs r h. destruct (run_routers ops (start self) r) as [_ b].
  destruct (b (fun x => x)) as [[e _]|[e _]]; rewrite h in e; cbn [snd] in e; lia.
Qed.
Print Assumptions C141_another_session_refuted.
Example C141_another_session_example :
  snd (run (start 1) [ODatagram 100 true; ODone 100 7; OEnd 100 3 0; OTimer 100 60; ODatagram 101 true; ODone 101 7]) =
  [Accepted 100 7; Closed 7; SendTermination 100 3; Gone 100; Rejected 101 7].
Proof. reflexivity. Qed.

(** A dialed session is never used: when its handshake succeeds, it is rejected. *)
Theorem C141_dialed_session_refuted : forall self ops s outs id r, run (start self) ops = (s, outs) ->
  ~ dialed self ops -> task id (s_tasks s) = Some Dialed ->
  snd (step s (ODone id r)) = [Rejected id self].
Proof.
  intros self ops s outs id r h hd ht.
  pose proof (run_not_pending ops (start self) self (fun x => x) hd) as hp.
  pose proof (run_self ops (start self)) as hs. rewrite h in hp, hs. cbn [fst start s_self] in hp, hs.
  cbn [step]. rewrite ht, hs. unfold established. apply mem_not in hp. rewrite hp. reflexivity.
Qed.
Print Assumptions C141_dialed_session_refuted.

(** And dialing a router keeps it out for ever: after that, no session with it is ever started,
    whoever dials. *)
Theorem C141_dialing_shuts_out_refuted : forall self ops s outs r id more, run (start self) ops = (s, outs) ->
  r <> self -> started r (snd (run (fst (step s (ODial r id))) more)) = 0%nat.
Proof.
  intros self ops s outs r id more h hr.
  pose proof (run_self ops (start self)) as hs. rewrite h in hs. cbn [fst start s_self] in hs.
  apply run_pending.
  - rewrite step_self, hs. exact hr.
  - cbn [step]. destruct (mem r (s_pending s)) eqn:e; [apply mem_in; exact e|]. cbn. apply add_in. left. reflexivity.
Qed.
Print Assumptions C141_dialing_shuts_out_refuted.
Example C141_dialing_example :
  snd (run (start 1) [ODial 7 100; ODone 100 7; ODatagram 101 true; ODone 101 7; ODial 7 102]) =
  [Rejected 100 1; Rejected 101 7].
Proof. reflexivity. Qed.

(** A rejected connection is dropped, and a router that is being dialed is not dialed again. *)
Theorem C141_rejected_is_over : forall s id r router, In (Rejected id router) (snd (step s (ODone id r))) ->
  task id (s_tasks (fst (step s (ODone id r)))) = None.
Proof.
  intros s id r router h. cbn [step] in *. destruct (task id (s_tasks s)) as [[| |x|x t]|]; try (destruct h; fail).
  - destruct (established_cases s true id r) as [e|(_ & _ & e)]; rewrite e in *; cbn in *.
    + apply task_drop_same.
    + destruct h as [h|[]]. discriminate h.
  - destruct (established_cases s false id (s_self s)) as [e|(_ & _ & e)]; rewrite e in *; cbn in *.
    + apply task_drop_same.
    + destruct h as [h|[]]. discriminate h.
Qed.
Print Assumptions C141_rejected_is_over.
Theorem C141_dialed_once : forall s r a b, let s1 := fst (step s (ODial r a)) in
  step s1 (ODial r b) = (s1, []).
Proof.
  intros s r a b. cbn [step]. destruct (mem r (s_pending s)) eqn:e; cbn [fst]; cbn [s_pending].
  - rewrite e. reflexivity.
  - assert (em : mem r (add r (s_pending s)) = true) by (apply mem_in; apply add_in; left; reflexivity).
    rewrite em. reflexivity.
Qed.
Print Assumptions C141_dialed_once.
Example C141_rejected_example : In (Rejected 100 1) (snd (step (fst (step (start 1) (ODial 7 100))) (ODone 100 7))).
Proof. left. reflexivity. Qed.

(** * C142: sessions that were ended *)

(** The subsystems hear that a session ended exactly once, and only of sessions they heard of. *)
Definition active_of (r : N) (s : state) : Prop := exists id, In (id, Active r) (s_tasks s).
Lemma finished_app : forall r a b, finished r (a ++ b) = (finished r a + finished r b)%nat.
Proof. intros r a b. induction a as [|[] a IH]; cbn; auto. rewrite IH. lia. Qed.

Definition book (r : N) (s : state) (outs : list out) : Prop :=
  (finished r outs <= started r outs)%nat /\ (active_of r s -> S (finished r outs) = started r outs).
Lemma step_book : forall s o r outs, inv s -> book r s outs -> (started r outs <= 1)%nat ->
  (In r (s_routers s) <-> started r outs = 1%nat) -> book r (fst (step s o)) (outs ++ snd (step s o)).
Proof.
  intros s o r outs hi (h1 & h2) hle hrt. unfold book. rewrite started_app, finished_app.
  assert (hkeep : forall s', (forall id, In (id, Active r) (s_tasks s') -> In (id, Active r) (s_tasks s)) ->
     (finished r outs + 0 <= started r outs + 0)%nat /\
     (active_of r s' -> S (finished r outs + 0) = started r outs + 0)%nat).
  { intros s' hs. split; [lia|]. intros (id & hin). rewrite !Nat.add_0_r. apply h2. exists id. auto. }
  assert (hest : forall inbound id x,
    (finished r outs + finished r (snd (established s inbound id x)) <=
     started r outs + started r (snd (established s inbound id x)))%nat /\
    (active_of r (fst (established s inbound id x)) ->
     S (finished r outs + finished r (snd (established s inbound id x))) =
     started r outs + started r (snd (established s inbound id x)))%nat).
  { intros inbound id x. destruct (established_cases s inbound id x) as [e|(hr & _ & e)]; rewrite e; cbn [fst snd started finished].
    - apply hkeep. intros k hk. cbn in hk. apply drop_in in hk as [hk _]. exact hk.
    - destruct (N.eqb_spec x r) as [->|ne].
      + assert (e0 : started r outs = 0%nat).
        { destruct (started r outs) as [|[|n]] eqn:es; [reflexivity | exfalso; apply hr; apply hrt; reflexivity | lia]. }
        rewrite e0 in *. split; [lia|]. intros _. lia.
      + apply hkeep. intros k hk. cbn in hk. destruct hk as [e'|hk]; [congruence|]. apply drop_in in hk as [hk _]. exact hk. }
  destruct o as [id request | router id | id router | id | id reason now | id p | id now]; cbn [step].
  - destruct (mem id (s_table s)); [|destruct request]; cbn [fst snd started finished]; apply hkeep; intros k hk; auto.
    cbn in hk. destruct hk as [e|hk]; [discriminate e | exact hk].
  - destruct (mem router (s_pending s)); cbn [fst snd started finished]; apply hkeep; intros k hk; auto.
    cbn in hk. destruct hk as [e|hk]; [discriminate e|]. apply drop_in in hk as [hk _]. exact hk.
  - destruct (task id (s_tasks s)) as [[| |x|x t]|]; try apply hest; apply hkeep; auto.
  - destruct (task id (s_tasks s)) as [[| |x|x t]|]; cbn [fst snd started finished]; apply hkeep; intros k hk; auto;
      cbn in hk; apply drop_in in hk as [hk _]; exact hk.
  - destruct (task id (s_tasks s)) as [[| |x|x t]|] eqn:et; try (apply hkeep; auto).
    cbn [terminate fst snd]. apply task_in in et.
    assert (es : forall l, l = (if negb (reason =? TERMINATION_RECEIVED) then [SendTermination id reason] else []) ->
       started r (Closed x :: l) = 0%nat /\ finished r (Closed x :: l) = (if (x =? r)%N then 1%nat else 0%nat)).
    { intros l ->. cbn [started finished]. destruct (negb (reason =? TERMINATION_RECEIVED)); cbn; lia. }
    destruct (es _ eq_refl) as [-> ->]. destruct (N.eqb_spec x r) as [->|ne].
    + assert (e1 : S (finished r outs) = started r outs) by (apply h2; exists id; exact et).
      split; [lia|]. intros (k & hk). cbn in hk. destruct hk as [e|hk]; [discriminate e|].
      apply drop_in in hk as [hk nk]. exfalso. apply nk. destruct hi as (_ & _ & _ & h4). eapply h4; eassumption.
    + apply hkeep. intros k hk. cbn in hk. destruct hk as [e|hk]; [discriminate e|]. apply drop_in in hk as [hk _]. exact hk.
  - destruct (task id (s_tasks s)) as [[| |x|x t]|]; try (apply hkeep; auto). destruct p as [|[]]; apply hkeep; auto.
  - destruct (task id (s_tasks s)) as [[| |x|x t]|]; try (apply hkeep; auto).
    destruct (t + TERMINATION_TIMEOUT <=? now); cbn [fst snd started finished]; apply hkeep; auto.
    intros k hk. cbn in hk. apply drop_in in hk as [hk _]. exact hk.
Qed.
Lemma run_book : forall ops s r outs, inv s -> book r s outs -> (started r outs <= 1)%nat ->
  (In r (s_routers s) <-> started r outs = 1%nat) -> book r (fst (run s ops)) (outs ++ snd (run s ops)).
Proof.
  induction ops as [|o ops IH]; intros s r outs hi hb hle hrt.
  - cbn. rewrite app_nil_r. exact hb.
  - rewrite run_step. cbn [fst snd]. rewrite app_assoc. apply IH.
    + apply step_inv, hi.
    + apply step_book; assumption.
    + rewrite started_app. destruct (step_routers s o r) as [a b].
      destruct (in_dec N.eq_dec r (s_routers s)) as [h|h].
      * destruct (a h) as [_ ->]. lia.
      * assert (started r outs <> 1%nat) by (intros e; apply h; apply hrt; exact e).
        destruct (b h) as [[-> _]|[-> _]]; lia.
    + rewrite started_app. destruct (step_routers s o r) as [a b].
      destruct (in_dec N.eq_dec r (s_routers s)) as [h|h].
      * destruct (a h) as [a1 ->]. apply hrt in h. rewrite h. split; auto.
      * assert (e : started r outs <> 1%nat) by (intros e; apply h; apply hrt; exact e).
        assert (e0 : started r outs = 0%nat) by lia. rewrite e0.
        destruct (b h) as [[-> b2]|[-> b2]]; cbn; split; intros; auto; [contradiction | discriminate].
Qed.
Theorem C142_closed_once : forall self ops s outs r, run (start self) ops = (s, outs) ->
  (finished r outs <= started r outs)%nat /\
  ((exists id, task id (s_tasks s) = Some (Active r)) -> S (finished r outs) = started r outs).
Proof.
  intros self ops s outs r h.
  assert (hb : book r (fst (run (start self) ops)) ([] ++ snd (run (start self) ops))).
  { apply run_book.
    - apply inv_start.
    - split; [cbn; lia|]. intros (id & []).
    - cbn. lia.
    - cbn. split; [intros [] | discriminate]. }
  rewrite h in hb. cbn [fst snd app] in hb. destruct hb as [b1 b2]. split; [exact b1|].
  intros (id & ht). apply b2. exists id. apply task_in. exact ht.
Qed.
Print Assumptions C142_closed_once.

(** When a session ends the other router is told the reason, unless it was the first to tell; and
    each packet after that which can be read and is not a termination itself is answered with the
    same, and no other. *)
Theorem C142_answers : forall s id r reason now ps, task id (s_tasks s) = Some (Active r) ->
  let e := step s (OEnd id reason now) in
  snd e = Closed r :: (if reason =? 1 then [] else [SendTermination id reason]) /\
  snd (run (fst e) (map (OPacket id) ps)) = repeat (SendTermination id reason) (to_answer ps).
Proof.
  intros s id r reason now ps ht. cbn [step]. rewrite ht. cbn [terminate fst snd]. split.
  - unfold TERMINATION_RECEIVED. destruct (reason =? 1); reflexivity.
  - induction ps as [|p ps IH]; [reflexivity|]. cbn [map]. rewrite run_step. cbn [step fst snd with_task s_tasks task].
    rewrite N.eqb_refl. cbn [fst snd]. rewrite IH. destruct p as [|[]]; reflexivity.
Qed.
Print Assumptions C142_answers.

(** It ends a minute after, not before. *)
Lemma ended_stays : forall s o id reason since, task id (s_tasks s) = Some (Ended reason since) -> inv s ->
  (forall r, o <> ODial r id) -> (forall now, o = OTimer id now -> now < since + 60) ->
  task id (s_tasks (fst (step s o))) = Some (Ended reason since) /\ ~ In (Gone id) (snd (step s o)).
Proof.
  intros s o id reason since ht hi hd hn. pose proof ht as hin. apply task_in in hin. apply hi in hin.
  destruct o as [k request | router k | k router | k | k why now | k p | k now]; cbn [step].
  - destruct (mem k (s_table s)) eqn:em; [split; [exact ht | intros []]|].
    destruct request; [|split; [exact ht | intros []]]. cbn.
    destruct (N.eqb_spec k id) as [->|ne]; [apply mem_not in em; contradiction|]. split; [exact ht | intros []].
  - destruct (mem router (s_pending s)); [split; [exact ht | intros []]|]. cbn.
    destruct (N.eqb_spec k id) as [->|ne]; [exfalso; exact (hd _ eq_refl)|].
    rewrite task_drop_other by exact ne. split; [exact ht | intros []].
  - destruct (N.eqb_spec k id) as [->|ne]; [rewrite ht; split; [exact ht | intros []]|].
    destruct (task k (s_tasks s)) as [[| |x|x t]|]; try (split; [exact ht | intros []]).
    + destruct (established_cases s true k router) as [e|(_ & _ & e)]; rewrite e; cbn.
      * rewrite task_drop_other by exact ne. split; [exact ht | intros [h|[]]; discriminate h].
      * destruct (N.eqb_spec k id); [contradiction|]. rewrite task_drop_other by exact ne.
        split; [exact ht | intros [h|[]]; discriminate h].
    + destruct (established_cases s false k (s_self s)) as [e|(_ & _ & e)]; rewrite e; cbn.
      * rewrite task_drop_other by exact ne. split; [exact ht | intros [h|[]]; discriminate h].
      * destruct (N.eqb_spec k id); [contradiction|]. rewrite task_drop_other by exact ne.
        split; [exact ht | intros [h|[]]; discriminate h].
  - destruct (N.eqb_spec k id) as [->|ne]; [rewrite ht; split; [exact ht | intros []]|].
    destruct (task k (s_tasks s)) as [[| |x|x t]|]; try (split; [exact ht | intros []]); cbn;
      rewrite task_drop_other by exact ne; (split; [exact ht|]); [intros [] | intros [h|[]]; discriminate h].
  - destruct (N.eqb_spec k id) as [->|ne]; [rewrite ht; split; [exact ht | intros []]|].
    destruct (task k (s_tasks s)) as [[| |x|x t]|]; try (split; [exact ht | intros []]). cbn.
    destruct (N.eqb_spec k id); [contradiction|]. rewrite task_drop_other by exact ne. split; [exact ht|].
    destruct (negb (why =? TERMINATION_RECEIVED)); cbn; intros h; repeat destruct h as [h|h]; try discriminate h; contradiction.
  - destruct (task k (s_tasks s)) as [[| |x|x t]|]; try (split; [exact ht | intros []]).
    split; [exact ht|]. destruct p as [|[]]; cbn; intros h; repeat destruct h as [h|h]; try discriminate h; contradiction.
  - destruct (N.eqb_spec k id) as [->|ne].
    + rewrite ht. specialize (hn now eq_refl). unfold TERMINATION_TIMEOUT.
      destruct (N.leb_spec (since + 60) now); [lia|]. split; [exact ht | intros []].
    + destruct (task k (s_tasks s)) as [[| |x|x t]|]; try (split; [exact ht | intros []]).
      destruct (t + TERMINATION_TIMEOUT <=? now); cbn; [|split; [exact ht | intros []]].
      rewrite task_drop_other by exact ne. split; [exact ht|]. intros [h|[]]. injection h as h. contradiction.
Qed.
Lemma no_task_stays : forall s o id, task id (s_tasks s) = None -> In id (s_table s) ->
  (forall r, o <> ODial r id) ->
  task id (s_tasks (fst (step s o))) = None /\ In id (s_table (fst (step s o))) /\
  Forall (fun x => ~ about id x) (snd (step s o)).
Proof.
  intros s o id ht hin hd.
  destruct o as [k request | router k | k router | k | k why now | k p | k now]; cbn [step].
  - destruct (mem k (s_table s)) eqn:em; [split; [exact ht | split; [exact hin | constructor]]|].
    destruct request; [|split; [exact ht | split; [exact hin | constructor]]]. cbn.
    destruct (N.eqb_spec k id) as [->|ne]; [apply mem_not in em; contradiction|].
    split; [exact ht|]. split; [apply add_in; auto | constructor].
  - destruct (mem router (s_pending s)); [split; [exact ht | split; [exact hin | constructor]]|]. cbn.
    destruct (N.eqb_spec k id) as [->|ne]; [exfalso; exact (hd _ eq_refl)|].
    rewrite task_drop_other by exact ne. split; [exact ht|]. split; [apply add_in; auto | constructor].
  - destruct (N.eqb_spec k id) as [->|ne]; [rewrite ht; split; [exact ht | split; [exact hin | constructor]]|].
    destruct (task k (s_tasks s)) as [[| |x|x t]|]; try (split; [exact ht | split; [exact hin | constructor]]).
    + destruct (established_cases s true k router) as [e|(_ & _ & e)]; rewrite e; cbn.
      * rewrite task_drop_other by exact ne. split; [exact ht|]. split; [exact hin|]. repeat constructor. exact ne.
      * destruct (N.eqb_spec k id); [contradiction|]. rewrite task_drop_other by exact ne.
        split; [exact ht|]. split; [exact hin|]. repeat constructor. exact ne.
    + destruct (established_cases s false k (s_self s)) as [e|(_ & _ & e)]; rewrite e; cbn.
      * rewrite task_drop_other by exact ne. split; [exact ht|]. split; [exact hin|]. repeat constructor. exact ne.
      * destruct (N.eqb_spec k id); [contradiction|]. rewrite task_drop_other by exact ne.
        split; [exact ht|]. split; [exact hin|]. repeat constructor. exact ne.
  - destruct (N.eqb_spec k id) as [->|ne]; [rewrite ht; split; [exact ht | split; [exact hin | constructor]]|].
    destruct (task k (s_tasks s)) as [[| |x|x t]|]; try (split; [exact ht | split; [exact hin | constructor]]); cbn;
      rewrite task_drop_other by exact ne; (split; [exact ht | split; [exact hin | repeat constructor]]). intros [].
  - destruct (N.eqb_spec k id) as [->|ne]; [rewrite ht; split; [exact ht | split; [exact hin | constructor]]|].
    destruct (task k (s_tasks s)) as [[| |x|x t]|]; try (split; [exact ht | split; [exact hin | constructor]]). cbn.
    destruct (N.eqb_spec k id); [contradiction|]. rewrite task_drop_other by exact ne.
    split; [exact ht|]. split; [exact hin|]. constructor; [intros []|].
    destruct (negb (why =? TERMINATION_RECEIVED)); repeat constructor. exact ne.
  - destruct (N.eqb_spec k id) as [->|ne]; [rewrite ht; split; [exact ht | split; [exact hin | constructor]]|].
    destruct (task k (s_tasks s)) as [[| |x|x t]|]; try (split; [exact ht | split; [exact hin | constructor]]).
    split; [exact ht|]. split; [exact hin|]. destruct p as [|[]]; repeat constructor. exact ne.
  - destruct (N.eqb_spec k id) as [->|ne]; [rewrite ht; split; [exact ht | split; [exact hin | constructor]]|].
    destruct (task k (s_tasks s)) as [[| |x|x t]|]; try (split; [exact ht | split; [exact hin | constructor]]).
    destruct (t + TERMINATION_TIMEOUT <=? now); [|split; [exact ht | split; [exact hin | constructor]]]. cbn.
    rewrite task_drop_other by exact ne. split; [exact ht|]. split; [exact hin|]. repeat constructor. exact ne.
Qed.
Lemma no_task_run : forall ops s id, task id (s_tasks s) = None -> In id (s_table s) ->
  (forall r, ~ In (ODial r id) ops) ->
  Forall (fun x => ~ about id x) (snd (run s ops)).
Proof.
  induction ops as [|o ops IH]; intros s id ht hin hd; [constructor|]. rewrite run_step. cbn [snd].
  destruct (no_task_stays s o id ht hin) as (a & b & c).
  { intros r ->. apply (hd r). left. reflexivity. }
  apply Forall_app. split; [exact c|]. apply IH; [exact a | exact b|].
  intros r h. apply (hd r). right. exact h.
Qed.
Lemma ended_minute : forall s id reason since before now after,
  inv s -> task id (s_tasks s) = Some (Ended reason since) ->
  (forall r, ~ In (ODial r id) (before ++ after)) ->
  Forall (fun o => forall t, o = OTimer id t -> t < since + 60) before -> since + 60 <= now ->
  ~ In (Gone id) (snd (run s before)) /\
  snd (step (fst (run s before)) (OTimer id now)) = [Gone id] /\
  Forall (fun x => ~ about id x) (snd (run (fst (step (fst (run s before)) (OTimer id now))) after)).
Proof.
  intros s id reason since before now after hi ht hd hb hn.
  assert (hk : ~ In (Gone id) (snd (run s before)) /\ task id (s_tasks (fst (run s before))) = Some (Ended reason since) /\
    inv (fst (run s before))).
  { assert (hd' : forall r, ~ In (ODial r id) before) by (intros r x; apply (hd r); apply in_or_app; left; exact x).
    clear hd hn. revert s ht hi. induction before as [|o before IH]; intros s ht hi; [cbn; auto|].
    rewrite run_step. cbn [fst snd]. inversion hb as [|x y hb1 hb2]; subst.
    destruct (ended_stays s o id reason since ht hi) as [e1 e2].
    - intros r ->. apply (hd' r). left. reflexivity.
    - exact hb1.
    - destruct (IH hb2 (fun r x => hd' r (or_intror x)) _ e1 (step_inv _ _ hi)) as (a & b & c).
      split; [|split; [exact b | exact c]]. rewrite in_app_iff. intros [x|x]; contradiction. }
  destruct hk as (k1 & k2 & k3). split; [exact k1|].
  assert (es : step (fst (run s before)) (OTimer id now) = (without_task (fst (run s before)) id, [Gone id])).
  { cbn [step]. rewrite k2. unfold TERMINATION_TIMEOUT. apply N.leb_le in hn. rewrite hn. reflexivity. }
  rewrite es. cbn [fst snd]. split; [reflexivity|]. apply no_task_run.
  - cbn. apply task_drop_same.
  - cbn. apply task_in in k2. apply k3 in k2. exact k2.
  - intros r x. apply (hd r). apply in_or_app. right. exact x.
Qed.
Theorem C142_a_minute : forall self ops s0 outs id r reason since before now after,
  run (start self) ops = (s0, outs) -> task id (s_tasks s0) = Some (Active r) ->
  let s := fst (step s0 (OEnd id reason since)) in
  (forall r, ~ In (ODial r id) (before ++ after)) ->
  Forall (fun o => forall t, o = OTimer id t -> t < since + 60) before -> since + 60 <= now ->
  ~ In (Gone id) (snd (run s before)) /\
  snd (step (fst (run s before)) (OTimer id now)) = [Gone id] /\
  Forall (fun x => ~ about id x) (snd (run (fst (step (fst (run s before)) (OTimer id now))) after)).
Proof.
  intros self ops s0 outs id r reason since before now after h ht s hd hb hn.
  pose proof (run_inv ops _ (inv_start self)) as hi. rewrite h in hi. cbn [fst] in hi.
  apply (ended_minute s id reason since).
  - unfold s. apply step_inv, hi.
  - unfold s. cbn [step]. rewrite ht. cbn [terminate fst with_task s_tasks task]. rewrite N.eqb_refl. reflexivity.
  - exact hd.
  - exact hb.
  - exact hn.
Qed.
Print Assumptions C142_a_minute.
Example C142_example : exists s, run (start 1) [ODatagram 100 true; ODone 100 7; OEnd 100 3 5] =
    (s, [Accepted 100 7; Closed 7; SendTermination 100 3]) /\
  task 100 (s_tasks s) = Some (Ended 3 5) /\
  snd (run s [OPacket 100 (Readable false); OPacket 100 (Readable true); OPacket 100 Unreadable;
              OTimer 100 64; OTimer 100 65; OPacket 100 (Readable false)]) = [SendTermination 100 3; Gone 100].
Proof. eexists. split; [reflexivity|]. split; reflexivity. Qed.

(** * C143: what is kept *)

(** Each packet gets to one task: tasks have different connection ids, and an entry in the table. *)
Theorem C143_one_task : forall self ops s outs id, run (start self) ops = (s, outs) ->
  (forall p q, In (id, p) (s_tasks s) -> In (id, q) (s_tasks s) -> p = q) /\
  (forall p, In (id, p) (s_tasks s) -> In id (s_table s)).
Proof.
  intros self ops s outs id h. pose proof (run_inv ops _ (inv_start self)) as (h1 & h2 & _). rewrite h in h1, h2.
  split; intros; [eapply h2 | eapply h1]; eassumption.
Qed.
Print Assumptions C143_one_task.

(** Nothing is ever taken out of the table: an entry stays for the rest of the run. *)
Lemma step_table : forall s o id, In id (s_table s) -> In id (s_table (fst (step s o))).
Proof.
  intros s o id h. destruct o as [k request | router k | k router | k | k why now | k p | k now]; cbn [step].
  - destruct (mem k (s_table s)); [exact h|]. destruct request; [|exact h]. cbn. apply add_in. auto.
  - destruct (mem router (s_pending s)); [exact h|]. cbn. apply add_in. auto.
  - destruct (task k (s_tasks s)) as [[| |x|x t]|]; try exact h.
    + destruct (established_cases s true k router) as [e|(_ & _ & e)]; rewrite e; exact h.
    + destruct (established_cases s false k (s_self s)) as [e|(_ & _ & e)]; rewrite e; exact h.
  - destruct (task k (s_tasks s)) as [[| |x|x t]|]; exact h.
  - destruct (task k (s_tasks s)) as [[| |x|x t]|]; exact h.
  - destruct (task k (s_tasks s)) as [[| |x|x t]|]; exact h.
  - destruct (task k (s_tasks s)) as [[| |x|x t]|]; try exact h.
    destruct (t + TERMINATION_TIMEOUT <=? now); exact h.
Qed.
Theorem C143_kept_for_ever_refuted : forall ops s id, In id (s_table s) -> In id (s_table (fst (run s ops))).
Proof.
  induction ops as [|o ops IH]; intros s id h; [exact h|]. rewrite run_step. cbn [fst]. apply IH. apply step_table, h.
Qed.
Print Assumptions C143_kept_for_ever_refuted.

(** So there is no bound on what is kept for connections that are over: others can make the table
    as large as they like, with no session there. *)
Fixpoint flood (n : nat) (next : N) : list op :=
  match n with O => [] | S m => ODatagram next true :: OFail next :: flood m (next + 1) end.
Theorem C143_unbounded_refuted : forall n self, exists s outs, run (start self) (flood n 0) = (s, outs) /\
  s_tasks s = [] /\ length (s_table s) = n.
Proof.
  assert (gen : forall n next s, s_tasks s = [] -> (forall x, In x (s_table s) -> x < next) ->
    exists s' outs, run s (flood n next) = (s', outs) /\ s_tasks s' = [] /\ length (s_table s') = (n + length (s_table s))%nat).
  { induction n as [|n IH]; intros next s ht hb; [exists s, []; auto|].
    cbn [flood]. rewrite run_step.
    assert (e : step s (ODatagram next true) =
       (mkS (s_self s) (next :: s_table s) [(next, Incoming)] (s_routers s) (s_pending s), [])).
    { cbn [step]. assert (em : mem next (s_table s) = false) by (apply mem_not; intros x; apply hb in x; lia).
      unfold add. rewrite em, ht. reflexivity. }
    rewrite e. cbn [fst snd]. rewrite run_step. cbn [step s_tasks task]. rewrite N.eqb_refl. cbn [fst snd].
    unfold without_task. cbn [s_self s_table s_tasks s_routers s_pending drop filter fst]. rewrite N.eqb_refl. cbn [negb].
    destruct (IH (next + 1) (mkS (s_self s) (next :: s_table s) [] (s_routers s) (s_pending s))) as (s' & outs & er & et & el).
    - reflexivity.
    - cbn. intros x [<-|h]; [lia|]. apply hb in h. lia.
    - rewrite er. cbn [fst snd]. exists s', outs. split; [reflexivity|]. split; [exact et|]. rewrite el. cbn. lia. }
  intros n self. destruct (gen n 0 (start self)) as (s' & outs & er & et & el); [reflexivity | intros x [] |].
  exists s', outs. split; [exact er|]. split; [exact et|]. rewrite el. cbn. lia.
Qed.
Print Assumptions C143_unbounded_refuted.
