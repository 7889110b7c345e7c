(** Whole histories of the routing table. *)
From Coq Require Import List NArith Bool Lia Arith ZArith ZifyBool ZifyNat ZifyN.
From Verif Require Import ListUtil Bytes NMap I2npModel TunnelModel RouteModel RouteSpec RouteProofs.
Import ListNotations.
Open Scope N_scope.

Lemma meant_app p a b : meant_for p (a ++ b) = meant_for p a ++ meant_for p b.
Proof. unfold meant_for. now rewrite filter_app, map_app. Qed.

Lemma accepted_cons self T L e tr :
  accepted self T L (e :: tr) =
  accepted self T L [e] ++ accepted self (tunnels_after T e) (listeners_after self L e) tr.
Proof. rewrite accepted_one. reflexivity. Qed.

Lemma got_cons p e tr : got p (e :: tr) = got p [e] ++ got p tr.
Proof.
  destruct e as [o u]; simpl.
  destruct o; try reflexivity; destruct u; try reflexivity; now destruct (place_eqb _ _).
Qed.

Lemma dropped_cons p o ops : dropped p (o :: ops) = dropped p [o] || dropped p ops.
Proof. unfold dropped. simpl. now rewrite orb_false_r. Qed.

Lemma run_ops t ops : map fst (snd (run t ops)) = ops.
Proof.
  revert t; induction ops as [|o ops IH]; intro t; simpl; [reflexivity|].
  destruct (step t o) as [t1 u]. specialize (IH t1). destruct (run t1 ops) as [t2 us]. simpl in *.
  now rewrite IH.
Qed.

(** A place nothing can be handed to any more. *)
Definition closed (p : place) (t : table) : Prop :=
  match p with
  | PTunnel h => h < rt_next t /\ match nget h (rt_rx t) with Some c => ch_q c = [] /\ ch_open c = false | None => True end
  | PListener h => h < rt_next t /\ nget h (rt_one t) = Some OneGone
  | PTransit => ch_q (rt_transit t) = [] /\ ch_open (rt_transit t) = false
  end.

Lemma closed_waiting p t : closed p t -> waiting p t = [].
Proof.
  destruct p as [h|h|]; simpl.
  - intros [_ H]. destruct (nget h (rt_rx t)); [apply H | reflexivity].
  - intros [_ ->]. reflexivity.
  - tauto.
Qed.

Lemma route_closed p t m t' r :
  closed p t -> route_message t m = (t', r) -> closed p t'.
Proof.
  intros Cl. unfold route_message, route_tunnel_message, route_listener_message.
  destruct (is_tunnel_type (m_type m)).
  - destruct (tunnel_of m) as [id|]; [|intro H; apply pair_equal_spec in H as [<- _]; exact Cl].
    destruct (nget id (rt_tunnels t)) as [h|]; [|intro H; apply pair_equal_spec in H as [<- _]; exact Cl].
    destruct (nget h (rt_rx t)) as [c|] eqn:Eh; [|intro H; apply pair_equal_spec in H as [<- _]; exact Cl].
    destruct (try_send c m) as [c'|] eqn:Es; intro H; apply pair_equal_spec in H as [<- _]; [|exact Cl].
    destruct p as [k|k|]; simpl in *; try exact Cl.
    rewrite nget_nput. destruct (N.eqb_spec k h) as [->|]; [|exact Cl].
    rewrite Eh in Cl. apply try_send_inl in Es as [_ Ho]. destruct Cl as (_ & _ & Cl). congruence.
  - destruct (nget (m_id m) (rt_listeners t)) as [h|].
    + cbv zeta. cbn [rt_one w_listeners].
      destruct (nget h (rt_one t)) as [[|m0|]|] eqn:Eh;
        intro H; apply pair_equal_spec in H as [<- _];
        try (destruct p as [k|k|]; simpl in *; exact Cl).
      destruct p as [k|k|]; simpl in *; try exact Cl.
      rewrite nget_nput. destruct (N.eqb_spec k h) as [->|]; [|exact Cl].
      destruct Cl as [_ Cl]. congruence.
    + destruct (try_send (rt_transit t) m) as [c'|] eqn:Es; intro H; apply pair_equal_spec in H as [<- _]; [|exact Cl].
      destruct p as [k|k|]; simpl in *; try exact Cl.
      apply try_send_inl in Es as [_ Ho]. destruct Cl. congruence.
Qed.

Lemma step_closed p t o : closed p t -> closed p (fst (step t o)).
Proof.
  intro Cl. destruct o; simpl.
  - unfold try_add_tunnel. destruct (nhas id (rt_tunnels t)); [exact Cl|].
    destruct p as [k|k|]; simpl in *; try exact Cl; [|destruct Cl; split; [lia|assumption]].
    destruct Cl as [Hk Cl]. split; [lia|]. rewrite nget_nput.
    destruct (N.eqb_spec k (rt_next t)); [lia | exact Cl].
  - unfold insert_tunnel. destruct (draw_free draws (rt_tunnels t)); [|exact Cl].
    destruct p as [k|k|]; simpl in *; try exact Cl; [|destruct Cl; split; [lia|assumption]].
    destruct Cl as [Hk Cl]. split; [lia|]. rewrite nget_nput.
    destruct (N.eqb_spec k (rt_next t)); [lia | exact Cl].
  - destruct p; exact Cl.
  - unfold insert_listener. destruct (draw_free draws (rt_listeners t)); [|exact Cl].
    destruct p as [k|k|]; simpl in *; try exact Cl; [destruct Cl; split; [lia|assumption]|].
    destruct Cl as [Hk Cl]. split; [lia|]. rewrite nget_nput.
    destruct (N.eqb_spec k (rt_next t)); [lia | exact Cl].
  - destruct p; exact Cl.
  - destruct (route_message t m) as [t1 r] eqn:E. exact (route_closed _ _ _ _ _ Cl E).
  - unfold send_message. destruct (beq router (rt_self t)).
    + destruct (parse_short msg) as [[m rest]|]; [|exact Cl].
      destruct (routed_type (m_type m)).
      * destruct (route_message t m) as [t1 r] eqn:E. exact (route_closed _ _ _ _ _ Cl E).
      * destruct (try_send (rt_manager t) (Internal m)); [destruct p; exact Cl | exact Cl].
    + destruct (try_send (rt_manager t) _); [destruct p; exact Cl|].
      destruct (parse_short msg) as [[m rest]|]; exact Cl.
  - unfold recv_tunnel. destruct (nget h (rt_rx t)) as [c|] eqn:Eh; [|exact Cl].
    destruct (ch_q c) as [|m q] eqn:Eq; [exact Cl|].
    destruct p as [k|k|]; simpl in *; try exact Cl.
    rewrite nget_nput. destruct (N.eqb_spec k h) as [->|]; [|exact Cl].
    rewrite Eh in Cl. destruct Cl as (_ & Cl & _). congruence.
  - unfold drop_tunnel. destruct (nget h (rt_rx t)) as [c|] eqn:Eh; [|exact Cl].
    destruct p as [k|k|]; simpl in *; try exact Cl.
    rewrite nget_nput. destruct (N.eqb_spec k h) as [->|]; [|exact Cl].
    destruct Cl as [Hk _]. auto.
  - unfold recv_listener. destruct (nget h (rt_one t)) as [[|m|]|] eqn:Eh; try exact Cl.
    destruct p as [k|k|]; simpl in *; try exact Cl.
    rewrite nget_nput. destruct (N.eqb_spec k h) as [->|]; [|exact Cl].
    destruct Cl as [Hk Cl]. congruence.
  - unfold drop_listener. destruct (nget h (rt_one t)) as [c|] eqn:Eh; [|exact Cl].
    destruct p as [k|k|]; simpl in *; try exact Cl.
    rewrite nget_nput. destruct (N.eqb_spec k h) as [->|]; [|exact Cl].
    destruct Cl as [Hk _]. auto.
  - unfold recv_transit. destruct (ch_q (rt_transit t)) as [|m q] eqn:Eq; [exact Cl|].
    destruct p as [k|k|]; simpl in *; try exact Cl. destruct Cl; congruence.
  - destruct p as [k|k|]; simpl in *; try exact Cl. auto.
  - unfold recv_manager. destruct (ch_q (rt_manager t)) as [|m q]; [exact Cl|]. destruct p; exact Cl.
  - destruct p; exact Cl.
Qed.

(** Dropping a receiver. *)
Lemma drop_effect p t T L o t' u :
  agree t T L -> step t o = (t', u) -> dropped p [o] = true ->
  (closed p t' \/ waiting p t' = waiting p t) /\
  accepted (rt_self t) T L [(o, u)] = [] /\ got p [(o, u)] = [].
Proof.
  intros Ag. destruct o; simpl; try discriminate; rewrite orb_false_r, place_eqb_eq; intros Hs ->;
    apply pair_equal_spec in Hs as [<- <-]; (split; [|split; reflexivity]); simpl.
  - unfold drop_tunnel. destruct (nget h (rt_rx t)) as [c|] eqn:Eh; [left|right].
    + simpl. rewrite nget_nput, N.eqb_refl. split; [|auto].
      destruct (N.lt_ge_cases h (rt_next t)) as [|H]; [assumption|].
      rewrite (ag_rx _ _ _ Ag h H) in Eh. discriminate.
    + rewrite Eh. reflexivity.
  - unfold drop_listener. destruct (nget h (rt_one t)) as [c|] eqn:Eh; [left|right].
    + simpl. rewrite nget_nput, N.eqb_refl. split; [|auto].
      destruct (N.lt_ge_cases h (rt_next t)) as [|H]; [assumption|].
      rewrite (ag_one _ _ _ Ag h H) in Eh. discriminate.
    + rewrite Eh. reflexivity.
  - left. auto.
Qed.

Lemma run_closed p ops : forall t T L t' tr,
  agree t T L -> closed p t -> run t ops = (t', tr) ->
  meant_for p (accepted (rt_self t) T L tr) = [] /\ got p tr = [].
Proof.
  induction ops as [|o ops IH]; intros t T L t' tr Ag Cl; simpl.
  - intro H; apply pair_equal_spec in H as [_ <-]. auto.
  - destruct (step t o) as [t1 u] eqn:Es. destruct (run t1 ops) as [t2 us] eqn:Er.
    intro H; apply pair_equal_spec in H as [_ <-].
    destruct (step_fine _ _ _ _ _ _ Ag Es) as (Ag1 & Sf & Hw).
    assert (Cl1 : closed p t1) by (pose proof (step_closed p t o Cl) as X; rewrite Es in X; exact X).
    destruct (IH _ _ _ _ _ Ag1 Cl1 Er) as [I1 I2]. rewrite Sf in I1.
    rewrite accepted_cons, meant_app, got_cons, I1, I2, !app_nil_r.
    destruct (dropped p [o]) eqn:Ed.
    + destruct (drop_effect p _ _ _ _ _ _ Ag Es Ed) as (_ & -> & ->). auto.
    + specialize (Hw p Ed). rewrite (closed_waiting _ _ Cl), (closed_waiting _ _ Cl1), app_nil_r in Hw.
      rewrite app_nil_l in Hw. rewrite Hw.
      assert (Hg : got p [(o, u)] = []); [|split; exact Hg].
      destruct (got p [(o, u)]) as [|x l] eqn:Eg; [reflexivity|]. exfalso.
      assert (Ha : accepted (rt_self t) T L [(o, u)] = []).
      { rewrite accepted_one. destruct o; simpl in Eg; try discriminate Eg; reflexivity. }
      rewrite Ha in Hw. discriminate Hw.
Qed.

Lemma run_deliver p ops : forall t T L t' tr,
  agree t T L -> run t ops = (t', tr) ->
  (dropped p ops = false ->
   waiting p t ++ meant_for p (accepted (rt_self t) T L tr) = got p tr ++ waiting p t') /\
  exists rest, waiting p t ++ meant_for p (accepted (rt_self t) T L tr) = got p tr ++ rest.
Proof.
  induction ops as [|o ops IH]; intros t T L t' tr Ag; simpl run.
  - intro H; apply pair_equal_spec in H as [<- <-]. simpl. rewrite app_nil_r. split; [auto|].
    now exists (waiting p t).
  - destruct (step t o) as [t1 u] eqn:Es. destruct (run t1 ops) as [t2 us] eqn:Er.
    intro H; apply pair_equal_spec in H as [<- <-].
    destruct (step_fine _ _ _ _ _ _ Ag Es) as (Ag1 & Sf & Hw).
    destruct (IH _ _ _ _ _ Ag1 Er) as [I1 I2]. rewrite Sf in I1, I2.
    rewrite accepted_cons, meant_app, got_cons, dropped_cons.
    destruct (dropped p [o]) eqn:Ed.
    + split; [discriminate|].
      destruct (drop_effect p _ _ _ _ _ _ Ag Es Ed) as ([Cl|Sw] & -> & ->).
      * destruct (run_closed p _ _ _ _ _ _ Ag1 Cl Er) as [J1 J2]. rewrite Sf in J1.
        rewrite J1, J2. simpl. now exists (waiting p t ++ []).
      * rewrite <- Sw. simpl. exact I2.
    + specialize (Hw p Ed). split.
      * rewrite orb_false_l. intro Hd. rewrite app_assoc, Hw, <- app_assoc, (I1 Hd), app_assoc. reflexivity.
      * destruct I2 as [rest I2]. exists rest. rewrite app_assoc, Hw, <- app_assoc, I2, app_assoc. reflexivity.
Qed.

(** Every accepted message belonged to somebody, and a listener gets at most one. *)
Definition handles_ok (t : table) (L : list (N * N)) : Prop :=
  (forall id h, holder id L = Some h -> h < rt_next t) /\
  (forall i j h, holder i L = Some h -> holder j L = Some h -> i = j).

Lemma accepted_some ops : forall t T L t' tr,
  agree t T L -> run t ops = (t', tr) ->
  Forall (fun x => fst x <> None) (accepted (rt_self t) T L tr).
Proof.
  induction ops as [|o ops IH]; intros t T L t' tr Ag; simpl run.
  - intro H; apply pair_equal_spec in H as [_ <-]. constructor.
  - destruct (step t o) as [t1 u] eqn:Es. destruct (run t1 ops) as [t2 us] eqn:Er.
    intro H; apply pair_equal_spec in H as [_ <-].
    destruct (step_fine _ _ _ _ _ _ Ag Es) as (Ag1 & Sf & _).
    rewrite accepted_cons. apply Forall_app. split; [|pose proof (IH _ _ _ _ _ Ag1 Er) as X; rewrite Sf in X; exact X].
    rewrite accepted_one. destruct (routed (rt_self t) (o, u)) as [[m r]|] eqn:E; [|constructor].
    destruct r; [|constructor]. constructor; [|constructor]. simpl.
    destruct o; simpl in E; try discriminate.
    + destruct u; try discriminate. injection E as E1 E2; subst. simpl in Es.
      destruct (route_message t m) as [t3 r3] eqn:E3. injection Es as Es1 Es2; subst.
      destruct (route_effect _ _ _ _ _ _ Ag E3) as (q & -> & _). discriminate.
    + destruct u as [| | | |s| |]; try discriminate. destruct s as [r f|]; [|discriminate].
      destruct (beq router (rt_self t)) eqn:Eb; [|discriminate].
      destruct (parse_short msg) as [[m0 rest]|] eqn:Ep; [|discriminate].
      destruct (routed_type (m_type m0)) eqn:Et; [|discriminate]. injection E as E1 E2; subst.
      simpl in Es. unfold send_message in Es. rewrite Eb, Ep, Et in Es.
      destruct (route_message t m) as [t3 r3] eqn:E3. injection Es as Es1 Es2 Es3; subst.
      destruct (route_effect _ _ _ _ _ _ Ag E3) as (q & -> & _). discriminate.
Qed.

(** A listener's handle: not yet given out, registered, or used up. *)
Lemma step_out_listener t o t' id h : step t o = (t', UListener id h) ->
  h = rt_next t /\ rt_next t' = rt_next t + 1 /\ nget id (rt_listeners t) = None.
Proof.
  destruct o; simpl; intro H; try discriminate.
  - destruct (try_add_tunnel t id0 cap) as [? [?|]]; discriminate.
  - destruct (insert_tunnel t draws cap) as [? [[? ?]|]]; discriminate.
  - unfold insert_listener in H. destruct (draw_free draws (rt_listeners t)) as [i|] eqn:E; [|discriminate].
    injection H as <- <- <-. simpl. apply draw_free_spec in E. tauto.
  - destruct (route_message t m); discriminate.
  - destruct (send_message t router msg fb); discriminate.
  - destruct (recv_tunnel t h0) as [? [?|]]; discriminate.
  - destruct (recv_listener t h0) as [? [?|]]; discriminate.
  - destruct (recv_transit t) as [? [?|]]; discriminate.
  - destruct (recv_manager t) as [? [?|]]; discriminate.
Qed.
Lemma step_out_tunnel t o t' id h : step t o = (t', UTunnel id h) ->
  h = rt_next t /\ rt_next t' = rt_next t + 1 /\ nget id (rt_tunnels t) = None.
Proof.
  destruct o; simpl; intro H; try discriminate.
  - unfold try_add_tunnel in H. rewrite nhas_spec in H. destruct (nget id0 (rt_tunnels t)) eqn:E; [discriminate|].
    simpl in H. injection H as <- <- <-. auto.
  - unfold insert_tunnel in H. destruct (draw_free draws (rt_tunnels t)) as [i|] eqn:E; [|discriminate].
    simpl in H. injection H as <- <- <-. simpl. apply draw_free_spec in E. tauto.
  - destruct (insert_listener t draws) as [? [[? ?]|]]; discriminate.
  - destruct (route_message t m); discriminate.
  - destruct (send_message t router msg fb); discriminate.
  - destruct (recv_tunnel t h0) as [? [?|]]; discriminate.
  - destruct (recv_listener t h0) as [? [?|]]; discriminate.
  - destruct (recv_transit t) as [? [?|]]; discriminate.
  - destruct (recv_manager t) as [? [?|]]; discriminate.
Qed.
Lemma route_next t m t' r : route_message t m = (t', r) -> rt_next t' = rt_next t.
Proof.
  unfold route_message, route_tunnel_message, route_listener_message.
  repeat match goal with |- context [match ?x with _ => _ end] => destruct x end;
    intro H; apply pair_equal_spec in H as [<- _]; reflexivity.
Qed.
Lemma step_next t o : rt_next t <= rt_next (fst (step t o)).
Proof.
  destruct o; simpl; try lia.
  - unfold try_add_tunnel. destruct (nhas id (rt_tunnels t)); simpl; lia.
  - unfold insert_tunnel. destruct (draw_free draws (rt_tunnels t)); simpl; lia.
  - unfold insert_listener. destruct (draw_free draws (rt_listeners t)); simpl; lia.
  - destruct (route_message t m) as [t1 r] eqn:E. apply route_next in E. simpl. lia.
  - unfold send_message. destruct (beq router (rt_self t)).
    + destruct (parse_short msg) as [[m rest]|]; [|simpl; lia].
      destruct (routed_type (m_type m)).
      * destruct (route_message t m) as [t1 r] eqn:E. apply route_next in E. simpl. lia.
      * destruct (try_send (rt_manager t) (Internal m)); simpl; lia.
    + destruct (try_send (rt_manager t) _); [simpl; lia|].
      destruct (parse_short msg) as [[m rest]|]; simpl; lia.
  - unfold recv_tunnel. destruct (nget h (rt_rx t)) as [c|]; [destruct (ch_q c)|]; simpl; lia.
  - unfold drop_tunnel. destruct (nget h (rt_rx t)); simpl; lia.
  - unfold recv_listener. destruct (nget h (rt_one t)) as [[]|]; simpl; lia.
  - unfold drop_listener. destruct (nget h (rt_one t)); simpl; lia.
  - unfold recv_transit. destruct (ch_q (rt_transit t)); simpl; lia.
  - unfold recv_manager. destruct (ch_q (rt_manager t)); simpl; lia.
Qed.

(** How many messages the listener [h] may still be handed. *)
Definition credit (h : N) (t : table) (L : list (N * N)) : nat :=
  if h <? rt_next t then (if existsb (fun x => match holder (fst x) L with Some k => k =? h | None => false end) L then 1%nat else 0%nat)
  else 1%nat.

Lemma existsb_holder h L :
  existsb (fun x => match holder (fst x) L with Some k => k =? h | None => false end) L = true <->
  exists id, holder id L = Some h.
Proof.
  rewrite existsb_exists. split.
  - intros [[i k] [_ H]]. simpl in H. destruct (holder i L) as [k'|] eqn:E; [|discriminate].
    exists i. apply N.eqb_eq in H. now subst.
  - intros [id H]. exists (id, h). simpl. rewrite H, N.eqb_refl. split; [|reflexivity].
    clear - H. induction L as [|[i k] r IH]; simpl in *; [discriminate|].
    destruct (N.eqb_spec i id) as [->|]; [injection H as ->; auto | auto].
Qed.

Lemma listeners_after_sub self L e id h :
  holder id (listeners_after self L e) = Some h ->
  holder id L = Some h \/ snd e = UListener id h.
Proof.
  destruct e as [o u]. unfold listeners_after.
  assert (K : forall m (r : result), holder id (if is_tunnel_type (m_type m) then L else forget (m_id m) L) = Some h -> holder id L = Some h).
  { intros m r. destruct (is_tunnel_type (m_type m)); [auto|]. rewrite holder_forget.
    destruct (id =? m_id m); [discriminate|auto]. }
  assert (K2 : forall i, holder id (forget i L) = Some h -> holder id L = Some h).
  { intros i. rewrite holder_forget. destruct (id =? i); [discriminate|auto]. }
  assert (K3 : forall e, holder id (match routed self e with
         | Some (m, _) => if is_tunnel_type (m_type m) then L else forget (m_id m) L
         | None => L end) = Some h -> holder id L = Some h).
  { intro e. destruct (routed self e) as [[m r]|]; [apply (K m r) | auto]. }
  specialize (K3 (o, u)). destruct u as [|i k|i k|r|s|m|k]; cbn [snd];
    try (intro X; left; destruct o; solve [exact (K2 _ X) | exact (K3 X)]).
  intro X. assert (Y : holder id ((i, k) :: L) = Some h) by (destruct o; exact X).
  cbn [holder] in Y. destruct (N.eqb_spec i id) as [->|]; [right; injection Y as ->; reflexivity | auto].
Qed.

Lemma credit_le h t L : (credit h t L <= 1)%nat.
Proof. unfold credit. destruct (h <? rt_next t); [destruct (existsb _ _)|]; lia. Qed.

Lemma credit_spec h t L : credit h t L = 0%nat <-> h < rt_next t /\ forall id, holder id L <> Some h.
Proof.
  unfold credit. destruct (N.ltb_spec h (rt_next t)) as [H|H].
  - destruct (existsb _ L) eqn:E.
    + apply existsb_holder in E as [id E]. split; [discriminate|]. intros [_ X]. now destruct (X id).
    + split; [|reflexivity]. intros _. split; [assumption|]. intros id X.
      assert (true = false) by (rewrite <- E; symmetry; apply existsb_holder; eauto). discriminate.
  - split; [discriminate|]. lia.
Qed.

Lemma handles_step t T L o t' u :
  agree t T L -> handles_ok t L -> step t o = (t', u) ->
  handles_ok t' (listeners_after (rt_self t) L (o, u)).
Proof.
  intros Ag [H1 H2] Es.
  assert (Hn : rt_next t <= rt_next t') by (pose proof (step_next t o) as X; rewrite Es in X; exact X).
  split.
  - intros id h H. apply listeners_after_sub in H as [H|H].
    + apply H1 in H. lia.
    + simpl in H. subst u. apply step_out_listener in Es. lia.
  - intros i j h Hi Hj.
    apply listeners_after_sub in Hi as [Hi|Hi]; apply listeners_after_sub in Hj as [Hj|Hj]; simpl in *.
    + eauto.
    + subst u. apply step_out_listener in Es as (-> & _). apply H1 in Hi. lia.
    + subst u. apply step_out_listener in Es as (-> & _). apply H1 in Hj. lia.
    + congruence.
Qed.

Lemma belongs_listener T L m h : belongs T L m = Some (PListener h) ->
  is_tunnel_type (m_type m) = false /\ holder (m_id m) L = Some h.
Proof.
  unfold belongs. destruct (is_tunnel_type (m_type m)).
  - destruct (tunnel_of m) as [id|]; [|discriminate]. destruct (holder id T); discriminate.
  - destruct (holder (m_id m) L); [intros [= ->]; auto | discriminate].
Qed.

Lemma run_listener_once h ops : forall t T L t' tr,
  agree t T L -> handles_ok t L -> run t ops = (t', tr) ->
  (length (meant_for (PListener h) (accepted (rt_self t) T L tr)) <= credit h t L)%nat.
Proof.
  induction ops as [|o ops IH]; intros t T L t' tr Ag Ho; simpl run.
  - intro H; apply pair_equal_spec in H as [_ <-]. simpl. lia.
  - destruct (step t o) as [t1 u] eqn:Es. destruct (run t1 ops) as [t2 us] eqn:Er.
    intro H; apply pair_equal_spec in H as [_ <-].
    destruct (step_fine _ _ _ _ _ _ Ag Es) as (Ag1 & Sf & _).
    pose proof (handles_step _ _ _ _ _ _ Ag Ho Es) as Ho1.
    pose proof (IH _ _ _ _ _ Ag1 Ho1 Er) as I. rewrite Sf in I.
    assert (Hn : rt_next t <= rt_next t1) by (pose proof (step_next t o) as X; rewrite Es in X; exact X).
    rewrite accepted_cons, meant_app, app_length, accepted_one.
    set (L1 := listeners_after (rt_self t) L (o, u)) in *.
    assert (Mono : (credit h t1 L1 <= credit h t L)%nat).
    { destruct (credit h t L) eqn:Ec; [|pose proof (credit_le h t1 L1); lia].
      apply credit_spec in Ec as [Hlt Hnone].
      assert (credit h t1 L1 = 0%nat) as ->; [|lia]. apply credit_spec. split; [lia|].
      intros id Hh. apply listeners_after_sub in Hh as [Hh|Hh]; [now apply Hnone in Hh|].
      simpl in Hh. subst u. apply step_out_listener in Es. lia. }
    destruct (routed (rt_self t) (o, u)) as [[m r]|] eqn:E; [|exact (Nat.le_trans _ _ _ I Mono)].
    destruct r; [|exact (Nat.le_trans _ _ _ I Mono)].
    destruct (belongs T L m) as [q|] eqn:Eb; [|exact (Nat.le_trans _ _ _ I Mono)]. rewrite meant_one.
    destruct (place_eqb (PListener h) q) eqn:Eq; [|exact (Nat.le_trans _ _ _ I Mono)].
    apply place_eqb_eq in Eq. subst q. apply belongs_listener in Eb as [Ty Hh]. change (length [m]) with 1%nat.
    assert (Hlt : h < rt_next t) by (eapply (proj1 Ho); eauto).
    assert (credit h t1 L1 = 0%nat).
    { apply credit_spec. split; [lia|]. intros id Hid.
      assert (L1 = forget (m_id m) L) as EL.
      { unfold L1, listeners_after. destruct o; simpl in E; try discriminate.
        - destruct u; try discriminate. injection E as E1 _. simpl. rewrite E1. now rewrite Ty.
        - destruct u as [| | | |s| |]; try discriminate. simpl. rewrite E. now rewrite Ty. }
      rewrite EL, holder_forget in Hid. destruct (N.eqb_spec id (m_id m)) as [_|Hne]; [discriminate|].
      apply Hne. exact (proj2 Ho _ _ _ Hid Hh). }
    assert (credit h t L <> 0%nat).
    { intro X. apply credit_spec in X as [_ X]. now apply X in Hh. }
    lia.
Qed.


Lemma run_app t a b :
  run t (a ++ b) = let '(t1, u) := run t a in let '(t2, v) := run t1 b in (t2, u ++ v).
Proof.
  revert t; induction a as [|o a IH]; intro t; simpl.
  - destruct (run t b); reflexivity.
  - destruct (step t o) as [t1 u]. rewrite IH. destruct (run t1 a) as [t2 us].
    destruct (run t2 b); reflexivity.
Qed.

Lemma run_agree ops : forall t T L t' tr,
  agree t T L -> run t ops = (t', tr) ->
  agree t' (fst (registers (rt_self t) T L tr)) (snd (registers (rt_self t) T L tr)) /\
  rt_self t' = rt_self t.
Proof.
  induction ops as [|o ops IH]; intros t T L t' tr Ag; simpl run.
  - intro H; apply pair_equal_spec in H as [<- <-]. auto.
  - destruct (step t o) as [t1 u] eqn:Es. destruct (run t1 ops) as [t2 us] eqn:Er.
    intro H; apply pair_equal_spec in H as [<- <-].
    destruct (step_fine _ _ _ _ _ _ Ag Es) as (Ag1 & Sf & _).
    destruct (IH _ _ _ _ _ Ag1 Er) as [I1 I2]. rewrite Sf in I1. split; [exact I1 | congruence].
Qed.

Lemma registers_app self T L a b :
  registers self T L (a ++ b) = registers self (fst (registers self T L a)) (snd (registers self T L a)) b.
Proof. revert T L; induction a as [|e a IH]; intros T L; simpl; [reflexivity | apply IH]. Qed.

Lemma registered_size_app h a b :
  registered_size h (a ++ b) = match registered_size h a with Some c => Some c | None => registered_size h b end.
Proof.
  induction a as [|[o u] a IH]; simpl; [reflexivity|].
  destruct o; try exact IH; destruct u; try exact IH; destruct (_ =? _); auto.
Qed.

(** ** Receivers of held ids are open, with the size they were registered with, unless dropped. *)
Definition open_rx (t : table) (p : place) (drop : bool) : Prop :=
  match p with
  | PTunnel h => drop = false -> exists c, nget h (rt_rx t) = Some c /\ ch_open c = true
  | PListener h => drop = false -> nget h (rt_one t) = Some OneWait
  | PTransit => drop = false -> ch_open (rt_transit t) = true
  end.

Record held (t : table) (T L : list (N * N)) (ops : list op) (tr : list (op * out)) : Prop := mkHeld {
  he_t : forall id h, holder id T = Some h ->
         h < rt_next t /\
         (exists c cap, nget h (rt_rx t) = Some c /\ registered_size h tr = Some cap /\ ch_cap c = cap /\
                        (dropped (PTunnel h) ops = false -> ch_open c = true));
  he_l : forall id h, holder id L = Some h ->
         h < rt_next t /\ (dropped (PListener h) ops = false -> nget h (rt_one t) = Some OneWait);
  he_inj : forall i j h, holder i L = Some h -> holder j L = Some h -> i = j;
  he_size : forall h, rt_next t <= h -> registered_size h tr = None;
  he_transit : dropped PTransit ops = false -> ch_open (rt_transit t) = true }.

Lemma dropped_app p a b : dropped p (a ++ b) = dropped p a || dropped p b.
Proof. unfold dropped. apply existsb_app. Qed.

Lemma try_send_cap A (c c' : chan A) x : try_send c x = inl c' -> ch_cap c' = ch_cap c /\ ch_open c' = true.
Proof. intro H. apply try_send_inl in H as [-> _]. auto. Qed.

Definition keeps (c c' : chan message) (drop : bool) : Prop :=
  ch_cap c' = ch_cap c /\ (drop = false -> ch_open c = true -> ch_open c' = true).

Lemma keeps_refl c d : keeps c c d. Proof. split; auto. Qed.

Lemma route_rx t m h c :
  nget h (rt_rx t) = Some c ->
  exists c', nget h (rt_rx (fst (route_message t m))) = Some c' /\ keeps c c' false.
Proof.
  intro H. unfold route_message, route_tunnel_message, route_listener_message.
  destruct (is_tunnel_type (m_type m)).
  - destruct (tunnel_of m) as [id|]; [|exists c; split; [exact H | apply keeps_refl]].
    destruct (nget id (rt_tunnels t)) as [k|]; [|exists c; split; [exact H | apply keeps_refl]].
    destruct (nget k (rt_rx t)) as [c0|] eqn:Ek; [|exists c; split; [exact H | apply keeps_refl]].
    destruct (try_send c0 m) as [c'|] eqn:Es; [|exists c; split; [exact H | apply keeps_refl]].
    simpl. rewrite nget_nput. destruct (N.eqb_spec h k) as [->|]; [|exists c; split; [exact H | apply keeps_refl]].
    exists c'. split; [reflexivity|]. assert (c0 = c) as -> by congruence.
    apply try_send_cap in Es as [A B]. split; auto.
  - exists c. split; [|apply keeps_refl].
    destruct (nget (m_id m) (rt_listeners t)) as [k|].
    + cbv zeta. destruct (nget k (rt_one (w_listeners t (ndel (m_id m) (rt_listeners t))))) as [[]|]; exact H.
    + destruct (try_send (rt_transit t) m); exact H.
Qed.

Lemma rx_step t o h c :
  (forall k, rt_next t <= k -> nget k (rt_rx t) = None) ->
  nget h (rt_rx t) = Some c ->
  exists c', nget h (rt_rx (fst (step t o))) = Some c' /\ keeps c c' (dropped (PTunnel h) [o]).
Proof.
  intros Fr H.
  assert (Hh : h <> rt_next t).
  { intros ->. rewrite (Fr _ (N.le_refl _)) in H. discriminate. }
  assert (same : exists c', nget h (rt_rx t) = Some c' /\ keeps c c' (dropped (PTunnel h) [o])).
  { exists c. split; [exact H | apply keeps_refl]. }
  assert (fresh : forall x, exists c', nget h (nput (rt_next t) x (rt_rx t)) = Some c' /\ keeps c c' (dropped (PTunnel h) [o])).
  { intro x. rewrite nget_nput. destruct (N.eqb_spec h (rt_next t)); [contradiction | exact same]. }
  destruct o; simpl step; try exact same.
  - unfold try_add_tunnel. destruct (nhas id (rt_tunnels t)); [exact same | apply fresh].
  - unfold insert_tunnel. destruct (draw_free draws (rt_tunnels t)); [apply fresh | exact same].
  - unfold insert_listener. destruct (draw_free draws (rt_listeners t)); exact same.
  - pose proof (route_rx t m h c H) as X. destruct (route_message t m). exact X.
  - unfold send_message. destruct (beq router (rt_self t)).
    + destruct (parse_short msg) as [[m rest]|]; [|exact same]. destruct (routed_type (m_type m)).
      * pose proof (route_rx t m h c H) as X. destruct (route_message t m). exact X.
      * destruct (try_send (rt_manager t) (Internal m)); exact same.
    + destruct (try_send (rt_manager t) _); [exact same|].
      destruct (parse_short msg) as [[m rest]|]; exact same.
  - unfold recv_tunnel. destruct (nget h0 (rt_rx t)) as [c0|] eqn:E0; [|exact same].
    destruct (ch_q c0); [exact same|]. simpl. rewrite nget_nput.
    destruct (N.eqb_spec h h0) as [->|]; [|exact same].
    eexists. split; [reflexivity|]. assert (c0 = c) as -> by congruence. split; auto.
  - unfold drop_tunnel. destruct (nget h0 (rt_rx t)) as [c0|] eqn:E0; [|exact same].
    simpl. rewrite nget_nput. destruct (N.eqb_spec h h0) as [->|]; [|exists c; split; [exact H | apply keeps_refl]].
    eexists. split; [reflexivity|]. assert (c0 = c) as -> by congruence. split; [reflexivity|]. simpl. discriminate.
  - unfold recv_listener. destruct (nget h0 (rt_one t)) as [[]|]; exact same.
  - unfold drop_listener. destruct (nget h0 (rt_one t)) as [[]|]; exact same.
  - unfold recv_transit. destruct (ch_q (rt_transit t)); exact same.
  - unfold recv_manager. destruct (ch_q (rt_manager t)); exact same.
Qed.

Lemma route_one t m h :
  nget h (rt_one t) = Some OneWait ->
  (is_tunnel_type (m_type m) = false -> nget (m_id m) (rt_listeners t) <> Some h) ->
  nget h (rt_one (fst (route_message t m))) = Some OneWait.
Proof.
  intros H Hn. unfold route_message, route_tunnel_message, route_listener_message.
  destruct (is_tunnel_type (m_type m)).
  - destruct (tunnel_of m) as [id|]; [|exact H].
    destruct (nget id (rt_tunnels t)) as [k|]; [|exact H].
    destruct (nget k (rt_rx t)) as [c0|]; [|exact H]. destruct (try_send c0 m); exact H.
  - specialize (Hn eq_refl). destruct (nget (m_id m) (rt_listeners t)) as [k|].
    + cbv zeta. cbn [rt_one w_listeners]. destruct (nget k (rt_one t)) as [[]|]; try exact H.
      simpl. rewrite nget_nput. destruct (N.eqb_spec h k) as [->|]; [congruence | exact H].
    + destruct (try_send (rt_transit t) m); exact H.
Qed.

Lemma one_step t T L o h t' u :
  agree t T L -> step t o = (t', u) ->
  nget h (rt_one t) = Some OneWait -> dropped (PListener h) [o] = false ->
  (forall m r, routed (rt_self t) (o, u) = Some (m, r) -> is_tunnel_type (m_type m) = false -> holder (m_id m) L <> Some h) ->
  nget h (rt_one t') = Some OneWait.
Proof.
  intros Ag Hs H Hd Hr.
  assert (Hh : h <> rt_next t).
  { intros ->. rewrite (ag_one _ _ _ Ag _ (N.le_refl _)) in H. discriminate. }
  destruct o; simpl in Hs.
  - unfold try_add_tunnel in Hs. destruct (nhas id (rt_tunnels t)); injection Hs as <- _; exact H.
  - unfold insert_tunnel in Hs. destruct (draw_free draws (rt_tunnels t)); injection Hs as <- _; exact H.
  - injection Hs as <- _; exact H.
  - unfold insert_listener in Hs. destruct (draw_free draws (rt_listeners t)); injection Hs as <- _; [|exact H].
    simpl. rewrite nget_nput. destruct (N.eqb_spec h (rt_next t)); [contradiction | exact H].
  - injection Hs as <- _; exact H.
  - pose proof (route_one t m h H) as X. destruct (route_message t m) as [t1 r1] eqn:E.
    injection Hs as <- <-. apply X. intro Ty. rewrite (ag_l _ _ _ Ag). exact (Hr m r1 eq_refl Ty).
  - unfold send_message in Hs. destruct (beq router (rt_self t)) eqn:Eb.
    + destruct (parse_short msg) as [[m rest]|] eqn:Ep; [|injection Hs as <- _; exact H].
      destruct (routed_type (m_type m)) eqn:Et.
      * pose proof (route_one t m h H) as X. destruct (route_message t m) as [t1 r1] eqn:E.
        injection Hs as <- <-. apply X. intro Ty. rewrite (ag_l _ _ _ Ag). refine (Hr m r1 _ Ty).
        simpl. now rewrite Eb, Ep, Et.
      * destruct (try_send (rt_manager t) (Internal m)); injection Hs as <- _; exact H.
    + destruct (try_send (rt_manager t) _); [injection Hs as <- _; exact H|].
      destruct (parse_short msg) as [[m rest]|]; injection Hs as <- _; exact H.
  - unfold recv_tunnel in Hs. destruct (nget h0 (rt_rx t)) as [c0|]; [|injection Hs as <- _; exact H].
    destruct (ch_q c0); injection Hs as <- _; exact H.
  - unfold drop_tunnel in Hs. destruct (nget h0 (rt_rx t)); injection Hs as <- _; exact H.
  - unfold recv_listener in Hs. destruct (nget h0 (rt_one t)) as [[]|] eqn:E0; injection Hs as <- _; try exact H.
    simpl. rewrite nget_nput. destruct (N.eqb_spec h h0) as [->|]; [congruence | exact H].
  - unfold drop_listener in Hs. simpl in Hd. rewrite orb_false_r in Hd.
    destruct (nget h0 (rt_one t)); injection Hs as <- _; [|exact H].
    simpl. now rewrite nget_nput, Hd.
  - unfold recv_transit in Hs. destruct (ch_q (rt_transit t)); injection Hs as <- _; exact H.
  - injection Hs as <- _; exact H.
  - unfold recv_manager in Hs. destruct (ch_q (rt_manager t)); injection Hs as <- _; exact H.
  - injection Hs as <- _; exact H.
Qed.

Lemma route_transit_open t m :
  ch_open (rt_transit t) = true -> ch_open (rt_transit (fst (route_message t m))) = true.
Proof.
  intro H. unfold route_message, route_tunnel_message, route_listener_message.
  destruct (is_tunnel_type (m_type m)).
  - destruct (tunnel_of m) as [id|]; [|exact H].
    destruct (nget id (rt_tunnels t)) as [k|]; [|exact H].
    destruct (nget k (rt_rx t)) as [c0|]; [|exact H]. destruct (try_send c0 m); exact H.
  - destruct (nget (m_id m) (rt_listeners t)) as [k|].
    + cbv zeta. cbn [rt_one w_listeners]. destruct (nget k (rt_one t)) as [[]|]; exact H.
    + destruct (try_send (rt_transit t) m) eqn:E; [|exact H]. simpl. now apply try_send_cap in E.
Qed.

Lemma transit_step t o :
  dropped PTransit [o] = false -> ch_open (rt_transit t) = true ->
  ch_open (rt_transit (fst (step t o))) = true.
Proof.
  intros Hd H. destruct o; simpl; try exact H.
  - unfold try_add_tunnel. destruct (nhas id (rt_tunnels t)); exact H.
  - unfold insert_tunnel. destruct (draw_free draws (rt_tunnels t)); exact H.
  - unfold insert_listener. destruct (draw_free draws (rt_listeners t)); exact H.
  - pose proof (route_transit_open t m H) as X. destruct (route_message t m). exact X.
  - unfold send_message. destruct (beq router (rt_self t)).
    + destruct (parse_short msg) as [[m rest]|]; [|exact H]. destruct (routed_type (m_type m)).
      * pose proof (route_transit_open t m H) as X. destruct (route_message t m). exact X.
      * destruct (try_send (rt_manager t) (Internal m)); exact H.
    + destruct (try_send (rt_manager t) _); [exact H|].
      destruct (parse_short msg) as [[m rest]|]; exact H.
  - unfold recv_tunnel. destruct (nget h (rt_rx t)) as [c0|]; [|exact H]. destruct (ch_q c0); exact H.
  - unfold drop_tunnel. destruct (nget h (rt_rx t)); exact H.
  - unfold recv_listener. destruct (nget h (rt_one t)) as [[]|]; exact H.
  - unfold drop_listener. destruct (nget h (rt_one t)); exact H.
  - unfold recv_transit. destruct (ch_q (rt_transit t)); exact H.
  - discriminate.
  - unfold recv_manager. destruct (ch_q (rt_manager t)); exact H.
Qed.

Lemma tunnels_after_sub T e id h :
  holder id (tunnels_after T e) = Some h -> holder id T = Some h \/ snd e = UTunnel id h.
Proof.
  destruct e as [o u].
  assert (K2 : forall i, holder id (forget i T) = Some h -> holder id T = Some h).
  { intros i. rewrite holder_forget. destruct (id =? i); [discriminate|auto]. }
  destruct u as [|i k|i k|r|s|m|k]; cbn [snd];
    try (intro X; left; destruct o; solve [exact (K2 _ X) | exact X]).
  intro X. assert (Y : holder id ((i, k) :: T) = Some h) by (destruct o; exact X).
  cbn [holder] in Y. destruct (N.eqb_spec i id) as [->|]; [right; injection Y as ->; reflexivity | auto].
Qed.

(** What registering did. *)
Lemma step_tunnel_new t o t' id h : step t o = (t', UTunnel id h) ->
  exists cap, registered_size h [(o, UTunnel id h)] = Some cap /\ nget h (rt_rx t') = Some (mkChan cap [] true).
Proof.
  destruct o; simpl; intro H; try discriminate.
  - unfold try_add_tunnel in H. destruct (nhas id0 (rt_tunnels t)); [discriminate|].
    simpl in H. injection H as <- <- <-. rewrite N.eqb_refl. exists cap. split; [reflexivity|]. simpl. apply nget_nput_same.
  - unfold insert_tunnel in H. destruct (draw_free draws (rt_tunnels t)) as [i|]; [|discriminate].
    simpl in H. injection H as <- <- <-. rewrite N.eqb_refl. exists cap. split; [reflexivity|]. simpl. apply nget_nput_same.
  - destruct (insert_listener t draws) as [? [[? ?]|]]; discriminate.
  - destruct (route_message t m); discriminate.
  - destruct (send_message t router msg fb); discriminate.
  - destruct (recv_tunnel t h0) as [? [?|]]; discriminate.
  - destruct (recv_listener t h0) as [? [?|]]; discriminate.
  - destruct (recv_transit t) as [? [?|]]; discriminate.
  - destruct (recv_manager t) as [? [?|]]; discriminate.
Qed.
Lemma step_listener_new t o t' id h : step t o = (t', UListener id h) -> nget h (rt_one t') = Some OneWait.
Proof.
  destruct o; simpl; intro H; try discriminate.
  - destruct (try_add_tunnel t id0 cap) as [? [?|]]; discriminate.
  - destruct (insert_tunnel t draws cap) as [? [[? ?]|]]; discriminate.
  - unfold insert_listener in H. destruct (draw_free draws (rt_listeners t)) as [i|] eqn:E; [|discriminate].
    injection H as <- <- <-. simpl. apply nget_nput_same.
  - destruct (route_message t m); discriminate.
  - destruct (send_message t router msg fb); discriminate.
  - destruct (recv_tunnel t h0) as [? [?|]]; discriminate.
  - destruct (recv_listener t h0) as [? [?|]]; discriminate.
  - destruct (recv_transit t) as [? [?|]]; discriminate.
  - destruct (recv_manager t) as [? [?|]]; discriminate.
Qed.

Lemma registered_size_one h o u cap : registered_size h [(o, u)] = Some cap -> exists id, u = UTunnel id h.
Proof.
  simpl. destruct o; try discriminate; destruct u; try discriminate;
    (destruct (N.eqb_spec h0 h) as [->|]; [eauto | discriminate]).
Qed.

Lemma held_step t T L ops tr o t' u :
  agree t T L -> held t T L ops tr -> step t o = (t', u) ->
  held t' (tunnels_after T (o, u)) (listeners_after (rt_self t) L (o, u)) (ops ++ [o]) (tr ++ [(o, u)]).
Proof.
  intros Ag He Es.
  assert (Hn : rt_next t <= rt_next t') by (pose proof (step_next t o) as X; rewrite Es in X; exact X).
  constructor.
  - intros id h H. apply tunnels_after_sub in H as [H|H].
    + destruct (he_t _ _ _ _ _ He _ _ H) as (A & c & cap & B & C & D & E). split; [lia|].
      destruct (rx_step t o h c (ag_rx _ _ _ Ag) B) as (c' & B' & K1 & K2). rewrite Es in B'.
      exists c', cap. split; [exact B'|]. split; [rewrite registered_size_app, C; reflexivity|].
      split; [congruence|]. rewrite dropped_app. intro X. apply orb_false_elim in X as [X1 X2].
      apply K2; [exact X2 | apply E, X1].
    + simpl in H. subst u. destruct (step_out_tunnel _ _ _ _ _ Es) as (-> & B & _). split; [lia|].
      destruct (step_tunnel_new _ _ _ _ _ Es) as (cap & C & D).
      exists (mkChan cap [] true), cap. split; [exact D|].
      split; [rewrite registered_size_app, (he_size _ _ _ _ _ He _ (N.le_refl _)); exact C|]. auto.
  - intros id h H. pose proof H as H0. apply listeners_after_sub in H as [H|H].
    + destruct (he_l _ _ _ _ _ He _ _ H) as (A & B). split; [lia|].
      rewrite dropped_app. intro X. apply orb_false_elim in X as [X1 X2].
      refine (one_step _ _ _ _ _ _ _ Ag Es (B X1) X2 _).
      intros m r Hr Ty Hm. assert (m_id m = id) by exact (he_inj _ _ _ _ _ He _ _ _ Hm H). subst id.
      assert (EL : listeners_after (rt_self t) L (o, u) = forget (m_id m) L).
      { unfold listeners_after. destruct o; simpl in Hr; try discriminate Hr.
        - destruct u; try discriminate. injection Hr as E1 _. simpl. rewrite E1. now rewrite Ty.
        - destruct u as [| | | |s| |]; try discriminate. simpl. rewrite Hr. now rewrite Ty. }
      rewrite EL, holder_forget, N.eqb_refl in H0. discriminate.
    + simpl in H. subst u. destruct (step_out_listener _ _ _ _ _ Es) as (-> & B & _). split; [lia|].
      intros _. exact (step_listener_new _ _ _ _ _ Es).
  - intros i j h Hi Hj.
    apply listeners_after_sub in Hi as [Hi|Hi]; apply listeners_after_sub in Hj as [Hj|Hj]; simpl in *.
    + exact (he_inj _ _ _ _ _ He _ _ _ Hi Hj).
    + subst u. apply step_out_listener in Es as (-> & _). apply (he_l _ _ _ _ _ He) in Hi. lia.
    + subst u. apply step_out_listener in Es as (-> & _). apply (he_l _ _ _ _ _ He) in Hj. lia.
    + congruence.
  - intros h Hh. rewrite registered_size_app, (he_size _ _ _ _ _ He h) by lia.
    destruct (registered_size h [(o, u)]) as [cap|] eqn:E; [|reflexivity].
    apply registered_size_one in E as [id ->]. apply step_out_tunnel in Es. lia.
  - rewrite dropped_app. intro X. apply orb_false_elim in X as [X1 X2].
    pose proof (transit_step t o X2 (he_transit _ _ _ _ _ He X1)) as Y. rewrite Es in Y. exact Y.
Qed.

Lemma held_run self a b ops : forall t tr,
  run (rt_new self a b) ops = (t, tr) ->
  held t (fst (registers self [] [] tr)) (snd (registers self [] [] tr)) ops tr.
Proof.
  induction ops as [|o ops IH] using rev_ind; intros t tr.
  - intro H; apply pair_equal_spec in H as [<- <-]. constructor; simpl; auto; discriminate.
  - rewrite run_app. destruct (run (rt_new self a b) ops) as [t1 tr1] eqn:Er.
    simpl. destruct (step t1 o) as [t2 u] eqn:Es. intro H; apply pair_equal_spec in H as [<- <-].
    specialize (IH _ _ eq_refl).
    destruct (run_agree _ _ _ _ _ _ (agree_new self a b) Er) as [Ag Sf]. simpl in Ag, Sf.
    pose proof (held_step _ _ _ _ _ _ _ _ Ag IH Es) as X. rewrite Sf in X.
    rewrite registers_app. exact X.
Qed.

(** ** The transit channel keeps its size *)
Lemma route_transit_cap t m : ch_cap (rt_transit (fst (route_message t m))) = ch_cap (rt_transit t).
Proof.
  unfold route_message, route_tunnel_message, route_listener_message.
  destruct (is_tunnel_type (m_type m)).
  - destruct (tunnel_of m) as [id|]; [|reflexivity].
    destruct (nget id (rt_tunnels t)) as [k|]; [|reflexivity].
    destruct (nget k (rt_rx t)) as [c0|]; [|reflexivity]. destruct (try_send c0 m); reflexivity.
  - destruct (nget (m_id m) (rt_listeners t)) as [k|].
    + cbv zeta. cbn [rt_one w_listeners]. destruct (nget k (rt_one t)) as [[]|]; reflexivity.
    + destruct (try_send (rt_transit t) m) eqn:E; [|reflexivity]. simpl. now apply try_send_cap in E.
Qed.
Lemma transit_cap_step t o : ch_cap (rt_transit (fst (step t o))) = ch_cap (rt_transit t).
Proof.
  destruct o; simpl; try reflexivity.
  - unfold try_add_tunnel. destruct (nhas id (rt_tunnels t)); reflexivity.
  - unfold insert_tunnel. destruct (draw_free draws (rt_tunnels t)); reflexivity.
  - unfold insert_listener. destruct (draw_free draws (rt_listeners t)); reflexivity.
  - pose proof (route_transit_cap t m) as X. destruct (route_message t m). exact X.
  - unfold send_message. destruct (beq router (rt_self t)).
    + destruct (parse_short msg) as [[m rest]|]; [|reflexivity]. destruct (routed_type (m_type m)).
      * pose proof (route_transit_cap t m) as X. destruct (route_message t m). exact X.
      * destruct (try_send (rt_manager t) (Internal m)); reflexivity.
    + destruct (try_send (rt_manager t) _); [reflexivity|].
      destruct (parse_short msg) as [[m rest]|]; reflexivity.
  - unfold recv_tunnel. destruct (nget h (rt_rx t)) as [c0|]; [|reflexivity]. destruct (ch_q c0); reflexivity.
  - unfold drop_tunnel. destruct (nget h (rt_rx t)); reflexivity.
  - unfold recv_listener. destruct (nget h (rt_one t)) as [[]|]; reflexivity.
  - unfold drop_listener. destruct (nget h (rt_one t)); reflexivity.
  - unfold recv_transit. destruct (ch_q (rt_transit t)); reflexivity.
  - unfold recv_manager. destruct (ch_q (rt_manager t)); reflexivity.
Qed.
Lemma transit_cap_run ops : forall t, ch_cap (rt_transit (fst (run t ops))) = ch_cap (rt_transit t).
Proof.
  induction ops as [|o ops IH]; intro t; simpl; [reflexivity|].
  pose proof (transit_cap_step t o) as X. destruct (step t o) as [t1 u]. specialize (IH t1).
  destruct (run t1 ops). simpl in *. congruence.
Qed.

(** ** The manager's channel *)
Lemma route_manager t m : rt_manager (fst (route_message t m)) = rt_manager t.
Proof.
  unfold route_message, route_tunnel_message, route_listener_message.
  destruct (is_tunnel_type (m_type m)).
  - destruct (tunnel_of m) as [id|]; [|reflexivity].
    destruct (nget id (rt_tunnels t)) as [k|]; [|reflexivity].
    destruct (nget k (rt_rx t)) as [c0|]; [|reflexivity]. destruct (try_send c0 m); reflexivity.
  - destruct (nget (m_id m) (rt_listeners t)) as [k|].
    + cbv zeta. cbn [rt_one w_listeners]. destruct (nget k (rt_one t)) as [[]|]; reflexivity.
    + destruct (try_send (rt_transit t) m) eqn:E; reflexivity.
Qed.
Lemma manager_step t o t' u :
  step t o = (t', u) -> manager_dropped [o] = false ->
  ch_q (rt_manager t) ++ for_manager (rt_self t) (o, u) = manager_got (o, u) ++ ch_q (rt_manager t').
Proof.
  intros Hs Hd. destruct o; simpl in Hs; try discriminate Hd.
  - unfold try_add_tunnel in Hs. destruct (nhas id (rt_tunnels t)); injection Hs as <- <-; simpl; now rewrite app_nil_r.
  - unfold insert_tunnel in Hs. destruct (draw_free draws (rt_tunnels t)); injection Hs as <- <-; simpl; now rewrite app_nil_r.
  - injection Hs as <- <-; simpl; now rewrite app_nil_r.
  - unfold insert_listener in Hs. destruct (draw_free draws (rt_listeners t)); injection Hs as <- <-; simpl; now rewrite app_nil_r.
  - injection Hs as <- <-; simpl; now rewrite app_nil_r.
  - pose proof (route_manager t m) as X. destruct (route_message t m). injection Hs as <- <-. simpl in *.
    now rewrite X, app_nil_r.
  - unfold send_message in Hs. simpl. destruct (beq router (rt_self t)) eqn:Eb.
    + destruct (parse_short msg) as [[m rest]|] eqn:Ep; [|injection Hs as <- <-; simpl; now rewrite app_nil_r].
      destruct (routed_type (m_type m)) eqn:Et.
      * pose proof (route_manager t m) as X. destruct (route_message t m) as [t1 r]. injection Hs as <- <-.
        simpl in *. rewrite X. destruct r; now rewrite app_nil_r.
      * destruct (try_send (rt_manager t) (Internal m)) as [c|] eqn:Es; injection Hs as <- <-;
          [|simpl; now rewrite app_nil_r].
        apply try_send_inl in Es as [-> _]. reflexivity.
    + destruct (try_send (rt_manager t) _) as [c|] eqn:Es.
      * injection Hs as <- <-. apply try_send_inl in Es as [-> _]. reflexivity.
      * destruct (parse_short msg) as [[m rest]|]; injection Hs as <- <-; simpl; now rewrite app_nil_r.
  - unfold recv_tunnel in Hs. destruct (nget h (rt_rx t)) as [c0|]; [destruct (ch_q c0)|];
      injection Hs as <- <-; simpl; now rewrite app_nil_r.
  - unfold drop_tunnel in Hs. destruct (nget h (rt_rx t)); injection Hs as <- <-; simpl; now rewrite app_nil_r.
  - unfold recv_listener in Hs. destruct (nget h (rt_one t)) as [[]|]; injection Hs as <- <-; simpl; now rewrite app_nil_r.
  - unfold drop_listener in Hs. destruct (nget h (rt_one t)); injection Hs as <- <-; simpl; now rewrite app_nil_r.
  - unfold recv_transit in Hs. destruct (ch_q (rt_transit t)); injection Hs as <- <-; simpl; now rewrite app_nil_r.
  - injection Hs as <- <-; simpl; now rewrite app_nil_r.
  - unfold recv_manager in Hs. destruct (ch_q (rt_manager t)) as [|k q] eqn:E; injection Hs as <- <-;
      cbn [for_manager]; rewrite app_nil_r; [now rewrite E | reflexivity].
Qed.
Lemma manager_run ops : forall t t' tr,
  run t ops = (t', tr) -> manager_dropped ops = false ->
  ch_q (rt_manager t) ++ flat_map (for_manager (rt_self t)) tr = flat_map manager_got tr ++ ch_q (rt_manager t').
Proof.
  induction ops as [|o ops IH]; intros t t' tr; simpl run.
  - intro H; apply pair_equal_spec in H as [<- <-]. simpl. now rewrite app_nil_r.
  - destruct (step t o) as [t1 u] eqn:Es. destruct (run t1 ops) as [t2 us] eqn:Er.
    intro H; apply pair_equal_spec in H as [<- <-]. intro Hd.
    assert (manager_dropped [o] = false /\ manager_dropped ops = false) as [D1 D2].
    { unfold manager_dropped in *. simpl in *. rewrite orb_false_r. now apply orb_false_elim. }
    assert (Sf : rt_self t1 = rt_self t).
    { clear - Es. destruct o; simpl in Es.
      - unfold try_add_tunnel in Es. destruct (nhas id (rt_tunnels t)); injection Es as <- _; reflexivity.
      - unfold insert_tunnel in Es. destruct (draw_free draws (rt_tunnels t)); injection Es as <- _; reflexivity.
      - injection Es as <- _; reflexivity.
      - unfold insert_listener in Es. destruct (draw_free draws (rt_listeners t)); injection Es as <- _; reflexivity.
      - injection Es as <- _; reflexivity.
      - destruct (route_message t m) eqn:E. apply route_self in E. injection Es as <- _. exact E.
      - unfold send_message in Es. destruct (beq router (rt_self t)).
        + destruct (parse_short msg) as [[m rest]|]; [|injection Es as <- _; reflexivity].
          destruct (routed_type (m_type m)).
          * destruct (route_message t m) eqn:E. apply route_self in E. injection Es as <- _. exact E.
          * destruct (try_send (rt_manager t) (Internal m)); injection Es as <- _; reflexivity.
        + destruct (try_send (rt_manager t) _); [injection Es as <- _; reflexivity|].
          destruct (parse_short msg) as [[m rest]|]; injection Es as <- _; reflexivity.
      - unfold recv_tunnel in Es. destruct (nget h (rt_rx t)) as [c0|]; [destruct (ch_q c0)|]; injection Es as <- _; reflexivity.
      - unfold drop_tunnel in Es. destruct (nget h (rt_rx t)); injection Es as <- _; reflexivity.
      - unfold recv_listener in Es. destruct (nget h (rt_one t)) as [[]|]; injection Es as <- _; reflexivity.
      - unfold drop_listener in Es. destruct (nget h (rt_one t)); injection Es as <- _; reflexivity.
      - unfold recv_transit in Es. destruct (ch_q (rt_transit t)); injection Es as <- _; reflexivity.
      - injection Es as <- _; reflexivity.
      - unfold recv_manager in Es. destruct (ch_q (rt_manager t)); injection Es as <- _; reflexivity.
      - injection Es as <- _; reflexivity. }
    specialize (IH _ _ _ Er D2). rewrite Sf in IH. cbn [flat_map].
    rewrite app_assoc, (manager_step _ _ _ _ Es D1), <- app_assoc, IH, app_assoc. reflexivity.
Qed.
