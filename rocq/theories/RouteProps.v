(** C36: every routed message reaches exactly the part of the router it is meant for, or comes
    back in an error.  Statements use RouteSpec.v only. *)
From Coq Require Import List NArith Bool Lia.
From Verif Require Import ListUtil Bytes NMap I2npModel TunnelModel RouteModel RouteSpec RouteProofs RouteProofs2.
Import ListNotations.
Open Scope N_scope.

(** For every history of calls, whoever they come from, and every receiver: what it has received
    is, in order and without repetition or omission, a first part of the accepted messages that
    belonged to it when they were accepted; and unless it was dropped, the others are waiting for
    it. *)
Theorem C36_delivered_to_the_right_one : forall self transit_cap manager_cap ops t tr p,
  run (rt_new self transit_cap manager_cap) ops = (t, tr) ->
  (exists rest, meant_for p (accepted self [] [] tr) = got p tr ++ rest) /\
  (dropped p ops = false ->
   meant_for p (accepted self [] [] tr) = got p tr ++ waiting p t).
Proof.
  intros self a b ops t tr p H.
  destruct (run_deliver p _ _ _ _ _ _ (agree_new self a b) H) as [A [rest B]].
  assert (W : waiting p (rt_new self a b) = []) by (destruct p; reflexivity).
  rewrite W in A, B. split; [exists rest; exact B | exact A].
Qed.
Print Assumptions C36_delivered_to_the_right_one.

(** No message is accepted that belongs to nobody. *)
Theorem C36_accepted_has_an_owner : forall self transit_cap manager_cap ops t tr m,
  run (rt_new self transit_cap manager_cap) ops = (t, tr) ->
  ~ In (None, m) (accepted self [] [] tr).
Proof.
  intros self a b ops t tr m H X.
  pose proof (accepted_some _ _ _ _ _ _ (agree_new self a b) H) as F.
  rewrite Forall_forall in F. exact (F _ X eq_refl).
Qed.
Print Assumptions C36_accepted_has_an_owner.

(** A listener receives at most one message. *)
Theorem C36_listener_at_most_once : forall self transit_cap manager_cap ops t tr h,
  run (rt_new self transit_cap manager_cap) ops = (t, tr) ->
  (length (got (PListener h) tr) <= 1)%nat.
Proof.
  intros self a b ops t tr h H.
  destruct (C36_delivered_to_the_right_one _ _ _ _ _ _ (PListener h) H) as [[rest E] _].
  assert (Ho : handles_ok (rt_new self a b) []) by (split; discriminate).
  pose proof (run_listener_once h _ _ _ _ _ _ (agree_new self a b) Ho H) as L. simpl rt_self in L.
  rewrite E, app_length in L. pose proof (credit_le h (rt_new self a b) []). lia.
Qed.
Print Assumptions C36_listener_at_most_once.

(** A refused message comes back unchanged in the error. *)
Theorem C36_refused_comes_back : forall self transit_cap manager_cap ops t tr e m k m',
  run (rt_new self transit_cap manager_cap) ops = (t, tr) ->
  In e tr -> routed self e = Some (m, RErr k m') -> m' = m.
Proof.
  intros self a b ops t tr [o u] m k m' H Hin Hr.
  apply in_split in Hin as (tr1 & tr2 & ->).
  assert (Hops : map fst (tr1 ++ (o, u) :: tr2) = ops).
  { pose proof (run_ops (rt_new self a b) ops) as X. rewrite H in X. exact X. }
  rewrite map_app in Hops. simpl in Hops. subst ops.
  rewrite run_app in H. destruct (run (rt_new self a b) (map fst tr1)) as [t1 us] eqn:E1.
  simpl in H. destruct (step t1 o) as [t2 u2] eqn:Es. destruct (run t2 (map fst tr2)) as [t3 vs].
  apply pair_equal_spec in H as [_ H].
  assert (Hl : length us = length tr1).
  { pose proof (run_ops (rt_new self a b) (map fst tr1)) as X. rewrite E1 in X.
    apply (f_equal (@length _)) in X. rewrite !map_length in X. exact X. }
  assert (u2 = u) as ->.
  { apply (f_equal (skipn (length tr1))) in H. rewrite <- Hl in H at 1.
    rewrite !skipn_app, !skipn_all, !PeanoNat.Nat.sub_diag in H. simpl in H. congruence. }
  destruct (run_agree _ _ _ _ _ _ (agree_new self a b) E1) as [Ag Sf]. simpl in Sf.
  destruct o; simpl in Hr; try discriminate.
  - destruct u; try discriminate. injection Hr as Hr1 Hr2. subst. simpl in Es.
    destruct (route_message t1 m) as [t4 r4] eqn:E4. injection Es as Es1 Es2. subst.
    exact (proj1 (route_effect _ _ _ _ _ _ Ag E4)).
  - destruct u as [| | | |s| |]; try discriminate. destruct s as [r f|]; [|discriminate].
    destruct (beq router self) eqn:Eb; [|discriminate].
    destruct (parse_short msg) as [[m0 rest]|] eqn:Ep; [|discriminate].
    destruct (routed_type (m_type m0)) eqn:Et; [|discriminate]. injection Hr as Hr1 Hr2. subst m0 r.
    simpl in Es. unfold send_message in Es. rewrite Sf, Eb, Ep, Et in Es.
    destruct (route_message t1 m) as [t4 r4] eqn:E4. injection Es as Es1 Es2 Es3. subst.
    exact (proj1 (route_effect _ _ _ _ _ _ Ag E4)).
Qed.
Print Assumptions C36_refused_comes_back.

(** A message is not refused without cause: if it belongs to somebody who was not dropped and has
    room, it is accepted.  A listener always has room, a tunnel as much as it was registered
    with. *)
Definition has_room (p : place) (transit_cap : N) (t : table) (tr : list (op * out)) : Prop :=
  match p with
  | PTunnel h => exists cap, registered_size h tr = Some cap /\ N.of_nat (length (waiting p t)) < cap
  | PListener _ => True
  | PTransit => N.of_nat (length (waiting p t)) < transit_cap
  end.
Theorem C36_not_refused_without_cause : forall self transit_cap manager_cap ops t tr m p,
  run (rt_new self transit_cap manager_cap) ops = (t, tr) ->
  belongs (fst (registers self [] [] tr)) (snd (registers self [] [] tr)) m = Some p ->
  dropped p ops = false -> has_room p transit_cap t tr ->
  snd (step t (ORoute m)) = UResult ROk.
Proof.
  intros self a b ops t tr m p H Hb Hd Hr.
  destruct (run_agree _ _ _ _ _ _ (agree_new self a b) H) as [Ag _]. simpl rt_self in Ag.
  pose proof (held_run _ _ _ _ _ _ H) as He.
  set (T := fst (registers self [] [] tr)) in *. set (L := snd (registers self [] [] tr)) in *.
  unfold belongs in Hb. simpl. unfold route_message. destruct (is_tunnel_type (m_type m)).
  - unfold route_tunnel_message. destruct (tunnel_of m) as [id|]; [|discriminate].
    rewrite (ag_t _ _ _ Ag). destruct (holder id T) as [h|] eqn:Eh; [|discriminate].
    injection Hb as <-. destruct (he_t _ _ _ _ _ He _ _ Eh) as (_ & c & cap & A & B & C & D).
    rewrite A. destruct Hr as (cap' & B' & Hc). simpl in Hc. rewrite A in Hc.
    assert (cap' = cap) as -> by congruence. unfold try_send. rewrite (D Hd). simpl.
    destruct (N.leb_spec (ch_cap c) (N.of_nat (length (ch_q c)))); [lia | reflexivity].
  - unfold route_listener_message. rewrite (ag_l _ _ _ Ag). destruct (holder (m_id m) L) as [h|] eqn:Eh.
    + injection Hb as <-. cbv zeta. cbn [rt_one w_listeners].
      rewrite (proj2 (he_l _ _ _ _ _ He _ _ Eh) Hd). reflexivity.
    + injection Hb as <-. unfold try_send. rewrite (he_transit _ _ _ _ _ He Hd). simpl.
      pose proof (transit_cap_run ops (rt_new self a b)) as X. rewrite H in X. simpl in X, Hr. rewrite X.
      destruct (N.leb_spec a (N.of_nat (length (ch_q (rt_transit t))))); [lia | reflexivity].
Qed.
Print Assumptions C36_not_refused_without_cause.

(** Registering never takes an id somebody still holds, and never hands out a receiver twice. *)
Definition handed_out (tr : list (op * out)) (h : N) : Prop :=
  exists o id, In (o, UTunnel id h) tr \/ In (o, UListener id h) tr.
Theorem C36_ids_not_shared : forall self transit_cap manager_cap ops t tr o,
  run (rt_new self transit_cap manager_cap) ops = (t, tr) ->
  match snd (step t o) with
  | UTunnel id h => holder id (fst (registers self [] [] tr)) = None /\ ~ handed_out tr h
  | UListener id h => holder id (snd (registers self [] [] tr)) = None /\ ~ handed_out tr h
  | _ => True
  end.
Proof.
  intros self a b ops t tr o H.
  destruct (run_agree _ _ _ _ _ _ (agree_new self a b) H) as [Ag _]. simpl rt_self in Ag.
  assert (Fr : forall h, handed_out tr h -> h < rt_next t).
  { clear o Ag. revert t tr H. induction ops as [|o ops IH] using rev_ind; intros t tr.
    - intro H; apply pair_equal_spec in H as [<- <-]. intros h (o & id & [X|X]); destruct X.
    - rewrite run_app. destruct (run (rt_new self a b) ops) as [t1 tr1]. simpl.
      destruct (step t1 o) as [t2 u] eqn:Es. intro H; apply pair_equal_spec in H as [<- <-].
      assert (Hn : rt_next t1 <= rt_next t2) by (pose proof (step_next t1 o) as X; rewrite Es in X; exact X).
      intros h (o' & id & X). specialize (IH _ _ eq_refl h).
      destruct X as [X|X]; apply in_app_iff in X as [X|[X|[]]].
      + assert (h < rt_next t1) by (apply IH; exists o', id; auto). lia.
      + injection X as _ ->. apply step_out_tunnel in Es. lia.
      + assert (h < rt_next t1) by (apply IH; exists o', id; auto). lia.
      + injection X as _ ->. apply step_out_listener in Es. lia. }
  destruct (step t o) as [t' u] eqn:Es. simpl. destruct u; auto.
  - apply step_out_tunnel in Es as (-> & _ & E). rewrite <- (ag_t _ _ _ Ag). split; [exact E|].
    intro X. apply Fr in X. lia.
  - apply step_out_listener in Es as (-> & _ & E). rewrite <- (ag_l _ _ _ Ag). split; [exact E|].
    intro X. apply Fr in X. lia.
Qed.
Print Assumptions C36_ids_not_shared.

(** Messages for other routers, and those for this router that are neither for a tunnel nor build
    requests, reach the tunnel manager in the order they were accepted, each once. *)
Theorem C36_outgoing_in_order : forall self transit_cap manager_cap ops t tr,
  run (rt_new self transit_cap manager_cap) ops = (t, tr) -> manager_dropped ops = false ->
  flat_map (for_manager self) tr = flat_map manager_got tr ++ ch_q (rt_manager t).
Proof. intros self a b ops t tr H Hd. exact (manager_run _ _ _ _ H Hd). Qed.
Print Assumptions C36_outgoing_in_order.

(** ** A concrete history *)
Definition gw (id : N) (mid : N) : message :=
  mkMsg TunnelGateway mid 7 (be_bytes 4 id ++ be_bytes 2 1 ++ [9]).
Definition stat (mid : N) : message := mkMsg DeliveryStatus mid 7 [1; 2].
Definition hist : list op :=
  [OAddTunnel 5 1; OInsertTunnel [5; 6] 2; OInsertListener [40]; OAddTunnel 5 9;
   ORoute (gw 6 1); ORoute (gw 5 2); ORoute (gw 5 3); ORoute (gw 8 4); ORoute (stat 40);
   ORoute (stat 40); ORemoveTunnel 5; ORoute (gw 5 5); ORecvTunnel 0; ORecvTunnel 1;
   ORecvListener 2; ORecvTransit; OAddTunnel 5 4; ORoute (gw 5 6)].
Example C36_history :
  let '(t, tr) := run (rt_new [1] 3 3) hist in
  map snd tr =
  [UTunnel 5 0; UTunnel 6 1; UListener 40 2; UNone;
   UResult ROk; UResult ROk; UResult (RErr ChannelFull (gw 5 3)); UResult (RErr (RouteNotFound 8) (gw 8 4));
   UResult ROk; UResult ROk; UNone; UResult (RErr (RouteNotFound 5) (gw 5 5));
   UMessage (gw 5 2); UMessage (gw 6 1); UMessage (stat 40); UMessage (stat 40);
   UTunnel 5 3; UResult ROk] /\
  accepted [1] [] [] tr =
  [(Some (PTunnel 1), gw 6 1); (Some (PTunnel 0), gw 5 2); (Some (PListener 2), stat 40);
   (Some PTransit, stat 40); (Some (PTunnel 3), gw 5 6)] /\
  waiting (PTunnel 3) t = [gw 5 6] /\ dropped (PTunnel 3) hist = false /\
  registers [1] [] [] tr = ([(5, 3); (6, 1)], []) /\ registered_size 3 tr = Some 4.
Proof. vm_compute. split; [reflexivity|]. split; [reflexivity|]. split; [reflexivity|].
  split; [reflexivity|]. split; reflexivity.
Qed.

(** ** Once the transport manager is gone no message for another router is accepted *)
Lemma route_keeps_manager : forall t m, rt_manager (fst (route_message t m)) = rt_manager t.
Proof.
  intros t m. unfold route_message, route_tunnel_message, route_listener_message.
  repeat match goal with |- context [match ?x with _ => _ end] => destruct x end; reflexivity.
Qed.
Lemma step_closed : forall t o, ch_open (rt_manager t) = false -> ch_open (rt_manager (fst (step t o))) = false.
Proof.
  intros t o H. assert (S : forall x, try_send (rt_manager t) x = inr Closed) by (intros x; unfold try_send; rewrite H; reflexivity).
  destruct o; cbn [step].
  - assert (E : rt_manager (fst (try_add_tunnel t id cap)) = rt_manager t).
    { unfold try_add_tunnel, register_tunnel. repeat match goal with |- context [match ?x with _ => _ end] => destruct x end; reflexivity. }
    destruct (try_add_tunnel t id cap) as [t' [?|]]; cbn [fst] in *; rewrite E; exact H.
  - match goal with |- context [insert_tunnel t ?d ?c] => assert (E : rt_manager (fst (insert_tunnel t d c)) = rt_manager t) end.
    { unfold insert_tunnel, register_tunnel. destruct (draw_free _ _); reflexivity. }
    destruct (insert_tunnel _ _ _) as [t' [[? ?]|]]; cbn [fst] in *; rewrite E; exact H.
  - exact H.
  - match goal with |- context [insert_listener t ?d] => assert (E : rt_manager (fst (insert_listener t d)) = rt_manager t) end.
    { unfold insert_listener. destruct (draw_free _ _); reflexivity. }
    destruct (insert_listener _ _) as [t' [[? ?]|]]; cbn [fst] in *; rewrite E; exact H.
  - exact H.
  - pose proof (route_keeps_manager t m) as E. destruct (route_message t m). cbn [fst] in *. rewrite E. exact H.
  - unfold send_message. rewrite !S. destruct (beq _ _).
    + destruct (parse_short _) as [[m ?]|]; [|exact H]. destruct (routed_type _); [|rewrite S; exact H].
      pose proof (route_keeps_manager t m) as E. destruct (route_message t m). cbn [fst] in *. rewrite E. exact H.
    + destruct (parse_short _) as [[m ?]|]; exact H.
  - assert (E : rt_manager (fst (recv_tunnel t h)) = rt_manager t).
    { unfold recv_tunnel. repeat match goal with |- context [match ?x with _ => _ end] => destruct x end; reflexivity. }
    destruct (recv_tunnel t h) as [t' [?|]]; cbn [fst] in *; rewrite E; exact H.
  - unfold drop_tunnel. repeat match goal with |- context [match ?x with _ => _ end] => destruct x end; exact H.
  - assert (E : rt_manager (fst (recv_listener t h)) = rt_manager t).
    { unfold recv_listener. repeat match goal with |- context [match ?x with _ => _ end] => destruct x end; reflexivity. }
    destruct (recv_listener t h) as [t' [?|]]; cbn [fst] in *; rewrite E; exact H.
  - unfold drop_listener. repeat match goal with |- context [match ?x with _ => _ end] => destruct x end; exact H.
  - unfold recv_transit. destruct (ch_q (rt_transit t)); exact H.
  - exact H.
  - unfold recv_manager. destruct (ch_q (rt_manager t)); exact H.
  - reflexivity.
Qed.
Theorem C36_nothing_for_a_dead_manager : forall self transit_cap manager_cap ops t tr router msg fb,
  run (rt_new self transit_cap manager_cap) ops = (t, tr) -> manager_dropped ops = true -> beq router self = false ->
  fst (step t (OSend router msg fb)) = t /\
  forall f, snd (step t (OSend router msg fb)) <> USend (SOut ROk f).
Proof.
  intros self a b ops t tr router msg fb H Hd Hr.
  assert (G : forall ops t0 t tr, run t0 ops = (t, tr) ->
    ch_open (rt_manager t0) = false \/ manager_dropped ops = true -> ch_open (rt_manager t) = false).
  { clear. induction ops as [|o ops IH]; intros t0 t tr H [K|K]; cbn [run] in H.
    - apply pair_equal_spec in H as [<- _]. exact K.
    - discriminate K.
    - pose proof (step_closed t0 o K) as E. destruct (step t0 o) as [t1 u]. destruct (run t1 ops) as [t2 us] eqn:R.
      apply pair_equal_spec in H as [<- _]. exact (IH _ _ _ R (or_introl E)).
    - destruct (step t0 o) as [t1 u] eqn:S. destruct (run t1 ops) as [t2 us] eqn:R.
      apply pair_equal_spec in H as [<- _]. apply (IH _ _ _ R). unfold manager_dropped in *. cbn [existsb] in K.
      destruct o; try (right; exact K). left. apply pair_equal_spec in S as [<- _]. reflexivity. }
  pose proof (G _ _ _ _ H (or_intror Hd)) as C.
  assert (Sf : rt_self t = self).
  { destruct (run_agree _ _ _ _ _ _ (agree_new self a b) H) as [_ E]. exact E. }
  cbn [step]. unfold send_message. rewrite Sf, Hr. unfold try_send. rewrite C. cbn [negb].
  destruct (parse_short msg) as [[m ?]|]; cbn; split; try reflexivity; intros f; discriminate.
Qed.
Print Assumptions C36_nothing_for_a_dead_manager.
Example C36_dead_manager_ex :
  manager_dropped [OAddTunnel 5 2; ODropManager] = true /\ beq [1; 2] [3; 4] = false /\
  snd (run (rt_new [3; 4] 2 2) [ODropManager; OSend [1; 2] [0] None]) = [(ODropManager, UNone); (OSend [1; 2] [0] None, USend SPanic)].
Proof. repeat split. Qed.
