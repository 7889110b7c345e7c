(** Proofs about lookups: questions asked, closed channels. *)
From Coq Require Import List NArith ZArith Bool Arith Lia ZifyBool ZifyNat ZifyN Sorting.Sorted Permutation.
From Verif Require Import ListUtil Bytes NMap KadModel KadSpec KadProofs KadProofs2 KadProofs3 NetdbModel NetdbSpec NetdbProofs NetdbProofs2 NetdbProofs3.
Import ListNotations.
Open Scope N_scope.

(** ** Who is asked *)
Lemma step_ask : forall e s o s' evs l id k f, base s -> env_ok e -> nstep e s o = (s', evs) ->
  In (EvAsk l id k f) evs ->
  evs = [EvAsk l id k f] /\
  exists q, nget k (n_active s') = Some (mk l q) /\ q_id q = id /\ q_selected q = Some f.
Proof.
  intros e s o s' evs l id k f Hb He H Hin.
  destruct o as [key tx'|key tx'|key p sender|body sender|d key|key|r']; cbn [nstep] in *.
  - unfold query_lease_set in H. destruct (nget key (n_active s)) as [[q0|q0| |]|];
      try (apply pair_equal_spec in H as [<- <-]; exfalso; repeat destruct Hin as [Hin|Hin]; (discriminate || contradiction)).
    destruct (first_ends e s key Hb He) as [rr [Er _]]. rewrite Er in H.
    destruct rr as [f0|]; [destruct (e_tunnels e); [destruct (e_room e key)|]|];
      apply pair_equal_spec in H as [<- <-]; destruct Hin as [Hin|[]]; try discriminate. injection Hin as <- <- <- <-.
    split; [reflexivity|]. exists (query_new (e_now e) tx' f0). cbn. now rewrite nget_nput_same.
  - unfold query_router_info in H. destruct (nget key (n_active s)) as [[q0|q0| |]|];
      try (apply pair_equal_spec in H as [<- <-]; exfalso; repeat destruct Hin as [Hin|Hin]; (discriminate || contradiction)).
    destruct (closest _ _ _) as [[|f0 rest]|]; [|destruct (e_tunnels e); [destruct (e_room e key)|]|];
      apply pair_equal_spec in H as [<- <-]; destruct Hin as [Hin|[]]; try discriminate. injection Hin as <- <- <- <-.
    split; [reflexivity|]. exists (query_new (e_now e) tx' f0). cbn. now rewrite nget_nput_same.
  - exfalso. unfold on_store in H. destruct (nget key (n_active s)) as [kd|] eqn:G.
    + destruct p as [ls|i ff valid acc]; destruct kd as [q0|q0| |]; [..|destruct valid];
        apply pair_equal_spec in H as [<- <-]; try contradiction;
        first [exact (drop_no_ask _ _ _ _ _ Hin)|exact (complete_no_ask _ _ _ _ _ _ Hin)].
    + destruct p; apply pair_equal_spec in H as [<- <-]; contradiction.
  - exfalso. unfold on_search_reply in H. set (s0 := with_dht _ s) in H.
    destruct body as [[[key routers] from]|]; [|apply pair_equal_spec in H as [<- <-]; contradiction].
    destruct (nget key (n_active s0)) as [[q0|q0| |]|]; try (apply pair_equal_spec in H as [<- <-]; contradiction).
    + destruct (handle_search_reply e routers q0) as [q1 u].
      destruct (lookup_routers e from u (del_active key s0)) as [s1 ev1] eqn:El. apply pair_equal_spec in H as [<- <-].
      eapply lookups_no_ask; eauto.
    + destruct (handle_search_reply e routers q0) as [q1 u].
      destruct (lookup_routers e from u (del_active key s0)) as [s1 ev1] eqn:El. apply pair_equal_spec in H as [<- <-].
      eapply lookups_no_ask; eauto.
    + eapply lookups_no_ask; eauto.
  - unfold on_timer in H. destruct (d <=? e_now e); [|apply pair_equal_spec in H as [<- <-]; contradiction].
    destruct (remove_timer d key (n_timers s)) as [ts|]; [|apply pair_equal_spec in H as [<- <-]; contradiction].
    cbn [n_active] in H. destruct (nget key (n_active s)) as [kd|] eqn:G; [|apply pair_equal_spec in H as [<- <-]; contradiction].
    unfold handle_timeout in H. destruct kd as [q0|q0| |]; try (apply pair_equal_spec in H as [<- <-]; contradiction).
    + destruct (blame_parts q0 (del_active key (mkNetdb (n_dht s) (n_active s) ts))) as [B1 [B2 B3]].
      specialize (B3 (proj2 Hb)). set (s1 := blame q0 _) in *.
      destruct (pick_ends' e (n_dht s1) key (set_selected None q0) B3 He) as [[rr q1] Ep]. rewrite Ep in H.
      destruct rr as [err|f0]; [|destruct (e_tunnels e); [destruct (e_room e key)|]];
        apply pair_equal_spec in H as [<- <-]; try (exfalso; exact (complete_no_ask _ _ _ _ _ _ Hin)).
      destruct Hin as [Hin|[]]. injection Hin as <- <- <- <-. split; [reflexivity|].
      eexists. cbn. rewrite nget_nput_same. split; [reflexivity|now split].
    + destruct (blame_parts q0 (del_active key (mkNetdb (n_dht s) (n_active s) ts))) as [B1 [B2 B3]].
      specialize (B3 (proj2 Hb)). set (s1 := blame q0 _) in *.
      destruct (next_floodfill e (n_dht s1) key (set_selected None q0)) as [rr q1] eqn:Ep.
      destruct rr as [err|f0]; [|destruct (e_tunnels e && e_room e key)];
        apply pair_equal_spec in H as [<- <-]; try contradiction; try (exfalso; exact (complete_no_ask _ _ _ _ _ _ Hin)).
      destruct Hin as [Hin|[]]. injection Hin as <- <- <- <-. split; [reflexivity|].
      eexists. cbn. rewrite nget_nput_same. split; [reflexivity|now split].
  - exfalso. unfold explore in H. destruct (closest _ _ _) as [[|f0 rest]|]; [|destruct (e_tunnels e && e_room e key)|];
      apply pair_equal_spec in H as [<- <-]; try contradiction. exact (drop_no_ask _ _ _ _ _ Hin).
  - apply pair_equal_spec in H as [<- <-]. contradiction.
Qed.

(** ** Whose channel is closed without a result *)
Definition kind_of_payload (p : payload) : bool := match p with PLease _ => true | PInfo _ _ _ _ => false end.

Inductive closed (s : netdb) (o : nop) (tx : N) : Prop :=
| cl_other_kind : forall l k v, o = request l k tx -> nget k (n_active s) = Some v -> (forall q, v <> mk l q) -> closed s o tx
| cl_mismatch : forall l k q p sender, o = OStore k p sender -> nget k (n_active s) = Some (mk l q) ->
    In tx (q_subs q) -> kind_of_payload p = negb l -> closed s o tx
| cl_named : forall l k q k' routers from sender, o = OReply (Some (k', routers, from)) sender -> k <> k' ->
    In k routers -> nget k (n_active s) = Some (mk l q) -> In tx (q_subs q) -> closed s o tx
| cl_explored : forall l k q, o = OExplore k -> nget k (n_active s) = Some (mk l q) -> In tx (q_subs q) -> closed s o tx.

Lemma search_unknown : forall e routers q u q' u',
  fold_left (search_body e) routers (q, u) = (q', u') -> forall x, In x u' -> In x u \/ In x routers.
Proof.
  induction routers as [|r l IH]; intros q u q' u' H x Hx; cbn [fold_left] in H.
  - apply pair_equal_spec in H as [<- <-]. now left.
  - cbn [search_body] in H. destruct (smem r (q_queried q)); [|destruct (e_has e r)];
      destruct (IH _ _ _ _ H x Hx) as [X|X]; try (right; right; exact X); try (now left).
    apply in_app_iff in X as [X|[<-|[]]]; [now left|right; now left].
Qed.

Lemma kind_subs_mk : forall v tx, In tx (kind_subs v) -> exists l q, v = mk l q /\ In tx (q_subs q).
Proof. intros [q|q| |] tx H; [exists true, q|exists false, q|contradiction..]; now split. Qed.

Lemma step_drop : forall e s o s' evs tx, base s -> env_ok e -> nstep e s o = (s', evs) ->
  In (EvDrop tx) evs -> closed s o tx.
Proof.
  intros e s o s' evs tx Hb He H Hin.
  assert (NC : forall q r', ~ In (EvDrop tx) (complete q r')).
  { intros q r' X. apply in_map_iff in X as [y [X Y]]. discriminate. }
  assert (ND : forall k, In (EvDrop tx) (drop_kind k) -> exists l q, k = Some (mk l q) /\ In tx (q_subs q)).
  { intros [k|] X; [|contradiction]. apply in_map_iff in X as [y [[= ->] Y]].
    apply kind_subs_mk in Y as [l [q [-> Y]]]. now exists l, q. }
  assert (NL : forall via keys key t s2 ev, lookup_routers e via keys (del_active key (with_dht t s)) = (s2, ev) ->
     In (EvDrop tx) ev -> exists k l q, In k keys /\ k <> key /\ nget k (n_active s) = Some (mk l q) /\ In tx (q_subs q)).
  { intros via keys key t s2 ev El X. apply lookups_spec in El as [_ [_ [_ [_ L]]]].
    destruct (L _ X) as [[? [? ?]]|[tx' [k [l [q [[= <-] [K1 [K2 K3]]]]]]]]; [discriminate|].
    cbn in K2. apply nget_del_mk in K2 as [K2 K4]. now exists k, l, q. }
  destruct o as [key tx'|key tx'|key p sender|body sender|d key|key|r']; cbn [nstep] in *.
  - unfold query_lease_set in H. destruct (nget key (n_active s)) as [v|] eqn:G.
    + destruct v as [q0|q0| |]; apply pair_equal_spec in H as [<- <-]; try contradiction; destruct Hin as [[= ->]|[]];
        apply (cl_other_kind s _ tx true key) with (2 := G); (reflexivity || discriminate).
    + exfalso. destruct (first_ends e s key Hb He) as [rr [Er _]]. rewrite Er in H.
      destruct rr as [f0|]; [destruct (e_tunnels e); [destruct (e_room e key)|]|];
        apply pair_equal_spec in H as [<- <-]; destruct Hin as [Hin|[]]; discriminate.
  - unfold query_router_info in H. destruct (nget key (n_active s)) as [v|] eqn:G.
    + destruct v as [q0|q0| |]; apply pair_equal_spec in H as [<- <-]; try contradiction; destruct Hin as [[= ->]|[]];
        apply (cl_other_kind s _ tx false key) with (2 := G); (reflexivity || discriminate).
    + exfalso. destruct (closest _ _ _) as [[|f0 rest]|]; [|destruct (e_tunnels e); [destruct (e_room e key)|]|];
        apply pair_equal_spec in H as [<- <-]; destruct Hin as [Hin|[]]; discriminate.
  - unfold on_store in H. destruct (nget key (n_active s)) as [kd|] eqn:G.
    + destruct p as [ls|i ff valid acc]; destruct kd as [q0|q0| |]; [..|destruct valid];
        apply pair_equal_spec in H as [<- <-]; try contradiction; try (exfalso; exact (NC _ _ Hin));
        apply ND in Hin as [l [q [[= E] Hin]]];
        first [destruct l; discriminate E|eapply cl_mismatch with (l := l); [reflexivity|rewrite G, E; reflexivity|exact Hin|]];
        destruct l; (discriminate E || reflexivity).
    + destruct p; apply pair_equal_spec in H as [<- <-]; contradiction.
  - unfold on_search_reply in H. set (s0 := with_dht _ s) in H.
    destruct body as [[[key routers] from]|]; [|apply pair_equal_spec in H as [<- <-]; contradiction].
    assert (U : forall q1 q2 u, handle_search_reply e routers q1 = (q2, u) -> forall x, In x u -> In x routers).
    { intros q1 q2 u X x Hx. unfold handle_search_reply in X. fold (search_body e) in X.
      destruct (search_unknown _ _ _ _ _ _ X x Hx) as [[]|]; assumption. }
    destruct (nget key (n_active s0)) as [[q0|q0| |]|]; try (apply pair_equal_spec in H as [<- <-]; contradiction).
    + destruct (handle_search_reply e routers q0) as [q1 u] eqn:Eh.
      destruct (lookup_routers e from u (del_active key s0)) as [s1 ev1] eqn:El. apply pair_equal_spec in H as [<- <-].
      destruct (NL _ _ _ _ _ _ El Hin) as [k [l [q [K1 [K2 [K3 K4]]]]]]. eapply cl_named; eauto.
    + destruct (handle_search_reply e routers q0) as [q1 u] eqn:Eh.
      destruct (lookup_routers e from u (del_active key s0)) as [s1 ev1] eqn:El. apply pair_equal_spec in H as [<- <-].
      destruct (NL _ _ _ _ _ _ El Hin) as [k [l [q [K1 [K2 [K3 K4]]]]]]. eapply cl_named; eauto.
    + destruct (NL _ _ _ _ _ _ H Hin) as [k [l [q [K1 [K2 [K3 K4]]]]]]. apply filter_In in K1 as [K1 _]. eapply cl_named; eauto.
  - exfalso. unfold on_timer in H. destruct (d <=? e_now e); [|apply pair_equal_spec in H as [<- <-]; contradiction].
    destruct (remove_timer d key (n_timers s)) as [ts|]; [|apply pair_equal_spec in H as [<- <-]; contradiction].
    cbn [n_active] in H. destruct (nget key (n_active s)) as [kd|] eqn:G; [|apply pair_equal_spec in H as [<- <-]; contradiction].
    unfold handle_timeout in H. destruct kd as [q0|q0| |]; try (apply pair_equal_spec in H as [<- <-]; contradiction).
    + destruct (blame_parts q0 (del_active key (mkNetdb (n_dht s) (n_active s) ts))) as [B1 [B2 B3]].
      specialize (B3 (proj2 Hb)). set (s1 := blame q0 _) in *.
      destruct (pick_ends' e (n_dht s1) key (set_selected None q0) B3 He) as [[rr q1] Ep]. rewrite Ep in H.
      destruct rr as [err|f0]; [|destruct (e_tunnels e); [destruct (e_room e key)|]];
        apply pair_equal_spec in H as [<- <-]; try exact (NC _ _ Hin).
      destruct Hin as [Hin|[]]. discriminate.
    + destruct (next_floodfill _ _ _ _) as [rr q1] eqn:Ep.
      destruct rr as [err|f0]; [|destruct (e_tunnels e && e_room e key)];
        apply pair_equal_spec in H as [<- <-]; try contradiction; try exact (NC _ _ Hin).
      destruct Hin as [Hin|[]]. discriminate.
  - unfold explore in H. destruct (closest _ _ _) as [[|f0 rest]|]; [|destruct (e_tunnels e && e_room e key)|];
      apply pair_equal_spec in H as [<- <-]; try contradiction.
    apply ND in Hin as [l [q [E Hin]]]. eapply cl_explored; eauto.
  - apply pair_equal_spec in H as [<- <-]. contradiction.
Qed.
