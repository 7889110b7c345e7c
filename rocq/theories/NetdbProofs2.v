(** Proofs about lookups: one event. *)
From Coq Require Import List NArith ZArith Bool Arith Lia ZifyBool ZifyNat ZifyN Sorting.Sorted Permutation.
From Verif Require Import ListUtil Bytes NMap KadModel KadSpec KadProofs KadProofs2 KadProofs3 NetdbModel NetdbSpec NetdbProofs.
Import ListNotations.
Open Scope N_scope.

Definition base (s : netdb) : Prop := sorted (nkeys (n_active s)) /\ table_ok (n_dht s).
Definition env_ok (e : env) : Prop := forall k, router_id (e_target e k).

(** Timers of [k] are still there. *)
Definition keeps (k : N) (s s' : netdb) : Prop := forall d, In (d, k) (n_timers s) -> In (d, k) (n_timers s').

(** How the query under a key can come out of one event. *)
Inductive entry (e : env) (s : netdb) (o : nop) (s' : netdb) (evs : list nevent) (k : N) (l : bool) : query -> Prop :=
| en_same : forall q, nget k (n_active s) = Some (mk l q) -> keeps k s s' ->
    (forall b f, o <> OReply (Some (k, b, f)) None) -> (forall b f r, o <> OReply (Some (k, b, f)) (Some r)) ->
    (forall d, o = OTimer d k -> ~ (In (d, k) (n_timers s) /\ d <= e_now e)) ->
    (forall l' id' f', ~ In (EvAsk l' id' k f') evs) -> entry e s o s' evs k l q
| en_join : forall q tx, nget k (n_active s) = Some (mk l q) -> keeps k s s' -> o = request l k tx -> evs = [] ->
    entry e s o s' evs k l (add_sub tx q)
| en_start : forall tx f, nget k (n_active s) = None -> o = request l k tx -> evs = [EvAsk l tx k f] ->
    In (e_now e + query_timeout, k) (n_timers s') ->
    entry e s o s' evs k l (query_new (e_now e) tx f)
| en_reply : forall q q' routers from sender u, nget k (n_active s) = Some (mk l q) -> keeps k s s' ->
    o = OReply (Some (k, routers, from)) sender -> handle_search_reply e routers q = (q', u) ->
    (forall l' id' k' f', ~ In (EvAsk l' id' k' f') evs) ->
    entry e s o s' evs k l q'
| en_retry : forall q q' f d t, nget k (n_active s) = Some (mk l q) -> o = OTimer d k ->
    evs = [EvAsk l (q_id q) k f] -> In (e_now e + query_timeout, k) (n_timers s') ->
    e_now e - q_started q < query_total_timeout -> table_ok t ->
    (if l then exists n, pick_floodfill n e t k (set_selected None q) = Some (inr f, q')
     else next_floodfill e t k (set_selected None q) = (inr f, q')) ->
    entry e s o s' evs k l (set_selected (Some f) (mark_queried f q'))
| en_unsent : forall q q' f d t, nget k (n_active s) = Some (mk l q) -> o = OTimer d k ->
    evs = [] -> In (e_now e + query_timeout, k) (n_timers s') ->
    e_now e - q_started q < query_total_timeout -> table_ok t -> l = false ->
    next_floodfill e t k (set_selected None q) = (inr f, q') ->
    entry e s o s' evs k l q'.

Lemma mk_inj : forall l q l' q', mk l q = mk l' q' -> l = l' /\ q = q'.
Proof. intros [] q [] q' H; cbn in H; inversion H; subst; now split. Qed.

(** Lookups of unknown routers only add plain router lookups and timers. *)
Lemma lookups_spec : forall e via keys s s' evs,
  lookup_routers e via keys s = (s', evs) ->
  n_dht s' = n_dht s /\ (forall k, keeps k s s') /\
  (sorted (nkeys (n_active s)) -> sorted (nkeys (n_active s'))) /\
  (forall k l q, nget k (n_active s') = Some (mk l q) -> nget k (n_active s) = Some (mk l q)) /\
  (forall ev, In ev evs -> (exists k v, ev = EvLookup k v) \/
     exists tx k l q, ev = EvDrop tx /\ In k keys /\ nget k (n_active s) = Some (mk l q) /\ In tx (q_subs q)).
Proof.
  induction keys as [|k keys IH]; intros s s' evs H; cbn [lookup_routers] in H.
  - apply pair_equal_spec in H as [<- <-]. split; [reflexivity|]. split; [intros ? ?; auto|]. split; [auto|].
    split; [auto|]. intros ev [].
  - destruct (e_tunnels e && e_room e k).
    + destruct (lookup_routers e via keys (arm e k (put_active k KRouter s))) as [s1 ev1] eqn:E.
      apply pair_equal_spec in H as [<- <-]. apply IH in E as [H1 [H2 [H3 [H4 H5]]]]. cbn in *.
      split; [assumption|]. split.
      { intros k0 d Hd. apply H2. cbn. apply in_or_app. now left. }
      split. { intro So. apply H3. now apply nput_Sorted. }
      split. { intros k0 l q Hg. apply H4 in Hg. destruct (N.eq_dec k0 k) as [->|Nk].
               - rewrite nget_nput_same in Hg. destruct l; discriminate.
               - now rewrite nget_nput_other in Hg. }
      intros ev [<-|Hev]; [left; eauto|]. apply in_app_or in Hev as [Hev|Hev].
      * right. destruct (nget k (n_active s)) as [kd|] eqn:G; [|contradiction]. cbn in Hev.
        apply in_map_iff in Hev as [tx [<- Htx]]. destruct kd as [q|q| |]; try contradiction; cbn in Htx.
        -- exists tx, k, true, q. repeat split; [now left|exact G|exact Htx].
        -- exists tx, k, false, q. repeat split; [now left|exact G|exact Htx].
      * destruct (H5 ev Hev) as [X|[tx [k0 [l [q [X1 [X2 [X3 X4]]]]]]]]; [now left|right].
        exists tx, k0, l, q. split; [assumption|]. split; [now right|]. split; [|assumption].
        destruct (N.eq_dec k0 k) as [->|Nk].
        -- rewrite nget_nput_same in X3. destruct l; discriminate.
        -- now rewrite nget_nput_other in X3.
    + apply IH in H as [H1 [H2 [H3 [H4 H5]]]]. split; [assumption|]. split; [assumption|]. split; [assumption|].
      split; [assumption|]. intros ev Hev. destruct (H5 ev Hev) as [X|[tx [k0 [l [q [X1 [X2 X3]]]]]]]; [now left|right].
      exists tx, k0, l, q. split; [assumption|]. split; [now right|assumption].
Qed.

Lemma remove_timer_In : forall d k l r, remove_timer d k l = Some r ->
  forall x, In x r -> In x l.
Proof.
  induction l as [|[d' k'] l IH]; intros r H x Hx; [discriminate|]. cbn in H.
  destruct ((d' =? d) && (k' =? k)).
  - injection H as ->. now right.
  - destruct (remove_timer d k l) as [r'|]; [|discriminate]. injection H as <-. destruct Hx as [<-|Hx]; [now left|right; eauto].
Qed.
Lemma remove_timer_some : forall d k l, In (d, k) l -> exists r, remove_timer d k l = Some r /\ length l = S (length r).
Proof.
  induction l as [|[d' k'] l IH]; intro H; [contradiction|]. cbn.
  destruct (N.eqb_spec d' d), (N.eqb_spec k' k); cbn; try (now exists l);
    (destruct H as [[= ? ?]|H]; [congruence|]; destruct (IH H) as [r [-> L]]; eexists; split; [reflexivity|cbn; now rewrite L]).
Qed.
Lemma remove_timer_other : forall d k l r, remove_timer d k l = Some r ->
  forall d' k', k' <> k -> In (d', k') l -> In (d', k') r.
Proof.
  induction l as [|[d0 k0] l IH]; intros r H d' k' Nk Hx; [discriminate|]. cbn in H.
  destruct (N.eqb_spec d0 d), (N.eqb_spec k0 k); cbn in H;
    try (destruct (remove_timer d k l) as [r'|] eqn:E; [|discriminate]; injection H as <-;
         destruct Hx as [Hx|Hx]; [left; assumption|right; eapply IH; eauto]).
  injection H as ->. destruct Hx as [Hx|Hx]; [|assumption]. apply pair_equal_spec in Hx as [_ X]. congruence.
Qed.

Ltac same := apply en_same; try assumption; try discriminate;
  try solve [intros ? ?; assumption]; try solve [intros ? ? ? []]; try solve [intros ? ? ? [X|[]]; discriminate X];
  try (intros; discriminate).

Lemma nget_del_mk : forall k k' m l q, nget k (ndel k' m) = Some (mk l q) -> k <> k' /\ nget k m = Some (mk l q).
Proof.
  intros k k' m l q H. destruct (N.eq_dec k k') as [->|Nk]; [now rewrite nget_ndel_same in H|].
  rewrite nget_ndel_other in H by assumption. now split.
Qed.

Lemma nget_put_mk : forall k k' v m l q, nget k (nput k' v m) = Some (mk l q) ->
  (k = k' /\ v = mk l q) \/ (k <> k' /\ nget k m = Some (mk l q)).
Proof.
  intros k k' v m l q H. destruct (N.eq_dec k k') as [->|Nk].
  - rewrite nget_nput_same in H. left. split; [reflexivity|congruence].
  - rewrite nget_nput_other in H by assumption. now right.
Qed.

Lemma blame_parts : forall q s, n_active (blame q s) = n_active s /\ n_timers (blame q s) = n_timers s /\
  (table_ok (n_dht s) -> table_ok (n_dht (blame q s))).
Proof.
  intros q s. unfold blame. destruct (q_selected q); cbn; (split; [reflexivity|split; [reflexivity|intro H]]); [now apply adjust_ok|exact H].
Qed.

Lemma complete_no_ask : forall q r l id k f, ~ In (EvAsk l id k f) (complete q r).
Proof. intros q r l id k f H. unfold complete in H. apply in_map_iff in H as [x [H _]]. discriminate. Qed.
Lemma drop_no_ask : forall k l id key f, ~ In (EvAsk l id key f) (drop_kind k).
Proof. intros [k|] l id key f H; [|contradiction]. cbn in H. apply in_map_iff in H as [x [H _]]. discriminate. Qed.
Lemma lookups_no_ask : forall e via keys s s' evs l id k f,
  lookup_routers e via keys s = (s', evs) -> ~ In (EvAsk l id k f) evs.
Proof.
  intros e via keys s s' evs l id k f H X. apply lookups_spec in H as [_ [_ [_ [_ H]]]].
  destruct (H _ X) as [[? [? ?]]|[? [? [? [? [? _]]]]]]; discriminate.
Qed.

Lemma first_ends : forall e s key, base s -> env_ok e ->
  exists r, first_floodfill (S (table_size (n_dht s))) e (n_dht s) key [] = Some r /\
    forall f, r = Some f -> e_has e f = true /\ In f (known (n_dht s)).
Proof.
  intros e s key [_ Ht] He. apply first_floodfill_ends; [assumption|apply He|].
  pose proof (fresh_known_le (n_dht s) []). lia.
Qed.

Lemma pick_ends' : forall e t key q, table_ok t -> env_ok e ->
  exists r, pick_floodfill (S (length (q_pending q) + length (q_queryable q) + table_size t)) e t key q = Some r.
Proof.
  intros e t key q Ht He. apply pick_ends; [assumption|apply He|].
  pose proof (fresh_known_le t (q_queried q)). lia.
Qed.

Lemma step_entry : forall e s o s' evs k l q,
  base s -> env_ok e -> nstep e s o = (s', evs) ->
  nget k (n_active s') = Some (mk l q) -> entry e s o s' evs k l q.
Proof.
  intros e s o s' evs k l q Hb He H Hg. destruct o as [key tx|key tx|key p sender|body sender|d key|key|r]; cbn [nstep] in H.
  - (* lease *) unfold query_lease_set in H.
    destruct (nget key (n_active s)) as [[q0|q0| |]|] eqn:G.
    + apply pair_equal_spec in H as [<- <-]. cbn in Hg. apply nget_put_mk in Hg as [[-> X]|[Nk X]].
      * apply (mk_inj true) in X as [<- <-]. eapply en_join; [exact G|intros ? ?; assumption|reflexivity..].
      * same.
    + apply pair_equal_spec in H as [<- <-]. same.
    + apply pair_equal_spec in H as [<- <-]. same.
    + apply pair_equal_spec in H as [<- <-]. same.
    + destruct (first_ends e s key Hb He) as [r [Er _]]. rewrite Er in H. destruct r as [f|].
      2:{ apply pair_equal_spec in H as [<- <-]. same. }
      destruct (e_tunnels e); [destruct (e_room e key)|]; apply pair_equal_spec in H as [<- <-];
        try solve [same].
      cbn in Hg. apply nget_put_mk in Hg as [[-> X]|[Nk X]].
      * apply (mk_inj true) in X as [<- <-]. apply en_start; [assumption|reflexivity..|]. cbn. apply in_or_app. right. now left.
      * apply en_same; try assumption; try discriminate.
        -- intros d0 Hd. cbn. apply in_or_app. now left.
        -- intros l' id' f' [Y|[]]. congruence.
  - (* info *) unfold query_router_info in H.
    destruct (nget key (n_active s)) as [[q0|q0| |]|] eqn:G.
    + apply pair_equal_spec in H as [<- <-]. same.
    + apply pair_equal_spec in H as [<- <-]. cbn in Hg. apply nget_put_mk in Hg as [[-> X]|[Nk X]].
      * apply (mk_inj false) in X as [<- <-]. eapply en_join; [exact G|intros ? ?; assumption|reflexivity..].
      * same.
    + apply pair_equal_spec in H as [<- <-]. same.
    + apply pair_equal_spec in H as [<- <-]. same.
    + destruct (closest (n_dht s) (e_target e key) 1) as [[|f rest]|];
        try solve [apply pair_equal_spec in H as [<- <-]; same].
      destruct (e_tunnels e); [destruct (e_room e key)|]; apply pair_equal_spec in H as [<- <-];
        try solve [same].
      cbn in Hg. apply nget_put_mk in Hg as [[-> X]|[Nk X]].
      * apply (mk_inj false) in X as [<- <-]. apply en_start; [assumption|reflexivity..|]. cbn. apply in_or_app. right. now left.
      * apply en_same; try assumption; try discriminate.
        -- intros d0 Hd. cbn. apply in_or_app. now left.
        -- intros l' id' f' [Y|[]]. congruence.
  - (* store *) unfold on_store in H.
    assert (Case : forall t' evs', (forall l' id' k' f', ~ In (EvAsk l' id' k' f') evs') ->
      nget k (ndel key (n_active s)) = Some (mk l q) ->
      entry e s (OStore key p sender) (with_dht t' (del_active key s)) evs' k l q).
    { intros t' evs' Hn X. apply nget_del_mk in X as [_ X]. apply en_same; try assumption; try discriminate.
      - intros ? ?; assumption.
      - intros; apply Hn. }
    assert (Case0 : forall evs', (forall l' id' k' f', ~ In (EvAsk l' id' k' f') evs') ->
      nget k (ndel key (n_active s)) = Some (mk l q) ->
      entry e s (OStore key p sender) (del_active key s) evs' k l q).
    { intros evs' Hn X. apply nget_del_mk in X as [_ X]. apply en_same; try assumption; try discriminate.
      - intros ? ?; assumption.
      - intros; apply Hn. }
    destruct (nget key (n_active s)) as [kd|] eqn:G.
    + destruct p as [ls|id ff valid acc]; destruct kd as [q0|q0| |];
        try (apply pair_equal_spec in H as [<- <-]; apply Case0; [|exact Hg]; intros; first [apply complete_no_ask|apply (drop_no_ask (Some _))]);
        try (apply pair_equal_spec in H as [<- <-]; apply Case0; [|exact Hg]; intros; intros []).
      * apply pair_equal_spec in H as [<- <-]. apply Case; [|exact Hg]. intros; apply complete_no_ask.
      * destruct valid; apply pair_equal_spec in H as [<- <-]; [apply Case|apply Case0]; try exact Hg; intros; intros [].
    + destruct p as [ls|id ff valid acc]; apply pair_equal_spec in H as [<- <-].
      * same.
      * destruct (valid && ff); same.
  - (* reply *) unfold on_search_reply in H. set (s0 := with_dht _ s) in H.
    assert (Hid : forall s1, nget k (n_active s) = Some (mk l q) -> (forall b f, body <> Some (k, b, f)) -> keeps k s s1 ->
               forall evs', (forall l' id' k' f', ~ In (EvAsk l' id' k' f') evs') -> entry e s (OReply body sender) s1 evs' k l q).
    { intros s1 X Nb K evs' Hn. apply en_same; try assumption; try discriminate.
      - intros b f Y. assert (body = Some (k, b, f)) by congruence. now apply (Nb b f).
      - intros b f r Y. assert (body = Some (k, b, f)) by congruence. now apply (Nb b f).
      - intros; apply Hn. }
    destruct body as [[[key routers] from]|].
    2:{ apply pair_equal_spec in H as [<- <-]. apply Hid; [exact Hg|discriminate|intros ? ?; assumption|intros ? ? ? ? []]. }
    change (n_active s0) with (n_active s) in H.
    assert (Rt : forall l0 q0 q1 u s1 ev1, nget key (n_active s) = Some (mk l0 q0) -> handle_search_reply e routers q0 = (q1, u) ->
        lookup_routers e from u (del_active key s0) = (s1, ev1) ->
        (put_active key (mk l0 q1) s1, ev1) = (s', evs) -> entry e s (OReply (Some (key, routers, from)) sender) s' evs k l q).
    { intros l0 q0 q1 u s1 ev1 G Eh El X. apply pair_equal_spec in X as [<- <-].
      destruct (lookups_spec _ _ _ _ _ _ El) as [L1 [L2 [L3 [L4 L5]]]]. cbn in Hg.
      apply nget_put_mk in Hg as [[-> X]|[Nk X]].
      - apply mk_inj in X as [<- <-]. eapply en_reply; [exact G| |reflexivity|exact Eh|].
        + intros d Hd. cbn. now apply L2.
        + intros l' id' k' f' Y. eapply lookups_no_ask; eauto.
      - apply L4 in X. apply nget_del_mk in X as [_ X]. apply Hid; [assumption|congruence| |].
        + intros d Hd. cbn. now apply L2.
        + intros l' id' k' f' Y. eapply lookups_no_ask; eauto. }
    destruct (nget key (n_active s)) as [[q0|q0| |]|] eqn:G.
    + destruct (handle_search_reply e routers q0) as [q1 u] eqn:Eh.
      destruct (lookup_routers e from u (del_active key s0)) as [s1 ev1] eqn:El.
      apply (Rt true q0 q1 u s1 ev1); assumption || reflexivity.
    + destruct (handle_search_reply e routers q0) as [q1 u] eqn:Eh.
      destruct (lookup_routers e from u (del_active key s0)) as [s1 ev1] eqn:El.
      apply (Rt false q0 q1 u s1 ev1); assumption || reflexivity.
    + destruct (lookups_spec _ _ _ _ _ _ H) as [L1 [L2 [L3 [L4 L5]]]].
      apply L4 in Hg. apply nget_del_mk in Hg as [Nk X]. apply Hid; [assumption|congruence| |].
      * intros d Hd. now apply L2.
      * intros l' id' k' f' Y. eapply lookups_no_ask; eauto.
    + apply pair_equal_spec in H as [<- <-]. cbn in Hg. apply nget_del_mk in Hg as [Nk X].
      apply Hid; [assumption|congruence|intros ? ?; assumption|intros ? ? ? ? []].
    + apply pair_equal_spec in H as [<- <-]. apply Hid; [exact Hg| |intros ? ?; assumption|intros ? ? ? ? []].
      intros b f X. assert (key = k) as -> by congruence. cbn in Hg. rewrite G in Hg. discriminate.
  - (* timer *) unfold on_timer in H.
    assert (Idle : nget k (n_active s) = Some (mk l q) -> ~ (In (d, key) (n_timers s) /\ d <= e_now e) ->
       entry e s (OTimer d key) s [] k l q).
    { intros X N. apply en_same; try assumption; try discriminate; [intros ? ?; assumption| |intros ? ? ? []].
      intros d0 [= <- <-]. exact N. }
    destruct (N.leb_spec d (e_now e)).
    2:{ apply pair_equal_spec in H as [<- <-]. apply Idle; [assumption|lia]. }
    destruct (remove_timer d key (n_timers s)) as [ts|] eqn:Er.
    2:{ apply pair_equal_spec in H as [<- <-]. apply Idle; [assumption|]. intros [X _].
        destruct (remove_timer_some _ _ _ X) as [r [Y _]]. congruence. }
    assert (Oth : forall s1 evs', k <> key -> nget k (n_active s) = Some (mk l q) -> (forall x, In x ts -> In x (n_timers s1)) ->
              (forall l' id' f', ~ In (EvAsk l' id' k f') evs') -> entry e s (OTimer d key) s1 evs' k l q).
    { intros s1 evs' Nk X T Hn. apply en_same; try assumption; try discriminate.
      - intros d0 Hd. apply T. now apply (remove_timer_other _ _ _ _ Er).
      - intros d0 [= _ Y]. congruence. }
    cbn [n_active] in H. destruct (nget key (n_active s)) as [kd|] eqn:G.
    2:{ apply pair_equal_spec in H as [<- <-]. cbn in Hg.
        assert (k <> key) by (intros ->; rewrite G in Hg; discriminate).
        apply Oth; [assumption..|auto|intros ? ? ? []]. }
    cbn [n_active] in H. unfold handle_timeout in H. destruct kd as [q0|q0| |].
    + destruct (blame_parts q0 (del_active key (mkNetdb (n_dht s) (n_active s) ts))) as [B1 [B2 B3]].
      specialize (B3 (proj2 Hb)). set (s1 := blame q0 _) in *. cbn in B1, B2.
      destruct (pick_ends' e (n_dht s1) key (set_selected None q0) B3 He) as [[r q1] Ep]. rewrite Ep in H.
      assert (Oth' : forall evs', n_active s' = n_active s1 -> n_timers s' = n_timers s1 -> evs = evs' ->
         (forall l' id' k' f', ~ In (EvAsk l' id' k' f') evs') -> entry e s (OTimer d key) s' evs k l q).
      { intros evs' A T -> Hn. rewrite A, B1 in Hg. apply nget_del_mk in Hg as [Nk X]. apply Oth; try assumption.
        - intros x Hx. rewrite T, B2. exact Hx.
        - intros; apply Hn. }
      destruct r as [err|f].
      { apply pair_equal_spec in H as [<- <-]. eapply Oth'; [reflexivity..|]. intros; apply complete_no_ask. }
      destruct (pick_spec _ _ _ _ _ _ _ B3 (He key) Ep) as [Hh [_ [_ [Hf _]]]]. destruct (Hf f eq_refl) as [_ [Tm _]].
      destruct (e_tunnels e); [destruct (e_room e key)|]; apply pair_equal_spec in H as [<- <-];
        try (eapply Oth'; [reflexivity..|]; intros; apply complete_no_ask).
      cbn in Hg. rewrite B1 in Hg. apply nget_put_mk in Hg as [[-> X]|[Nk X]].
      * apply (mk_inj true) in X as [<- <-]. destruct Hh as [Hid _]. cbn in Hid.
        apply (en_retry e s _ _ _ key true q0 q1 f d (n_dht s1)); try assumption; try reflexivity.
        -- rewrite Hid. reflexivity.
        -- cbn. apply in_or_app. right. now left.
        -- eauto.
      * apply nget_del_mk in X as [_ X]. apply Oth; [assumption..| |].
        -- intros x Hx. cbn. rewrite B2. apply in_or_app. now left.
        -- intros l' id' f' [Y|[]]. congruence.
    + destruct (blame_parts q0 (del_active key (mkNetdb (n_dht s) (n_active s) ts))) as [B1 [B2 B3]].
      specialize (B3 (proj2 Hb)). set (s1 := blame q0 _) in *. cbn in B1, B2.
      destruct (next_floodfill e (n_dht s1) key (set_selected None q0)) as [r q1] eqn:Ep.
      destruct r as [err|f].
      { apply pair_equal_spec in H as [<- <-]. rewrite B1 in Hg. apply nget_del_mk in Hg as [Nk X]. apply Oth; try assumption.
        - intros x Hx. rewrite B2. exact Hx.
        - intros; apply complete_no_ask. }
      destruct (next_floodfill_spec _ _ _ _ _ _ B3 (He key) Ep) as [Hh [_ [_ [_ [_ [Hf _]]]]]]. destruct (Hf f eq_refl) as [Tm _].
      destruct (e_tunnels e && e_room e key); apply pair_equal_spec in H as [<- <-];
        cbn in Hg; rewrite B1 in Hg; apply nget_put_mk in Hg as [[-> X]|[Nk X]].
      * apply (mk_inj false) in X as [<- <-]. destruct Hh as [Hid _]. cbn in Hid.
        apply (en_retry e s _ _ _ key false q0 q1 f d (n_dht s1)); try assumption; try reflexivity.
        -- rewrite Hid. reflexivity.
        -- cbn. apply in_or_app. right. now left.
      * apply nget_del_mk in X as [_ X]. apply Oth; [assumption..| |].
        -- intros x Hx. cbn. rewrite B2. apply in_or_app. now left.
        -- intros l' id' f' [Y|[]]. congruence.
      * apply (mk_inj false) in X as [<- <-].
        apply (en_unsent e s _ _ _ key false q0 q1 f d (n_dht s1)); try assumption; try reflexivity.
        cbn. apply in_or_app. right. now left.
      * apply nget_del_mk in X as [_ X]. apply Oth; [assumption..| |].
        -- intros x Hx. cbn. rewrite B2. apply in_or_app. now left.
        -- intros l' id' f' [].
    + apply pair_equal_spec in H as [<- <-]. cbn in Hg. apply nget_del_mk in Hg as [Nk X]. apply Oth; [assumption..|auto|intros ? ? ? []].
    + apply pair_equal_spec in H as [<- <-]. cbn in Hg. apply nget_del_mk in Hg as [Nk X]. apply Oth; [assumption..|auto|intros ? ? ? []].
  - (* explore *) unfold explore in H. destruct (closest (n_dht s) (e_target e key) 1) as [[|f rest]|];
      try solve [apply pair_equal_spec in H as [<- <-]; same].
    destruct (e_tunnels e && e_room e key); apply pair_equal_spec in H as [<- <-]; [|same].
    cbn in Hg. apply nget_put_mk in Hg as [[-> X]|[Nk X]]; [destruct l; discriminate|].
    apply en_same; try assumption; try discriminate.
    + intros d0 Hd. cbn. apply in_or_app. now left.
    + intros; apply drop_no_ask.
  - apply pair_equal_spec in H as [<- <-]. same.
Qed.
