(** Proofs about lookups: accounting of callers. *)
From Coq Require Import List NArith ZArith Bool Arith Lia ZifyBool ZifyNat ZifyN Sorting.Sorted Permutation.
From Verif Require Import ListUtil Bytes NMap KadModel KadSpec KadProofs KadProofs2 KadProofs3 NetdbModel NetdbSpec NetdbProofs NetdbProofs2.
Import ListNotations.
Open Scope N_scope.

(** ** Keeping the tables in order *)
Lemma step_base : forall e s o s' evs, base s -> env_ok e -> op_ids o -> nstep e s o = (s', evs) -> base s'.
Proof.
  intros e s o s' evs [Hs Ht] He Ho H. destruct o as [key tx|key tx|key p sender|body sender|d key|key|r]; cbn [nstep] in H.
  - unfold query_lease_set in H. destruct (nget key (n_active s)) as [[q0|q0| |]|].
    5: destruct (first_floodfill _ _ _ _ _) as [[f|]|]; [destruct (e_tunnels e); [destruct (e_room e key)|]|..].
    all: apply pair_equal_spec in H as [<- <-]; split; cbn; try assumption; now apply nput_Sorted.
  - unfold query_router_info in H. destruct (nget key (n_active s)) as [[q0|q0| |]|].
    5: destruct (closest _ _ _) as [[|f rest]|]; [|destruct (e_tunnels e); [destruct (e_room e key)|]|].
    all: apply pair_equal_spec in H as [<- <-]; split; cbn; try assumption; now apply nput_Sorted.
  - unfold on_store in H. cbn in Ho. destruct (nget key (n_active s)) as [kd|].
    + destruct p as [ls|id ff valid acc]; destruct kd as [q0|q0| |];
        [..|destruct valid]; apply pair_equal_spec in H as [<- <-]; split; cbn; try assumption; try (now apply ndel_Sorted);
        apply score_sender_ok; try assumption. destruct ff; [now apply add_ok|assumption].
    + destruct p as [ls|id ff valid acc]; apply pair_equal_spec in H as [<- <-]; [now split|].
      destruct (valid && ff); split; cbn; try assumption. now apply add_ok.
  - unfold on_search_reply in H. set (s0 := with_dht _ s) in H.
    assert (B0 : base s0) by (split; [exact Hs|now apply score_sender_ok]).
    assert (L : forall via keys s1 s2 ev, lookup_routers e via keys s1 = (s2, ev) -> base s1 -> base s2).
    { intros via keys s1 s2 ev El [B1 B2]. apply lookups_spec in El as [L1 [_ [L3 _]]]. split; [auto|now rewrite L1]. }
    assert (Dl : forall key, base (del_active key s0)).
    { intro key. destruct B0 as [X Y]. split; [now apply ndel_Sorted|exact Y]. }
    destruct body as [[[key routers] from]|].
    2:{ apply pair_equal_spec in H as [<- <-]. assumption. }
    destruct (nget key (n_active s0)) as [[q0|q0| |]|].
    + destruct (handle_search_reply e routers q0) as [q1 u].
      destruct (lookup_routers e from u (del_active key s0)) as [s1 ev1] eqn:El. apply pair_equal_spec in H as [<- <-].
      destruct (L _ _ _ _ _ El (Dl key)) as [X Y]. split; [now apply nput_Sorted|exact Y].
    + destruct (handle_search_reply e routers q0) as [q1 u].
      destruct (lookup_routers e from u (del_active key s0)) as [s1 ev1] eqn:El. apply pair_equal_spec in H as [<- <-].
      destruct (L _ _ _ _ _ El (Dl key)) as [X Y]. split; [now apply nput_Sorted|exact Y].
    + apply L in H; auto.
    + apply pair_equal_spec in H as [<- <-]. apply Dl.
    + apply pair_equal_spec in H as [<- <-]. assumption.
  - unfold on_timer in H. destruct (d <=? e_now e); [|apply pair_equal_spec in H as [<- <-]; now split].
    destruct (remove_timer d key (n_timers s)) as [ts|]; [|apply pair_equal_spec in H as [<- <-]; now split].
    cbn [n_active] in H. destruct (nget key (n_active s)) as [kd|]; [|apply pair_equal_spec in H as [<- <-]; now split].
    unfold handle_timeout in H.
    assert (Hd : sorted (nkeys (ndel key (n_active s)))) by now apply ndel_Sorted.
    destruct kd as [q0|q0| |]; try (apply pair_equal_spec in H as [<- <-]; now split).
    + destruct (blame_parts q0 (del_active key (mkNetdb (n_dht s) (n_active s) ts))) as [B1 [B2 B3]].
      specialize (B3 Ht). set (s1 := blame q0 _) in *. cbn in B1.
      destruct (pick_floodfill _ _ _ _ _) as [[[err|f] q1]|]; [|destruct (e_tunnels e); [destruct (e_room e key)|]|];
        apply pair_equal_spec in H as [<- <-]; split; cbn; rewrite ?B1; try assumption; now apply nput_Sorted.
    + destruct (blame_parts q0 (del_active key (mkNetdb (n_dht s) (n_active s) ts))) as [B1 [B2 B3]].
      specialize (B3 Ht). set (s1 := blame q0 _) in *. cbn in B1.
      destruct (next_floodfill _ _ _ _) as [[err|f] q1]; [|destruct (e_tunnels e && e_room e key)];
        apply pair_equal_spec in H as [<- <-]; split; cbn; rewrite ?B1; try assumption; now apply nput_Sorted.
  - unfold explore in H. destruct (closest _ _ _) as [[|f rest]|]; [|destruct (e_tunnels e && e_room e key)|];
      apply pair_equal_spec in H as [<- <-]; split; cbn; try assumption; now apply nput_Sorted.
  - apply pair_equal_spec in H as [<- <-]. split; [exact Hs|]. now apply add_ok.
Qed.

(** ** Counting callers *)
Definition wsub (m : nmap kind) : list N := flat_map (fun kv => kind_subs (snd kv)) m.
Definition subs_at (k : N) (m : nmap kind) : list N := match nget k m with Some v => kind_subs v | None => [] end.

Lemma wsub_absent : forall (m : nmap kind) k, ~ In k (nkeys m) -> ndel k m = m.
Proof.
  induction m as [|[j v] m IH]; intros k H; [reflexivity|]. cbn in *. destruct (N.eqb_spec j k) as [->|].
  - exfalso. apply H. now left.
  - rewrite IH by tauto. destruct (N.eqb_spec k j); [congruence|reflexivity].
Qed.

Lemma wsub_del : forall m k, sorted (nkeys m) -> Permutation (wsub m) (subs_at k m ++ wsub (ndel k m)).
Proof.
  unfold subs_at. induction m as [|[j v] m IH]; intros k H; [reflexivity|]. cbn [nkeys map fst] in H.
  pose proof (sorted_NoDup _ H) as ND. apply StronglySorted_inv in H as [H F]. apply NoDup_cons_iff in ND as [Nj _].
  cbn [nget ndel wsub flat_map snd]. fold (wsub m). destruct (N.eqb_spec k j) as [->|Nk].
  - destruct (N.eqb_spec j j); [|contradiction]. rewrite wsub_absent by exact Nj. reflexivity.
  - destruct (N.eqb_spec k j); [contradiction|]. cbn [wsub flat_map snd]. fold (wsub (ndel k m)).
    rewrite (IH k H) at 1. rewrite !app_assoc. apply Permutation_app_tail, Permutation_app_comm.
Qed.

Lemma ndel_nput : forall V k (v : V) (m : nmap V), sorted (nkeys m) -> ndel k (nput k v m) = ndel k m.
Proof.
  induction m as [|[j w] m IH]; intro H.
  - cbn. now rewrite N.eqb_refl.
  - cbn [nput]. cbn [nkeys map fst] in H. pose proof (StronglySorted_inv H) as [H' F].
    destruct (N.ltb_spec k j); [|destruct (N.eqb_spec k j) as [->|]].
    + cbn. rewrite N.eqb_refl. destruct (N.eqb_spec k j); [lia|reflexivity].
    + cbn. now rewrite N.eqb_refl.
    + cbn [ndel]. destruct (N.eqb_spec k j); [contradiction|]. now rewrite IH.
Qed.

Lemma wsub_put : forall m k v, sorted (nkeys m) -> Permutation (wsub (nput k v m)) (kind_subs v ++ wsub (ndel k m)).
Proof.
  intros m k v H. rewrite (wsub_del _ k (nput_Sorted _ k v m H)).
  unfold subs_at. rewrite nget_nput_same, ndel_nput by assumption. reflexivity.
Qed.

Definition evs_settled (evs : list nevent) : list N := flat_map ev_settled evs.

Lemma settled_complete : forall q r, evs_settled (complete q r) = q_subs q.
Proof. intros q r. unfold complete, evs_settled. induction (q_subs q) as [|x l IH]; [reflexivity|]. cbn. now rewrite IH. Qed.
Lemma settled_drop : forall l, evs_settled (map EvDrop l) = l.
Proof. unfold evs_settled. induction l as [|x l IH]; [reflexivity|]. cbn. now rewrite IH. Qed.
Lemma settled_app : forall a b, evs_settled (a ++ b) = evs_settled a ++ evs_settled b.
Proof. intros. unfold evs_settled. apply flat_map_app. Qed.

Lemma lookups_account : forall e via keys s s' evs, sorted (nkeys (n_active s)) ->
  lookup_routers e via keys s = (s', evs) ->
  Permutation (wsub (n_active s)) (evs_settled evs ++ wsub (n_active s')).
Proof.
  induction keys as [|k keys IH]; intros s s' evs Hs H; cbn [lookup_routers] in H.
  - apply pair_equal_spec in H as [<- <-]. reflexivity.
  - destruct (e_tunnels e && e_room e k); [|eauto].
    destruct (lookup_routers e via keys (arm e k (put_active k KRouter s))) as [s1 ev1] eqn:E.
    apply pair_equal_spec in H as [<- <-]. apply IH in E; [|now apply nput_Sorted].
    change (evs_settled (EvLookup k via :: ?x)) with (evs_settled x). rewrite settled_app, <- app_assoc, <- E.
    cbn [n_active put_active arm]. rewrite (wsub_put _ k KRouter Hs). cbn [kind_subs app].
    rewrite (wsub_del _ k Hs). unfold subs_at. destruct (nget k (n_active s)) as [v|]; [|reflexivity].
    cbn [drop_kind]. rewrite (settled_drop (kind_subs v)). reflexivity.
Qed.

Lemma search_subs : forall e routers q q' u, handle_search_reply e routers q = (q', u) -> q_subs q' = q_subs q.
Proof. intros e routers q q' u H. apply search_reply_spec in H as [[_ [_ H]] _]. exact H. Qed.

Lemma subs_at_Some : forall k m v, nget k m = Some v -> subs_at k m = kind_subs v.
Proof. intros k m v H. unfold subs_at. now rewrite H. Qed.
Lemma subs_at_None : forall k m, nget k m = None -> subs_at k m = [].
Proof. intros k m H. unfold subs_at. now rewrite H. Qed.

Lemma step_account : forall e s o s' evs, base s -> env_ok e -> nstep e s o = (s', evs) ->
  Permutation (op_callers o ++ waiting s) (evs_settled evs ++ waiting s') /\ ~ In EvStuck evs.
Proof.
  intros e s o s' evs Hb He H. pose proof Hb as [Hs Ht]. unfold waiting. fold (wsub (n_active s)) (wsub (n_active s')).
  assert (NC : forall q r, ~ In EvStuck (complete q r)).
  { intros q r X. apply in_map_iff in X as [? [X _]]. discriminate. }
  assert (NL : forall via keys s1 s2 ev, lookup_routers e via keys s1 = (s2, ev) -> ~ In EvStuck ev).
  { intros via keys s1 s2 ev El X. apply lookups_spec in El as [_ [_ [_ [_ L]]]].
    destruct (L _ X) as [[? [? ?]]|[? [? [? [? [? _]]]]]]; discriminate. }
  assert (Pd : forall key v, nget key (n_active s) = Some v ->
     Permutation (wsub (n_active s)) (kind_subs v ++ wsub (ndel key (n_active s)))).
  { intros key v G. rewrite (wsub_del _ key Hs) at 1. now rewrite (subs_at_Some _ _ _ G). }
  assert (Pn : forall key, nget key (n_active s) = None -> Permutation (wsub (n_active s)) (wsub (ndel key (n_active s)))).
  { intros key G. rewrite (wsub_del _ key Hs) at 1. now rewrite (subs_at_None _ _ G). }
  assert (No1 : forall ev, ev <> EvStuck -> ~ In EvStuck [ev]).
  { intros ev Hn [X|[]]. now apply Hn. }
  assert (NoD : forall k, ~ In EvStuck (drop_kind k)).
  { intros [k|] X; [|contradiction]. cbn in X. apply in_map_iff in X as [? [X _]]. discriminate. }
  destruct o as [key tx|key tx|key p sender|body sender|d key|key|r]; cbn [nstep op_callers app] in *.
  - unfold query_lease_set in H. destruct (nget key (n_active s)) as [[q0|q0| |]|] eqn:G;
      try (apply pair_equal_spec in H as [<- <-]; split; [reflexivity|now apply No1]).
    + apply pair_equal_spec in H as [<- <-]. split; [|auto]. cbn. rewrite (wsub_put _ key _ Hs). cbn.
      rewrite (Pd _ _ G). cbn. rewrite <- app_assoc. apply Permutation_middle.
    + destruct (first_ends e s key Hb He) as [r [Er _]]. rewrite Er in H.
      destruct r as [f|]; [destruct (e_tunnels e); [destruct (e_room e key)|]|];
        apply pair_equal_spec in H as [<- <-]; (split; [|now apply No1]); try reflexivity.
      cbn. rewrite (wsub_put _ key _ Hs). cbn. constructor. now apply Pn.
  - unfold query_router_info in H. destruct (nget key (n_active s)) as [[q0|q0| |]|] eqn:G;
      try (apply pair_equal_spec in H as [<- <-]; split; [reflexivity|now apply No1]).
    + apply pair_equal_spec in H as [<- <-]. split; [|auto]. cbn. rewrite (wsub_put _ key _ Hs). cbn.
      rewrite (Pd _ _ G). cbn. rewrite <- app_assoc. apply Permutation_middle.
    + destruct (closest _ _ _) as [[|f rest]|]; [|destruct (e_tunnels e); [destruct (e_room e key)|]|];
        apply pair_equal_spec in H as [<- <-]; (split; [|now apply No1]); try reflexivity.
      cbn. rewrite (wsub_put _ key _ Hs). cbn. constructor. now apply Pn.
  - unfold on_store in H. destruct (nget key (n_active s)) as [kd|] eqn:G.
    + destruct p as [ls|id ff valid acc]; destruct kd as [q0|q0| |]; [..|destruct valid];
        apply pair_equal_spec in H as [<- <-]; cbn [n_active del_active with_dht];
        (split; [|first [apply NC|apply (NoD (Some _))|auto]]);
        rewrite ?settled_complete; cbn [drop_kind]; rewrite ?settled_drop; rewrite (Pd _ _ G); reflexivity.
    + destruct p as [ls|id ff valid acc]; apply pair_equal_spec in H as [<- <-]; (split; [|auto]); [reflexivity|].
      destruct (valid && ff); reflexivity.
  - unfold on_search_reply in H. set (s0 := with_dht _ s) in H.
    destruct body as [[[key routers] from]|].
    2:{ apply pair_equal_spec in H as [<- <-]. split; [reflexivity|auto]. }
    change (n_active s0) with (n_active s) in H.
    assert (Rt : forall l0 q0 q1 u s1 ev1, nget key (n_active s) = Some (mk l0 q0) -> handle_search_reply e routers q0 = (q1, u) ->
        lookup_routers e from u (del_active key s0) = (s1, ev1) -> (put_active key (mk l0 q1) s1, ev1) = (s', evs) ->
        Permutation (wsub (n_active s)) (evs_settled evs ++ wsub (n_active s')) /\ ~ In EvStuck evs).
    { intros l0 q0 q1 u s1 ev1 G Eh El X. apply pair_equal_spec in X as [<- <-]. split; [|eapply NL; eauto].
      assert (Sd : sorted (nkeys (n_active (del_active key s0)))) by now apply ndel_Sorted.
      pose proof (lookups_account _ _ _ _ _ _ Sd El) as LA.
      pose proof (lookups_spec _ _ _ _ _ _ El) as [_ [_ [S1 [Old _]]]]. specialize (S1 Sd).
      cbn [n_active put_active]. rewrite (wsub_put _ key _ S1).
      assert (kind_subs (mk l0 q1) = kind_subs (mk l0 q0)) as ->.
      { apply search_subs in Eh. destruct l0; exact Eh. }
      assert (Permutation (wsub (n_active s1)) (wsub (ndel key (n_active s1)))) as W.
      { rewrite (wsub_del _ key S1) at 1. unfold subs_at. destruct (nget key (n_active s1)) as [v|] eqn:Gv; [|reflexivity].
        destruct v as [qv|qv| |]; try reflexivity; exfalso.
        - apply (Old key true) in Gv. cbn in Gv. now rewrite nget_ndel_same in Gv.
        - apply (Old key false) in Gv. cbn in Gv. now rewrite nget_ndel_same in Gv. }
      rewrite <- W. rewrite (Pd _ _ G). cbn [n_active del_active with_dht s0] in LA.
      change (n_active s0) with (n_active s) in LA. rewrite LA.
      rewrite !app_assoc. apply Permutation_app_tail, Permutation_app_comm. }
    destruct (nget key (n_active s)) as [[q0|q0| |]|] eqn:G.
    + destruct (handle_search_reply e routers q0) as [q1 u] eqn:Eh.
      destruct (lookup_routers e from u (del_active key s0)) as [s1 ev1] eqn:El.
      apply (Rt true q0 q1 u s1 ev1); assumption || reflexivity.
    + destruct (handle_search_reply e routers q0) as [q1 u] eqn:Eh.
      destruct (lookup_routers e from u (del_active key s0)) as [s1 ev1] eqn:El.
      apply (Rt false q0 q1 u s1 ev1); assumption || reflexivity.
    + split; [|eapply NL; eauto].
      assert (Sd : sorted (nkeys (n_active (del_active key s0)))) by now apply ndel_Sorted.
      pose proof (lookups_account _ _ _ _ _ _ Sd H) as LA. rewrite (Pd _ _ G). exact LA.
    + apply pair_equal_spec in H as [<- <-]. split; [|auto]. rewrite (Pd _ _ G). reflexivity.
    + apply pair_equal_spec in H as [<- <-]. split; [reflexivity|auto].
  - unfold on_timer in H. destruct (d <=? e_now e); [|apply pair_equal_spec in H as [<- <-]; split; [reflexivity|auto]].
    destruct (remove_timer d key (n_timers s)) as [ts|]; [|apply pair_equal_spec in H as [<- <-]; split; [reflexivity|auto]].
    cbn [n_active] in H. destruct (nget key (n_active s)) as [kd|] eqn:G;
      [|apply pair_equal_spec in H as [<- <-]; split; [reflexivity|auto]].
    unfold handle_timeout in H. rewrite (Pd _ _ G).
    assert (Hd : sorted (nkeys (ndel key (n_active s)))) by now apply ndel_Sorted.
    assert (Dd : ndel key (ndel key (n_active s)) = ndel key (n_active s)).
    { apply wsub_absent. rewrite In_nkeys_ndel. tauto. }
    destruct kd as [q0|q0| |]; try (apply pair_equal_spec in H as [<- <-]; split; [reflexivity|auto]).
    + destruct (blame_parts q0 (del_active key (mkNetdb (n_dht s) (n_active s) ts))) as [B1 [B2 B3]].
      specialize (B3 Ht). set (s1 := blame q0 _) in *. cbn in B1.
      destruct (pick_ends' e (n_dht s1) key (set_selected None q0) B3 He) as [[r q1] Ep]. rewrite Ep in H.
      destruct (pick_spec _ _ _ _ _ _ _ B3 (He key) Ep) as [[Hid [_ Hsub]] _]. cbn in Hsub. cbn [kind_subs]. rewrite <- Hsub.
      destruct r as [err|f]; [|destruct (e_tunnels e); [destruct (e_room e key)|]];
        apply pair_equal_spec in H as [<- <-]; (split; [|first [apply NC|now apply No1]]);
        cbn [n_active put_active arm]; rewrite ?B1, ?settled_complete; try reflexivity.
      rewrite (wsub_put _ key _ Hd), Dd. reflexivity.
    + destruct (blame_parts q0 (del_active key (mkNetdb (n_dht s) (n_active s) ts))) as [B1 [B2 B3]].
      specialize (B3 Ht). set (s1 := blame q0 _) in *. cbn in B1.
      destruct (next_floodfill e (n_dht s1) key (set_selected None q0)) as [r q1] eqn:Ep.
      destruct (next_floodfill_spec _ _ _ _ _ _ B3 (He key) Ep) as [[Hid [_ Hsub]] _]. cbn in Hsub. cbn [kind_subs]. rewrite <- Hsub.
      destruct r as [err|f]; [|destruct (e_tunnels e && e_room e key)];
        apply pair_equal_spec in H as [<- <-]; (split; [|first [apply NC|now apply No1|auto]]);
        cbn [n_active put_active arm]; rewrite ?B1, ?settled_complete; try reflexivity;
        rewrite (wsub_put _ key _ Hd), Dd; reflexivity.
  - unfold explore in H. destruct (closest _ _ _) as [[|f rest]|]; [|destruct (e_tunnels e && e_room e key)|];
      apply pair_equal_spec in H as [<- <-]; try (split; [reflexivity|auto]).
    split; [|apply NoD]. cbn [n_active put_active arm]. rewrite (wsub_put _ key _ Hs). cbn [kind_subs app].
    destruct (nget key (n_active s)) as [v|] eqn:G; cbn [drop_kind].
    + rewrite settled_drop. now apply Pd.
    + now apply Pn.
  - apply pair_equal_spec in H as [<- <-]. split; [reflexivity|auto].
Qed.

(** ** Where answers come from *)
Inductive answered (s : netdb) (o : nop) (tx : N) : result -> Prop :=
| an_refused : forall l k err, o = request l k tx -> answered s o tx (RErr err)
| an_lease : forall k ls sender q, o = OStore k (PLease ls) sender -> nget k (n_active s) = Some (KLease q) ->
    In tx (q_subs q) -> answered s o tx (RLeaseSet ls)
| an_info : forall k id ff v acc sender q, o = OStore k (PInfo id ff v acc) sender ->
    nget k (n_active s) = Some (KInfo q) -> In tx (q_subs q) -> answered s o tx (if acc then ROk else RErr EMalformed)
| an_timeout : forall d k l q err, o = OTimer d k -> nget k (n_active s) = Some (mk l q) -> In tx (q_subs q) ->
    answered s o tx (RErr err).

Lemma step_answer : forall e s o s' evs tx r, base s -> env_ok e -> nstep e s o = (s', evs) ->
  In (EvAnswer tx r) evs -> answered s o tx r.
Proof.
  intros e s o s' evs tx r Hb He H Hin.
  assert (NC : forall q r', In (EvAnswer tx r) (complete q r') -> r = r' /\ In tx (q_subs q)).
  { intros q r' X. apply in_map_iff in X as [y [X Y]]. injection X as -> ->. now split. }
  assert (ND : forall k, ~ In (EvAnswer tx r) (drop_kind k)).
  { intros [k|] X; [|contradiction]. apply in_map_iff in X as [? [X _]]. discriminate. }
  assert (NL : forall via keys s1 s2 ev, lookup_routers e via keys s1 = (s2, ev) -> ~ In (EvAnswer tx r) ev).
  { intros via keys s1 s2 ev El X. apply lookups_spec in El as [_ [_ [_ [_ L]]]].
    destruct (L _ X) as [[? [? ?]]|[? [? [? [? [? _]]]]]]; discriminate. }
  destruct o as [key tx'|key tx'|key p sender|body sender|d key|key|r']; cbn [nstep] in *.
  - unfold query_lease_set in H. destruct (nget key (n_active s)) as [[q0|q0| |]|];
      try (apply pair_equal_spec in H as [<- <-]; repeat destruct Hin as [Hin|Hin]; (discriminate || contradiction)).
    destruct (first_ends e s key Hb He) as [rr [Er _]]. rewrite Er in H.
    destruct rr as [f|]; [destruct (e_tunnels e); [destruct (e_room e key)|]|];
      apply pair_equal_spec in H as [<- <-]; destruct Hin as [Hin|[]]; try discriminate; injection Hin as <- <-;
      now apply (an_refused s _ tx' true key).
  - unfold query_router_info in H. destruct (nget key (n_active s)) as [[q0|q0| |]|];
      try (apply pair_equal_spec in H as [<- <-]; repeat destruct Hin as [Hin|Hin]; (discriminate || contradiction)).
    destruct (closest _ _ _) as [[|f rest]|]; [|destruct (e_tunnels e); [destruct (e_room e key)|]|];
      apply pair_equal_spec in H as [<- <-]; destruct Hin as [Hin|[]]; try discriminate; injection Hin as <- <-;
      now apply (an_refused s _ tx' false key).
  - unfold on_store in H. destruct (nget key (n_active s)) as [kd|] eqn:G.
    + destruct p as [ls|id ff valid acc]; destruct kd as [q0|q0| |]; [..|destruct valid];
        apply pair_equal_spec in H as [<- <-]; try (exfalso; exact (ND _ Hin)); try contradiction.
      * apply NC in Hin as [-> Hin]. eapply an_lease; eauto.
      * apply NC in Hin as [-> Hin]. eapply an_info; eauto.
    + destruct p; apply pair_equal_spec in H as [<- <-]; contradiction.
  - unfold on_search_reply in H. set (s0 := with_dht _ s) in H. exfalso.
    destruct body as [[[key routers] from]|]; [|apply pair_equal_spec in H as [<- <-]; contradiction].
    destruct (nget key (n_active s0)) as [[q0|q0| |]|]; try (apply pair_equal_spec in H as [<- <-]; contradiction).
    + destruct (handle_search_reply e routers q0) as [q1 u].
      destruct (lookup_routers e from u (del_active key s0)) as [s1 ev1] eqn:El. apply pair_equal_spec in H as [<- <-].
      eapply NL; eauto.
    + destruct (handle_search_reply e routers q0) as [q1 u].
      destruct (lookup_routers e from u (del_active key s0)) as [s1 ev1] eqn:El. apply pair_equal_spec in H as [<- <-].
      eapply NL; eauto.
    + eapply NL; eauto.
  - unfold on_timer in H. destruct (d <=? e_now e); [|apply pair_equal_spec in H as [<- <-]; contradiction].
    destruct (remove_timer d key (n_timers s)) as [ts|]; [|apply pair_equal_spec in H as [<- <-]; contradiction].
    cbn [n_active] in H. destruct (nget key (n_active s)) as [kd|] eqn:G; [|apply pair_equal_spec in H as [<- <-]; contradiction].
    unfold handle_timeout in H. destruct kd as [q0|q0| |]; try (apply pair_equal_spec in H as [<- <-]; contradiction).
    + destruct (blame_parts q0 (del_active key (mkNetdb (n_dht s) (n_active s) ts))) as [B1 [B2 B3]].
      specialize (B3 (proj2 Hb)). set (s1 := blame q0 _) in *.
      destruct (pick_ends' e (n_dht s1) key (set_selected None q0) B3 He) as [[rr q1] Ep]. rewrite Ep in H.
      destruct (pick_spec _ _ _ _ _ _ _ B3 (He key) Ep) as [[Hid [_ Hsub]] _]. cbn in Hsub.
      destruct rr as [err|f]; [|destruct (e_tunnels e); [destruct (e_room e key)|]];
        apply pair_equal_spec in H as [<- <-]; try (destruct Hin as [Hin|[]]; discriminate);
        apply NC in Hin as [-> Hin]; rewrite Hsub in Hin; apply (an_timeout s _ tx d key true q0); (reflexivity || assumption).
    + destruct (blame_parts q0 (del_active key (mkNetdb (n_dht s) (n_active s) ts))) as [B1 [B2 B3]].
      specialize (B3 (proj2 Hb)). set (s1 := blame q0 _) in *.
      destruct (next_floodfill e (n_dht s1) key (set_selected None q0)) as [rr q1] eqn:Ep.
      destruct (next_floodfill_spec _ _ _ _ _ _ B3 (He key) Ep) as [[Hid [_ Hsub]] _]. cbn in Hsub.
      destruct rr as [err|f]; [|destruct (e_tunnels e && e_room e key)];
        apply pair_equal_spec in H as [<- <-]; try (repeat destruct Hin as [Hin|Hin]; discriminate || contradiction).
      apply NC in Hin as [-> Hin]. rewrite Hsub in Hin. apply (an_timeout s _ tx d key false q0); (reflexivity || assumption).
  - unfold explore in H. exfalso. destruct (closest _ _ _) as [[|f rest]|]; [|destruct (e_tunnels e && e_room e key)|];
      apply pair_equal_spec in H as [<- <-]; try contradiction. exact (ND _ Hin).
  - apply pair_equal_spec in H as [<- <-]. contradiction.
Qed.
