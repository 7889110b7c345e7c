(** Properties of publishing the local lease set (see LsmSpec.v for the vocabulary). *)
From Coq Require Import List NArith Bool Lia.
From Verif Require Import ListUtil Bytes NMap PrimModel RpathModel KadModel KadProofs2 LsmModel LsmSpec LsmProofs LsmProofs2 LsmProofs3.
Import ListNotations.
Open Scope N_scope.

Lemma run_split : forall a m m1 o1, lrun m a = Some (m1, o1) -> forall op m2 o, lstep m1 op = Some (m2, o) -> lrun m (a ++ [op]) = Some (m2, o1 ++ [o]).
Proof. intros a m m1 o1 R op m2 o E. eapply lrun_app; [exact R|]. cbn [lrun]. now rewrite E. Qed.
Lemma lrun_length : forall ops m m' os, lrun m ops = Some (m', os) -> length os = length ops.
Proof.
  induction ops as [|op ops IH]; intros m m' os; cbn [lrun]; [intros E; injection E as <- <-; reflexivity|].
  destruct (lstep m op) as [[m1 o]|]; [|discriminate]. destruct (lrun m1 ops) as [[m2 os2]|] eqn:E; [|discriminate].
  intros E'; injection E' as <- <-. cbn. f_equal. eauto.
Qed.
(** What the invariants say of one step of a run. *)
Lemma run_step key unp num ts ls0 now room ops m o0 m1 os op m2 a x b :
  l_new key unp num ts ls0 now room = (m, o0) -> lrun m ops = Some (m1, os) -> lstep m1 op = Some (m2, a ++ x :: b) ->
  out_ok key unp ls0 ts (ops ++ [op]) (o0 ++ concat os ++ a) x.
Proof.
  intros E0 R E. pose proof (new_inv key unp num ls0 ts now room) as I0. rewrite E0 in I0.
  pose proof (run_inv _ _ _ _ _ _ _ _ _ _ _ I0 R) as I1. cbn [app] in I1.
  destruct (step_inv _ _ _ _ _ _ _ _ _ _ _ I1 E) as [_ O]. rewrite app_assoc. exact (O a x b eq_refl).
Qed.

Lemma idle_polls m : m_state m = Inactive -> forall es, exists m' os', lrun m (map Poll es) = Some (m', os') /\ concat os' = [].
Proof.
  intros Hm es. exists m, (map (fun _ => []) es). induction es as [|e es [IH1 IH2]]; [split; reflexivity|].
  split; [|exact IH2]. cbn [map]. eapply lrun_cons; [|exact IH1]. cbn [lstep]. unfold l_poll. cbn [turns]. unfold turn. now rewrite Hm.
Qed.

(** A small world: one tunnel at first, another later, three floodfills. *)
Definition t1 := mkLease (repeat 1 32) 11 600000.
Definition t2 := mkLease (repeat 2 32) 12 600000.
Definition at_ (now : N) : env := mkE now 0 true true true 0 0.
Definition start : list lop := [Floodfills (Some [5; 6; 7]); Poll (at_ 1000)].

(** * C86: the lease set of an unpublished destination stays local *)
(** Whatever happens, all that comes out is the list of leases handed to the client. *)
Theorem C86_unpublished_stays_local key num ts ls now room ops m o0 m' os :
  l_new key true num ts ls now room = (m, o0) -> lrun m ops = Some (m', os) ->
  o0 = [] /\ forall x, In x (concat os) -> exists l, x = Leases l.
Proof.
  intros E0 R. assert (o0 = []) as -> by (unfold l_new in E0; now apply pair_equal_spec in E0 as [_ <-]). split; [reflexivity|].
  assert (G : forall ops' ops m1 m' os os0, lrun m ops = Some (m1, os0) -> lrun m1 ops' = Some (m', os) -> forall x, In x (concat os) -> exists l, x = Leases l).
  { induction ops' as [|op ops' IH]; intros pre m1 m'' os' os0 R0; cbn [lrun]; [intros E; injection E as <- <-; intros x []|].
    destruct (lstep m1 op) as [[m2 o]|] eqn:E1; [|discriminate]. destruct (lrun m2 ops') as [[m3 os2]|] eqn:E2; [|discriminate].
    intros E; injection E as <- <-. intros x Hx. cbn in Hx. apply in_app_or in Hx as [Hx|Hx].
    - apply in_split in Hx as (a & b & ->). pose proof (run_step _ _ _ _ _ _ _ _ _ _ _ _ _ _ _ _ _ E0 R0 E1) as O.
      destruct x; cbn in O; eauto; try discriminate; destruct O; discriminate.
    - eapply IH; [eapply run_split; eauto|exact E2|exact Hx]. }
  eapply (G ops []); [reflexivity|exact R].
Qed.
Print Assumptions C86_unpublished_stays_local.
(** The same events make a published destination store its lease set. *)
Example C86_witness :
  (exists m os, lrun (fst (l_new 3 true 2 [t1] [9] 0 true)) (TunnelBuilt 10 t2 :: NewLeaseSet [8] 20 true :: start) = Some (m, os) /\
     concat os = [Leases [t1; t2]]) /\
  (exists m os, lrun (fst (l_new 3 false 2 [t1] [9] 0 true)) (TunnelBuilt 10 t2 :: NewLeaseSet [8] 20 true :: start) = Some (m, os) /\
     concat os = [Leases [t1; t2]; AskFloodfills; Store 5 [8] (repeat 1 32) 11]).
Proof. split; do 2 eexists; (split; [vm_compute; reflexivity|reflexivity]). Qed.

(** * C87: what is published, where, and how the answer comes back *)
(** A store carries the client's latest lease set, goes to a floodfill the router was told of, and
    names for the acknowledgement one of our inbound tunnels that is built and not about to expire. *)
Theorem C87_store_is_current key unp num ts ls0 now room ops m o0 m1 os op m2 a b f ls rr rt :
  l_new key unp num ts ls0 now room = (m, o0) -> lrun m ops = Some (m1, os) -> lstep m1 op = Some (m2, a ++ Store f ls rr rt :: b) ->
  ls = latest ls0 (ops ++ [op]) /\ heard key f (ops ++ [op]) /\
  exists l, live rt ts (ops ++ [op]) = Some l /\ l_router l = rr /\ l_tunnel l = rt.
Proof. intros E0 R E. exact (proj2 (run_step _ _ _ _ _ _ _ _ _ _ _ _ _ _ _ _ _ E0 R E)). Qed.
Print Assumptions C87_store_is_current.
(** So do the lookups that verify it; and the client is handed leases of such tunnels only. *)
Theorem C87_verify_is_current key unp num ts ls0 now room ops m o0 m1 os op m2 a b f rr rt :
  l_new key unp num ts ls0 now room = (m, o0) -> lrun m ops = Some (m1, os) -> lstep m1 op = Some (m2, a ++ Verify f rr rt :: b) ->
  heard key f (ops ++ [op]) /\ exists l, live rt ts (ops ++ [op]) = Some l /\ l_router l = rr /\ l_tunnel l = rt.
Proof. intros E0 R E. destruct (run_step _ _ _ _ _ _ _ _ _ _ _ _ _ _ _ _ _ E0 R E) as (_ & H1 & _ & H2). auto. Qed.
Print Assumptions C87_verify_is_current.
(** The leases handed to the client for its next lease set are exactly those of the tunnels that are
    built and not about to expire. *)
Theorem C87_leases_are_live key unp num ts ls0 now room ops m o0 m1 os t l :
  l_new key unp num ts ls0 now room = (m, o0) -> lrun m ops = Some (m1, os) ->
  exists m2 leases, lstep m1 (TunnelBuilt t l) = Some (m2, [Leases leases]) /\
    (forall x, In x leases <-> live (l_tunnel x) ts (ops ++ [TunnelBuilt t l]) = Some x) /\ In l leases.
Proof.
  intros E0 R.
  assert (S1 : exists m2 leases, lstep m1 (TunnelBuilt t l) = Some (m2, [Leases leases]) /\ leases = map snd (m_tunnels m2)).
  { cbn [lstep]. unfold register_built. destruct (m_unpublished m1); [eauto|]. destruct (_ =? m_num m1); eauto. }
  destruct S1 as (m2 & leases & E & El). exists m2, leases. split; [exact E|].
  pose proof (new_inv key unp num ls0 ts now room) as I0. rewrite E0 in I0.
  pose proof (run_inv _ _ _ _ _ _ _ _ _ _ _ I0 R) as I1. cbn [app] in I1.
  destruct (step_inv _ _ _ _ _ _ _ _ _ _ _ I1 E) as [I2 O].
  assert (G : forall x, In x leases <-> live (l_tunnel x) ts (ops ++ [TunnelBuilt t l]) = Some x).
  { intros x. split.
    - intros Hx. exact (O [] (Leases leases) [] eq_refl x Hx).
    - intros Hx. rewrite <- (i_live _ _ _ _ _ _ _ _ I2) in Hx. apply nget_In in Hx. rewrite El. apply in_map_iff. eexists. split; [|exact Hx]. reflexivity. }
  split; [exact G|]. apply G. unfold live. rewrite fold_left_app. cbn. now rewrite N.eqb_refl.
Qed.
Print Assumptions C87_leases_are_live.
Example C87_witness : exists m os, lrun (fst (l_new 3 false 2 [t1] [9] 0 true)) (TunnelBuilt 10 t2 :: NewLeaseSet [8] 20 true :: TunnelExpiring 11 :: start ++ [Poll (at_ 11000)]) = Some (m, os) /\
  concat os = [Leases [t1; t2]; AskFloodfills; Store 5 [8] (repeat 2 32) 12; Verify 6 (repeat 2 32) 12].
Proof. do 2 eexists. split; [vm_compute; reflexivity|reflexivity]. Qed.

(** The converse does not hold: a lease set created while the one before it is being published is
    stored nowhere, and once the older one is found at a floodfill it stays so, however long and
    often the manager is polled. *)
Definition overtaken : list lop :=
  [TunnelBuilt 10 t2; NewLeaseSet [8] 20 true] ++ start ++ [NewLeaseSet [7] 1500 true; Poll (at_ 11000); StoreReceived 3 [8]].
Theorem C87_newest_published_refuted :
  exists m os, lrun (fst (l_new 3 false 2 [t1] [9] 0 true)) overtaken = Some (m, os) /\
    latest [9] overtaken = [7] /\ m_unpublished m = false /\ m_tunnels m <> [] /\ m_floods m <> [] /\
    (forall f rr rt, ~ In (Store f [7] rr rt) (concat os)) /\
    forall es, exists m' os', lrun m (map Poll es) = Some (m', os') /\ concat os' = [].
Proof.
  do 2 eexists. split; [vm_compute; reflexivity|]. split; [reflexivity|]. split; [reflexivity|]. split; [discriminate|]. split; [discriminate|]. split.
  - cbn. intros f rr rt H. intuition discriminate.
  - apply idle_polls. reflexivity.
Qed.
Print Assumptions C87_newest_published_refuted.

(** * C88: a lease set whose storage is not confirmed is published again *)
(** A poll stores the lease set at [t0]; from then on our lease set does not come back and our
    tunnels stay.  Whatever else happens, if the manager is polled at or after [t0] + 10 s and then
    16 s later or more, it has stored the lease set again by then.  It never gives up: the lemma
    applies again from that store. *)
Theorem C88_republished key unp num ts ls0 now room ops m o0 m1 os e0 m2 o ops1 e1 ops2 e2 :
  l_new key unp num ts ls0 now room = (m, o0) -> lrun m ops = Some (m1, os) ->
  lstep m1 (Poll e0) = Some (m2, o) -> existsb is_store o = true ->
  Forall (undisturbed key) (ops1 ++ Poll e1 :: ops2 ++ [Poll e2]) ->
  in_time (e_now e0) (ops1 ++ Poll e1 :: ops2 ++ [Poll e2]) ->
  e_now e0 + 10000 <= e_now e1 -> e_now e1 + 16000 <= e_now e2 ->
  exists m' os', lrun m2 (ops1 ++ Poll e1 :: ops2 ++ [Poll e2]) = Some (m', os') /\ existsb is_store (concat os') = true.
Proof.
  intros E0 R E Hs U T H1 H2. pose proof (new_inv key unp num ls0 ts now room) as I0. rewrite E0 in I0.
  pose proof (run_inv _ _ _ _ _ _ _ _ _ _ _ I0 R) as I1. pose proof (i_key _ _ _ _ _ _ _ _ I1) as K.
  pose proof (step_key _ _ _ _ E) as K2. destruct (store_waits _ _ _ _ E Hs) as [_ W].
  eapply republished; eauto. congruence.
Qed.
Print Assumptions C88_republished.
Example C88_witness : let ops := [NewLeaseSet [7] 1500 true; RouterFound 8 true true; Poll (at_ 11000); Floodfills (Some [9]); Poll (at_ 27000)] in
  Forall (undisturbed 3) ops /\ in_time 1000 ops /\
  exists m os m' os', lrun (fst (l_new 3 false 2 [t1] [9] 0 true)) start = Some (m, os) /\ existsb is_store (concat os) = true /\
    lrun m ops = Some (m', os') /\ concat os' = [Verify 6 (repeat 1 32) 11; Store 6 [7] (repeat 1 32) 11].
Proof.
  split; [repeat constructor|]. split; [cbn; repeat split; lia|].
  do 4 eexists. split; [vm_compute; reflexivity|]. split; [reflexivity|]. split; [vm_compute; reflexivity|reflexivity].
Qed.

(** But a first publication can be put off for ever: every tunnel that is built while there is not
    exactly the configured number of tunnels starts a new wait of 30 s, so tunnels that come and go
    every 20 s leave the lease sets made for them unpublished. *)
Definition nth_lease (i : N) : lease := mkLease (repeat 1 32) i (600000 + 20000 * i).
Definition cycle (i : N) : list lop :=
  [TunnelBuilt (20000 * i) (nth_lease i); NewLeaseSet [i] (20000 * i + 1000) true; Poll (at_ (20000 * i + 2000)); TunnelExpiring (i - 1);
   Poll (at_ (20000 * i + 19000))].
Fixpoint cycles (n : nat) : list lop := match n with O => [] | S n' => cycles n' ++ cycle (N.of_nat n) end.
Lemma churn i x y s : i <> 0 ->
  lrun (mkM 3 false 1 [(i - 1, nth_lease (i - 1))] x y [] [] [] [] s) (cycle i) =
  Some (mkM 3 false 1 [(i, nth_lease i)] (sadd (i - 1) x) [i] [] [] [] [] (AwaitingTunnels (20000 * i + 30000)),
        [[Leases [nth_lease (i - 1); nth_lease i]]; []; []; []; []]).
Proof.
  intros P. set (m0 := mkM _ _ _ _ _ _ _ _ _ _ _).
  assert (E1 : nput i (nth_lease i) [(i - 1, nth_lease (i - 1))] = [(i - 1, nth_lease (i - 1)); (i, nth_lease i)]).
  { cbn [nput]. replace (i =? i - 1) with false by (symmetry; apply N.eqb_neq; lia).
    replace (i <? i - 1) with false by (symmetry; apply N.ltb_ge; lia). reflexivity. }
  set (m1 := mkM 3 false 1 [(i - 1, nth_lease (i - 1)); (i, nth_lease i)] x y [] [] [] [] (AwaitingTunnels (20000 * i + 30000))).
  assert (S1 : lstep m0 (TunnelBuilt (20000 * i) (nth_lease i)) = Some (m1, [Leases [nth_lease (i - 1); nth_lease i]])).
  { cbn [lstep]. unfold register_built. unfold s_tunnels. cbn [m_tunnels m0 nth_lease l_tunnel]. fold (nth_lease i). rewrite E1. reflexivity. }
  set (m2 := s_ls m1 [i]).
  assert (S2 : lstep m1 (NewLeaseSet [i] (20000 * i + 1000) true) = Some (m2, [])) by reflexivity.
  assert (S3 : forall d m, d < 30000 -> m_state m = AwaitingTunnels (20000 * i + 30000) -> lstep m (Poll (at_ (20000 * i + d))) = Some (m, [])).
  { intros d m Hd Hm. cbn [lstep]. unfold l_poll. cbn [turns]. unfold turn. rewrite Hm. cbn [e_now at_].
    replace (20000 * i + 30000 <=? 20000 * i + d) with false by (symmetry; apply N.leb_gt; lia). reflexivity. }
  set (m3 := mkM 3 false 1 [(i, nth_lease i)] (sadd (i - 1) x) [i] [] [] [] [] (AwaitingTunnels (20000 * i + 30000))).
  assert (S4 : lstep m2 (TunnelExpiring (i - 1)) = Some (m3, [])).
  { cbn [lstep]. unfold register_expiring. cbn [m2 s_ls m1 m_tunnels nget]. rewrite N.eqb_refl. unfold s_tunnels.
    cbn [m_tunnels m_expiring m_key m_unpublished m_num m_ls m_floods m_pending m_queried m_stored m_state ndel].
    rewrite N.eqb_refl. replace (i - 1 =? i) with false by (symmetry; apply N.eqb_neq; lia). reflexivity. }
  unfold cycle. eapply lrun_cons; [exact S1|]. eapply lrun_cons; [exact S2|]. eapply lrun_cons; [apply S3; [lia|reflexivity]|].
  eapply lrun_cons; [exact S4|]. eapply lrun_cons; [apply S3; [lia|reflexivity]|]. reflexivity.
Qed.
Theorem C88_published_refuted : forall n, exists m os,
  lrun (fst (l_new 3 false 1 [nth_lease 0] [0] 0 true)) (Floodfills (Some [5; 6; 7]) :: cycles n) = Some (m, os) /\
  existsb sent (concat os) = false /\ (n <> O -> m_ls m = [N.of_nat n]).
Proof.
  set (m0 := mkM 3 false 1 [(0, nth_lease 0)] [] [0] [] [] [] [] (GetClosest (Some (Some [5; 6; 7])))).
  assert (E0 : lstep (fst (l_new 3 false 1 [nth_lease 0] [0] 0 true)) (Floodfills (Some [5; 6; 7])) = Some (m0, [])) by reflexivity.
  assert (G : forall n, exists x y s os, lrun m0 (cycles n) = Some (mkM 3 false 1 [(N.of_nat n, nth_lease (N.of_nat n))] x y [] [] [] [] s, os) /\
              existsb sent (concat os) = false /\ (n <> O -> y = [N.of_nat n])).
  { induction n as [|n (x & y & s & os & R & O & Y)]; [do 4 eexists; split; [reflexivity|split; [reflexivity|congruence]]|].
    cbn [cycles]. set (i := N.of_nat (S n)). replace (N.of_nat n) with (i - 1) in R by (unfold i; lia).
    exists (sadd (i - 1) x), [i], (AwaitingTunnels (20000 * i + 30000)), (os ++ [[Leases [nth_lease (i - 1); nth_lease i]]; []; []; []; []]).
    assert (P : i <> 0) by (unfold i; lia). clearbody i.
    split; [|split; [|reflexivity]].
    - eapply lrun_app; [exact R|]. apply churn; assumption.
    - rewrite concat_app, existsb_app, O. reflexivity. }
  intros n. destruct (G n) as (x & y & s & os & R & O & Y). do 2 eexists. split; [eapply lrun_cons; [exact E0|exact R]|].
  split; [exact O|exact Y].
Qed.
Print Assumptions C88_published_refuted.

(** * C89: the storage is verified at other floodfills *)
(** A lookup that verifies the storage goes neither to the floodfill that was given the lease set
    nor to one already asked about it. *)
Theorem C89_verified_elsewhere key unp num ts ls0 now room ops m o0 m1 os op m2 a b f rr rt :
  l_new key unp num ts ls0 now room = (m, o0) -> lrun m ops = Some (m1, os) -> lstep m1 op = Some (m2, a ++ Verify f rr rt :: b) ->
  ~ In f (round (o0 ++ concat os ++ a)).
Proof. intros E0 R E. apply (run_step _ _ _ _ _ _ _ _ _ _ _ _ _ _ _ _ _ E0 R E). Qed.
Print Assumptions C89_verified_elsewhere.
(** A lease set that was not confirmed is stored at a floodfill that has failed us again only when
    all floodfills we know of have been tried. *)
Theorem C89_stored_elsewhere key unp num ts ls0 now room ops m o0 m1 os op m2 a b f ls rr rt :
  l_new key unp num ts ls0 now room = (m, o0) -> lrun m ops = Some (m1, os) -> lstep m1 op = Some (m2, a ++ Store f ls rr rt :: b) ->
  In f (attempts key [] ops os) -> forall r, In r (m_floods m2) -> stored_at r (concat os).
Proof.
  intros E0 R E. pose proof (new_inv key unp num ls0 ts now room) as I0. rewrite E0 in I0.
  pose proof (run_inv _ _ _ _ _ _ _ _ _ _ _ I0 R) as I1.
  assert (K : m_key m1 = key) by apply (i_key _ _ _ _ _ _ _ _ I1).
  assert (St : forall r, In r (m_stored m1) -> stored_at r (concat os)).
  { intros r Hr. apply (i_stored _ _ _ _ _ _ _ _ I1) in Hr as (x & y & z & Hr). apply in_app_or in Hr as [Hr|Hr]; [|exists x, y, z; exact Hr].
    exfalso. unfold l_new in E0. destruct unp; [apply pair_equal_spec in E0 as [_ <-]; destruct Hr|]. unfold ask in E0.
    destruct room; apply pair_equal_spec in E0 as [_ <-]; [destruct Hr as [Hr|[]]; discriminate|destruct Hr]. }
  assert (At : forall r, In r (attempts key [] ops os) -> In r (m_stored m1)).
  { assert (G : forall ops m m1 os x, m_key m = key -> lrun m ops = Some (m1, os) -> (forall r, In r x -> In r (m_stored m)) ->
                forall r, In r (attempts key x ops os) -> In r (m_stored m1)).
    { clear. induction ops as [|op ops IH]; intros m m1 os x Hk; cbn [lrun].
      - intros E; injection E as <- <-. auto.
      - destruct (lstep m op) as [[m' o]|] eqn:E1; [|discriminate]. destruct (lrun m' ops) as [[m3 os2]|] eqn:E2; [|discriminate].
        intros E; injection E as <- <-. intros Hx r. cbn [attempts]. eapply IH; [|exact E2|].
        + rewrite (step_key _ _ _ _ E1). exact Hk.
        + eapply step_attempts; eauto. }
    apply (G ops m m1 os []); [|exact R|intros r []]. apply (i_key _ _ _ _ _ _ _ _ I0). }
  intros Hf r Hr. destruct (step_stored key _ _ _ _ K E) as [(a' & f' & ls' & rr' & rt' & Eo & Na & _ & e & _ & P)|[N _]].
  - assert (Ef : f' = f).
    { assert (In (Store f ls rr rt) (a' ++ [Store f' ls' rr' rt'])) as Hin by (rewrite <- Eo; apply in_or_app; cbn; auto).
      apply in_app_or in Hin as [Hin|[Hin|[]]]; [exfalso; eapply Na; eauto|congruence]. }
    subst f'. destruct P as [P1 P2]. destruct (in_dec N.eq_dec r (m_stored m1)) as [Hin|Hin]; [auto|].
    destruct (P2 r Hr Hin) as [P3 _]. exfalso. apply P3. auto.
  - exfalso. eapply N. apply in_or_app. right. left. reflexivity.
Qed.
Print Assumptions C89_stored_elsewhere.
(** Of the floodfills not tried yet it is the one closest to the day's routing key. *)
Theorem C89_closest_first m1 e m2 a b f ls rr rt :
  lstep m1 (Poll e) = Some (m2, a ++ Store f ls rr rt :: b) ->
  In f (m_floods m2) /\ forall r, In r (m_floods m2) -> ~ In r (m_stored m1) -> kdist (e_target e) f <= kdist (e_target e) r.
Proof.
  intros E. destruct (step_stored (m_key m1) _ _ _ _ eq_refl E) as [(a' & f' & ls' & rr' & rt' & Eo & Na & _ & e' & Ee & P)|[N _]].
  - injection Ee as <-.
    assert (Ef : f' = f).
    { assert (In (Store f ls rr rt) (a' ++ [Store f' ls' rr' rt'])) as Hin by (rewrite <- Eo; apply in_or_app; cbn; auto).
      apply in_app_or in Hin as [Hin|[Hin|[]]]; [exfalso; eapply Na; eauto|congruence]. }
    subst f'. destruct P as [P1 P2]. split; [exact P1|]. intros r H1 H2. now apply P2.
  - exfalso. eapply N. apply in_or_app. right. left. reflexivity.
Qed.
Print Assumptions C89_closest_first.
(** Three rounds that fail: each store goes to a new floodfill until there is none. *)
Definition rounds : list lop := start ++ map (fun t => Poll (at_ t)) [11000; 13000; 15000; 26000; 36000; 38000; 40000; 51000; 61000; 76000].
Example C89_witness : exists m os, lrun (fst (l_new 3 false 2 [t1] [9] 0 true)) rounds = Some (m, os) /\
  filter sent (concat os) = [Store 5 [9] (repeat 1 32) 11; Verify 6 (repeat 1 32) 11; Verify 7 (repeat 1 32) 11;
                 Store 6 [9] (repeat 1 32) 11; Verify 5 (repeat 1 32) 11; Verify 7 (repeat 1 32) 11;
                 Store 7 [9] (repeat 1 32) 11; Verify 5 (repeat 1 32) 11; Store 5 [9] (repeat 1 32) 11].
Proof. do 2 eexists. split; [vm_compute; reflexivity|vm_compute; reflexivity]. Qed.

(** The storage counts as verified on any lease set sent under our key, whatever it contains: an old
    one held by a floodfill that did not get the new one will do, and so will a forged one.  All
    publishing then stops. *)
Theorem C89_confirmed_by_own_lease_set_refuted : forall x : bytes,
  exists m os, lrun (fst (l_new 3 false 2 [t1] [9] 0 true)) (start ++ [Poll (at_ 11000); StoreReceived 3 x]) = Some (m, os) /\
    existsb is_store (concat os) = true /\ forall es, exists m' os', lrun m (map Poll es) = Some (m', os') /\ concat os' = [].
Proof.
  intros x. do 2 eexists. split; [vm_compute; reflexivity|]. split; [vm_compute; reflexivity|].
  apply idle_polls. reflexivity.
Qed.
Print Assumptions C89_confirmed_by_own_lease_set_refuted.
(** The other way round, our own lease set received while the manager waits a second to ask again is
    ignored, and the lease set is published anew. *)
Theorem C89_confirmation_noticed_refuted :
  exists m os m' os', lrun (fst (l_new 3 false 2 [t1] [9] 0 true)) (start ++ [Poll (at_ 11000); Poll (at_ 13000); Poll (at_ 15000)]) = Some (m, os) /\
    concat os = [Store 5 [9] (repeat 1 32) 11; Verify 6 (repeat 1 32) 11; Verify 7 (repeat 1 32) 11] /\
    lrun m [StoreReceived 3 [9]; Poll (at_ 26000)] = Some (m', os') /\ concat os' = [Store 6 [9] (repeat 1 32) 11].
Proof. do 4 eexists. split; [vm_compute; reflexivity|]. split; [vm_compute; reflexivity|]. split; vm_compute; reflexivity. Qed.
Print Assumptions C89_confirmation_noticed_refuted.

(** * C90: one router info lookup at a time *)
(** A floodfill named in a search reply whose router info we lack is looked up, unless a lookup of it
    is under way. *)
Theorem C90_one_lookup_at_a_time key unp num ts ls0 now room ops m o0 m1 os op m2 a b r :
  l_new key unp num ts ls0 now room = (m, o0) -> lrun m ops = Some (m1, os) -> lstep m1 op = Some (m2, a ++ FindRouter r :: b) ->
  finding r false ops os = false /\ ~ In (FindRouter r) a /\
  exists k rs known room', op = ReplyReceived k rs known room' /\ k = key /\ In r rs /\ known r = false.
Proof.
  intros E0 R E.
  assert (P : forall r, smem r (m_pending m1) = finding r false ops os).
  { assert (G : forall ops m m1 os r x, lrun m ops = Some (m1, os) -> smem r (m_pending m) = x -> smem r (m_pending m1) = finding r x ops os).
    { clear. induction ops as [|op ops IH]; intros m m1 os r x; cbn [lrun].
      - intros E; injection E as <- <-. auto.
      - destruct (lstep m op) as [[m' o]|] eqn:E1; [|discriminate]. destruct (lrun m' ops) as [[m3 os2]|] eqn:E2; [|discriminate].
        intros E; injection E as <- <-. intros Hx. cbn [finding]. eapply IH; [exact E2|]. rewrite (step_pending _ _ _ _ E1), Hx. reflexivity. }
    intros r'. eapply G; [exact R|]. unfold l_new in E0. destruct unp; [apply pair_equal_spec in E0 as [<- _]; reflexivity|].
    unfold ask in E0. destruct room; apply pair_equal_spec in E0 as [<- _]; reflexivity. }
  assert (K : m_key m1 = key).
  { pose proof (new_inv key unp num ls0 ts now room) as I0. rewrite E0 in I0. apply (i_key _ _ _ _ _ _ _ _ (run_inv _ _ _ _ _ _ _ _ _ _ _ I0 R)). }
  assert (Hin : In (FindRouter r) (a ++ FindRouter r :: b)) by (apply in_or_app; cbn; auto).
  assert (A : forall now room m2 o1, ask now room m2 = (m2, o1) -> no_find o1).
  { intros. unfold ask in H. destruct room0; apply pair_equal_spec in H as [_ <-]; intros x Hx; cbn in Hx; intuition discriminate. }
  destruct op as [ls now' room'|k ls|k rs known room'|now' l|t|t|l|r0 ok known|e]; cbn [lstep] in E.
  - exfalso. injection E as E. unfold register_lease_set in E. destruct (m_unpublished m1); [apply pair_equal_spec in E as [_ E]; now destruct a|].
    destruct (m_state m1); try (apply pair_equal_spec in E as [_ E]; now destruct a).
    unfold ask in E. destruct room'; apply pair_equal_spec in E as [_ E]; [rewrite <- E in Hin; destruct Hin as [Hin|[]]; discriminate|now destruct a].
  - injection E as _ E. now destruct a.
  - injection E as E. unfold register_reply in E. destruct (m_unpublished m1); [apply pair_equal_spec in E as [_ E]; now destruct a|].
    destruct (N.eqb_spec (m_key m1) k) as [Ek|]; cbn [negb] in E; [|apply pair_equal_spec in E as [_ E]; now destruct a].
    apply pair_equal_spec in E as [_ E]. fold (wanted known (m_pending m1) rs) in E. rewrite <- E in Hin.
    apply in_map_iff in Hin as (r' & Er & Hr). injection Er as ->. apply filter_In in Hr as [Hr _].
    apply wanted_spec in Hr as (H1 & H2 & H3).
    split; [|split].
    + rewrite <- P. destruct (smem r (m_pending m1)) eqn:Es; [apply smem_In in Es; contradiction|reflexivity].
    + assert (ND : NoDup (map FindRouter (filter room' (wanted known (m_pending m1) rs)))).
      { apply FinFun.Injective_map_NoDup; [intros x y Hxy; congruence|]. apply NoDup_filter. apply sorted_NoDup. apply wanted_sorted. }
      rewrite E in ND. apply NoDup_remove_2 in ND. intros Ha. apply ND. apply in_or_app; auto.
    + exists k, rs, known, room'. repeat split; auto. congruence.
  - exfalso. injection E as E. unfold register_built in E.
    destruct (m_unpublished m1); [apply pair_equal_spec in E as [_ E]|destruct (_ =? m_num m1); apply pair_equal_spec in E as [_ E]];
      rewrite <- E in Hin; destruct Hin as [Hin|[]]; discriminate.
  - exfalso. injection E as _ E. now destruct a.
  - exfalso. injection E as _ E. now destruct a.
  - exfalso. injection E as _ E. now destruct a.
  - exfalso. injection E as _ E. now destruct a.
  - exfalso. unfold l_poll in E. destruct (turns 8 e m1) as [[[m3 o1]|]|] eqn:Et; try discriminate. injection E as <- ->.
    apply turns_find in Et as [Et _]. eapply Et; eauto.
Qed.
Print Assumptions C90_one_lookup_at_a_time.
Example C90_witness : exists m os, lrun (fst (l_new 3 false 2 [t1] [9] 0 true))
    (start ++ [ReplyReceived 3 [8; 5; 8; 9] (fun r => r =? 5) (fun _ => true); ReplyReceived 3 [8] (fun _ => false) (fun _ => true);
               RouterFound 8 false false; ReplyReceived 3 [8] (fun _ => false) (fun _ => true)]) = Some (m, os) /\
  skipn 2 os = [[FindRouter 8; FindRouter 9]; []; []; [FindRouter 8]].
Proof. do 2 eexists. split; [vm_compute; reflexivity|vm_compute; reflexivity]. Qed.
