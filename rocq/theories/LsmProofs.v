(** Proofs about publishing the local lease set: the loop comes to rest, and what is sent. *)
From Coq Require Import List NArith Bool Lia.
From Verif Require Import ListUtil Bytes NMap RouteProofs PrimModel RpathModel RpathProofs KadModel KadProofs2 DestProofs LsmModel LsmSpec.
Import ListNotations.
Open Scope N_scope.

(** ** The loop comes to rest *)
Definition depth (e : env) (m : lsm) : nat :=
  match m_state m with
  | Inactive | AwaitingLeaseSet => 0
  | GetClosest None => 0
  | AwaitingTunnels t => if t <=? e_now e then 1 else 0
  | Retry ReAsk t => if t <=? e_now e then 1 else 0
  | GetClosest _ => 2
  | PublishLeaseSet => 1
  | Retry RePublish t => if t <=? e_now e then 2 else 0
  | AwaitingFlooding t => if t <=? e_now e then 5 else 0
  | VerifyStorage _ None => 3
  | VerifyStorage s (Some x) =>
      if s + STORAGE_VERIFICATION_TOTAL_TIMEOUT <=? e_now e then 2 else if x <=? e_now e then 4 else 0
  | Retry (ReVerify _) t => if t <=? e_now e then 5 else 0
  end%nat.
Lemma later_no (e : env) d : 0 < d -> (e_now e + d <=? e_now e) = false.
Proof. intros H. apply N.leb_gt. lia. Qed.
Lemma ask_depth e m : depth e (fst (ask (e_now e) (e_room e) m)) = 0%nat.
Proof.
  unfold ask. destruct (e_room e); cbn [fst]; unfold depth; cbn [m_state s_state]; [reflexivity|].
  rewrite later_no by reflexivity. reflexivity.
Qed.
Lemma turn_depth e m m' o : turn e m = Some (m', o, true) -> (depth e m' < depth e m)%nat.
Proof.
  unfold turn. pose proof (ask_depth e m) as A. unfold depth at 2.
  destruct (m_state m) as [| |t|k t|a| |t|s t].
  - discriminate.
  - discriminate.
  - destruct (t <=? e_now e); [|discriminate]. destruct (ask (e_now e) (e_room e) m) as [m1 o1]. intros E; injection E as <- <-.
    cbn [fst] in A. rewrite A. lia.
  - destruct k; destruct (t <=? e_now e); try discriminate.
    + destruct (ask (e_now e) (e_room e) m) as [m1 o1]. intros E; injection E as <- <-. cbn [fst] in A. rewrite A. lia.
    + intros E; injection E as <- <-. cbn. lia.
    + intros E; injection E as <- <-. cbn. lia.
  - destruct a as [[l|]|]; try discriminate.
    destruct (m_floods _); intros E; injection E as <- <-; unfold depth; cbn [m_state s_state]; [rewrite later_no by reflexivity|]; lia.
  - destruct (create_store e m) as [[]|]; try (intros E; injection E as <- <-; unfold depth; cbn [m_state s_state]; rewrite later_no by reflexivity; lia).
    destruct (e_store e); intros E; injection E as <- <-; unfold depth; cbn [m_state s_state]; rewrite later_no by reflexivity; lia.
  - destruct (t <=? e_now e); [|discriminate]. intros E; injection E as <- <-. cbn. lia.
  - destruct (s + _ <=? e_now e) eqn:Es.
    { intros E; injection E as <- <-. unfold depth; cbn [m_state s_state]. destruct t; lia. }
    destruct t as [x|].
    + destruct (x <=? e_now e); [|discriminate]. intros E; injection E as <- <-. unfold depth; cbn [m_state s_state]. lia.
    + destruct (create_lookup e m) as [[]|]; try (intros E; injection E as <- <-; unfold depth; cbn [m_state s_state]; rewrite later_no by reflexivity; lia).
      destruct (e_lookup e); intros E; injection E as <- <-; unfold depth; cbn [m_state s_state]; rewrite ?Es, later_no by reflexivity; lia.
Qed.
Lemma depth_bound e m : (depth e m <= 5)%nat.
Proof.
  unfold depth. destruct (m_state m) as [| |t|k t|a| |t|s t]; try lia.
  - destruct (t <=? e_now e); lia.
  - destruct k; destruct (t <=? e_now e); lia.
  - destruct a; lia.
  - destruct (t <=? e_now e); lia.
  - destruct t as [x|]; [|lia]. destruct (_ <=? _); [lia|]. destruct (x <=? e_now e); lia.
Qed.
Lemma turns_rest e : forall n m, (depth e m < n)%nat -> turns n e m <> None.
Proof.
  induction n as [|n IH]; intros m H; [lia|]. cbn [turns].
  destruct (turn e m) as [[[m1 o] []]|] eqn:E; try discriminate.
  apply turn_depth in E. assert (H1 : (depth e m1 < n)%nat) by lia. specialize (IH m1 H1).
  destruct (turns n e m1) as [[[m2 o2]|]|]; [discriminate|discriminate|congruence].
Qed.
Lemma rests e m : turns 8 e m <> None.
Proof. apply turns_rest. pose proof (depth_bound e m). lia. Qed.

(** ** What is sent *)
Section Inv.
Variables (key : N) (unp : bool) (num : N) (ls0 : bytes) (ts0 : list lease).

Definition verifying (s : pstate) : bool :=
  match s with AwaitingFlooding _ | VerifyStorage _ _ | Retry (ReVerify _) _ => true | _ => false end.
Record Inv (ops : list lop) (outs : list lout) (m : lsm) : Prop := mkInv {
  i_key : m_key m = key;
  i_unp : m_unpublished m = unp;
  i_num : m_num m = num;
  i_ls : m_ls m = latest ls0 ops;
  i_live : forall t, nget t (m_tunnels m) = live t ts0 ops;
  i_tun : forall t l, nget t (m_tunnels m) = Some l -> l_tunnel l = t;
  i_sorted : sorted (nkeys (m_tunnels m));
  i_floods : forall r, In r (m_floods m) -> heard key r ops;
  i_answer : forall l r, m_state m = GetClosest (Some (Some l)) -> In r l -> heard key r ops;
  i_stored : forall r, In r (m_stored m) -> stored_at r outs;
  i_round : verifying (m_state m) = true -> forall r, In r (round outs) -> In r (m_queried m);
  i_idle : unp = true -> m_state m = Inactive
}.

Definition out_ok (ops : list lop) (outs : list lout) (x : lout) : Prop :=
  match x with
  | Store f ls rr rt => unp = false /\ ls = latest ls0 ops /\ heard key f ops /\
                        exists l, live rt ts0 ops = Some l /\ l_router l = rr /\ l_tunnel l = rt
  | Verify f rr rt => unp = false /\ heard key f ops /\ ~ In f (round outs) /\
                      exists l, live rt ts0 ops = Some l /\ l_router l = rr /\ l_tunnel l = rt
  | AskFloodfills | FindRouter _ => unp = false
  | Leases ls => forall l, In l ls -> live (l_tunnel l) ts0 ops = Some l
  end.

Lemma round_snoc outs o : round (outs ++ [o]) = round_after (round outs) o.
Proof. unfold round. now rewrite fold_left_app. Qed.
Lemma stored_app r outs o : stored_at r outs -> stored_at r (outs ++ o).
Proof. intros (a & b & c & H). exists a, b, c. apply in_or_app; auto. Qed.

(** Changing only the state. *)
Lemma inv_state ops outs m s : Inv ops outs m ->
  (forall l r, s = GetClosest (Some (Some l)) -> In r l -> heard key r ops) ->
  (verifying s = true -> forall r, In r (round outs) -> In r (m_queried m)) -> unp = false -> Inv ops outs (s_state m s).
Proof. intros [] H1 H2 H3. constructor; cbn; auto. congruence. Qed.
Lemma inv_ask ops outs m m' o now room : Inv ops outs m -> unp = false -> ask now room m = (m', o) ->
  Inv ops (outs ++ o) m' /\ forall x, In x o -> out_ok ops outs x.
Proof.
  intros H Hu. unfold ask. destruct room; intros E; apply pair_equal_spec in E as [<- <-].
  - split; [|intros x [<-|[]]; exact Hu].
    assert (Inv ops outs (s_state m (GetClosest None))) as [] by (apply inv_state; auto; discriminate).
    constructor; auto; [intros r Hr; apply stored_app; auto|discriminate].
  - split; [|intros x []]. rewrite app_nil_r. apply inv_state; auto; discriminate.
Qed.

Lemma sadd_all_in l : forall a r, In r (fold_left (fun a x => sadd x a) l a) -> In r l \/ In r a.
Proof.
  induction l as [|x l IH]; cbn; intros a r H; [auto|]. apply IH in H as [H|H]; [auto|]. apply sadd_In in H as [->|H]; auto.
Qed.
Lemma choose_lease r ops outs m l : Inv ops outs m -> choose r (map snd (m_tunnels m)) = Some l ->
  live (l_tunnel l) ts0 ops = Some l.
Proof.
  intros H E. apply choose_in in E. apply in_map_iff in E as ([t x] & <- & Hin). cbn [snd].
  assert (Hget : nget t (m_tunnels m) = Some x).
  { apply In_nget_nodup; [apply sorted_NoDup; exact (i_sorted _ _ _ H)|exact Hin]. }
  rewrite (i_tun _ _ _ H _ _ Hget). now rewrite <- (i_live _ _ _ H).
Qed.

Lemma fresh_in tried l r : In r (fresh tried l) -> In r l /\ ~ In r tried.
Proof.
  unfold fresh. intros H. apply filter_In in H as [H1 H2]. split; [exact H1|]. intros Hin. apply smem_In in Hin. rewrite Hin in H2. discriminate.
Qed.
Lemma closest_in t l f : get_closest t l = Some f -> In f l.
Proof. intros E. pose proof (get_closest_spec t l) as G. rewrite E in G. apply G. Qed.

Lemma create_store_ok e ops outs m f ls rr rt : Inv ops outs m -> unp = false -> create_store e m = Some (Store f ls rr rt) ->
  out_ok ops outs (Store f ls rr rt) /\ In f (m_floods m).
Proof.
  intros H Hu. unfold create_store. destruct (choose (e_r1 e) (map snd (m_tunnels m))) as [l|] eqn:Ec; [|discriminate].
  destruct (or_else _ _) as [g|] eqn:Eg; [|discriminate]. intros E; injection E as -> <- <- <-.
  assert (Hf : In f (m_floods m)).
  { unfold or_else in Eg. destruct (get_closest (e_target e) (fresh _ _)) eqn:E1.
    - injection Eg as ->. apply closest_in, fresh_in in E1 as [E1 _]. exact E1.
    - now apply closest_in in Eg. }
  split; [|exact Hf]. split; [exact Hu|]. split; [apply (i_ls _ _ _ H)|]. split; [apply (i_floods _ _ _ H); exact Hf|].
  exists l. split; [eapply choose_lease; eauto|auto].
Qed.
Lemma create_lookup_ok e ops outs m f rr rt : Inv ops outs m -> unp = false -> verifying (m_state m) = true ->
  create_lookup e m = Some (Verify f rr rt) -> out_ok ops outs (Verify f rr rt).
Proof.
  intros H Hu Hv. unfold create_lookup. destruct (choose (e_r2 e) (map snd (m_tunnels m))) as [l|] eqn:Ec; [|discriminate].
  destruct (get_closest _ _) as [g|] eqn:Eg; [|discriminate]. intros E; injection E as -> <- <-.
  apply closest_in, fresh_in in Eg as [H1 H2].
  split; [exact Hu|]. split; [apply (i_floods _ _ _ H); exact H1|]. split.
  - intros Hin. apply H2. apply (i_round _ _ _ H Hv). exact Hin.
  - exists l. split; [eapply choose_lease; eauto|auto].
Qed.

Lemma turn_inv e ops outs m m' o b : Inv ops outs m -> turn e m = Some (m', o, b) ->
  Inv ops (outs ++ o) m' /\ (o = [] \/ exists x, o = [x] /\ out_ok ops outs x).
Proof.
  intros H. destruct unp eqn:Hu.
  { assert (Hi := i_idle _ _ _ H). unfold turn. rewrite Hu in Hi. rewrite (Hi eq_refl).
    intros E; injection E as <- <- <-. rewrite app_nil_r. auto. }
  assert (A : forall m1 o1, ask (e_now e) (e_room e) m = (m1, o1) ->
    Inv ops (outs ++ o1) m1 /\ (o1 = [] \/ exists x, o1 = [x] /\ out_ok ops outs x)).
  { intros m1 o1 E. destruct (inv_ask ops outs m m1 o1 _ _ H Hu E) as [A1 A2]. split; [exact A1|].
    unfold ask in E. destruct (e_room e); apply pair_equal_spec in E as [_ <-]; [|auto].
    right. exists AskFloodfills. split; [reflexivity|]. apply A2. now left. }
  assert (S0 : forall s, (forall l, s <> GetClosest (Some (Some l))) -> verifying s = false -> Inv ops (outs ++ []) (s_state m s)).
  { intros s H1 H2. rewrite app_nil_r. apply inv_state; auto; [intros l r E; now apply H1 in E|congruence]. }
  assert (S1 : forall s, (forall l, s <> GetClosest (Some (Some l))) -> verifying (m_state m) = true -> Inv ops (outs ++ []) (s_state m s)).
  { intros s H1 H2. rewrite app_nil_r. apply inv_state; auto; [intros l r E; now apply H1 in E|]. intros _. apply (i_round _ _ _ H H2). }
  unfold turn. destruct (m_state m) as [| |t|k t|a| |t|s t] eqn:Es.
  - intros E; injection E as <- <- <-. rewrite app_nil_r. auto.
  - intros E; injection E as <- <- <-. rewrite app_nil_r. auto.
  - destruct (t <=? e_now e).
    + destruct (ask (e_now e) (e_room e) m) as [m1 o1]. intros E; injection E as <- <- <-. auto.
    + intros E; injection E as <- <- <-. rewrite app_nil_r. auto.
  - destruct (t <=? e_now e); [|intros E; injection E as <- <- <-; rewrite app_nil_r; auto]. destruct k.
    + destruct (ask (e_now e) (e_room e) m) as [m1 o1]. intros E; injection E as <- <- <-. auto.
    + intros E; injection E as <- <- <-. split; [apply S0; [discriminate|reflexivity]|auto].
    + intros E; injection E as <- <- <-. split; [apply S1; [discriminate|reflexivity]|auto].
  - destruct a as [[l|]|]; [|discriminate|intros E; injection E as <- <- <-; rewrite app_nil_r; auto].
    set (all := fold_left (fun a r => sadd r a) l (m_floods m)).
    assert (I1 : Inv ops outs (s_floods m (filter (fun r => smem r (n_closest (e_target e) NUM_CLOSEST_FLOODFILLS all)) all) (m_pending m))).
    { destruct H. constructor; cbn; auto. intros r Hr. apply filter_In in Hr as [Hr _].
      apply sadd_all_in in Hr as [Hr|Hr]; [eapply i_answer0; eauto|auto]. }
    cbv zeta. fold all. set (m1 := s_floods m _ (m_pending m)) in *.
    destruct (m_floods m1) eqn:Ef; intros E; injection E as <- <- <-; rewrite app_nil_r;
      (split; [apply inv_state; auto; discriminate|auto]).
  - destruct (create_store e m) as [[|f ls rr rt| | |]|] eqn:Ec;
      try (intros E; injection E as <- <- <-; split; [apply S0; [discriminate|reflexivity]|auto]).
    destruct (e_store e); [|intros E; injection E as <- <- <-; split; [apply S0; [discriminate|reflexivity]|auto]].
    intros E; injection E as <- <- <-. destruct (create_store_ok e ops outs m f ls rr rt H Hu Ec) as [A1 A2].
    split; [|right; eexists; split; [reflexivity|exact A1]].
    destruct H. constructor; cbn; auto; try congruence.
    + intros r Hr. apply sadd_In in Hr as [->|Hr]; [exists ls, rr, rt; apply in_or_app; cbn; auto|apply stored_app; auto].
    + intros _ r Hr. rewrite round_snoc in Hr. cbn in Hr. apply sadd_In. destruct Hr as [<-|[]]; auto.
  - destruct (t <=? e_now e); intros E; injection E as <- <- <-; [split; [apply S1; [discriminate|reflexivity]|auto]|rewrite app_nil_r; auto].
  - destruct (s + _ <=? e_now e).
    { intros E; injection E as <- <- <-. split; [|auto]. rewrite app_nil_r. destruct H. constructor; cbn; auto; try congruence; discriminate. }
    destruct t as [x|].
    + destruct (x <=? e_now e); intros E; injection E as <- <- <-; [split; [apply S1; [discriminate|reflexivity]|auto]|rewrite app_nil_r; auto].
    + destruct (create_lookup e m) as [[| |f rr rt| |]|] eqn:Ec;
        try (intros E; injection E as <- <- <-; split; [apply S1; [discriminate|reflexivity]|auto]).
      destruct (e_lookup e); [|intros E; injection E as <- <- <-; split; [apply S1; [discriminate|reflexivity]|auto]].
      intros E; injection E as <- <- <-.
      assert (A1 : out_ok ops outs (Verify f rr rt)) by (eapply create_lookup_ok; eauto; rewrite Es; reflexivity).
      split; [|right; eexists; split; [reflexivity|exact A1]].
      destruct H. constructor; cbn; auto; try congruence.
      * intros r Hr. apply stored_app; auto.
      * intros _ r Hr. rewrite round_snoc in Hr. cbn in Hr. apply sadd_In. destruct Hr as [<-|Hr]; [auto|]. right. apply i_round0; [rewrite Es; reflexivity|exact Hr].
Qed.

(** All outputs of a step, each judged by what came out before it. *)
Definition outs_ok (ops : list lop) (outs o : list lout) : Prop :=
  forall a x b, o = a ++ x :: b -> out_ok ops (outs ++ a) x.
Lemma outs_ok_nil ops outs : outs_ok ops outs [].
Proof. intros a x b E. destruct a; discriminate. Qed.
Lemma outs_ok_app ops outs o1 o2 : outs_ok ops outs o1 -> outs_ok ops (outs ++ o1) o2 -> outs_ok ops outs (o1 ++ o2).
Proof.
  intros H1 H2 a x b E. revert a E. 
  assert (G : forall o1 pre, (forall a x b, o1 = a ++ x :: b -> out_ok ops (pre ++ a) x) ->
              (forall a x b, o2 = a ++ x :: b -> out_ok ops ((pre ++ o1) ++ a) x) ->
              forall a, o1 ++ o2 = a ++ x :: b -> out_ok ops (pre ++ a) x).
  { clear. induction o1 as [|y o1 IH]; intros pre H1 H2 a E.
    - cbn in E. apply H2 in E. rewrite app_nil_r in E. exact E.
    - destruct a as [|z a].
      + cbn in E. injection E as -> E. apply (H1 [] x o1). reflexivity.
      + cbn in E. injection E as -> E. specialize (IH (pre ++ [z])).
        rewrite <- app_assoc in IH. cbn in IH. change (pre ++ z :: a) with (pre ++ [z] ++ a). rewrite app_assoc.
        apply IH; [| |exact E].
        * intros a' x' b' E'. rewrite <- app_assoc. cbn. apply (H1 (z :: a') x' b'). now rewrite E'.
        * intros a' x' b' E'. apply H2 in E'. exact E'. }
  intros a. apply (G o1 outs H1 H2).
Qed.
Lemma turns_inv e ops : forall n outs m m' o, Inv ops outs m -> turns n e m = Some (Some (m', o)) ->
  Inv ops (outs ++ o) m' /\ outs_ok ops outs o.
Proof.
  induction n as [|n IH]; intros outs m m' o H; [discriminate|]. cbn [turns].
  destruct (turn e m) as [[[m1 o1] b]|] eqn:E; [|discriminate].
  apply (turn_inv _ _ _ _ _ _ _ H) in E as [H1 O1].
  assert (O1' : outs_ok ops outs o1).
  { destruct O1 as [->|(x & -> & Hx)]; [apply outs_ok_nil|]. intros a y c E. destruct a as [|z [|]]; cbn in E; try discriminate.
    injection E as <- _. rewrite app_nil_r. exact Hx. }
  destruct b; [|intros E; injection E as <- <-; auto].
  destruct (turns n e m1) as [[[m2 o2]|]|] eqn:E2; try discriminate. intros E; injection E as <- <-.
  apply (IH _ _ _ _ H1) in E2 as [H2 O2]. rewrite app_assoc. split; [exact H2|]. now apply outs_ok_app.
Qed.

(** ** Steps *)
Lemma heard_mono r ops op : heard key r ops -> heard key r (ops ++ [op]).
Proof. intros (x & H1 & H2). exists x. split; [apply in_or_app; auto|exact H2]. Qed.
Lemma latest_snoc ops op : latest ls0 (ops ++ [op]) = match op with NewLeaseSet x _ _ => x | _ => latest ls0 ops end.
Proof. unfold latest. now rewrite fold_left_app. Qed.
Lemma live_snoc t ops op : live t ts0 (ops ++ [op]) = live_after t (live t ts0 ops) op.
Proof. unfold live. now rewrite fold_left_app. Qed.

(** An event that changes nothing. *)
Lemma inv_op ops outs m op : Inv ops outs m ->
  match op with NewLeaseSet _ _ _ | TunnelBuilt _ _ | TunnelExpiring _ => False | _ => True end -> Inv (ops ++ [op]) outs m.
Proof.
  intros [] Hop. constructor; auto.
  - rewrite latest_snoc. destruct op; try contradiction; exact i_ls0.
  - intros t. rewrite live_snoc. destruct op; try contradiction; apply i_live0.
  - intros r Hr. apply heard_mono; auto.
  - intros l r E Hr. apply heard_mono; eauto.
Qed.
Lemma replies_in (known : N -> bool) routers : forall a r, In r (fold_left (fun a r => if known r then sadd r a else a) routers a) ->
  In r a \/ (In r routers /\ known r = true).
Proof.
  induction routers as [|x l IH]; cbn; intros a r H; [auto|]. apply IH in H as [H|[H1 H2]]; [|auto].
  destruct (known x) eqn:E; [|auto]. apply sadd_In in H as [->|H]; auto.
Qed.

Lemma step_inv ops outs m op m' o : Inv ops outs m -> lstep m op = Some (m', o) ->
  Inv (ops ++ [op]) (outs ++ o) m' /\ outs_ok (ops ++ [op]) outs o.
Proof.
  intros H. destruct op as [ls now room|k ls|k rs known room|now l|t|t|l|r ok known|e]; cbn [lstep].
  - intros E; injection E as E. unfold register_lease_set in E.
    assert (I1 : Inv (ops ++ [NewLeaseSet ls now room]) outs (s_ls m ls)).
    { destruct H. constructor; cbn; auto.
      - now rewrite latest_snoc.
      - intros t. rewrite live_snoc. apply i_live0.
      - intros r Hr. apply heard_mono; auto.
      - intros l r E' Hr. apply heard_mono; eauto. }
    rewrite (i_unp _ _ _ H) in E. destruct unp eqn:Hu; [apply pair_equal_spec in E as [<- <-]; rewrite app_nil_r; split; [exact I1|apply outs_ok_nil]|].
    destruct (m_state m); try (apply pair_equal_spec in E as [<- <-]; rewrite app_nil_r; split; [exact I1|apply outs_ok_nil]).
    destruct (inv_ask _ _ _ _ _ _ _ I1 Hu E) as [A1 A2]. split; [exact A1|].
    unfold ask in E. destruct room; apply pair_equal_spec in E as [_ <-]; [|apply outs_ok_nil].
    intros a x b E. destruct a as [|? []]; cbn in E; try discriminate. injection E as <- _. exact Hu.
  - intros E; injection E as <- <-. rewrite app_nil_r. split; [|apply outs_ok_nil].
    apply (inv_op _ _ _ (StoreReceived k ls)) in H; [|exact I]. unfold register_store. destruct (negb (m_key m =? k)); [exact H|].
    destruct (m_state m) eqn:Es; try exact H. destruct H. constructor; cbn; auto; try congruence; try contradiction; discriminate.
  - intros E; injection E as E. unfold register_reply in E. rewrite (i_unp _ _ _ H), (i_key _ _ _ H) in E.
    assert (I1 := inv_op _ _ _ (ReplyReceived k rs known room) H I).
    destruct unp eqn:Hu; [apply pair_equal_spec in E as [<- <-]; rewrite app_nil_r; split; [exact I1|apply outs_ok_nil]|].
    destruct (N.eqb_spec key k) as [<-|Hne]; cbn [negb] in E; [|apply pair_equal_spec in E as [<- <-]; rewrite app_nil_r; split; [exact I1|apply outs_ok_nil]].
    apply pair_equal_spec in E as [<- <-].
    assert (Ho : forall a x b, map FindRouter (filter room (fold_left (fun a r => if known r then a else if smem r (m_pending m) then a else sadd r a) rs [])) = a ++ x :: b ->
                 exists r, x = FindRouter r).
    { intros a x b E. assert (In x (a ++ x :: b)) as Hin by (apply in_or_app; cbn; auto). rewrite <- E in Hin.
      apply in_map_iff in Hin as (r & <- & _). eauto. }
    split.
    + set (o := map FindRouter _) in *.
      assert (Hr : forall outs, round (outs ++ o) = round outs).
      { intros os. unfold round. rewrite fold_left_app. unfold o. clear.
        generalize (fold_left round_after os []) as z. intros z.
        induction (filter room _) as [|x l IH]; cbn; auto. }
      destruct I1. constructor; cbn; auto.
      * intros r Hr'. apply replies_in in Hr' as [Hr'|[H1 H2]]; [auto|].
        exists (ReplyReceived key rs known room). split; [apply in_or_app; cbn; auto|auto].
      * intros r Hr'. apply stored_app; auto.
      * intros Hv r. rewrite Hr. apply i_round0. exact Hv.
    + intros a x b E. destruct (Ho a x b E) as [r ->]. exact Hu.
  - intros E; injection E as E. unfold register_built in E.
    set (m1 := s_tunnels m (nput (l_tunnel l) l (m_tunnels m)) (m_expiring m)) in E.
    assert (I1 : Inv (ops ++ [TunnelBuilt now l]) outs m1).
    { unfold m1. destruct H. constructor; cbn; auto.
      - rewrite latest_snoc. exact i_ls0.
      - intros t. rewrite live_snoc, nget_nput. cbn. rewrite (N.eqb_sym t). destruct (l_tunnel l =? t); [reflexivity|apply i_live0].
      - intros t x. rewrite nget_nput. destruct (N.eqb_spec t (l_tunnel l)) as [->|]; [intros E'; injection E' as <-; reflexivity|apply i_tun0].
      - now apply nput_Sorted.
      - intros r Hr. apply heard_mono; auto.
      - intros x r E' Hr. apply heard_mono; eauto. }
    assert (Ol : outs_ok (ops ++ [TunnelBuilt now l]) outs [Leases (map snd (m_tunnels m1))]).
    { intros a x b E'. destruct a as [|? []]; cbn [app] in E'; try discriminate. injection E' as <- _.
      intros y Hy. apply in_map_iff in Hy as ([t z] & <- & Hin).
      assert (Hg : nget t (m_tunnels m1) = Some z) by (apply In_nget_nodup; [apply sorted_NoDup; apply (i_sorted _ _ _ I1)|exact Hin]).
      cbn [snd]. rewrite (i_tun _ _ _ I1 _ _ Hg). now rewrite <- (i_live _ _ _ I1). }
    assert (Hadd : forall mm, Inv (ops ++ [TunnelBuilt now l]) outs mm -> Inv (ops ++ [TunnelBuilt now l]) (outs ++ [Leases (map snd (m_tunnels m1))]) mm).
    { intros mm []. constructor; auto; [intros r Hr; apply stored_app; auto|]. intros Hv r. rewrite round_snoc. apply i_round0; auto. }
    rewrite (i_unp _ _ _ H) in E. destruct unp eqn:Hu; [apply pair_equal_spec in E as [<- <-]; auto|].
    destruct (_ =? m_num m); apply pair_equal_spec in E as [<- <-]; (split; [|exact Ol]); apply Hadd; apply inv_state; auto; discriminate.
  - intros E; injection E as <- <-. rewrite app_nil_r. split; [|apply outs_ok_nil]. unfold register_expiring.
    destruct (nget t (m_tunnels m)) as [x|] eqn:Eg.
    + destruct H. constructor; cbn; auto.
      * rewrite latest_snoc. exact i_ls0.
      * intros t'. rewrite live_snoc, nget_ndel by (apply sorted_NoDup; auto). cbn. rewrite (N.eqb_sym t'). destruct (t =? t'); [reflexivity|apply i_live0].
      * intros t' z. rewrite nget_ndel by (apply sorted_NoDup; auto). destruct (t' =? t); [discriminate|apply i_tun0].
      * now apply ndel_Sorted.
      * intros r Hr. apply heard_mono; auto.
      * intros y r E' Hr. apply heard_mono; eauto.
    + destruct H. constructor; cbn; auto.
      * rewrite latest_snoc. exact i_ls0.
      * intros t'. rewrite live_snoc. cbn. destruct (N.eqb_spec t t') as [<-|]; [now rewrite Eg|apply i_live0].
      * intros r Hr. apply heard_mono; auto.
      * intros y r E' Hr. apply heard_mono; eauto.
  - intros E; injection E as <- <-. rewrite app_nil_r. split; [|apply outs_ok_nil].
    apply (inv_op _ _ _ (TunnelExpired t)) in H; [|exact I]. destruct H. constructor; cbn; auto.
  - intros E; injection E as <- <-. rewrite app_nil_r. split; [|apply outs_ok_nil].
    apply (inv_op _ _ _ (Floodfills l)) in H; [|exact I]. destruct (m_state m) as [| |?|? ?|[?|]| |?|? ?] eqn:Es; try exact H.
    apply inv_state; auto.
    + intros l' r E Hr. injection E as ->. exists (Floodfills (Some l')). split; [apply in_or_app; cbn; auto|exact Hr].
    + discriminate.
    + destruct unp eqn:Hu; [|reflexivity]. pose proof (i_idle _ _ _ H) as Hi. rewrite Hu in Hi. specialize (Hi eq_refl). congruence.
  - intros E; injection E as <- <-. rewrite app_nil_r. split; [|apply outs_ok_nil].
    apply (inv_op _ _ _ (RouterFound r ok known)) in H; [|exact I]. destruct H. constructor; cbn; auto.
    intros x Hx. destruct (ok && known) eqn:E; [|auto]. apply sadd_In in Hx as [->|Hx]; [|auto].
    apply andb_true_iff in E as [-> ->]. exists (RouterFound r true true). split; [apply in_or_app; cbn; auto|auto].
  - intros E. apply (inv_op _ _ _ (Poll e)) in H; [|exact I]. unfold l_poll in E.
    destruct (turns 8 e m) as [[[m1 o1]|]|] eqn:Et; try discriminate. injection E as <- <-.
    eapply turns_inv; eauto.
Qed.
Lemma new_inv now room : let (m, o) := l_new key unp num ts0 ls0 now room in Inv [] o m.
Proof.
  unfold l_new. set (m := mkM _ _ _ _ _ _ _ _ _ _ _).
  assert (I0 : Inv [] [] m).
  { unfold m. constructor; cbn; auto; try contradiction; try discriminate.
    - intros t. unfold live, live_first. cbn [fold_left].
      assert (G : forall l a b, nget t a = b -> nget t (fold_left (fun a l => nput (l_tunnel l) l a) l a) =
                  fold_left (fun a l => if l_tunnel l =? t then Some l else a) l b).
      { induction l as [|x l IH]; cbn; intros a b E; [exact E|]. apply IH. rewrite nget_nput, (N.eqb_sym t). destruct (l_tunnel x =? t); auto. }
      apply G. reflexivity.
    - assert (G : forall l a, (forall t x, nget t a = Some x -> l_tunnel x = t) ->
                  forall t x, nget t (fold_left (fun a l => nput (l_tunnel l) l a) l a) = Some x -> l_tunnel x = t).
      { induction l as [|y l IH]; cbn; intros a Ha t x; [apply Ha|]. apply IH. intros t' x'. rewrite nget_nput.
        destruct (N.eqb_spec t' (l_tunnel y)) as [->|]; [intros E; injection E as <-; reflexivity|apply Ha]. }
      apply G. discriminate.
    - assert (G : forall l (a : nmap lease), sorted (nkeys a) -> sorted (nkeys (fold_left (fun a l => nput (l_tunnel l) l a) l a))).
      { induction l as [|y l IH]; cbn; intros a Ha; [exact Ha|]. apply IH. now apply nput_Sorted. }
      apply G. constructor. }
  destruct unp eqn:Hu; [exact I0|].
  destruct (ask now room m) as [m1 o1] eqn:E. apply (inv_ask _ _ _ _ _ _ _ I0 Hu E).
Qed.
Lemma run_inv : forall ops2 ops outs m m' os, Inv ops outs m -> lrun m ops2 = Some (m', os) ->
  Inv (ops ++ ops2) (outs ++ concat os) m'.
Proof.
  induction ops2 as [|op ops2 IH]; intros ops outs m m' os H; cbn [lrun].
  - intros E; injection E as <- <-. cbn. now rewrite !app_nil_r.
  - destruct (lstep m op) as [[m1 o]|] eqn:E1; [|discriminate]. destruct (lrun m1 ops2) as [[m2 os2]|] eqn:E2; [|discriminate].
    intros E; injection E as <- <-. apply (step_inv _ _ _ _ _ _ H) in E1 as [H1 _].
    apply (IH _ _ _ _ _ H1) in E2. cbn [concat]. now rewrite <- !app_assoc in E2.
Qed.
End Inv.
