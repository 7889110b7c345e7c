(** Proofs about the profile storage. *)
From Coq Require Import List NArith Bool Lia Permutation Arith.
From Verif Require Import NMap Bytes RouteProofs DialProofs ProfileModel ProfileSpec.
Import ListNotations.
Open Scope N_scope.

Lemma nhas_put {V} r k (v : V) m : nhas r (nput k v m) = (r =? k) || nhas r m.
Proof. unfold nhas. rewrite nget_nput. destruct (r =? k); reflexivity. Qed.
Lemma nhas_keys {V} r (m : nmap V) : nhas r m = true <-> In r (nkeys m).
Proof. unfold nhas. rewrite <- nget_Some_nkeys. destruct (nget r m); split; intros; eauto; [discriminate | destruct H; discriminate]. Qed.

Record pinv (s : store) : Prop := {
  pi_info : forall r, findable s r -> nhas r (s_infos s) = true;
  pi_prof : forall r, nhas r (s_infos s) = true -> nhas r (s_profiles s) = true;
  pi_apart : forall r, In r (s_fast s) -> ~ In r (s_standard s);
  pi_disc : forall r, nhas r (s_discovered s) = true -> nhas r (s_infos s) = true }.

Lemma findable_iff s r : findable s r <-> In r (s_fast s) \/ In r (s_standard s) \/ In r (s_untracked s).
Proof. unfold findable. cbn [bucket_ids]. rewrite !in_app_iff. tauto. Qed.

(** *** Construction *)
Lemma split_in cap ord profs l a b : sorts ord -> split_bucket cap ord profs l = (a, b) ->
  (forall r, In r a -> In r l /\ is_tracked profs r = true) /\
  (forall r, In r b -> In r l) /\
  (NoDup l -> forall r, In r a -> ~ In r b).
Proof.
  intros O H. unfold split_bucket in H.
  destruct (filter (is_tracked profs) l) as [|x t] eqn:E.
  - apply pair_equal_spec in H as [<- <-]. split; [intros r []|]. split; [|intros _ r []].
    intros r H. apply filter_In in H. tauto.
  - apply pair_equal_spec in H as [<- <-].
    assert (P : forall r, In r (ord (x :: t)) -> In r l /\ is_tracked profs r = true).
    { intros r H. apply (Permutation_in _ (O (x :: t))) in H. rewrite <- E in H. now apply filter_In in H. }
    assert (F : forall r, In r (firstn cap (ord (x :: t))) -> In r (ord (x :: t))).
    { intros r H. rewrite <- (firstn_skipn cap). apply in_or_app. auto. }
    assert (S : forall r, In r (skipn cap (ord (x :: t))) -> In r (ord (x :: t))).
    { intros r H. rewrite <- (firstn_skipn cap). apply in_or_app. auto. }
    split; [intros r H; apply P, F, H|]. split; [intros r H; apply P, S, H|].
    intros ND r H1 H2. assert (ND' : NoDup (ord (x :: t))).
    { apply (Permutation_NoDup (Permutation_sym (O (x :: t)))). rewrite <- E. now apply NoDup_filter. }
    rewrite <- (firstn_skipn cap) in ND'. revert H1 H2 ND'. generalize (firstn cap (ord (x :: t))), (skipn cap (ord (x :: t))).
    clear. intros l m. induction l as [|y l IH]; intros H1 H2 ND; [destruct H1|]. cbn [app] in ND.
    inversion ND as [|? ? N1 N2]; subst. destruct H1 as [->|H1]; [apply N1, in_or_app; auto | now apply IH].
Qed.

Lemma fill_profiles keys : forall m r,
  nhas r (fold_left (fun m r => if nhas r m then m else nput r profile_new m) keys m) = nhas r m || smem r keys.
Proof.
  induction keys as [|k keys IH]; intros m r; cbn [fold_left smem]; [now rewrite orb_false_r|].
  rewrite IH. destruct (nhas k m) eqn:E.
  - destruct (N.eqb_spec r k) as [->|N]; [now rewrite E|]. reflexivity.
  - rewrite nhas_put. destruct (N.eqb_spec r k) as [->|N]; [now rewrite orb_true_r|]. reflexivity.
Qed.

Lemma infos_sorted l : forall m : nmap rinfo, sorted (nkeys m) -> sorted (nkeys (fold_left (fun m x => nput (fst x) (snd x) m) l m)).
Proof. induction l as [|x l IH]; intros m S; cbn [fold_left]; [exact S|]. apply IH. now apply nput_Sorted. Qed.

Lemma pinv_new ord1 ord2 routers profiles : sorts ord1 -> sorts ord2 -> pinv (storage_new ord1 ord2 routers profiles).
Proof.
  intros O1 O2. unfold storage_new.
  set (infos := fold_left (fun (m : nmap rinfo) x => nput (fst x) (snd x) m) routers []).
  set (known := fold_left (fun (m : nmap profile) x => if nhas (fst x) infos then nput (fst x) (snd x) m else m) profiles []).
  set (profs := fold_left (fun m r => if nhas r m then m else nput r profile_new m) (nkeys infos) known).
  set (ok := filter (fun x => f_reachable (snd x) && f_usable (snd x)) infos). cbv zeta.
  set (fast0 := map fst (filter (fun x => f_fast (snd x)) ok)). set (std0 := map fst (filter (fun x => negb (f_fast (snd x))) ok)).
  destruct (split_bucket NUM_FAST ord1 profs fast0) as [fast rest] eqn:E1.
  destruct (split_bucket NUM_STANDARD ord2 profs (std0 ++ rest)) as [standard untracked] eqn:E2.
  destruct (split_in _ _ _ _ _ _ O1 E1) as (A1 & A2 & A3).
  destruct (split_in _ _ _ _ _ _ O2 E2) as (B1 & B2 & B3).
  assert (ND : NoDup (nkeys infos)) by (apply sorted_NoDup, infos_sorted; constructor).
  assert (K : forall x, In x ok -> In (fst x) (nkeys infos)).
  { intros x H. apply filter_In in H as [H _]. now apply (in_map fst). }
  assert (KF : forall r, In r fast0 -> In r (nkeys infos)).
  { intros r H. apply in_map_iff in H as (x & <- & H). apply filter_In in H. now apply K. }
  assert (KS : forall r, In r std0 -> In r (nkeys infos)).
  { intros r H. apply in_map_iff in H as (x & <- & H). apply filter_In in H. now apply K. }
  assert (UNIQ : forall x y, In x infos -> In y infos -> fst x = fst y -> x = y).
  { intros [a b] [c d] H1 H2 H. cbn in H. subst c.
    apply (In_nget_nodup _ _ _ _ ND) in H1, H2. congruence. }
  assert (FS : forall r, In r fast0 -> ~ In r std0).
  { intros r H1 H2. apply in_map_iff in H1 as (x & <- & H1), H2 as (y & HY & H2).
    apply filter_In in H1 as [H1 F1], H2 as [H2 F2]. apply filter_In in H1 as [H1 _], H2 as [H2 _].
    assert (x = y) by (apply UNIQ; auto). subst y. rewrite F1 in F2. discriminate F2. }
  assert (NDM : forall (f : N * rinfo -> bool) l, NoDup (map fst l) -> NoDup (map fst (filter f l))).
  { intros f l. induction l as [|x l IH]; cbn; [auto|]. intro H. inversion H as [|? ? N1 N2]; subst.
    destruct (f x); cbn; [constructor|]; auto. intro G. apply N1. apply in_map_iff in G as (y & <- & G).
    apply filter_In in G. apply in_map. tauto. }
  assert (NDF : NoDup fast0) by (apply NDM, NDM; exact ND).
  split; cbn [s_infos s_profiles s_fast s_standard s_untracked s_discovered].
  - intros r H. apply findable_iff in H. cbn [s_fast s_standard s_untracked] in H. apply nhas_keys.
    assert (R : In r (std0 ++ rest) -> In r (nkeys infos)).
    { intro G. apply in_app_iff in G as [G|G]; [now apply KS | apply KF, A2, G]. }
    destruct H as [H|[H|H]]; [apply KF; now apply A1 | apply R; now apply B1 | apply R; now apply B2].
  - intros r H. unfold profs. rewrite fill_profiles. apply nhas_keys, smem_in in H. rewrite H. apply orb_true_r.
  - intros r H1 H2. apply B1 in H2 as [H2 _]. apply in_app_iff in H2 as [H2|H2].
    + apply (FS r); [now apply A1 | exact H2].
    + now apply (A3 NDF r).
  - intros r H. discriminate H.
Qed.

(** *** Steps *)
Lemma add_info_at s r i x : acceptable i = true ->
  nget x (s_infos (fst (add_router s r i))) = if x =? r then Some i else nget x (s_infos s).
Proof.
  intro A. unfold add_router. rewrite A. cbn [fst].
  assert (E : s_infos (add_info (add_buckets s r i) r i) = nput r i (s_infos s)).
  { unfold add_info, add_buckets. destruct (f_fast i); reflexivity. }
  destruct (nhas r (s_infos (add_buckets s r i))); cbn [add_profile s_infos]; rewrite E; apply nget_nput.
Qed.
Lemma add_findable s r i x : acceptable i = true -> findable (fst (add_router s r i)) x <->
  x = r \/ findable s x.
Proof.
  intro A. unfold add_router. rewrite A. cbn [fst].
  assert (E : findable (add_info (add_buckets s r i) r i) x <-> x = r \/ findable s x).
  { rewrite !findable_iff. unfold add_info, add_buckets. destruct (f_fast i); cbn [s_fast s_standard s_untracked];
      rewrite ?sadd_in, ?sdel_in; destruct (N.eq_dec x r); tauto. }
  destruct (nhas r (s_infos (add_buckets s r i))); [exact E|]. rewrite <- E, !findable_iff. reflexivity.
Qed.
Lemma pinv_add s r i : pinv s -> pinv (fst (add_router s r i)).
Proof.
  intro I. destruct (acceptable i) eqn:A; [|unfold add_router; rewrite A; exact I].
  assert (HI : forall x, nhas x (s_infos (fst (add_router s r i))) = (x =? r) || nhas x (s_infos s)).
  { intro x. unfold nhas. rewrite add_info_at by exact A. destruct (x =? r); reflexivity. }
  split.
  - intros x H. apply add_findable in H; [|exact A]. rewrite HI. destruct H as [->|H]; [now rewrite N.eqb_refl|].
    apply (pi_info s I) in H. rewrite H. apply orb_true_r.
  - intros x H. rewrite HI in H. unfold add_router. rewrite A. cbn [fst].
    assert (SI : nhas r (s_infos (add_buckets s r i)) = nhas r (s_infos s)) by (unfold add_buckets; destruct (f_fast i); reflexivity).
    assert (SP : s_profiles (add_info (add_buckets s r i) r i) = s_profiles s) by (unfold add_info, add_buckets; destruct (f_fast i); reflexivity).
    rewrite SI. destruct (nhas r (s_infos s)) eqn:E.
    + rewrite SP. apply (pi_prof s I). destruct (x =? r) eqn:EX; [apply N.eqb_eq in EX; now rewrite EX | exact H].
    + cbn [add_profile s_profiles]. rewrite SP, nhas_put. destruct (x =? r); [reflexivity|]. now apply (pi_prof s I).
  - assert (X : s_fast (fst (add_router s r i)) = s_fast (add_buckets s r i) /\ s_standard (fst (add_router s r i)) = s_standard (add_buckets s r i)).
    { unfold add_router. rewrite A. cbn [fst]. destruct (nhas r _); auto. }
    destruct X as [-> ->]. intros x H1 H2. unfold add_buckets in H1, H2. destruct (f_fast i); cbn [s_fast s_standard] in *;
      rewrite ?sadd_in, ?sdel_in in *; destruct (N.eq_dec x r); try tauto; apply (pi_apart s I x); tauto.
  - assert (X : s_discovered (fst (add_router s r i)) = s_discovered s).
    { unfold add_router. rewrite A. cbn [fst]. destruct (nhas r _); unfold add_info, add_buckets; destruct (f_fast i); reflexivity. }
    rewrite X. intros x H. rewrite HI. apply (pi_disc s I) in H. rewrite H. apply orb_true_r.
Qed.
Lemma discover_as_add s r i b :
  s_infos (discover_router s r i b) = s_infos (fst (add_router s r i)) /\
  s_profiles (discover_router s r i b) = s_profiles (fst (add_router s r i)) /\
  s_fast (discover_router s r i b) = s_fast (fst (add_router s r i)) /\
  s_standard (discover_router s r i b) = s_standard (fst (add_router s r i)) /\
  s_untracked (discover_router s r i b) = s_untracked (fst (add_router s r i)) /\
  s_discovered (discover_router s r i b) =
    if acceptable i then nput r b (s_discovered s) else s_discovered s.
Proof.
  unfold discover_router. assert (X : s_discovered (fst (add_router s r i)) = s_discovered s).
  { unfold add_router. destruct (acceptable i); [|reflexivity]. cbn [fst]. destruct (nhas r _); unfold add_info, add_buckets; destruct (f_fast i); reflexivity. }
  assert (Y : snd (add_router s r i) = acceptable i) by (unfold add_router; destruct (acceptable i); reflexivity).
  destruct (add_router s r i) as [s1 ok]. cbn [fst snd] in *. subst ok. destruct (acceptable i); cbn; rewrite X; repeat split.
Qed.
Lemma pinv_discover s r i b : pinv s -> pinv (discover_router s r i b).
Proof.
  intro I. pose proof (pinv_add s r i I) as [P1 P2 P3 P4].
  destruct (discover_as_add s r i b) as (E1 & E2 & E3 & E4 & E5 & E6).
  split; try (rewrite ?E1, ?E2, ?E3, ?E4; assumption).
  - intros x H. rewrite E1. apply P1. rewrite findable_iff in *. rewrite E3, E4, E5 in H. exact H.
  - rewrite E1, E6. intros x H. destruct (acceptable i) eqn:A.
    + rewrite nhas_put in H. unfold nhas. rewrite add_info_at by exact A. destruct (x =? r); [reflexivity|].
      apply (pi_disc s I) in H. unfold nhas in H. exact H.
    + unfold add_router. rewrite A. cbn [fst]. now apply (pi_disc s I).
Qed.
Lemma pinv_event s r e s' : pinv s -> record_event s r e = Some s' -> pinv s' /\
  s_infos s' = s_infos s /\ s_fast s' = s_fast s /\ s_standard s' = s_standard s /\ s_untracked s' = s_untracked s /\
  s_discovered s' = s_discovered s.
Proof.
  intros I H.
  assert (G : forall p, pinv (set_profile s r p)).
  { intro p. destruct I as [P1 P2 P3 P4]. split; cbn [set_profile s_infos s_profiles s_fast s_standard s_untracked s_discovered]; auto.
    intros x X. rewrite nhas_put. rewrite (P2 x X). apply orb_true_r. }
  unfold record_event in H. destruct (nget r (s_profiles s)).
  - injection H as <-. split; [apply G | repeat split].
  - destruct e; try discriminate H; injection H as <-; (split; [first [apply G | exact I] | repeat split]).
Qed.
Lemma pinv_backup s : pinv s -> pinv (fst (backup s)).
Proof.
  intros [P1 P2 P3 P4]. unfold backup. cbn [fst]. split; cbn [s_infos s_profiles s_fast s_standard s_untracked s_discovered]; auto.
  intros r H. apply P4. revert H. generalize (s_discovered s). induction (nkeys (s_profiles s)) as [|k l IH]; intros m H; [exact H|].
  cbn [fold_left] in H. apply IH in H. unfold nhas in *. rewrite nget_ndel in H. destruct (r =? k); [discriminate H | exact H].
Qed.

Lemma fold_sadd_in x base l : In x (fold_right sadd base l) <-> In x l \/ In x base.
Proof. induction l as [|y l IH]; cbn [fold_right In]; [tauto|]. rewrite sadd_in, IH. split; [intros [->|[|]] | intros [[->|]|]]; auto. Qed.

Lemma place_spec infos l : forall f st u f' st' u', place infos l f st u = (f', st', u') ->
  (forall x, In x f' \/ In x st' \/ In x u' <->
     (In x f \/ In x st \/ In x u) \/ (In x l /\ exists i, nget x infos = Some i /\ f_reachable i = true)) /\
  (NoDup l -> (forall x, In x l -> ~ In x f /\ ~ In x st) -> (forall x, In x f -> ~ In x st) -> forall x, In x f' -> ~ In x st').
Proof.
  induction l as [|r l IH]; intros f st u f' st' u' H; cbn [place] in H.
  - apply pair_equal_spec in H as [H <-]. apply pair_equal_spec in H as [<- <-].
    split; [intro x; cbn [In]; tauto | auto].
  - destruct (nget r infos) as [i|] eqn:E; [destruct (f_reachable i) eqn:R; cbn [negb] in H|].
    + assert (IFF : forall x, (x = r \/ (In x f \/ In x st \/ In x u)) \/ (In x l /\ exists i, nget x infos = Some i /\ f_reachable i = true) <->
        (In x f \/ In x st \/ In x u) \/ (In x (r :: l) /\ exists i, nget x infos = Some i /\ f_reachable i = true)).
      { intro x. cbn [In]. split.
        - intros [[->|H1]|[H1 H2]]; auto. right. split; [auto | eauto].
        - intros [H1|[[->|H1] H2]]; auto. }
      destruct (f_fast i && Nat.ltb (length f) NUM_FAST); [|destruct (Nat.ltb (length st) NUM_STANDARD)];
        (destruct (IH _ _ _ _ _ _ H) as [H1 H2]; split;
         [ intro x; rewrite H1, <- IFF, sadd_in; tauto
         | intros ND D A; inversion ND as [|? ? N1 N2]; subst; apply H2; [exact N2 | |] ]).
      * intros x X. rewrite sadd_in. destruct (D x (or_intror X)). split; [intros [->|]; tauto | tauto].
      * intros x X. rewrite sadd_in in X. destruct X as [->|X]; [apply D; now left | now apply A].
      * intros x X. rewrite sadd_in. destruct (D x (or_intror X)). split; [tauto | intros [->|]; tauto].
      * intros x X. rewrite sadd_in. intros [->|G]; [destruct (D r (or_introl eq_refl)); tauto | now apply (A x)].
      * intros x X. apply D. now right.
      * exact A.
    + destruct (IH _ _ _ _ _ _ H) as [H1 H2]. split.
      * intro x. rewrite H1. cbn [In]. split; [tauto|]. intros [G|[[->|G] (j & J1 & J2)]]; [tauto | congruence | eauto].
      * intros ND D A. inversion ND as [|? ? N1 N2]; subst. apply H2; [exact N2 | intros x X; apply D; now right | exact A].
    + destruct (IH _ _ _ _ _ _ H) as [H1 H2]. split.
      * intro x. rewrite H1. cbn [In]. split; [tauto|]. intros [G|[[->|G] (j & J1 & J2)]]; [tauto | congruence | eauto].
      * intros ND D A. inversion ND as [|? ? N1 N2]; subst. apply H2; [exact N2 | intros x X; apply D; now right | exact A].
Qed.

Lemma fold_sadd_sorted l : sorted (fold_right sadd [] l).
Proof. induction l as [|y l IH]; cbn [fold_right]; [constructor | now apply sadd_sorted]. Qed.

Lemma maintain_ok ord s : sorts ord -> pinv s -> exists s', maintain ord s = Some s' /\ pinv s' /\
  s_infos s' = s_infos s /\ s_profiles s' = s_profiles s /\ s_discovered s' = s_discovered s /\
  (forall x i, nget x (s_infos s) = Some i -> f_reachable i = true -> findable s x -> findable s' x) /\
  (forall x, findable s' x -> findable s x).
Proof.
  intros O I. unfold maintain.
  assert (A : forallb (fun r => nhas r (s_profiles s)) (bucket_ids s BAny) = true).
  { apply forallb_forall. intros x X. apply (pi_prof s I), (pi_info s I), X. }
  rewrite A. set (all := bucket_ids s BAny).
  remember (fold_right sadd [] (filter (is_tracked (s_profiles s)) all)) as t eqn:ET.
  set (u := fold_right sadd [] (filter (fun r => negb (is_tracked (s_profiles s) r)) all)).
  assert (HT : forall x, In x t <-> In x all /\ is_tracked (s_profiles s) x = true).
  { intro x. rewrite ET, fold_sadd_in, filter_In. cbn [In]. tauto. }
  assert (HU : forall x, In x u <-> In x all /\ is_tracked (s_profiles s) x = false).
  { intro x. unfold u. rewrite fold_sadd_in, filter_In, negb_true_iff. cbn [In]. tauto. }
  destruct t as [|t0 t']; [exists s; split; [reflexivity|]; split; [exact I|]; auto 10|].
  destruct (place (s_infos s) (ord (t0 :: t')) [] [] []) as [[f st] un] eqn:P.
  destruct (place_spec _ _ _ _ _ _ _ _ P) as [P1 P2].
  assert (PT : forall x, In x (ord (t0 :: t')) <-> In x (t0 :: t')).
  { intro x. split; apply Permutation_in; [apply O | apply Permutation_sym, O]. }
  assert (ND : NoDup (ord (t0 :: t'))).
  { apply (Permutation_NoDup (Permutation_sym (O _))). rewrite ET. apply sorted_NoDup, fold_sadd_sorted. }
  eexists. split; [reflexivity|].
  assert (B : forall x, findable (mkStore (s_infos s) (s_profiles s) f st (fold_right sadd un u) (s_discovered s)) x -> findable s x).
  { intros x X. rewrite findable_iff in X. cbn [s_fast s_standard s_untracked] in X. rewrite fold_sadd_in in X.
    assert (Y : In x u \/ (In x f \/ In x st \/ In x un)) by tauto. destruct Y as [Y|Y]; [now apply HU|].
    apply P1 in Y as [[[]|[[]|[]]]|[Y _]]. apply HT. now apply PT. }
  split; [split; cbn [s_infos s_profiles s_fast s_standard s_untracked s_discovered]|].
  - intros x X. apply (pi_info s I), B, X.
  - apply (pi_prof s I).
  - apply P2; [exact ND | intros x X; split; intros [] | intros x []].
  - apply (pi_disc s I).
  - cbn [s_infos s_profiles s_discovered]. split; [reflexivity|]. split; [reflexivity|]. split; [reflexivity|]. split; [|exact B].
    intros x i X R F. rewrite findable_iff. cbn [s_fast s_standard s_untracked]. rewrite fold_sadd_in.
    destruct (is_tracked (s_profiles s) x) eqn:T.
    + assert (Y : In x f \/ In x st \/ In x un).
      { apply P1. right. split; [apply PT, HT; auto | eauto]. }
      tauto.
    + right. right. left. apply HU. auto.
Qed.

Lemma choose_ok s f l : (forall r i p, f r i p <> None) ->
  (forall r, In r l -> nhas r (s_infos s) = true /\ nhas r (s_profiles s) = true) -> exists x, choose s f l = Some x.
Proof.
  intros F. induction l as [|r l IH]; intro H; cbn [choose]; [eauto|].
  destruct (H r (or_introl eq_refl)) as [H1 H2]. unfold nhas in H1, H2.
  destruct (nget r (s_profiles s)) as [p|]; [|discriminate H2]. destruct (nget r (s_infos s)) as [i|]; [|discriminate H1].
  destruct (IH (fun x X => H x (or_intror X))) as [x ->]. specialize (F r i p). destruct (f r i p); [eauto | now destruct F].
Qed.
Lemma choose_spec s f l : forall out, choose s f l = Some out ->
  forall r, In r out <-> In r l /\ exists i p, nget r (s_infos s) = Some i /\ nget r (s_profiles s) = Some p /\ f r i p = Some true.
Proof.
  induction l as [|x l IH]; intros out H r; cbn [choose] in H.
  - injection H as <-. cbn. tauto.
  - destruct (nget x (s_profiles s)) as [p|] eqn:EP; [|discriminate H]. destruct (nget x (s_infos s)) as [i|] eqn:EI; [|discriminate H].
    destruct (f x i p) as [b|] eqn:F; [|discriminate H]. destruct (choose s f l) as [t|]; [|discriminate H]. injection H as <-.
    specialize (IH t eq_refl r). destruct b; cbn [In]; rewrite IH; split.
    + intros [->|H]; [split; [auto|]; eauto | tauto].
    + intros [[->|H] G]; [auto | tauto].
    + tauto.
    + intros [[->|H] (i' & p' & A & B & C)]; [congruence|]. split; [exact H | eauto].
Qed.

(** One step: no panic, and what is kept. *)
Lemma pstep_ok s o known : pinv s -> (forall r, In r known -> nhas r (s_infos s) = true) -> proper known [o] ->
  exists s' u, pstep s o = Some (s', u) /\ pinv s' /\
    (forall r, In r (match stores o with Some (r, _) => r :: known | None => known end) -> nhas r (s_infos s') = true).
Proof.
  intros I K [V _]. destruct o as [r i|r i b|b f|r e|ord|]; cbn [pstep stores].
  - eexists _, _. split; [reflexivity|]. split; [now apply pinv_add|]. destruct (acceptable i) eqn:A.
    + intros x X. unfold nhas. rewrite add_info_at by exact A. destruct (N.eqb_spec x r); [reflexivity|].
      destruct X as [X|X]; [congruence|]. apply K in X. exact X.
    + unfold add_router. rewrite A. exact K.
  - eexists _, _. split; [reflexivity|]. split; [now apply pinv_discover|].
    destruct (discover_as_add s r i b) as (-> & _). destruct (acceptable i) eqn:A.
    + intros x X. unfold nhas. rewrite add_info_at by exact A. destruct (N.eqb_spec x r); [reflexivity|].
      destruct X as [X|X]; [congruence|]. apply K in X. exact X.
    + unfold add_router. rewrite A. exact K.
  - destruct (choose_ok s f (bucket_ids s b) V) as [l E].
    { intros r X. assert (F : findable s r).
      { apply findable_iff. destruct b; cbn [bucket_ids] in X; try tauto. now apply findable_iff. }
      split; [now apply (pi_info s I) | now apply (pi_prof s I), (pi_info s I)]. }
    unfold get_router_ids. rewrite E. eauto 10.
  - assert (E : exists s', record_event s r e = Some s').
    { unfold record_event. destruct (nget r (s_profiles s)) eqn:E; [eauto|].
      destruct (about_hop e) eqn:A; [|destruct e; try discriminate A; eauto].
      assert (X : nhas r (s_profiles s) = true) by (apply (pi_prof s I), K, V; reflexivity). unfold nhas in X. rewrite E in X. discriminate X. }
    destruct E as [s' E]. rewrite E. destruct (pinv_event s r e s' I E) as (I' & E1 & _).
    eexists _, _. split; [reflexivity|]. split; [exact I'|]. rewrite E1. exact K.
  - destruct (maintain_ok ord s V I) as (s' & E & I' & E1 & _). rewrite E.
    eexists _, _. split; [reflexivity|]. split; [exact I'|]. rewrite E1. exact K.
  - cbn [backup]. eexists _, _. split; [reflexivity|]. split; [apply (pinv_backup s I) | exact K].
Qed.

Lemma prun_ok l : forall s known, pinv s -> (forall r, In r known -> nhas r (s_infos s) = true) -> proper known l ->
  exists s' outs, prun s l = Some (s', outs) /\ pinv s'.
Proof.
  induction l as [|o l IH]; intros s known I K V; cbn [prun]; [eauto|]. destruct V as [V1 V2].
  destruct (pstep_ok s o known I K (conj V1 Logic.I)) as (s1 & u & E & I1 & K1). rewrite E.
  destruct (IH s1 _ I1 K1 V2) as (s2 & v & E2 & I2). rewrite E2. eauto.
Qed.

(** A router in a bucket, with a reachable router info, stays in one. *)
Definition in_reach (s : store) (r : N) : Prop :=
  findable s r /\ exists i, nget r (s_infos s) = Some i /\ f_reachable i = true.
Lemma acceptable_reachable i : acceptable i = true -> f_reachable i = true.
Proof. unfold acceptable. destruct (f_reachable i); [reflexivity | discriminate]. Qed.
Lemma pstep_reach s o s' u r known : pinv s -> proper known [o] -> pstep s o = Some (s', u) -> in_reach s r -> in_reach s' r.
Proof.
  intros I [V _] H [F (i & E & R)]. destruct o as [x j|x j b|b f|x e|ord|]; cbn [pstep] in H.
  - apply (f_equal (fun o => match o with Some p => fst p | None => s end)) in H. cbn in H. subst s'.
    destruct (acceptable j) eqn:A; [|unfold add_router; rewrite A; split; [exact F | eauto]].
    split; [apply add_findable; auto|]. rewrite add_info_at by exact A.
    destruct (r =? x); [exists j; split; [reflexivity | now apply acceptable_reachable] | eauto].
  - apply (f_equal (fun o => match o with Some p => fst p | None => s end)) in H. cbn [fst] in H. subst s'.
    destruct (discover_as_add s x j b) as (E1 & _ & E3 & E4 & E5 & _). unfold in_reach. rewrite findable_iff, E1, E3, E4, E5.
    rewrite <- findable_iff.
    destruct (acceptable j) eqn:A; [|unfold add_router; rewrite A; split; [exact F | eauto]].
    split; [apply add_findable; auto|]. rewrite add_info_at by exact A.
    destruct (r =? x); [exists j; split; [reflexivity | now apply acceptable_reachable] | eauto].
  - destruct (get_router_ids s b f); [|discriminate H]. injection H as <- <-. split; [exact F | eauto].
  - destruct (record_event s x e) as [s1|] eqn:RE; [|discriminate H]. injection H as <- <-.
    destruct (pinv_event s x e s1 I RE) as (_ & E1 & E2 & E3 & E4 & _). split; [|rewrite E1; eauto].
    rewrite findable_iff in *. rewrite E2, E3, E4. exact F.
  - destruct (maintain_ok ord s V I) as (s1 & M & _ & E1 & _ & _ & G & _). rewrite M in H. injection H as <- <-.
    split; [eapply G; eauto | rewrite E1; eauto].
  - cbn [backup] in H. injection H as <- <-. split; [|eauto]. rewrite findable_iff in *. exact F.
Qed.
Lemma prun_reach l : forall s s' outs r known, pinv s -> (forall r, In r known -> nhas r (s_infos s) = true) -> proper known l ->
  prun s l = Some (s', outs) -> in_reach s r -> in_reach s' r.
Proof.
  induction l as [|o l IH]; intros s s' outs r known I K V H F; cbn [prun] in H; [now injection H as <- <-|].
  destruct V as [V1 V2]. destruct (pstep_ok s o known I K (conj V1 Logic.I)) as (s1 & u & E & I1 & K1). rewrite E in H.
  destruct (prun s1 l) as [[s2 v]|] eqn:E2; [|discriminate H]. injection H as <- <-.
  eapply IH; [exact I1 | exact K1 | exact V2 | exact E2|]. eapply pstep_reach; [exact I | split; [exact V1 | exact Logic.I] | exact E | exact F].
Qed.

(** A router in no bucket stays out of them until it is added. *)
Lemma pstep_lost s o s' u r known : pinv s -> proper known [o] -> pstep s o = Some (s', u) ->
  match stores o with Some (x, _) => x <> r | None => True end -> ~ findable s r -> ~ findable s' r.
Proof.
  intros I [V _] H N F. destruct o as [x j|x j b|b f|x e|ord|]; cbn [pstep stores] in *.
  - apply (f_equal (fun o => match o with Some p => fst p | None => s end)) in H. cbn in H. subst s'.
    destruct (acceptable j) eqn:A; [|unfold add_router; rewrite A; exact F].
    rewrite add_findable by exact A. intuition congruence.
  - apply (f_equal (fun o => match o with Some p => fst p | None => s end)) in H. cbn [fst] in H. subst s'.
    destruct (discover_as_add s x j b) as (E1 & _ & E3 & E4 & E5 & _). rewrite findable_iff, E3, E4, E5, <- findable_iff.
    destruct (acceptable j) eqn:A; [|unfold add_router; rewrite A; exact F].
    rewrite add_findable by exact A. intuition congruence.
  - destruct (get_router_ids s b f); [|discriminate H]. injection H as <- <-. exact F.
  - destruct (record_event s x e) as [s1|] eqn:RE; [|discriminate H]. injection H as <- <-.
    destruct (pinv_event s x e s1 I RE) as (_ & E1 & E2 & E3 & E4 & _).
    rewrite findable_iff in *. rewrite E2, E3, E4. exact F.
  - destruct (maintain_ok ord s V I) as (s1 & M & _ & E1 & _ & _ & _ & G). rewrite M in H. injection H as <- <-.
    intro X. apply F, G, X.
  - cbn [backup] in H. injection H as <- <-. exact F.
Qed.

(** *** Backups *)
Lemma ndel_all (m : nmap bytes) keys : (forall r, nhas r m = true -> In r keys) ->
  forall r, nget r (fold_left (fun m r => ndel r m) keys m) = None.
Proof.
  intros H r. assert (G : forall keys (m : nmap bytes), nget r (fold_left (fun m r => ndel r m) keys m) = if smem r keys then None else nget r m).
  { clear. induction keys as [|k keys IH]; intro m; cbn [fold_left smem]; [reflexivity|]. rewrite IH, nget_ndel.
    destruct (r =? k); cbn [orb]; [now destruct (smem r keys) | reflexivity]. }
  rewrite G. destruct (smem r keys) eqn:E; [reflexivity|]. apply smem_not in E.
  destruct (nget r m) eqn:E2; [|reflexivity]. destruct E. apply H. unfold nhas. now rewrite E2.
Qed.
Lemma sorted_profiles_event s r e s' : sorted (nkeys (s_profiles s)) -> record_event s r e = Some s' -> sorted (nkeys (s_profiles s')).
Proof.
  intros S H. unfold record_event in H. destruct (nget r (s_profiles s)).
  - injection H as <-. now apply nput_Sorted.
  - destruct e; try discriminate H; injection H as <-; try exact S; now apply nput_Sorted.
Qed.
Lemma sorted_profiles_add s r i : sorted (nkeys (s_profiles s)) -> sorted (nkeys (s_profiles (fst (add_router s r i)))).
Proof.
  intro S. unfold add_router. destruct (acceptable i); [|exact S]. cbn [fst].
  assert (SP : s_profiles (add_info (add_buckets s r i) r i) = s_profiles s) by (unfold add_info, add_buckets; destruct (f_fast i); reflexivity).
  destruct (nhas r _); cbn [add_profile s_profiles]; rewrite SP; [exact S | now apply nput_Sorted].
Qed.

Lemma backed_up_of (m : nmap bytes) (profs : nmap profile) r : NoDup (nkeys profs) -> (nhas r m = true -> nhas r profs = true) ->
  flat_map (fun x => match x with (r', Some b, _) => if r' =? r then [b] else [] | _ => [] end)
    (map (fun x => (fst x, nget (fst x) m, snd x)) profs) = match nget r m with Some b => [b] | None => [] end.
Proof.
  intros ND H.
  assert (G : forall l : nmap profile, NoDup (nkeys l) -> flat_map (fun x => match x with (r', Some b, _) => if r' =? r then [b] else [] | _ => [] end)
    (map (fun x => (fst x, nget (fst x) m, snd x)) l) = if smem r (nkeys l) then match nget r m with Some b => [b] | None => [] end else []).
  { clear. induction l as [|[k p] l IH]; intro ND; [reflexivity|]. cbn [nkeys map fst] in ND. inversion ND as [|? ? N1 N2]; subst.
    cbn [map flat_map fst snd nkeys smem]. rewrite (IH N2). rewrite (N.eqb_sym r k). destruct (N.eqb_spec k r) as [->|N]; cbn [orb].
    - assert (X : smem r (map fst l) = false) by (apply smem_not; exact N1). unfold nkeys. rewrite X.
      destruct (nget r m); [now rewrite app_nil_r | reflexivity].
    - destruct (nget k m); reflexivity. }
  rewrite (G profs ND). destruct (smem r (nkeys profs)) eqn:E; [reflexivity|].
  destruct (nget r m) eqn:E2; [|reflexivity]. assert (X : nhas r profs = true) by (apply H; unfold nhas; now rewrite E2).
  apply nhas_keys, smem_in in X. congruence.
Qed.

Lemma prun_saves l : forall s s' outs r known, pinv s -> (forall r, In r known -> nhas r (s_infos s) = true) -> proper known l ->
  sorted (nkeys (s_profiles s)) ->
  prun s l = Some (s', outs) -> saved r outs = saves r (nget r (s_discovered s)) l.
Proof.
  induction l as [|o l IH]; intros s s' outs r known I K V S H; cbn [prun] in H; [now injection H as <- <-|].
  destruct V as [V1 V2]. destruct (pstep_ok s o known I K (conj V1 Logic.I)) as (s1 & u & E & I1 & K1). rewrite E in H.
  destruct (prun s1 l) as [[s2 v]|] eqn:E2; [|discriminate H]. injection H as <- <-.
  assert (S1 : sorted (nkeys (s_profiles s1))).
  { destruct o as [x j|x j b|b f|x e|ord|]; cbn [pstep] in E.
    - apply (f_equal (fun o => match o with Some p => fst p | None => s end)) in E. cbn [fst] in E. subst s1. now apply sorted_profiles_add.
    - apply (f_equal (fun o => match o with Some p => fst p | None => s end)) in E. cbn [fst] in E. subst s1.
      destruct (discover_as_add s x j b) as (_ & -> & _). now apply sorted_profiles_add.
    - destruct (get_router_ids s b f); [|discriminate E]. injection E as <- <-. exact S.
    - destruct (record_event s x e) as [s3|] eqn:RE; [|discriminate E]. injection E as <- <-. eapply sorted_profiles_event; eauto.
    - destruct (maintain_ok ord s V1 I) as (s3 & M & _ & _ & E3 & _). rewrite M in E. injection E as <- <-. now rewrite E3.
    - cbn [backup] in E. injection E as <- <-. exact S. }
  specialize (IH s1 s2 v r _ I1 K1 V2 S1 E2). cbn [saved flat_map]. fold (saved r v). rewrite IH. clear IH E2 K1 V2.
  destruct o as [x j|x j b|b f|x e|ord|]; cbn [pstep] in E; cbn [saves].
  - injection E as <- <-. cbn [app]. f_equal. unfold add_router. destruct (acceptable j); [|reflexivity]. cbn [fst].
    destruct (nhas x _); unfold add_info, add_buckets; destruct (f_fast j); reflexivity.
  - injection E as <- <-. cbn [app]. f_equal. destruct (discover_as_add s x j b) as (_ & _ & _ & _ & _ & ->).
    destruct (acceptable j); rewrite ?andb_true_r, ?andb_false_r; [|reflexivity]. rewrite nget_nput, (N.eqb_sym r x). reflexivity.
  - destruct (get_router_ids s b f); [|discriminate E]. injection E as <- <-. reflexivity.
  - destruct (record_event s x e) as [s3|] eqn:RE; [|discriminate E]. injection E as <- <-.
    destruct (pinv_event s x e s3 I RE) as (_ & _ & _ & _ & _ & ->). reflexivity.
  - destruct (maintain_ok ord s V1 I) as (s3 & M & _ & _ & _ & E3 & _). rewrite M in E. injection E as <- <-. now rewrite E3.
  - cbn [backup] in E. injection E as <- <-. cbn [s_discovered].
    rewrite backed_up_of; [|now apply sorted_NoDup | intro X; apply (pi_prof s I), (pi_disc s I), X].
    rewrite ndel_all; [destruct (nget r (s_discovered s)); reflexivity|].
    intros x X. apply nhas_keys. apply (pi_prof s I), (pi_disc s I), X.
Qed.
