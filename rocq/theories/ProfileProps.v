(** C40: profile storage buckets are consistent.  C56: discovered routers are saved once. *)
From Coq Require Import List NArith Bool Lia Permutation.
From Verif Require Import NMap Bytes RouteProofs DialProofs ProfileModel ProfileSpec ProfileProofs SelectModel.
Import ListNotations.
Open Scope N_scope.

(** The storage after a run from any routers and profiles found on disk. *)
Definition reached (s : store) : Prop :=
  exists ord1 ord2 routers profiles ops outs,
    sorts ord1 /\ sorts ord2 /\ proper (map fst routers) ops /\
    prun (storage_new ord1 ord2 routers profiles) ops = Some (s, outs).

Lemma new_known ord1 ord2 routers profiles r : In r (map fst routers) ->
  nhas r (s_infos (storage_new ord1 ord2 routers profiles)) = true.
Proof.
  intro H. unfold storage_new.
  match goal with |- context [split_bucket NUM_FAST ord1 ?p ?l] => destruct (split_bucket NUM_FAST ord1 p l) as [fast rest] end.
  match goal with |- context [split_bucket NUM_STANDARD ord2 ?p ?l] => destruct (split_bucket NUM_STANDARD ord2 p l) as [standard un] end.
  cbn [s_infos].
  assert (G : forall (m : nmap rinfo), nhas r m = true \/ In r (map fst routers) ->
    nhas r (fold_left (fun m x => nput (fst x) (snd x) m) routers m) = true).
  { clear. induction routers as [|x l IH]; intros m H; cbn [fold_left]; [destruct H as [H|[]]; exact H|].
    apply IH. cbn [map In] in H. rewrite nhas_put. destruct (N.eqb_spec r (fst x)); [left; reflexivity|].
    destruct H as [H|[H|H]]; [left; exact H | congruence | right; exact H]. }
  apply G. now right.
Qed.

Lemma reached_inv s : reached s -> pinv s.
Proof.
  intros (o1 & o2 & rs & ps & ops & outs & S1 & S2 & V & H).
  destruct (prun_ok ops _ _ (pinv_new o1 o2 rs ps S1 S2) (new_known o1 o2 rs ps) V) as (s' & v & E & I).
  rewrite E in H. injection H as <- _. exact I.
Qed.

(** *** Nothing panics, whatever was on disk and whatever happens. *)
Theorem C40_no_panic : forall ord1 ord2 routers profiles ops,
  sorts ord1 -> sorts ord2 -> proper (map fst routers) ops ->
  prun (storage_new ord1 ord2 routers profiles) ops <> None.
Proof.
  intros o1 o2 rs ps ops S1 S2 V.
  destruct (prun_ok ops _ _ (pinv_new o1 o2 rs ps S1 S2) (new_known o1 o2 rs ps) V) as (s' & v & E & I).
  rewrite E. discriminate.
Qed.
Print Assumptions C40_no_panic.

(** *** A lookup gives exactly the routers of the bucket that pass the filter, and each of them
    has a router info and a profile. *)
Theorem C40_lookup : forall s b f l, reached s -> (forall r i p, f r i p <> None) ->
  (exists l, get_router_ids s b f = Some l) /\
  (get_router_ids s b f = Some l -> forall r, In r l <->
     In r (bucket_ids s b) /\ exists i p, nget r (s_infos s) = Some i /\ nget r (s_profiles s) = Some p /\ f r i p = Some true).
Proof.
  intros s b f l R F. apply reached_inv in R. split.
  - apply choose_ok; [exact F|]. intros r X. assert (G : findable s r).
    { apply findable_iff. destruct b; cbn [bucket_ids] in X; rewrite ?in_app_iff in X; tauto. }
    split; [now apply (pi_info s R) | now apply (pi_prof s R), (pi_info s R)].
  - apply choose_spec.
Qed.
Print Assumptions C40_lookup.

Theorem C40_fast_or_standard : forall s r, reached s -> In r (s_fast s) -> ~ In r (s_standard s).
Proof. intros s r R. apply (pi_apart s (reached_inv s R)). Qed.
Print Assumptions C40_fast_or_standard.

(** *** A router that was accepted can be found ever after.  Missing from the full claim: routers
    read from disk at startup ([C40_selectable_refuted]). *)
Theorem C40_selectable_partial : forall ord1 ord2 routers profiles before o after r i s outs,
  sorts ord1 -> sorts ord2 -> proper (map fst routers) (before ++ o :: after) ->
  stores o = Some (r, i) ->
  prun (storage_new ord1 ord2 routers profiles) (before ++ o :: after) = Some (s, outs) ->
  exists l, get_router_ids s BAny (fun _ _ _ => Some true) = Some l /\ In r l.
Proof.
  intros o1 o2 rs ps before o after r i s outs S1 S2 V HO H.
  assert (G : forall before s0 known outs, pinv s0 -> (forall r, In r known -> nhas r (s_infos s0) = true) ->
    proper known (before ++ o :: after) -> prun s0 (before ++ o :: after) = Some (s, outs) -> pinv s /\ in_reach s r).
  { clear before V H outs. induction before as [|b before IH]; intros s0 known outs I K V H; cbn [app prun] in H.
    - destruct V as [V1 V2]. destruct (pstep_ok s0 o known I K (conj V1 Logic.I)) as (s1 & u & E & I1 & K1). rewrite E in H.
      destruct (prun s1 after) as [[s2 v]|] eqn:E2; [|discriminate H]. injection H as <- <-.
      assert (R : in_reach s1 r).
      { destruct o as [x j|x j b|b f|x e|ord|]; cbn [stores] in HO; try discriminate HO; destruct (acceptable j) eqn:A; try discriminate HO;
          injection HO as -> ->; cbn [pstep] in E; injection E as <- _.
        - split; [apply add_findable; auto|]. exists i. rewrite add_info_at, N.eqb_refl by exact A. split; [reflexivity | now apply acceptable_reachable].
        - destruct (discover_as_add s0 r i b) as (E1 & _ & E3 & E4 & E5 & _). unfold in_reach. rewrite findable_iff, E1, E3, E4, E5, <- findable_iff.
          split; [apply add_findable; auto|]. exists i. rewrite add_info_at, N.eqb_refl by exact A. split; [reflexivity | now apply acceptable_reachable]. }
      split; [|eapply prun_reach; eauto].
      destruct (prun_ok after s1 _ I1 K1 V2) as (s3 & v3 & E3 & I3). rewrite E3 in E2. injection E2 as <- _. exact I3.
    - destruct V as [V1 V2]. destruct (pstep_ok s0 b known I K (conj V1 Logic.I)) as (s1 & u & E & I1 & K1). rewrite E in H.
      destruct (prun s1 (before ++ o :: after)) as [[s2 v]|] eqn:E2; [|discriminate H]. injection H as <- <-.
      eapply IH; eauto. }
  destruct (G before _ _ outs (pinv_new o1 o2 rs ps S1 S2) (new_known o1 o2 rs ps) V H) as [I [F (j & J1 & J2)]].
  destruct (choose_ok s (fun _ _ _ => Some true) (bucket_ids s BAny)) as [l E]; [discriminate | |].
  - intros x X. split; [now apply (pi_info s I) | now apply (pi_prof s I), (pi_info s I)].
  - exists l. split; [exact E|]. apply (choose_spec _ _ _ _ E). split; [exact F|].
    assert (P : nhas r (s_profiles s) = true) by now apply (pi_prof s I), (pi_info s I). unfold nhas in P.
    destruct (nget r (s_profiles s)) as [p|]; [|discriminate P]. eauto.
Qed.
Print Assumptions C40_selectable_partial.

(** A router read from disk is lost if it has no participation rate and another one has. *)
Definition good : rinfo := mkRi true true true true (Some (V4 1)) None.
Definition slow : rinfo := mkRi true true false true (Some (V4 1)) None.
Definition rated : profile := update (EAccepted 5) profile_new.
Definition same : order := fun l => l.
Lemma same_sorts : sorts same.
Proof. intro l. apply Permutation_refl. Qed.

Theorem C40_selectable_refuted : exists routers profiles r i,
  In (r, i) routers /\ acceptable i = true /\
  forall ops s outs, proper (map fst routers) ops -> (forall o i, In o ops -> stores o <> Some (r, i)) ->
    prun (storage_new same same routers profiles) ops = Some (s, outs) ->
    forall b f l, get_router_ids s b f = Some l -> ~ In r l.
Proof.
  exists [(1, good); (2, good)], [(1, rated)], 2, good.
  split; [cbn; auto|]. split; [reflexivity|]. intros ops s outs V N H b f l E X.
  assert (G : ~ findable s 2).
  { assert (F0 : ~ findable (storage_new same same [(1, good); (2, good)] [(1, rated)]) 2).
    { rewrite findable_iff. vm_compute. intros [[|[]]|[[]|[]]]. discriminate. }
    pose proof (pinv_new same same [(1, good); (2, good)] [(1, rated)] same_sorts same_sorts) as I.
    pose proof (new_known same same [(1, good); (2, good)] [(1, rated)]) as K.
    revert V N H F0 I K. generalize (storage_new same same [(1, good); (2, good)] [(1, rated)]), (map fst [(1, good); (2, good)]).
    clear. revert outs. induction ops as [|o ops IH]; intros outs s0 known V N H F0 I K; cbn [prun] in H; [injection H as <- _; exact F0|].
    destruct V as [V1 V2]. destruct (pstep_ok s0 o known I K (conj V1 Logic.I)) as (s1 & u & E & I1 & K1). rewrite E in H.
    destruct (prun s1 ops) as [[s2 v]|] eqn:E2; [|discriminate H]. injection H as <- <-.
    eapply IH; [exact V2 | intros x i X; apply N; now right | exact E2 | | exact I1 | exact K1].
    eapply pstep_lost; [exact I | split; [exact V1 | exact Logic.I] | exact E | | exact F0].
    destruct (stores o) as [[x i]|] eqn:S; [|exact Logic.I]. intros ->. apply (N o i); [now left | exact S]. }
  apply G. apply (choose_spec _ _ _ _ E) in X as [X _]. apply findable_iff.
  destruct b; cbn [bucket_ids] in X; rewrite ?in_app_iff in X; tauto.
Qed.
Print Assumptions C40_selectable_refuted.

(** *** Avoiding failing routers *)
(** A router that declined (or did not answer) is avoided for 180 seconds. *)
Theorem C40_declined_avoided : forall now t p,
  pr_declined p = Some t -> t <= now -> now < t + 180 * 1000000000 -> is_failing now p = Some true.
Proof.
  intros now t p H H1 H2. unfold is_failing, recently_declined, since. rewrite H.
  destruct (N.ltb_spec now t); [lia|]. destruct (N.ltb_spec (now - t) THRESHOLD); [reflexivity|]. unfold THRESHOLD in *. lia.
Qed.
Print Assumptions C40_declined_avoided.

(** What the stored time of the last dial failure is, after any run. *)
Lemma dial_time l : forall s s' outs r p p', pinv s -> nhas r (s_infos s) = true ->
  (forall x, In (PMaintain x) l -> sorts x) ->
  prun s l = Some (s', outs) -> nget r (s_profiles s) = Some p -> nget r (s_profiles s') = Some p' ->
  pr_dial_failure p' = last_dial_failure r (pr_dial_failure p) l.
Proof.
  induction l as [|o l IH]; intros s s' outs r p p' I K O H P P'; cbn [prun] in H.
  { injection H as <- _. cbn. congruence. }
  destruct (pstep s o) as [[s1 u]|] eqn:E; [|discriminate H].
  destruct (prun s1 l) as [[s2 v]|] eqn:E2; [|discriminate H]. injection H as <- <-.
  assert (O' : forall x, In (PMaintain x) l -> sorts x) by (intros x X; apply O; now right).
  assert (ADD : forall x j, nget r (s_profiles (fst (add_router s x j))) = Some p /\ nhas r (s_infos (fst (add_router s x j))) = true).
  { intros x j. unfold add_router. destruct (acceptable j); [|auto]. cbn [fst].
    assert (SI : s_infos (add_buckets s x j) = s_infos s) by (unfold add_buckets; destruct (f_fast j); reflexivity).
    assert (SI2 : s_infos (add_info (add_buckets s x j) x j) = nput x j (s_infos s)) by (cbn; now rewrite SI).
    assert (SP : s_profiles (add_info (add_buckets s x j) x j) = s_profiles s) by (unfold add_info, add_buckets; destruct (f_fast j); reflexivity).
    rewrite SI. destruct (nhas x (s_infos s)) eqn:EX.
    - rewrite SP, SI2, nhas_put, K, orb_true_r. auto.
    - cbn [add_profile s_profiles s_infos]. rewrite SP, SI2, nhas_put, K, orb_true_r, nget_nput.
      destruct (N.eqb_spec r x) as [->|]; [congruence | auto]. }
  destruct o as [x j|x j b|b f|x e|ord|]; cbn [pstep] in E; cbn [last_dial_failure].
  - injection E as <- _. destruct (ADD x j). eapply IH; [apply pinv_add, I | eassumption | exact O' | exact E2 | eassumption | exact P'].
  - injection E as <- _. destruct (ADD x j). destruct (discover_as_add s x j b) as (E1 & E3 & _).
    eapply IH; [apply pinv_discover, I | rewrite E1; eassumption | exact O' | exact E2 | rewrite E3; eassumption | exact P'].
  - destruct (get_router_ids s b f); [|discriminate E]. injection E as <- _. eapply IH; [exact I | exact K | exact O' | exact E2 | exact P | exact P'].
  - destruct (record_event s x e) as [s3|] eqn:RE; [|discriminate E]. injection E as <- _.
    destruct (pinv_event s x e s3 I RE) as (I3 & E1 & _).
    assert (PX : nget r (s_profiles s3) = Some (if x =? r then update e p else p)).
    { unfold record_event in RE. destruct (N.eqb_spec x r) as [->|N].
      - rewrite P in RE. injection RE as <-. cbn [set_profile s_profiles]. rewrite nget_nput, N.eqb_refl. reflexivity.
      - assert (X : forall q, nget r (s_profiles (set_profile s x q)) = Some p).
        { intro q. cbn [set_profile s_profiles]. rewrite nget_nput. destruct (N.eqb_spec r x); [congruence | exact P]. }
        destruct (nget x (s_profiles s)); [injection RE as <-; apply X|].
        destruct e; try discriminate RE; injection RE as <-; try apply X; exact P. }
    rewrite (IH s3 s2 v r _ p' I3 ltac:(rewrite E1; exact K) O' E2 PX P').
    destruct p; destruct e; destruct (x =? r); reflexivity.
  - destruct (maintain_ok ord s (O ord (or_introl eq_refl)) I) as (s3 & M & I3 & E1 & E3 & _). rewrite M in E. injection E as <- _.
    eapply IH; [exact I3 | rewrite E1; exact K | exact O' | exact E2 | rewrite E3; exact P | exact P'].
  - cbn [backup] in E. injection E as <- _. eapply IH; [apply (pinv_backup s I) | exact K | exact O' | exact E2 | exact P | exact P'].
Qed.

(** A router is not avoided during the 180 seconds after a failed dial but always afterwards,
    whatever succeeds in the meantime. *)
Theorem C40_dial_failure_refuted :
  (forall now t p, pr_dial_failure p = Some t -> pr_declined p = None -> pr_rejected p = 0 ->
     t <= now -> now <= t + 180 * 1000000000 -> is_failing now p = Some false) /\
  (forall s l s' outs r t now p', reached s -> nhas r (s_infos s) = true -> (forall x, In (PMaintain x) l -> sorts x) ->
     prun s (PEvent r (EDialFailed t) :: l) = Some (s', outs) ->
     (forall t', ~ In (PEvent r (EDialFailed t')) l) ->
     t + 180 * 1000000000 < now -> (forall d, pr_declined p' = Some d -> d <= now) ->
     nget r (s_profiles s') = Some p' -> is_failing now p' = Some true).
Proof.
  split.
  - intros now t p H D R H1 H2. unfold is_failing, recently_declined, unreachable, since. rewrite H, D.
    destruct (N.ltb_spec now t); [lia|]. destruct (N.ltb_spec THRESHOLD (now - t)); [unfold THRESHOLD in *; lia|].
    unfold always_declining, low_participation. rewrite R.
    destruct (N.ltb_spec (4 * pr_accepted p) 0); [lia|]. now rewrite andb_false_r.
  - intros s l s' outs r t now p' R K O H N T D P'. pose proof (reached_inv s R) as I.
    pose proof (pi_prof s I r K) as HP. unfold nhas in HP. destruct (nget r (s_profiles s)) as [p|] eqn:P; [|discriminate HP].
    pose proof (dial_time (PEvent r (EDialFailed t) :: l) s s' outs r p p' I K
      ltac:(intros x [X|X]; [discriminate X | now apply O]) H P P') as E.
    cbn [last_dial_failure] in E. rewrite N.eqb_refl in E.
    assert (L : last_dial_failure r (Some t) l = Some t).
    { clear - N. induction l as [|o l IH]; [reflexivity|].
      assert (IH' : last_dial_failure r (Some t) l = Some t) by (apply IH; intros t' X; apply (N t'); now right).
      destruct o as [x j|x j b|b f|x e|ord|]; cbn [last_dial_failure]; try exact IH'. destruct e; try exact IH'.
      destruct (N.eqb_spec x r) as [->|]; [|exact IH']. destruct (N now). now left. }
    rewrite L in E. unfold is_failing, recently_declined, unreachable, since. rewrite E.
    assert (U : (if now <? t then None else Some (now - t)) = Some (now - t)) by (destruct (N.ltb_spec now t); [lia | reflexivity]).
    assert (V : (THRESHOLD <? now - t) = true) by (apply N.ltb_lt; unfold THRESHOLD; lia).
    rewrite U, V. destruct (pr_declined p') as [d|]; [|reflexivity].
    specialize (D d eq_refl). destruct (N.ltb_spec now d); [lia|]. destruct (now - d <? THRESHOLD); reflexivity.
Qed.
Print Assumptions C40_dial_failure_refuted.

(** *** [add_router] stores the bucket before the router info and the profile, without holding a
    lock: another thread's lookup in between panics. *)
Theorem C40_race_refuted : exists s r i b,
  reached s /\ acceptable i = true /\
  get_router_ids (add_buckets s r i) b (fun _ _ _ => Some true) = None /\
  get_router_ids (add_info (add_buckets s r i) r i) b (fun _ _ _ => Some true) = None.
Proof.
  exists (storage_new same same [] []), 1, good, BAny. split; [|split; [reflexivity | split; reflexivity]].
  exists same, same, [], [], [], []. split; [apply same_sorts|]. split; [apply same_sorts|]. split; [exact I | reflexivity].
Qed.
Print Assumptions C40_race_refuted.

(** A clock that goes back makes the check of a router panic. *)
Theorem C40_clock_refuted : exists t now p, now < t /\ p = update (ERejected t) profile_new /\ is_failing now p = None.
Proof. exists 5, 4, (update (ERejected 5) profile_new). split; [lia|]. split; reflexivity. Qed.
Print Assumptions C40_clock_refuted.

(** *** C56: every router info handed in as discovered is written by exactly one backup, unless a
    newer one of the same router arrives first. *)
Lemma new_sorted ord1 ord2 routers profiles : sorted (nkeys (s_profiles (storage_new ord1 ord2 routers profiles))).
Proof.
  unfold storage_new.
  match goal with |- context [split_bucket NUM_FAST ord1 ?p ?l] => destruct (split_bucket NUM_FAST ord1 p l) as [fast rest] end.
  match goal with |- context [split_bucket NUM_STANDARD ord2 ?p ?l] => destruct (split_bucket NUM_STANDARD ord2 p l) as [standard un] end.
  cbn [s_profiles].
  assert (A : forall keys (m : nmap profile), sorted (nkeys m) -> sorted (nkeys (fold_left (fun m r => if nhas r m then m else nput r profile_new m) keys m))).
  { induction keys as [|k keys IH]; intros m S; cbn [fold_left]; [exact S|]. apply IH. destruct (nhas k m); [exact S | now apply nput_Sorted]. }
  apply A. clear A.
  assert (B : forall infos : nmap rinfo, forall ps (m : nmap profile), sorted (nkeys m) ->
    sorted (nkeys (fold_left (fun m x => if nhas (fst x) infos then nput (fst x) (snd x) m else m) ps m))).
  { intros infos. induction ps as [|k ps IH]; intros m S; cbn [fold_left]; [exact S|]. apply IH.
    destruct (nhas (fst k) infos); [now apply nput_Sorted | exact S]. }
  apply B. constructor.
Qed.
Theorem C56_saved_once : forall ord1 ord2 routers profiles ops s outs r,
  sorts ord1 -> sorts ord2 -> proper (map fst routers) ops ->
  prun (storage_new ord1 ord2 routers profiles) ops = Some (s, outs) ->
  saved r outs = saves r None ops.
Proof.
  intros o1 o2 rs ps ops s outs r S1 S2 V H.
  assert (D : nget r (s_discovered (storage_new o1 o2 rs ps)) = None).
  { unfold storage_new. destruct (split_bucket NUM_FAST o1 _ _). destruct (split_bucket NUM_STANDARD o2 _ _). reflexivity. }
  rewrite <- D.
  exact (prun_saves ops _ s outs r _ (pinv_new o1 o2 rs ps S1 S2) (new_known o1 o2 rs ps) V (new_sorted o1 o2 rs ps) H).
Qed.
Print Assumptions C56_saved_once.

(** Every backup has every known router's profile, once. *)
Theorem C56_profiles_saved : forall ord1 ord2 routers profiles ops s outs,
  sorts ord1 -> sorts ord2 -> proper (map fst routers) ops ->
  prun (storage_new ord1 ord2 routers profiles) ops = Some (s, outs) ->
  exists l, pstep s PBackup = Some (fst (backup s), PBackedUp l) /\
    NoDup (map (fun x => fst (fst x)) l) /\
    (forall r, nhas r (s_infos s) = true -> In r (map (fun x => fst (fst x)) l)) /\
    (forall r b p, In (r, b, p) l -> nget r (s_profiles s) = Some p).
Proof.
  intros o1 o2 rs ps ops s outs S1 S2 V H.
  assert (R : reached s) by (exists o1, o2, rs, ps, ops, outs; auto).
  pose proof (reached_inv s R) as I.
  assert (SS : sorted (nkeys (s_profiles s))).
  { assert (G : forall l s0 s' v known, pinv s0 -> (forall r, In r known -> nhas r (s_infos s0) = true) -> proper known l ->
      sorted (nkeys (s_profiles s0)) -> prun s0 l = Some (s', v) -> sorted (nkeys (s_profiles s'))).
    { clear. induction l as [|o l IH]; intros s s' v known I K V S H; cbn [prun] in H; [now injection H as <- _|].
      destruct V as [V1 V2]. destruct (pstep_ok s o known I K (conj V1 Logic.I)) as (s1 & u & E & I1 & K1). rewrite E in H.
      destruct (prun s1 l) as [[s2 w]|] eqn:E2; [|discriminate H]. injection H as <- <-.
      eapply IH; [exact I1 | exact K1 | exact V2 | | exact E2].
      destruct o as [x j|x j b|b f|x e|ord|]; cbn [pstep] in E.
      - injection E as <- _. now apply sorted_profiles_add.
      - injection E as <- _. destruct (discover_as_add s x j b) as (_ & -> & _). now apply sorted_profiles_add.
      - destruct (get_router_ids s b f); [|discriminate E]. injection E as <- _. exact S.
      - destruct (record_event s x e) as [s3|] eqn:RE; [|discriminate E]. injection E as <- _. eapply sorted_profiles_event; eauto.
      - destruct (maintain_ok ord s V1 I) as (s3 & M & _ & _ & E3 & _). rewrite M in E. injection E as <- _. now rewrite E3.
      - cbn [backup] in E. injection E as <- _. exact S. }
    exact (G ops _ s outs _ (pinv_new o1 o2 rs ps S1 S2) (new_known o1 o2 rs ps) V (new_sorted o1 o2 rs ps) H). }
  apply sorted_NoDup in SS. eexists. split; [reflexivity|]. rewrite map_map. cbn [fst].
  split; [exact SS|]. split.
  - intros r X. apply nhas_keys. now apply (pi_prof s I).
  - intros r b p X. apply in_map_iff in X as ([r' p'] & X & Y). injection X as -> _ ->. now apply In_nget_nodup.
Qed.
Print Assumptions C56_profiles_saved.

(** A run that meets the hypotheses: routers from disk and from the network, reports, maintenance
    and backups. *)
Definition example_ops : list pop :=
  [PDiscover 3 slow [7; 8]; PAdd 4 good; PEvent 3 (EAccepted 9); PMaintain same; PBackup; PEvent 9 (EDialFailed 3);
   PDiscover 3 good [9]; PMaintain same; PGet BAny (fun _ _ _ => Some true); PBackup; PBackup].
Example C40_hypotheses : proper [1; 2] example_ops /\
  (exists s, prun (storage_new same same [(1, good); (2, slow)] []) example_ops =
    Some (s, [PNothing; PNothing; PNothing; PNothing;
      PBackedUp [(1, None, profile_new); (2, None, profile_new); (3, Some [7; 8], update (EAccepted 9) profile_new); (4, None, profile_new)];
      PNothing; PNothing; PNothing; PIds [3; 1; 2; 4];
      PBackedUp [(1, None, profile_new); (2, None, profile_new); (3, Some [9], update (EAccepted 9) profile_new); (4, None, profile_new); (9, None, update (EDialFailed 3) profile_new)];
      PBackedUp [(1, None, profile_new); (2, None, profile_new); (3, None, update (EAccepted 9) profile_new); (4, None, profile_new); (9, None, update (EDialFailed 3) profile_new)]])) /\
  saves 3 None example_ops = [[7; 8]; [9]].
Proof.
  split; [|split; [eexists; vm_compute; reflexivity | reflexivity]].
  cbn. repeat match goal with |- _ /\ _ => split end; auto; try apply same_sorts; try discriminate.
Qed.

(** *** The counters of a router count what happened, and nothing else changes them. *)
Definition count (f : event -> bool) (es : list event) : N := N.of_nat (length (filter f es)).
Theorem C40_counters : forall es p, let q := fold_left (fun p e => update e p) es p in
  pr_accepted q = pr_accepted p + count (fun e => match e with EAccepted _ => true | _ => false end) es /\
  pr_rejected q = pr_rejected p + count (fun e => match e with ERejected _ => true | _ => false end) es /\
  pr_unanswered q = pr_unanswered p + count (fun e => match e with EUnanswered _ => true | _ => false end) es /\
  pr_test_successes q = pr_test_successes p + count (fun e => match e with ETestOk _ => true | _ => false end) es /\
  pr_test_failures q = pr_test_failures p + count (fun e => match e with ETestFailed _ => true | _ => false end) es /\
  pr_connections q = pr_connections p + count (fun e => match e with EDialOk _ => true | _ => false end) es /\
  pr_dial_failures q = pr_dial_failures p + count (fun e => match e with EDialFailed _ => true | _ => false end) es /\
  pr_lookup_no_responses q = pr_lookup_no_responses p + count (fun e => match e with ELookupNoResponse => true | _ => false end) es /\
  pr_lookup_successes q = pr_lookup_successes p + count (fun e => match e with ELookupOk => true | _ => false end) es /\
  pr_lookup_failures q = pr_lookup_failures p + count (fun e => match e with ELookupFailed => true | _ => false end) es.
Proof.
  unfold count. induction es as [|e es IH]; intros p; cbn [fold_left].
  - cbn. repeat split; lia.
  - specialize (IH (update e p)). destruct p as [act dec df acc con dfs lf ln ls rej sel tf ts un].
    cbn zeta in IH |- *. destruct e; cbn [update pr_accepted pr_rejected pr_unanswered pr_test_successes pr_test_failures pr_connections
      pr_dial_failures pr_lookup_no_responses pr_lookup_successes pr_lookup_failures filter length] in IH |- *; lia.
Qed.
Print Assumptions C40_counters.
(** A router is avoided exactly when it declined a tunnel less than three minutes ago and accepted
    none since, when a dial failed more than three minutes ago (sic), when it refused more than
    four tunnels for each it accepted, or when it accepted none and refused five. *)
Theorem C40_failing_iff : forall now p,
  (forall t, pr_declined p = Some t -> t <= now) -> (forall t, pr_dial_failure p = Some t -> t <= now) ->
  exists b, is_failing now p = Some b /\
  (b = true <->
    (exists t, pr_declined p = Some t /\ now < t + 180 * 1000000000) \/
    (exists t, pr_dial_failure p = Some t /\ t + 180 * 1000000000 < now) \/
    4 * pr_accepted p < pr_rejected p \/ (pr_accepted p = 0 /\ 5 <= pr_rejected p)).
Proof.
  intros now p h1 h2. unfold is_failing, recently_declined, unreachable, since.
  assert (hr : forall x, (x = always_declining p || low_participation p)%bool ->
    (x = true <-> 4 * pr_accepted p < pr_rejected p \/ (pr_accepted p = 0 /\ 5 <= pr_rejected p))).
  { intros x ->. unfold always_declining, low_participation. rewrite orb_true_iff, andb_true_iff, N.eqb_eq, N.leb_le, N.ltb_lt. tauto. }
  specialize (hr _ eq_refl). unfold THRESHOLD in *.
  destruct (pr_declined p) as [t|] eqn:ed.
  - specialize (h1 t eq_refl). destruct (N.ltb_spec now t); [lia|].
    destruct (N.ltb_spec (now - t) (180 * 1000000000)) as [k|k].
    + eexists. split; [reflexivity|]. split; [|reflexivity]. intros _. left. exists t. split; [reflexivity | lia].
    + destruct (pr_dial_failure p) as [u|] eqn:ef.
      * specialize (h2 u eq_refl). destruct (N.ltb_spec now u); [lia|].
        destruct (N.ltb_spec (180 * 1000000000) (now - u)) as [m|m]; (eexists; split; [reflexivity|]).
        { split; [|reflexivity]. intros _. right. left. exists u. split; [reflexivity | lia]. }
        { rewrite hr. split; [auto|]. intros [(v & E & L)|[(v & E & L)|R]]; [injection E as <-; lia | injection E as <-; lia | exact R]. }
      * eexists. split; [reflexivity|]. rewrite hr. split; [auto|].
        intros [(v & E & L)|[(v & E & L)|R]]; [injection E as <-; lia | discriminate E | exact R].
  - destruct (pr_dial_failure p) as [u|] eqn:ef.
    + specialize (h2 u eq_refl). destruct (N.ltb_spec now u); [lia|].
      destruct (N.ltb_spec (180 * 1000000000) (now - u)) as [m|m]; (eexists; split; [reflexivity|]).
      { split; [|reflexivity]. intros _. right. left. exists u. split; [reflexivity | lia]. }
      { rewrite hr. split; [auto|]. intros [(v & E & L)|[(v & E & L)|R]]; [discriminate E | injection E as <-; lia | exact R]. }
    + eexists. split; [reflexivity|]. rewrite hr. split; [auto|].
      intros [(v & E & L)|[(v & E & L)|R]]; [discriminate E | discriminate E | exact R].
Qed.
Print Assumptions C40_failing_iff.
Example C40_failing_ex :
  let p := fold_left (fun p e => update e p) [EAccepted 5; ERejected 7; EDialFailed 9; ELookupOk] profile_new in
  pr_declined p = Some 7 /\ pr_dial_failure p = Some 9 /\ is_failing 10 p = Some true /\
  is_failing (200 * 1000000000) p = Some true /\ is_failing (180 * 1000000000 + 8) p = Some false.
Proof. vm_compute. repeat split. Qed.
