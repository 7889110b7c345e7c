(** Proofs about the tunnel pool: how many tunnels there are. *)
From Coq Require Import List NArith PeanoNat Bool Lia Permutation.
From Verif Require Import ListUtil NMap RouteProofs DestProofs PoolModel PoolSpec PoolProofs PoolProofs2 PoolProofs3.
Import ListNotations.
Open Scope N_scope.

Lemma same_len A (a b : list A) : NoDup a -> NoDup b -> (forall x, In x a <-> In x b) -> length a = length b.
Proof. intros. apply Permutation_length. now apply NoDup_Permutation. Qed.
Lemma nput_new_len V id (v : V) m : sorted (nkeys m) -> ~ In id (nkeys m) -> length (nput id v m) = S (length m).
Proof.
  intros S N. replace (length (nput id v m)) with (length (nkeys (nput id v m))) by apply map_length.
  replace (Datatypes.S (length m)) with (length (id :: nkeys m)) by (cbn; unfold nkeys; now rewrite map_length).
  apply same_len; [now apply sorted_NoDup, nput_Sorted | constructor; [exact N | now apply sorted_NoDup]|].
  intro x. rewrite In_nkeys_nput. cbn. intuition auto.
Qed.
Lemma ndel_len V id (m : nmap V) : sorted (nkeys m) -> In id (nkeys m) -> S (length (ndel id m)) = length m.
Proof.
  intros S I. replace (length m) with (length (nkeys m)) by apply map_length.
  replace (Datatypes.S (length (ndel id m))) with (length (id :: nkeys (ndel id m))) by (cbn; unfold nkeys; now rewrite map_length).
  apply same_len; [|now apply sorted_NoDup|].
  - constructor; [rewrite In_nkeys_ndel; tauto | now apply sorted_NoDup, ndel_Sorted].
  - intro x. cbn. rewrite In_nkeys_ndel. destruct (N.eq_dec x id) as [->|NE]; intuition congruence.
Qed.
Lemma sadd_new_len id s : sorted s -> ~ In id s -> length (sadd id s) = S (length s).
Proof.
  intros S N. change (Datatypes.S (length s)) with (length (id :: s)).
  apply same_len; [now apply sorted_NoDup, sadd_sorted | constructor; [exact N | now apply sorted_NoDup]|].
  intro x. rewrite sadd_In. cbn. intuition auto.
Qed.
Lemma sdel_len id s : sorted s -> In id s -> S (length (sdel id s)) = length s.
Proof.
  intros S I. change (Datatypes.S (length (sdel id s))) with (length (id :: sdel id s)).
  apply same_len; [|now apply sorted_NoDup|].
  - constructor; [rewrite sdel_In; tauto | now apply sorted_NoDup, sdel_sorted].
  - intro x. cbn. rewrite sdel_In. destruct (N.eq_dec x id) as [->|NE]; intuition congruence.
Qed.

Definition key (x : life) : dir * N := (l_dir x, l_id x).
Record tidy (p : pool) (L : list life) : Prop := mkTidy {
  d_ids : NoDup (map key L);
  d_inbn : NoDup (map in_gw (p_inb p));
  d_inb : forall y, In y (p_inb p) -> exists x, In x L /\ key x = (Inb, in_gw y) /\ l_at x = in_at y;
  d_tid : forall y, In y (p_inb p) -> exists r, nget (in_gw y) (p_intun p) = Some (in_tid y, r);
  d_tn : NoDup (map snd (p_timers p));
  d_t : forall d e, In (d, e) (p_timers p) ->
          match e with
          | TDestroy id => exists x, In x L /\ key x = (Outb, id) /\ d = l_at x + TUNNEL_EXPIRATION
          | TRebuildOut id => exists x, In x L /\ key x = (Outb, id) /\ l_exp x = false
          | TRebuildIn id => exists x, In x L /\ key x = (Inb, id) /\ l_exp x = false
          end;
  d_eo : forall id, In id (p_exp_out p) -> exists x, In x L /\ key x = (Outb, id) /\ l_exp x = true;
  d_ei : forall id, In id (p_exp_in p) -> exists x, In x L /\ key x = (Inb, id) /\ l_exp x = true;
  d_co : (length (p_out p) + length (p_po p) <= p_num_out p + length (p_exp_out p))%nat;
  d_ci : (length (p_inb p) + length (p_pi p) <= p_num_in p + length (p_exp_in p))%nat }.

Lemma tidy_new ni no t0 : tidy (p_new ni no t0) [].
Proof. constructor; cbn; try constructor; try contradiction; try (intros; contradiction); lia. Qed.

Lemma one_life L x y : NoDup (map key L) -> In x L -> In y L -> key x = key y -> x = y.
Proof.
  intros N. induction L as [|z L IH]; [intros []|]. cbn in N. inversion N as [|? ? NI N']; subst.
  intros [->|Hx] [->|Hy] E; auto.
  - elim NI. rewrite E. now apply in_map.
  - elim NI. rewrite <- E. now apply in_map.
Qed.
Lemma is_key d id x : is d id x = true <-> key x = (d, id).
Proof. rewrite is_spec. unfold key. split; [intros [-> ->]; auto | intro H; injection H; auto]. Qed.
Lemma not_is_key d id x : negb (is d id x) = true <-> key x <> (d, id).
Proof. rewrite negb_true_iff, <- not_true_iff_false, is_key. tauto. Qed.
Lemma flag_keys d id L :
  map key (map (fun x => if is d id x then mkLife d id (l_at x) true else x) L) = map key L.
Proof.
  rewrite map_map. apply map_ext. intro x. destruct (is d id x) eqn:E; [|reflexivity].
  apply is_key in E. now rewrite E.
Qed.
Lemma flag_other d id L x : In x L -> key x <> (d, id) ->
  In x (map (fun x => if is d id x then mkLife d id (l_at x) true else x) L).
Proof.
  intros I NE. apply in_map_iff. exists x. split; [|exact I]. destruct (is d id x) eqn:E; [|reflexivity].
  apply is_key in E. contradiction.
Qed.
Lemma flag_any d id L x : In x L -> exists x',
  In x' (map (fun x => if is d id x then mkLife d id (l_at x) true else x) L) /\ key x' = key x /\ l_at x' = l_at x /\
  (l_exp x = true -> l_exp x' = true).
Proof.
  intro I. destruct (is d id x) eqn:E.
  - exists (mkLife d id (l_at x) true). split; [|split; [symmetry; now apply is_key in E|auto]].
    apply in_map_iff. exists x. now rewrite E.
  - exists x. split; [|auto]. apply in_map_iff. exists x. now rewrite E.
Qed.
Lemma drop_other d id L x : In x L -> key x <> (d, id) -> In x (filter (fun x => negb (is d id x)) L).
Proof. intros I NE. apply filter_In. split; [exact I | now apply not_is_key]. Qed.
Lemma NoDup_map_filter A B (f : A -> B) g l : NoDup (map f l) -> NoDup (map f (filter g l)).
Proof.
  induction l as [|x l IH]; cbn; [auto|]. intro N. inversion N as [|? ? NI N']; subst.
  destruct (g x); [|auto]. cbn. constructor; [|auto]. intro I. apply NI.
  apply in_map_iff in I as (y & E & I). apply filter_In in I as [I _]. rewrite <- E. now apply in_map.
Qed.

(** Builds. *)
Lemma build_out_len p b p' us : build_out p b = (p', us) ->
  (length (p_po p) <= length (p_po p') <= S (length (p_po p)))%nat /\ p_pi p' = p_pi p.
Proof.
  unfold build_out. intro H.
  assert (K : forall x : pool * list out, (p, []) = x -> (length (p_po p) <= length (p_po (fst x)) <= S (length (p_po p)))%nat /\ p_pi (fst x) = p_pi p).
  { intros x <-. cbn. split; [lia | reflexivity]. }
  destruct (negb (b_hops b)); [apply (K _ H)|]. destruct (b_via b).
  - destruct (b_ok b); [|apply (K _ H)]. apply pair_equal_spec in H as [<- <-]. cbn. rewrite app_length. cbn. split; [lia | reflexivity].
  - destruct (draw (b_draws b) (p_rt p)); [|apply (K _ H)]. destruct (b_ok b); [|apply (K _ H)].
    apply pair_equal_spec in H as [<- <-]. cbn. rewrite app_length. cbn. split; [lia | reflexivity].
Qed.
Lemma build_in_len p b p' us : build_in p b = (p', us) ->
  (length (p_pi p) <= length (p_pi p') <= S (length (p_pi p)))%nat /\ p_po p' = p_po p.
Proof.
  unfold build_in. intro H.
  assert (K : forall x : pool * list out, (p, []) = x -> (length (p_pi p) <= length (p_pi (fst x)) <= S (length (p_pi p)))%nat /\ p_po (fst x) = p_po p).
  { intros x <-. cbn. split; [lia | reflexivity]. }
  destruct (negb (b_hops b)); [apply (K _ H)|].
  destruct (draw (b_draws b) (p_rt p)); [|apply (K _ H)]. destruct (b_ok b); [|apply (K _ H)].
  apply pair_equal_spec in H as [<- <-]. cbn. rewrite app_length. cbn. split; [lia | reflexivity].
Qed.
Lemma builds_out_len n bs p p' us : builds build_out n bs p = (p', us) ->
  (length (p_po p) <= length (p_po p') <= n + length (p_po p))%nat /\ p_pi p' = p_pi p.
Proof.
  revert bs p p' us. induction n as [|n IH]; intros [|b bs] p p' us H; cbn [builds] in H.
  1-3: apply pair_equal_spec in H as [<- <-]; split; [lia | reflexivity].
  destruct (build_out p b) as [p1 o1] eqn:E1. destruct (builds build_out n bs p1) as [p2 o2] eqn:E2.
  apply pair_equal_spec in H as [<- <-]. apply build_out_len in E1 as [A1 B1]. apply IH in E2 as [A2 B2]. split; [lia | congruence].
Qed.
Lemma builds_in_len n bs p p' us : builds build_in n bs p = (p', us) ->
  (length (p_pi p) <= length (p_pi p') <= n + length (p_pi p))%nat /\ p_po p' = p_po p.
Proof.
  revert bs p p' us. induction n as [|n IH]; intros [|b bs] p p' us H; cbn [builds] in H.
  1-3: apply pair_equal_spec in H as [<- <-]; split; [lia | reflexivity].
  destruct (build_in p b) as [p1 o1] eqn:E1. destruct (builds build_in n bs p1) as [p2 o2] eqn:E2.
  apply pair_equal_spec in H as [<- <-]. apply build_in_len in E1 as [A1 B1]. apply IH in E2 as [A2 B2]. split; [lia | congruence].
Qed.
Lemma test_all_len l sent p p' us : test_all l sent p = (p', us) -> p_po p' = p_po p /\ p_pi p' = p_pi p.
Proof.
  revert sent p p' us. induction l as [|[o i] l IH]; intros sent p p' us H; cbn [test_all] in H.
  { apply pair_equal_spec in H as [<- <-]. auto. }
  destruct (test_one p o i (hd true sent)) as [p1 o1] eqn:E1.
  destruct (test_all l (tl sent) p1) as [p2 o2] eqn:E2. apply pair_equal_spec in H as [<- <-].
  apply IH in E2 as [-> ->]. unfold test_one in E1. destruct (hd true sent); apply pair_equal_spec in E1 as [<- <-]; auto.
Qed.
Lemma out_count_spec p :
  (length (p_out p) + length (p_po p) <= p_num_out p + length (p_exp_out p))%nat ->
  (out_count p + (length (p_out p) + length (p_po p)) = p_num_out p + length (p_exp_out p))%nat.
Proof. intro H. unfold out_count. destruct (Nat.ltb_spec (length (p_out p) + length (p_po p)) (p_num_out p + length (p_exp_out p))); lia. Qed.
Lemma in_count_spec p :
  (length (p_inb p) + length (p_pi p) <= p_num_in p + length (p_exp_in p))%nat ->
  (in_count p + (length (p_inb p) + length (p_pi p)) = p_num_in p + length (p_exp_in p))%nat.
Proof. intro H. unfold in_count. destruct (Nat.ltb_spec (length (p_inb p) + length (p_pi p)) (p_num_in p + length (p_exp_in p))); lia. Qed.

Lemma maintain_len p a p' us : maintain p a = (p', us) ->
  (length (p_out p) + length (p_po p) <= p_num_out p + length (p_exp_out p))%nat ->
  (length (p_inb p) + length (p_pi p) <= p_num_in p + length (p_exp_in p))%nat ->
  (length (p_out p) + length (p_po p') <= p_num_out p + length (p_exp_out p))%nat /\
  (length (p_inb p) + length (p_pi p') <= p_num_in p + length (p_exp_in p))%nat.
Proof.
  intros M CO CI. unfold maintain in M.
  destruct (builds build_out (out_count p) (m_outs a) p) as [p1 o1] eqn:E1.
  destruct (builds build_in (in_count p1) (m_ins a) p1) as [p2 o2] eqn:E2.
  pose proof E1 as C1. apply (builds_core _ build_out_core) in C1 as [C1 _]. unfold core in C1. injection C1 as Cni _ _ _ _ _ Cei Cinb _ _ _ _ _.
  apply builds_out_len in E1 as [L1 P1]. apply builds_in_len in E2 as [L2 P2].
  assert (R : p_po p' = p_po p2 /\ p_pi p' = p_pi p2).
  { destruct (_ <? _); [apply pair_equal_spec in M as [<- <-]; auto|].
    destruct (test_all _ (m_sent a) _) as [p4 o4] eqn:E4. apply pair_equal_spec in M as [<- <-]. now apply test_all_len in E4. }
  destruct R as [-> ->]. apply out_count_spec in CO.
  assert (CI1 : (length (p_inb p1) + length (p_pi p1) <= p_num_in p1 + length (p_exp_in p1))%nat) by (rewrite Cinb, P1, Cni, Cei; exact CI).
  apply in_count_spec in CI1. rewrite Cinb, Cni, Cei in CI1. rewrite P2. lia.
Qed.

Lemma tidy_keep p p' L us t :
  tidy p L -> quiet us -> core p' = core p ->
  (length (p_out p) + length (p_po p') <= p_num_out p + length (p_exp_out p))%nat ->
  (length (p_inb p) + length (p_pi p') <= p_num_in p + length (p_exp_in p))%nat ->
  tidy p' (fold_left (hear t) us L).
Proof.
  intros [] Q C CO CI. rewrite hear_quiet by exact Q. unfold core in C. injection C as C1 C2 _ _ C3 C4 C5 C6 C7 C8 C9 _ _.
  constructor; rewrite ?C1, ?C2, ?C3, ?C4, ?C5, ?C6, ?C7, ?C8; auto.
Qed.

Lemma in_mid_map A B (f : A -> B) a x b : NoDup (map f (a ++ x :: b)) -> NoDup (map f (a ++ b)) /\ forall y, In y (a ++ b) -> f y <> f x.
Proof.
  rewrite !map_app. cbn [map]. intro N. apply NoDup_remove in N as [N NI]. split; [exact N|].
  intros y Hy E. apply NI. rewrite <- map_app, <- E. now apply in_map.
Qed.
Lemma mid_in A (a : list A) x b y : In y (a ++ b) -> In y (a ++ x :: b).
Proof. intro H. apply in_app_or in H as [H|H]; apply in_or_app; cbn; auto. Qed.

Lemma tidy_step t0 p tr o p' us :
  tidy p (live t0 tr) -> agree t0 p tr -> ledger t0 p tr -> p_up p = true -> step p o = (p', us) -> ends (o, us) = false ->
  (forall r d id, In (Rep r) us -> says r = Some (d, id, Built) -> existsb (is d id) (live t0 tr) = false) ->
  (forall x, In x (live t0 tr) -> l_at x + minutes 10 <= clock t0 tr -> l_exp x = true) ->
  tidy p' (live t0 (tr ++ [(o, us)])).
Proof.
  intros T A G U S E HB HT. rewrite live_snoc. cbn [snd].
  assert (CK : forall o' us', (forall n, o' <> OTick n) -> clock t0 (tr ++ [(o', us')]) = p_now p).
  { intros o' us' N. rewrite clock_app, clock_not_tick by exact N. symmetry. apply (a_now _ _ _ A). }
  rewrite <- (a_now _ _ _ A) in HT.
  assert (NEW : forall d id, existsb (is d id) (live t0 tr) = false -> forall x, In x (live t0 tr) -> key x <> (d, id)).
  { intros d id F x I K. apply is_key in K. assert (existsb (is d id) (live t0 tr) = true); [|congruence].
    apply existsb_exists. eauto. }
  assert (Z : forall x, (p, []) = x -> tidy (fst x) (fold_left (hear (clock t0 (tr ++ [(o, snd x)]))) (snd x) (live t0 tr))).
  { intros x <-. exact T. }
  assert (FIX : forall q, core q = core p -> (length (p_po q) <= length (p_po p))%nat -> (length (p_pi q) <= length (p_pi p))%nat ->
              quiet us -> p' = q -> tidy p' (fold_left (hear (clock t0 (tr ++ [(o, us)]))) us (live t0 tr))).
  { intros q C L1 L2 Q ->. destruct T. apply (tidy_keep p); auto; [constructor; assumption | lia | lia]. }
  destruct o; unfold step in S; rewrite ?U in S; cbn [negb] in S.
  - apply pair_equal_spec in S as [<- <-]. cbn [fold_left]. destruct T. constructor; assumption.
  - unfold out_done in S. destruct (pull po_sn sn (p_po p)) as [[x rest]|] eqn:P; [|apply (Z _ S)].
    apply pull_spec in P as (<- & a & b & EP & -> & _).
    destruct r; try (apply pair_equal_spec in S as [<- <-]; eapply FIX; [| | | |reflexivity]; try reflexivity;
      [cbn; rewrite EP, !app_length; cbn; lia | intros u [<-|[]] r'; split; discriminate]).
    apply pair_equal_spec in S as [<- <-]. cbn [fold_left hear says].
    specialize (HB (ROutBuilt (po_id x)) Outb (po_id x) (or_introl eq_refl) eq_refl). specialize (NEW _ _ HB).
    rewrite CK by discriminate. clear FIX Z. destruct T. 
    assert (NK : ~ In (po_id x) (nkeys (p_out p))).
    { rewrite (a_out _ _ _ A). intros (y & Hy & D & I). apply (NEW y Hy). unfold key. congruence. }
    constructor; cbn [p_out p_inb p_intun p_timers p_exp_out p_exp_in p_po p_pi p_num_in p_num_out s_timers s_out s_sel_out s_listen s_po]; auto.
    + cbn. constructor; [|exact d_ids0]. intro I. apply in_map_iff in I as (y & K & I). now apply (NEW y I).
    + intros y Hy. destruct (d_inb0 y Hy) as (z & H1 & H2). exists z. split; [now right | exact H2].
    + rewrite map_app. cbn [map snd]. 
      assert (N1 : ~ In (TRebuildOut (po_id x)) (map snd (p_timers p))).
      { intro I. apply in_map_iff in I as ([d e] & Q & I). cbn in Q. subst e. destruct (d_t0 _ _ I) as (z & H1 & H2 & _). now apply (NEW z H1). }
      assert (N2 : ~ In (TDestroy (po_id x)) (map snd (p_timers p))).
      { intro I. apply in_map_iff in I as ([d e] & Q & I). cbn in Q. subst e. destruct (d_t0 _ _ I) as (z & H1 & H2 & _). now apply (NEW z H1). }
      apply (Permutation_NoDup (Permutation_app_comm [TRebuildOut (po_id x); TDestroy (po_id x)] _)). cbn.
      constructor; [cbn; intros [I|I]; [discriminate | contradiction]|]. constructor; assumption.
    + intros d e I. apply in_app_or in I as [I|[I|[I|[]]]].
      * specialize (d_t0 _ _ I). destruct e; destruct d_t0 as (z & H1 & H2); exists z; (split; [now right | exact H2]).
      * injection I as <- <-. exists (mkLife Outb (po_id x) (p_now p) false). split; [now left|]. split; reflexivity.
      * injection I as <- <-. exists (mkLife Outb (po_id x) (p_now p) false). split; [now left|]. split; reflexivity.
    + intros id I. destruct (d_eo0 _ I) as (z & H1 & H2). exists z. split; [now right | exact H2].
    + intros id I. destruct (d_ei0 _ I) as (z & H1 & H2). exists z. split; [now right | exact H2].
    + rewrite nput_new_len by (auto; apply (g_so _ _ _ G)). rewrite EP, app_length in d_co0. cbn in d_co0. rewrite app_length. lia.
  - unfold in_done in S. destruct (pull pi_sn sn (p_pi p)) as [[x rest]|] eqn:P; [|apply (Z _ S)].
    apply pull_spec in P as (<- & a & b & EP & -> & _).
    destruct r; try (apply pair_equal_spec in S as [<- <-]; eapply FIX; [| | | |reflexivity]; try reflexivity;
      [cbn; rewrite EP, !app_length; cbn; lia | intros u [<-|[]] r'; split; discriminate]).
    apply pair_equal_spec in S as [<- <-]. cbn [fold_left hear says].
    specialize (HB _ Inb (pi_gw x) (or_introl eq_refl) eq_refl). specialize (NEW _ _ HB).
    rewrite CK by discriminate. clear FIX Z. destruct T.
    constructor; cbn [p_out p_inb p_intun p_timers p_exp_out p_exp_in p_po p_pi p_num_in p_num_out s_timers s_inb s_intun s_sel_in s_listen s_pi]; auto.
    + cbn. constructor; [|exact d_ids0]. intro I. apply in_map_iff in I as (y & K & I). now apply (NEW y I).
    + rewrite map_app. cbn [map in_gw]. apply (Permutation_NoDup (Permutation_app_comm [pi_gw x] _)). cbn. constructor; [|exact d_inbn0].
      intro I. apply in_map_iff in I as (y & Q & I). destruct (d_inb0 y I) as (z & H1 & H2 & _). rewrite Q in H2. now apply (NEW z H1).
    + intros y Hy. apply in_app_or in Hy as [Hy|[<-|[]]].
      * destruct (d_inb0 y Hy) as (z & H1 & H2). exists z. split; [now right | exact H2].
      * exists (mkLife Inb (pi_gw x) (p_now p) false). split; [now left|]. split; reflexivity.
    + intros y Hy. rewrite nget_nput. apply in_app_or in Hy as [Hy|[<-|[]]].
      * destruct (N.eqb_spec (in_gw y) (pi_gw x)) as [Q|Q]; [|auto]. exfalso.
        destruct (d_inb0 y Hy) as (z & H1 & H2 & _). rewrite Q in H2. now apply (NEW z H1).
      * cbn. rewrite N.eqb_refl. eauto.
    + rewrite map_app. cbn [map snd]. apply (Permutation_NoDup (Permutation_app_comm [TRebuildIn (pi_gw x)] _)). cbn. constructor; [|exact d_tn0].
      intro I. apply in_map_iff in I as ([d e] & Q & I). cbn in Q. subst e. destruct (d_t0 _ _ I) as (z & H1 & H2 & _). now apply (NEW z H1).
    + intros d e I. apply in_app_or in I as [I|[I|[]]].
      * specialize (d_t0 _ _ I). destruct e; destruct d_t0 as (z & H1 & H2); exists z; (split; [now right | exact H2]).
      * injection I as <- <-. exists (mkLife Inb (pi_gw x) (p_now p) false). split; [now left|]. split; reflexivity.
    + intros id I. destruct (d_eo0 _ I) as (z & H1 & H2). exists z. split; [now right | exact H2].
    + intros id I. destruct (d_ei0 _ I) as (z & H1 & H2). exists z. split; [now right | exact H2].
    + rewrite EP, app_length in d_ci0. cbn in d_ci0. rewrite !app_length. cbn. lia.
  - unfold in_end in S. destruct (pull in_sn sn (p_inb p)) as [[x rest]|] eqn:P; [|apply (Z _ S)].
    destruct (N.leb_spec (in_at x + TUNNEL_EXPIRATION) (p_now p)) as [D|D]; [|apply (Z _ S)].
    apply pull_spec in P as (<- & a & b & EP & -> & _). apply pair_equal_spec in S as [<- <-]. cbn [fold_left hear says].
    clear FIX Z NEW. destruct T. rewrite EP in *.
    destruct (d_inb0 x) as (w & W1 & W2 & W3); [apply in_or_app; right; now left|].
    assert (WE : l_exp w = true) by (apply HT; [exact W1 | rewrite W3; exact D]).
    assert (WI : In (in_gw x) (p_exp_in p)).
    { pose proof (a_exp _ _ _ A w W1 WE) as Q. injection W2 as W2 W4. rewrite W2, W4 in Q. exact Q. }
    destruct (in_mid_map _ _ in_gw a x b d_inbn0) as [N1 N2].
    constructor; cbn [p_out p_inb p_intun p_timers p_exp_out p_exp_in p_po p_pi p_num_in p_num_out s_inb s_intun s_sel_in s_rt s_exp_in]; auto.
    + now apply NoDup_map_filter.
    + intros y Hy. destruct (d_inb0 y (mid_in _ _ _ _ _ Hy)) as (z & H1 & H2 & H3). exists z. split; [|auto]. apply drop_other; [exact H1|].
      rewrite H2. intro Q. injection Q as Q. now apply (N2 y Hy).
    + intros y Hy. rewrite nget_ndel. destruct (N.eqb_spec (in_gw y) (in_gw x)) as [Q|Q]; [now elim (N2 y Hy)|].
      apply d_tid0. now apply mid_in.
    + intros d e I. specialize (d_t0 _ _ I). destruct e; destruct d_t0 as (z & H1 & H2 & H3); exists z; (split; [|auto]; apply drop_other; [exact H1|]).
      * rewrite H2. discriminate.
      * intro Q. rewrite <- W2 in Q. apply (one_life _ _ _ d_ids0 H1 W1) in Q. congruence.
      * rewrite H2. discriminate.
    + intros id I. destruct (d_eo0 _ I) as (z & H1 & H2 & H3). exists z. split; [|auto]. apply drop_other; [exact H1|]. rewrite H2. discriminate.
    + intros id I. apply sdel_In in I as [NE I]. destruct (d_ei0 _ I) as (z & H1 & H2 & H3). exists z. split; [|auto]. apply drop_other; [exact H1|].
      rewrite H2. congruence.
    + apply (sdel_len _ _ (g_ei _ _ _ G)) in WI. rewrite app_length in *. cbn in d_ci0. lia.
  - unfold in_panic in S. destruct (pull in_sn sn (p_inb p)) as [[? ?]|]; [|apply (Z _ S)].
    apply pair_equal_spec in S as [<- <-]. discriminate.
  - apply pair_equal_spec in S as [<- <-]. eapply FIX; try reflexivity. apply message_quiet.
  - apply pair_equal_spec in S as [<- <-]. discriminate.
  - pose proof S as C. apply test_done_core in C as [C Q]. eapply FIX; [exact C | | | exact Q | reflexivity];
      unfold test_done in S; (destruct (pull t_sn sn (p_tests p)) as [[? ?]|]; [destruct r; [|destruct (_ <=? _)]|]; apply pair_equal_spec in S as [<- _]; cbn; lia).
  - unfold timer in S. destruct (pull_at i (p_timers p)) as [[[d ev] rest]|] eqn:P; [|apply (Z _ S)].
    destruct (N.ltb_spec (p_now p) d) as [D|D]; [apply (Z _ S)|].
    apply pull_at_spec in P as (a & b & EP & ->). clear FIX Z NEW. destruct T. rewrite EP in *.
    destruct (in_mid_map _ _ snd a (d, ev) b d_tn0) as [N1 N2]. cbn [snd] in N2.
    assert (TI : In (d, ev) (a ++ (d, ev) :: b)) by (apply in_or_app; right; now left).
    pose proof (d_t0 _ _ TI) as W.
    destruct ev; apply pair_equal_spec in S as [<- <-]; cbn [fold_left hear says]; destruct W as (w & W1 & W2 & W3).
    + assert (NI : ~ In id (p_exp_out p)).
      { intro I. destruct (d_eo0 _ I) as (z & H1 & H2 & H3). rewrite <- W2 in H2. apply (one_life _ _ _ d_ids0 H1 W1) in H2. congruence. }
      constructor; cbn [p_out p_inb p_intun p_timers p_exp_out p_exp_in p_po p_pi p_num_in p_num_out s_timers s_exp_out]; auto.
      * now rewrite flag_keys.
      * intros y Hy. destruct (d_inb0 y Hy) as (z & H1 & H2 & H3). exists z. split; [|auto]. apply flag_other; [exact H1|]. rewrite H2. discriminate.
      * intros d' e I. specialize (d_t0 _ _ (mid_in _ _ _ _ _ I)). destruct e; destruct d_t0 as (z & H1 & H2 & H3).
        -- exists z. split; [|auto]. apply flag_other; [exact H1|]. rewrite H2. intro Q. injection Q as ->. now apply (N2 _ I).
        -- exists z. split; [|auto]. apply flag_other; [exact H1|]. rewrite H2. discriminate.
        -- destruct (flag_any Outb id _ z H1) as (z' & J1 & J2 & J3 & _). exists z'. split; [exact J1|]. split; congruence.
      * intros id' I. apply sadd_In in I as [->|I].
        -- exists (mkLife Outb id (l_at w) true). split; [|split; reflexivity]. apply in_map_iff. exists w. apply is_key in W2. now rewrite W2.
        -- destruct (d_eo0 _ I) as (z & H1 & H2 & H3). destruct (flag_any Outb id _ z H1) as (z' & J1 & J2 & J3 & J4). exists z'. split; [exact J1|]. split; [congruence | auto].
      * intros id' I. destruct (d_ei0 _ I) as (z & H1 & H2 & H3). exists z. split; [|auto]. apply flag_other; [exact H1|]. rewrite H2. discriminate.
      * rewrite sadd_new_len by (auto; apply (g_eo _ _ _ G)). lia.
    + assert (NI : ~ In gw (p_exp_in p)).
      { intro I. destruct (d_ei0 _ I) as (z & H1 & H2 & H3). rewrite <- W2 in H2. apply (one_life _ _ _ d_ids0 H1 W1) in H2. congruence. }
      constructor; cbn [p_out p_inb p_intun p_timers p_exp_out p_exp_in p_po p_pi p_num_in p_num_out s_timers s_exp_in]; auto.
      * now rewrite flag_keys.
      * intros y Hy. destruct (d_inb0 y Hy) as (z & H1 & H2 & H3). destruct (flag_any Inb gw _ z H1) as (z' & J1 & J2 & J3 & _). exists z'. split; [exact J1|]. split; congruence.
      * intros d' e I. specialize (d_t0 _ _ (mid_in _ _ _ _ _ I)). destruct e; destruct d_t0 as (z & H1 & H2 & H3).
        -- exists z. split; [|auto]. apply flag_other; [exact H1|]. rewrite H2. discriminate.
        -- exists z. split; [|auto]. apply flag_other; [exact H1|]. rewrite H2. intro Q. injection Q as ->. now apply (N2 _ I).
        -- exists z. split; [|auto]. apply flag_other; [exact H1|]. rewrite H2. discriminate.
      * intros id' I. destruct (d_eo0 _ I) as (z & H1 & H2 & H3). exists z. split; [|auto]. apply flag_other; [exact H1|]. rewrite H2. discriminate.
      * intros id' I. apply sadd_In in I as [->|I].
        -- exists (mkLife Inb gw (l_at w) true). split; [|split; reflexivity]. apply in_map_iff. exists w. apply is_key in W2. now rewrite W2.
        -- destruct (d_ei0 _ I) as (z & H1 & H2 & H3). destruct (flag_any Inb gw _ z H1) as (z' & J1 & J2 & J3 & J4). exists z'. split; [exact J1|]. split; [congruence | auto].
      * rewrite sadd_new_len by (auto; apply (g_ei _ _ _ G)). lia.
    + assert (WE : l_exp w = true) by (apply HT; [exact W1 | rewrite W3 in D; exact D]).
      assert (WI : In id (p_exp_out p)).
      { pose proof (a_exp _ _ _ A w W1 WE) as Q. injection W2 as W2 W4. rewrite W2, W4 in Q. exact Q. }
      assert (WK : In id (nkeys (p_out p))).
      { rewrite (a_out _ _ _ A). exists w. injection W2 as W2 W4. auto. }
      constructor; cbn [p_out p_inb p_intun p_timers p_exp_out p_exp_in p_po p_pi p_num_in p_num_out s_timers s_exp_out s_out s_sel_out]; auto.
      * now apply NoDup_map_filter.
      * intros y Hy. destruct (d_inb0 y Hy) as (z & H1 & H2 & H3). exists z. split; [|auto]. apply drop_other; [exact H1|]. rewrite H2. discriminate.
      * intros d' e I. specialize (d_t0 _ _ (mid_in _ _ _ _ _ I)). destruct e; destruct d_t0 as (z & H1 & H2 & H3); exists z; (split; [|auto]; apply drop_other; [exact H1|]).
        -- intro Q. rewrite <- W2 in Q. apply (one_life _ _ _ d_ids0 H1 W1) in Q. congruence.
        -- rewrite H2. discriminate.
        -- rewrite H2. intro Q. injection Q as ->. now apply (N2 _ I).
      * intros id' I. apply sdel_In in I as [NE I]. destruct (d_eo0 _ I) as (z & H1 & H2 & H3). exists z. split; [|auto]. apply drop_other; [exact H1|].
        rewrite H2. congruence.
      * intros id' I. destruct (d_ei0 _ I) as (z & H1 & H2 & H3). exists z. split; [|auto]. apply drop_other; [exact H1|]. rewrite H2. discriminate.
      * apply (sdel_len _ _ (g_eo _ _ _ G)) in WI. apply (ndel_len _ _ _ (g_so _ _ _ G)) in WK. lia.
  - apply pair_equal_spec in S as [<- <-]. discriminate.
  - pose proof S as C. apply poll_end_core in C as [C Q]. unfold poll_end in S.
    destruct T. destruct (_ <=? _).
    + destruct (maintain _ a) as [p1 u1] eqn:M. apply pair_equal_spec in S as [<- <-].
      apply maintain_len in M as [M1 M2]; [|assumption|assumption]. apply (tidy_keep p); auto. constructor; assumption.
    + destruct (0 <? _).
      * destruct (maintain _ a) as [p1 u1] eqn:M. apply pair_equal_spec in S as [<- <-].
        apply maintain_len in M as [M1 M2]; [|assumption|assumption]. apply (tidy_keep p); auto. constructor; assumption.
      * apply (Z _ S).
  - destruct (smem g (p_zero p)); apply pair_equal_spec in S as [<- <-]; cbn [fold_left]; first [exact T | destruct T; constructor; assumption].
  - destruct (waited p sn); apply pair_equal_spec in S as [<- <-]; cbn [fold_left]; first [exact T | destruct T; constructor; assumption].
  - destruct (smem id (p_rt p)); apply pair_equal_spec in S as [<- <-]; cbn [fold_left]; [exact T|]. destruct T; constructor; assumption.
  - destruct (smem id (p_alien p)); apply pair_equal_spec in S as [<- <-]; cbn [fold_left]; [|exact T]. destruct T; constructor; assumption.
Qed.

Lemma prefix_on_time t0 tr e : on_time t0 (tr ++ [e]) -> on_time t0 tr.
Proof. intros H tr1 tr2 x E. apply (H tr1 (tr2 ++ [e])). rewrite E, <- app_assoc. reflexivity. Qed.
Lemma prefix_distinct t0 tr e : distinct_ids t0 (tr ++ [e]) -> distinct_ids t0 tr.
Proof.
  intros H tr1 x tr2 r d id E. apply (H tr1 x (tr2 ++ [e])). rewrite E, <- app_assoc. reflexivity.
Qed.

Theorem run_tidy ni no t0 ops p tr :
  run (p_new ni no t0) ops = (p, tr) -> running tr -> on_time t0 tr -> distinct_ids t0 tr -> tidy p (live t0 tr).
Proof.
  intros H R. assert (X : on_time t0 tr -> distinct_ids t0 tr -> running tr ->
     tidy p (live t0 tr) /\ agree t0 p tr /\ books p (of_history tr) /\ ledger t0 p tr /\ p_up p = true).
  2: { intros H1 H2. now apply X. }
  clear R. revert p tr H.
  apply (run_ind (fun p tr => on_time t0 tr -> distinct_ids t0 tr -> running tr ->
     tidy p (live t0 tr) /\ agree t0 p tr /\ books p (of_history tr) /\ ledger t0 p tr /\ p_up p = true)).
  - intros _ _ _. split; [apply tidy_new|]. split; [apply agree_new|]. split; [apply books_new|]. split; [apply ledger_new | reflexivity].
  - intros p tr o p' us IH S OT DI R. apply running_snoc in R as [R E].
    destruct (IH (prefix_on_time _ _ _ OT) (prefix_distinct _ _ _ DI) R) as (T & A & B & G & U).
    destruct (agree_step _ _ _ _ _ _ A U S E) as [A' U'].
    split; [|split; [exact A'|]; split; [rewrite of_snoc; now apply (books_step p)|]; split; [now apply (ledger_step t0 p) | exact U']].
    apply (tidy_step t0 p); auto.
    + intros r d id I SY. apply (DI tr (o, us) [] r d id); auto.
    + intros x I. apply (OT tr [(o, us)] x); auto.
Qed.

(** The lengths in terms of the history. *)
Lemma lives_in d L x : In x (lives d L) <-> In x L /\ l_dir x = d.
Proof. unfold lives. rewrite filter_In. destruct (l_dir x), d; cbn; intuition congruence. Qed.
Lemma expiring_in d L x : In x (expiring d L) <-> In x L /\ l_dir x = d /\ l_exp x = true.
Proof. unfold expiring. rewrite filter_In, lives_in. tauto. Qed.
Lemma lives_nodup d L : NoDup (map key L) -> NoDup (map l_id (lives d L)).
Proof.
  intro N. apply (NoDup_map_filter _ _ key (fun x => dir_eqb (l_dir x) d)) in N. fold (lives d L) in N.
  apply (NoDup_map_inv (fun id => (d, id))). rewrite map_map.
  erewrite map_ext_in; [exact N|]. intros x I. apply lives_in in I as [_ <-]. reflexivity.
Qed.
Lemma counted ni no t0 ops p tr :
  run (p_new ni no t0) ops = (p, tr) -> running tr -> on_time t0 tr -> distinct_ids t0 tr ->
  let L := live t0 tr in
  length (p_out p) = length (lives Outb L) /\ length (p_inb p) = length (lives Inb L) /\
  length (p_exp_out p) = length (expiring Outb L) /\ length (p_exp_in p) = length (expiring Inb L).
Proof.
  intros H R OT DI L. pose proof (run_tidy _ _ _ _ _ _ H R OT DI) as T. destruct (run_all _ _ _ _ _ _ H R) as (A & B & G & U). fold L in T.
  assert (NE : forall d, NoDup (map l_id (expiring d L))).
  { intro d. apply NoDup_map_filter. apply lives_nodup, (d_ids _ _ T). }
  assert (K : forall d id x, key x = (d, id) -> l_dir x = d /\ l_id x = id) by (intros d id x Q; injection Q; auto).
  split; [|split; [|split]].
  - transitivity (length (nkeys (p_out p))); [symmetry; apply map_length|]. rewrite <- (map_length l_id (lives Outb L)).
    apply same_len; [apply sorted_NoDup, (g_so _ _ _ G) | apply lives_nodup, (d_ids _ _ T)|].
    intro id. rewrite (a_out _ _ _ A), in_map_iff. fold L. split.
    + intros (x & I & D & E). exists x. rewrite lives_in. auto.
    + intros (x & E & I). apply lives_in in I as [I D]. exists x. auto.
  - rewrite <- (map_length in_gw), <- (map_length l_id). apply same_len; [apply (d_inbn _ _ T) | apply lives_nodup, (d_ids _ _ T)|].
    intro id. rewrite !in_map_iff. split.
    + intros (y & E & I). destruct (d_inb _ _ T y I) as (x & I' & Q & _). apply K in Q as [Q1 Q2]. exists x. rewrite lives_in. split; [congruence | auto].
    + intros (x & E & I). apply lives_in in I as [I D]. destruct (a_inb _ _ _ A x I D) as (y & I' & Q & _). exists y. split; [congruence | auto].
  - rewrite <- (map_length l_id). apply same_len; [apply sorted_NoDup, (g_eo _ _ _ G) | apply NE|].
    intro id. rewrite in_map_iff. split.
    + intro I. destruct (d_eo _ _ T id I) as (x & I' & Q & X). apply K in Q as [Q1 Q2]. exists x. rewrite expiring_in. auto.
    + intros (x & E & I). apply expiring_in in I as (I & D & X). pose proof (a_exp _ _ _ A x I X) as Q. rewrite D in Q. congruence.
  - rewrite <- (map_length l_id). apply same_len; [apply sorted_NoDup, (g_ei _ _ _ G) | apply NE|].
    intro id. rewrite in_map_iff. split.
    + intro I. destruct (d_ei _ _ T id I) as (x & I' & Q & X). apply K in Q as [Q1 Q2]. exists x. rewrite expiring_in. auto.
    + intros (x & E & I). apply expiring_in in I as (I & D & X). pose proof (a_exp _ _ _ A x I X) as Q. rewrite D in Q. congruence.
Qed.

(** ** Willing maintenance builds all it is asked to. *)
Lemma draw_some ds rt : NoDup ds -> (length rt < length ds)%nat -> exists d, draw ds rt = Some d.
Proof.
  intros N L. destruct (draw ds rt) as [d|] eqn:E; [eauto|]. exfalso.
  assert (I : incl ds rt).
  { clear N L. induction ds as [|d ds IH]; [intros x []|]. cbn in E. destruct (smem d rt) eqn:M; [|discriminate].
    apply smem_In in M. intros x [<-|Hx]; auto. now apply IH. }
  pose proof (NoDup_incl_length N I). lia.
Qed.
Lemma build_out_ok p b p' us : build_out p b = (p', us) ->
  b_hops b = true -> b_ok b = true -> NoDup (b_draws b) -> (length (p_rt p) < length (b_draws b))%nat ->
  length (p_po p') = S (length (p_po p)) /\ (length (p_rt p') <= S (length (p_rt p)))%nat.
Proof.
  unfold build_out. intros H E1 E2 N L. rewrite E1, E2 in H. cbn [negb] in H. destruct (b_via b).
  - apply pair_equal_spec in H as [<- <-]. cbn. rewrite app_length. cbn. lia.
  - destruct (draw_some _ _ N L) as [d E]. rewrite E in H. apply pair_equal_spec in H as [<- <-]. cbn. rewrite app_length. cbn. lia.
Qed.
Lemma build_in_ok p b p' us : build_in p b = (p', us) ->
  b_hops b = true -> b_ok b = true -> NoDup (b_draws b) -> (length (p_rt p) < length (b_draws b))%nat ->
  length (p_pi p') = S (length (p_pi p)) /\ (length (p_rt p') <= S (length (p_rt p)))%nat.
Proof.
  unfold build_in. intros H E1 E2 N L. rewrite E1, E2 in H. cbn [negb] in H.
  destruct (draw_some _ _ N L) as [d E]. rewrite E in H. apply pair_equal_spec in H as [<- <-]. cbn. rewrite app_length. cbn. lia.
Qed.
Lemma builds_ok f (g : pool -> nat) :
  (forall p b p' us, f p b = (p', us) -> b_hops b = true -> b_ok b = true -> NoDup (b_draws b) -> (length (p_rt p) < length (b_draws b))%nat ->
     g p' = S (g p) /\ (length (p_rt p') <= S (length (p_rt p)))%nat) ->
  forall n bs m p p' us, builds f n bs p = (p', us) -> (length (p_rt p) + n <= m)%nat -> (n <= length bs)%nat ->
  (forall b, In b bs -> b_hops b = true /\ b_ok b = true /\ NoDup (b_draws b) /\ (m <= length (b_draws b))%nat) ->
  (g p' = n + g p)%nat /\ (length (p_rt p') <= n + length (p_rt p))%nat.
Proof.
  intros F n. induction n as [|n IH]; intros bs m p p' us H LM LB W.
  - replace (builds f 0 bs p) with (p, @nil out) in H by (destruct bs; reflexivity). apply pair_equal_spec in H as [<- <-]. lia.
  - destruct bs as [|b bs]; [cbn in LB; lia|]. cbn [builds] in H.
    destruct (f p b) as [p1 o1] eqn:E1. destruct (builds f n bs p1) as [p2 o2] eqn:E2. apply pair_equal_spec in H as [<- <-].
    destruct (W b (or_introl eq_refl)) as (W1 & W2 & W3 & W4).
    destruct (F _ _ _ _ E1 W1 W2 W3) as [A1 A2]; [lia|].
    cbn in LB. destruct (IH bs m p1 p2 o2 E2) as [B1 B2]; [lia|lia|intros; apply W; now right|]. lia.
Qed.
Lemma maintain_ok p a p' us : maintain p a = (p', us) ->
  (length (p_out p) + length (p_po p) <= p_num_out p + length (p_exp_out p))%nat ->
  (length (p_inb p) + length (p_pi p) <= p_num_in p + length (p_exp_in p))%nat ->
  (p_num_out p + length (p_exp_out p) <= length (m_outs a))%nat -> (p_num_in p + length (p_exp_in p) <= length (m_ins a))%nat ->
  (forall b, In b (m_outs a ++ m_ins a) -> b_hops b = true /\ b_ok b = true /\ NoDup (b_draws b) /\
     (length (p_rt p) + length (m_outs a) + length (m_ins a) <= length (b_draws b))%nat) ->
  (length (p_out p) + length (p_po p') = p_num_out p + length (p_exp_out p))%nat /\
  (length (p_inb p) + length (p_pi p') = p_num_in p + length (p_exp_in p))%nat.
Proof.
  intros M CO CI LO LI W. unfold maintain in M.
  destruct (builds build_out (out_count p) (m_outs a) p) as [p1 o1] eqn:E1.
  destruct (builds build_in (in_count p1) (m_ins a) p1) as [p2 o2] eqn:E2.
  pose proof E1 as C1. apply (builds_core _ build_out_core) in C1 as [C1 _]. unfold core in C1. injection C1 as Cni _ _ _ _ _ Cei Cinb _ _ _ _ _.
  pose proof (builds_out_len _ _ _ _ _ E1) as [_ P1]. pose proof (builds_in_len _ _ _ _ _ E2) as [_ P2].
  assert (R : p_po p' = p_po p2 /\ p_pi p' = p_pi p2).
  { destruct (_ <? _); [apply pair_equal_spec in M as [<- <-]; auto|].
    destruct (test_all _ (m_sent a) _) as [p4 o4] eqn:E4. apply pair_equal_spec in M as [<- <-]. now apply test_all_len in E4. }
  destruct R as [-> ->]. apply out_count_spec in CO.
  assert (CI1 : (length (p_inb p1) + length (p_pi p1) <= p_num_in p1 + length (p_exp_in p1))%nat) by (rewrite Cinb, P1, Cni, Cei; exact CI).
  apply in_count_spec in CI1. rewrite Cinb, Cni, Cei, P1 in CI1.
  destruct (builds_ok _ (fun p => length (p_po p)) build_out_ok _ _ (length (p_rt p) + length (m_outs a) + length (m_ins a))%nat _ _ _ E1) as [A1 A2]; [lia|lia| |].
  { intros b I. apply W. apply in_or_app. auto. }
  destruct (builds_ok _ (fun p => length (p_pi p)) build_in_ok _ _ (length (p_rt p) + length (m_outs a) + length (m_ins a))%nat _ _ _ E2) as [B1 B2]; [lia|lia| |].
  { intros b I. apply W. apply in_or_app. auto. }
  rewrite P2. rewrite P1 in B1. lia.
Qed.

(** The configuration does not change. *)
Lemma step_nums p o p' us : step p o = (p', us) -> p_num_in p' = p_num_in p /\ p_num_out p' = p_num_out p.
Proof.
  intro S. destruct o; unfold step in S; try (destruct (negb (p_up p)); [apply pair_equal_spec in S as [<- _]; auto|]);
    try (apply pair_equal_spec in S as [<- _]; auto; fail).
  - unfold out_done in S. destruct (pull po_sn sn (p_po p)) as [[? ?]|]; [destruct r|]; apply pair_equal_spec in S as [<- _]; auto.
  - unfold in_done in S. destruct (pull pi_sn sn (p_pi p)) as [[? ?]|]; [destruct r|]; apply pair_equal_spec in S as [<- _]; auto.
  - unfold in_end in S. destruct (pull in_sn sn (p_inb p)) as [[? ?]|]; [destruct (_ <=? _)|]; apply pair_equal_spec in S as [<- _]; auto.
  - unfold in_panic in S. destruct (pull in_sn sn (p_inb p)) as [[? ?]|]; apply pair_equal_spec in S as [<- _]; auto.
  - unfold test_done in S. destruct (pull t_sn sn (p_tests p)) as [[? ?]|]; [destruct r; [|destruct (_ <=? _)]|]; apply pair_equal_spec in S as [<- _]; auto.
  - unfold timer in S. destruct (pull_at i (p_timers p)) as [[[d ev] ?]|]; [destruct (_ <? _); [|destruct ev]|]; apply pair_equal_spec in S as [<- _]; auto.
  - apply poll_end_core in S as [C _]. unfold core in C. injection C as C1 C2 _. auto.
  - destruct (smem g (p_zero p)); apply pair_equal_spec in S as [<- _]; auto.
  - destruct (waited p sn); apply pair_equal_spec in S as [<- _]; auto.
  - destruct (smem id (p_rt p)); apply pair_equal_spec in S as [<- _]; auto.
  - destruct (smem id (p_alien p)); apply pair_equal_spec in S as [<- _]; auto.
Qed.
Lemma run_nums ni no t0 ops p tr : run (p_new ni no t0) ops = (p, tr) -> p_num_in p = ni /\ p_num_out p = no.
Proof.
  revert p tr. apply (run_ind (fun p _ => p_num_in p = ni /\ p_num_out p = no)); [auto|].
  intros p tr o p' us [A B] S. apply step_nums in S as [-> ->]. auto.
Qed.

(** ** Reply listeners *)
Lemma fold_wait us W sn : In sn (fold_left begin_wait us W) <-> In sn W \/ In sn (fold_left begin_wait us []).
Proof.
  revert W. induction us as [|u us IH]; intro W; cbn [fold_left]; [cbn; tauto|].
  rewrite IH, (IH (begin_wait [] u)).
  assert (E : In sn (begin_wait W u) <-> In sn W \/ In sn (begin_wait [] u)).
  { destruct u; cbn [begin_wait]; try (cbn; tauto). destruct zero; cbn; tauto. }
  rewrite E. tauto.
Qed.
Definition more_listen (p p' : pool) (us : list out) : Prop :=
  forall sn, In sn (p_listen p') -> In sn (p_listen p) \/ In sn (fold_left begin_wait us []).
Lemma more_listen_nil p : more_listen p p [].
Proof. intros sn I. now left. Qed.
Lemma more_listen_app p p1 p2 a b : more_listen p p1 a -> more_listen p1 p2 b -> more_listen p p2 (a ++ b).
Proof.
  intros A B sn I. rewrite fold_left_app, fold_wait. apply B in I as [I|I]; [|auto]. apply A in I as [I|I]; auto.
Qed.
Lemma build_out_listen p b p' us : build_out p b = (p', us) -> more_listen p p' us.
Proof.
  unfold build_out. intro H. assert (K : forall x, (p, []) = x -> more_listen p (fst x) (snd x)) by (intros x <-; apply more_listen_nil).
  destruct (negb (b_hops b)); [apply (K _ H)|]. destruct (b_via b).
  - destruct (b_ok b); [|apply (K _ H)]. apply pair_equal_spec in H as [<- <-]. intros sn I. cbn in *. tauto.
  - destruct (draw (b_draws b) (p_rt p)); [|apply (K _ H)]. destruct (b_ok b); [|apply (K _ H)].
    apply pair_equal_spec in H as [<- <-]. intros sn I. now left.
Qed.
Lemma build_in_listen p b p' us : build_in p b = (p', us) -> more_listen p p' us.
Proof.
  unfold build_in. intro H. assert (K : forall x, (p, []) = x -> more_listen p (fst x) (snd x)) by (intros x <-; apply more_listen_nil).
  destruct (negb (b_hops b)); [apply (K _ H)|].
  destruct (draw (b_draws b) (p_rt p)); [|apply (K _ H)]. destruct (b_ok b); [|apply (K _ H)].
  apply pair_equal_spec in H as [<- <-]. intros sn I. cbn in *. tauto.
Qed.
Lemma builds_listen f : (forall p b p' us, f p b = (p', us) -> more_listen p p' us) ->
  forall n bs p p' us, builds f n bs p = (p', us) -> more_listen p p' us.
Proof.
  intros F n. induction n as [|n IH]; intros [|b bs] p p' us H; cbn [builds] in H.
  1-3: apply pair_equal_spec in H as [<- <-]; apply more_listen_nil.
  destruct (f p b) as [p1 o1] eqn:E1. destruct (builds f n bs p1) as [p2 o2] eqn:E2.
  apply pair_equal_spec in H as [<- <-]. eapply more_listen_app; eauto.
Qed.
Lemma test_all_listen l sent p p' us : test_all l sent p = (p', us) -> more_listen p p' us.
Proof.
  revert sent p p' us. induction l as [|[o i] l IH]; intros sent p p' us H; cbn [test_all] in H.
  { apply pair_equal_spec in H as [<- <-]. apply more_listen_nil. }
  destruct (test_one p o i (hd true sent)) as [p1 o1] eqn:E1.
  destruct (test_all l (tl sent) p1) as [p2 o2] eqn:E2. apply pair_equal_spec in H as [<- <-].
  apply IH in E2. eapply more_listen_app; [|exact E2]. unfold test_one in E1.
  destruct (hd true sent); apply pair_equal_spec in E1 as [<- <-]; [|apply more_listen_nil]. intros sn I. cbn in *. tauto.
Qed.
Lemma maintain_listen p a p' us : maintain p a = (p', us) -> more_listen p p' us.
Proof.
  unfold maintain.
  destruct (builds build_out (out_count p) (m_outs a) p) as [p1 o1] eqn:E1.
  destruct (builds build_in (in_count p1) (m_ins a) p1) as [p2 o2] eqn:E2.
  apply (builds_listen _ build_out_listen) in E1. apply (builds_listen _ build_in_listen) in E2.
  assert (X : forall q q' u, more_listen q q' u -> more_listen q q' (Maintained :: u)) by (intros q q' u M sn I; apply M in I; exact I).
  destruct (_ <? _).
  - intro H; apply pair_equal_spec in H as [<- <-]. apply X. eapply more_listen_app; eauto.
  - destruct (test_all _ (m_sent a) _) as [p4 o4] eqn:E4. intro H; apply pair_equal_spec in H as [<- <-]. apply X.
    apply test_all_listen in E4. eapply more_listen_app; [exact E1|]. eapply more_listen_app; [exact E2|]. exact E4.
Qed.
Lemma left_snoc tr e sn : left_behind tr sn -> left_behind (tr ++ [e]) sn.
Proof. intros (u & us & H). exists u, us. rewrite !in_app_iff. tauto. Qed.

Lemma NoDup_app_disj A (l m : list A) x : NoDup (l ++ m) -> In x l -> ~ In x m.
Proof.
  induction l as [|y l IH]; [intros _ []|]. cbn. intros N [->|I] J; inversion N as [|? ? NI N']; subst.
  - apply NI. apply in_or_app. auto.
  - now apply IH.
Qed.
Definition heard (p : pool) (tr : history) : Prop := forall sn, In sn (p_listen p) -> In sn (waits tr) \/ left_behind tr sn.
Lemma heard_nothing p q tr o : heard p tr -> p_listen q = p_listen p -> heard q (tr ++ [(o, [])]).
Proof.
  intros L E sn I. rewrite E in I. destruct (L sn I) as [J|J]; [left | right; now apply left_snoc].
  unfold waits. rewrite fold_left_app. cbn. destruct o; exact J.
Qed.
(** A build or test ends. *)
Lemma heard_done p q tr o u sn :
  heard p tr -> (forall s, In s (p_listen q) -> In s (p_listen p)) ->
  (In sn (p_listen q) -> left_behind (tr ++ [(o, [u])]) sn) ->
  (forall W, waits_step W (o, [u]) = sdel sn W) -> heard q (tr ++ [(o, [u])]).
Proof.
  intros L SUB D W s I. unfold waits. rewrite fold_left_app. cbn [fold_left]. fold (waits tr). rewrite W.
  destruct (N.eq_dec s sn) as [->|NE]; [right; auto|].
  destruct (L s (SUB s I)) as [J|J]; [left; apply sdel_In; auto | right; now apply left_snoc].
Qed.
Lemma heard_same p q tr o us :
  heard p tr -> more_listen p q us -> (forall W, waits_step W (o, us) = fold_left begin_wait us W) -> heard q (tr ++ [(o, us)]).
Proof.
  intros L M W s I. unfold waits. rewrite fold_left_app. cbn [fold_left]. fold (waits tr). rewrite W, fold_wait.
  apply M in I as [I|I]; [|auto]. destruct (L s I) as [J|J]; [auto | right; now apply left_snoc].
Qed.

Lemma heard_step p tr o p' us :
  heard p tr -> books p (of_history tr) -> p_up p = true -> step p o = (p', us) -> ends (o, us) = false -> heard p' (tr ++ [(o, us)]).
Proof.
  intros L B U S E.
  assert (Z : forall x, (p, []) = x -> heard (fst x) (tr ++ [(o, snd x)])) by (intros x <-; now apply (heard_nothing p)).
  destruct o; unfold step in S; rewrite ?U in S; cbn [negb] in S.
  - apply pair_equal_spec in S as [<- <-]. now apply (heard_nothing p).
  - unfold out_done in S. destruct (pull po_sn sn (p_po p)) as [[x rest]|] eqn:P; [|apply (Z _ S)].
    assert (Y : forall q u, p_listen q = (if po_zero x then p_listen p else listen_after r sn (p_listen p)) ->
       begin_wait [] u = [] -> heard q (tr ++ [(OOutDone sn r, [u])])).
    { intros q u Eq BW. apply (heard_done p _ _ _ _ sn).
      - exact L.
      - intros s. rewrite Eq. destruct (po_zero x); [auto|]. destruct r; cbn; rewrite ?sdel_In; tauto.
      - rewrite Eq. destruct (po_zero x) eqn:PZ.
        + intro I. destruct (L sn I) as [J|J]; [|now apply left_snoc]. exfalso.
          apply pull_spec in P as (PS & a & b & EP & _). 
          assert (IX : In x (p_po p)) by (rewrite EP; apply in_or_app; right; now left).
          pose proof (b_nd _ _ B) as N. apply (b_wa _ _ B) in J.
          assert (ND : NoDup (map po_sn (p_po p))) by (now apply NoDup_left in N).
          destruct J as [(y & Hy & Q & YZ)|[(y & Hy & Q)|(y & Hy & Q)]].
          * assert (y = x); [|congruence]. rewrite EP in Hy, ND. apply in_mid_map in ND as [_ ND].
            apply in_mid in Hy as [->|Hy]; [reflexivity|]. elim (ND y Hy). congruence.
          * apply (NoDup_app_disj _ _ _ _ N (in_map po_sn _ _ IX)). apply in_or_app. left. rewrite PS, <- Q. now apply in_map.
          * apply (NoDup_app_disj _ _ _ _ N (in_map po_sn _ _ IX)). apply in_or_app. right. apply in_or_app. left. rewrite PS, <- Q. now apply in_map.
        + destruct r; cbn [listen_after]; rewrite ?sdel_In; try tauto.
          intros _. exists u, []. left. apply in_or_app. right. now left.
      - intro W. cbn. destruct u; try reflexivity; try discriminate BW. destruct zero; [reflexivity | discriminate BW]. }
    destruct r; apply pair_equal_spec in S as [<- <-]; apply Y; reflexivity.
  - unfold in_done in S. destruct (pull pi_sn sn (p_pi p)) as [[x rest]|] eqn:P; [|apply (Z _ S)].
    assert (Y : forall q u, p_listen q = listen_after r sn (p_listen p) ->
       begin_wait [] u = [] -> heard q (tr ++ [(OInDone sn r, [u])])).
    { intros q u Eq BW. apply (heard_done p _ _ _ _ sn).
      - exact L.
      - intros s. rewrite Eq. destruct r; cbn; rewrite ?sdel_In; tauto.
      - rewrite Eq. destruct r; cbn [listen_after]; rewrite ?sdel_In; try tauto.
        intros _. exists u, []. right. left. apply in_or_app. right. now left.
      - intro W. cbn. destruct u; try reflexivity; try discriminate BW. destruct zero; [reflexivity | discriminate BW]. }
    destruct r; apply pair_equal_spec in S as [<- <-]; apply Y; reflexivity.
  - unfold in_end in S. destruct (pull in_sn sn (p_inb p)) as [[x rest]|]; [|apply (Z _ S)].
    destruct (_ <=? _); [|apply (Z _ S)]. apply pair_equal_spec in S as [<- <-]. apply (heard_same p); [exact L | intros s I; now left | reflexivity].
  - unfold in_panic in S. destruct (pull in_sn sn (p_inb p)) as [[? ?]|]; [|apply (Z _ S)]. apply pair_equal_spec in S as [<- <-]. discriminate.
  - apply pair_equal_spec in S as [<- <-]. apply (heard_same p); [exact L | intros s I; now left | reflexivity].
  - apply pair_equal_spec in S as [<- <-]. discriminate.
  - unfold test_done in S. destruct (pull t_sn sn (p_tests p)) as [[x rest]|]; [|apply (Z _ S)].
    destruct r.
    + apply pair_equal_spec in S as [<- <-]. apply (heard_done p _ _ _ _ sn); [exact L | | | reflexivity]; cbn; intros; rewrite ?sdel_In in *; tauto.
    + destruct (_ <=? _); [|apply (Z _ S)]. apply pair_equal_spec in S as [<- <-]. apply (heard_done p _ _ _ _ sn); [exact L | auto | | reflexivity].
      intros _. eexists _, _. right. right. apply in_or_app. right. now left.
  - unfold timer in S. destruct (pull_at i (p_timers p)) as [[[d ev] ?]|]; [|apply (Z _ S)]. destruct (_ <? _); [apply (Z _ S)|].
    destruct ev; apply pair_equal_spec in S as [<- <-]; (apply (heard_same p); [exact L | intros s I; now left | reflexivity]).
  - apply pair_equal_spec in S as [<- <-]. discriminate.
  - unfold poll_end in S. destruct (_ <=? _); [|destruct (0 <? _); [|apply (Z _ S)]];
      (destruct (maintain _ a) as [p1 u] eqn:M; apply maintain_listen in M; apply pair_equal_spec in S as [<- <-];
       apply (heard_same p); [exact L | exact M | reflexivity]).
  - destruct (smem g (p_zero p)); [|apply (Z _ S)]. apply pair_equal_spec in S as [<- <-]. now apply (heard_nothing p).
  - destruct (waited p sn); [apply (Z _ S)|]. apply pair_equal_spec in S as [<- <-].
    intros s I. cbn in I. apply sdel_In in I as [_ I]. destruct (L s I) as [J|J]; [left | right; now apply left_snoc].
    unfold waits. rewrite fold_left_app. exact J.
  - destruct (smem id (p_rt p)); [apply (Z _ S)|]. apply pair_equal_spec in S as [<- <-]. now apply (heard_nothing p).
  - destruct (smem id (p_alien p)); [|apply (Z _ S)]. apply pair_equal_spec in S as [<- <-]. now apply (heard_nothing p).
Qed.

Theorem run_heard ni no t0 ops p tr : run (p_new ni no t0) ops = (p, tr) -> running tr -> heard p tr.
Proof.
  intros H R. assert (X : running tr -> heard p tr /\ books p (of_history tr) /\ agree t0 p tr /\ p_up p = true); [|now apply X].
  clear R. revert p tr H. apply (run_ind (fun p tr => running tr -> heard p tr /\ books p (of_history tr) /\ agree t0 p tr /\ p_up p = true)).
  - intros _. split; [intros sn []|]. split; [apply books_new|]. split; [apply agree_new | reflexivity].
  - intros p tr o p' us IH S R. apply running_snoc in R as [R E]. destruct (IH R) as (L & B & A & U).
    destruct (agree_step _ _ _ _ _ _ A U S E) as [A' U'].
    split; [now apply (heard_step p)|]. split; [rewrite of_snoc; now apply (books_step p)|]. auto.
Qed.
