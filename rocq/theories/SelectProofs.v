(** Proofs about the hop selector. *)
From Coq Require Import List NArith Bool Lia Permutation Arith.
From Verif Require Import NMap Bytes RouteProofs DialProofs ProfileModel ProfileSpec ProfileProofs SelectModel SelectSpec.
Import ListNotations.
Open Scope N_scope.

(** ** Accounting *)
Lemma tkey_eqb_eq a b : tkey_eqb a b = true <-> a = b.
Proof.
  destruct a as [[p d] i], b as [[p' d'] i']. cbn. rewrite !andb_true_iff, !N.eqb_eq, eqb_true_iff.
  split; [intros [[-> ->] ->]; reflexivity | intro H; injection H; auto].
Qed.
Lemma tkey_eqb_refl a : tkey_eqb a a = true.
Proof. now apply tkey_eqb_eq. Qed.
Lemma tkey_eqb_sym a b : tkey_eqb a b = tkey_eqb b a.
Proof. destruct (tkey_eqb a b) eqn:E; symmetry; [apply tkey_eqb_eq in E; subst; apply tkey_eqb_refl|].
  destruct (tkey_eqb b a) eqn:F; [|reflexivity]. apply tkey_eqb_eq in F. subst. now rewrite tkey_eqb_refl in E. Qed.

Definition occ (r : N) (h : list N) : N := N.of_nat (count_occ N.eq_dec h r).
Fixpoint total (r : N) (l : list (tkey * list N)) : N :=
  match l with [] => 0 | x :: t => occ r (snd x) + total r t end.

Definition nonzero (m : nmap N) : Prop := forall r v, nget r m = Some v -> v <> 0.
Lemma occ_cons r x h : occ r (x :: h) = (if x =? r then 1 else 0) + occ r h.
Proof. unfold occ. cbn [count_occ]. destruct (N.eq_dec x r) as [->|N]; [rewrite N.eqb_refl; lia|]. destruct (N.eqb_spec x r); [congruence | lia]. Qed.
Lemma count_up_spec h : forall m, nonzero m -> nonzero (count_up m h) /\ forall r, part_of (count_up m h) r = part_of m r + occ r h.
Proof.
  unfold count_up. induction h as [|x h IH]; intros m Z; cbn [fold_left].
  - split; [exact Z|]. intro r. cbn. lia.
  - destruct (IH (nput x (part_of m x + 1) m)) as [Z1 P1].
    { intros r v H. rewrite nget_nput in H. destruct (r =? x); [injection H as <-; lia | exact (Z r v H)]. }
    split; [exact Z1|]. intro r. rewrite P1, occ_cons. unfold part_of at 1. rewrite nget_nput, (N.eqb_sym x r).
    destruct (N.eqb_spec r x) as [->|]; unfold part_of; lia.
Qed.
Lemma count_down_spec h : forall m, nonzero m -> (forall r, occ r h <= part_of m r) ->
  exists m', count_down m h = (m', false) /\ nonzero m' /\ forall r, part_of m' r = part_of m r - occ r h.
Proof.
  induction h as [|x h IH]; intros m Z L; cbn [count_down].
  - exists m. split; [reflexivity|]. split; [exact Z|]. intro r. cbn. lia.
  - pose proof (L x) as LX. rewrite occ_cons, N.eqb_refl in LX. unfold part_of in LX. destruct (nget x m) as [v|] eqn:E; [|lia].
    set (m1 := if v =? 1 then ndel x m else nput x (v - 1) m).
    assert (P1 : forall r, part_of m1 r = part_of m r - (if x =? r then 1 else 0)).
    { intro r. unfold m1, part_of. destruct (N.eqb_spec v 1) as [->|]; rewrite ?nget_ndel, ?nget_nput, (N.eqb_sym x r);
        (destruct (N.eqb_spec r x) as [->|]; [rewrite E; lia | destruct (nget r m); lia]). }
    assert (Z1 : nonzero m1).
    { intros r w H. unfold m1 in H. destruct (N.eqb_spec v 1) as [->|].
      - rewrite nget_ndel in H. destruct (r =? x); [discriminate H | exact (Z r w H)].
      - rewrite nget_nput in H. destruct (r =? x); [injection H as <-; pose proof (Z x v E); lia | exact (Z r w H)]. }
    destruct (IH m1 Z1) as (m' & E' & Z' & P').
    { intro r. pose proof (L r) as LR. rewrite occ_cons in LR. rewrite P1. lia. }
    exists m'. split; [|split; [exact Z'|]].
    + rewrite <- E'. unfold m1. destruct (v =? 1); reflexivity.
    + intro r. rewrite P', P1, occ_cons. lia.
Qed.

Lemma without_in k l x : In x (without k l) <-> In x l /\ fst x <> k.
Proof.
  unfold without. rewrite filter_In, negb_true_iff. split; intros [H N]; (split; [exact H|]).
  - intro E. rewrite E, tkey_eqb_refl in N. discriminate N.
  - destruct (tkey_eqb (fst x) k) eqn:E; [|reflexivity]. apply tkey_eqb_eq in E. congruence.
Qed.
Lemma NoDup_map_filter {A B} (g : A -> B) f (l : list A) : NoDup (map g l) -> NoDup (map g (filter f l)).
Proof.
  induction l as [|x l IH]; cbn; [auto|]. intro H. inversion H as [|? ? N1 N2]; subst.
  destruct (f x); cbn; [constructor|]; auto. intro G. apply N1. apply in_map_iff in G as (y & <- & G).
  apply filter_In in G. apply in_map. tauto.
Qed.
Lemma lookup_in k l h : lookup k l = Some h -> In (k, h) l.
Proof.
  unfold lookup. destruct (find _ l) as [[k' h']|] eqn:E; [|discriminate]. intro H. injection H as <-.
  apply find_some in E as [E1 E2]. cbn in E2. apply tkey_eqb_eq in E2. now subst.
Qed.
Lemma lookup_none k l h : lookup k l = None -> ~ In (k, h) l.
Proof.
  unfold lookup. destruct (find _ l) as [x|] eqn:E; [discriminate|]. intros _ H.
  apply (find_none _ _ E) in H. cbn in H. now rewrite tkey_eqb_refl in H.
Qed.
Lemma total_filter r f l : total r (filter f l) <= total r l.
Proof. induction l as [|x l IH]; cbn; [lia|]. destruct (f x); cbn; lia. Qed.
Lemma without_none k l : (forall h, ~ In (k, h) l) -> without k l = l.
Proof.
  intro H. unfold without. induction l as [|[k' h] l IH]; cbn; [reflexivity|].
  destruct (tkey_eqb k' k) eqn:E; cbn; [apply tkey_eqb_eq in E; subst; destruct (H h); now left|].
  rewrite IH; [reflexivity|]. intros g X. apply (H g). now right.
Qed.
Lemma without_split k h l : NoDup (map fst l) -> In (k, h) l ->
  (forall r, total r l = occ r h + total r (without k l)) /\ length l = S (length (without k l)).
Proof.
  induction l as [|[k' h'] l IH]; intros ND H; [destruct H|]; cbn [map fst] in ND; inversion ND as [|? ? N1 N2]; subst; destruct H as [H|H].
  - injection H as -> ->. assert (W : without k l = l).
    { apply without_none. intros g X. apply N1. apply (in_map fst) in X. exact X. }
    unfold without in *. cbn [filter fst]. rewrite tkey_eqb_refl. cbn [negb]. rewrite W. auto.
  - assert (K : tkey_eqb k' k = false).
    { destruct (tkey_eqb k' k) eqn:E; [|reflexivity]. apply tkey_eqb_eq in E. subst. destruct N1. apply (in_map fst) in H. exact H. }
    destruct (IH N2 H) as [T L]. unfold without in *. cbn [filter fst]. rewrite K. cbn [negb total length snd].
    split; [intro r; rewrite T; lia | lia].
Qed.

Record ainv (bound : N) (s : acct) : Prop := {
  ai_keys : NoDup (map fst (a_tunnels s));
  ai_nz : nonzero (a_part s);
  ai_num : N.of_nat (length (a_tunnels s)) <= a_num s <= bound;
  ai_part : forall r, total r (a_tunnels s) <= part_of (a_part s) r }.

Lemma filter_length_le {A} (f : A -> bool) l : (length (filter f l) <= length l)%nat.
Proof. induction l as [|x l IH]; cbn; [lia|]. destruct (f x); cbn; lia. Qed.

Lemma astep_inv b s o : b + 1 < USIZE -> ainv b s -> exists s', astep s o = (s', false) /\ ainv (b + 1) s'.
Proof.
  intros B [K Z M P]. destruct o as [k h|k|p]; cbn [astep].
  - eexists. split; [reflexivity|]. destruct (count_up_spec h (a_part s) Z) as [Z1 P1].
    pose proof (filter_length_le (fun x => negb (tkey_eqb (fst x) k)) (a_tunnels s)) as L. fold (without k (a_tunnels s)) in L.
    split; cbn [a_num a_part a_tunnels].
    + cbn [map fst]. constructor; [|now apply NoDup_map_filter]. intro H. apply in_map_iff in H as (x & E & H).
      apply without_in in H. tauto.
    + exact Z1.
    + rewrite N.mod_small by lia. cbn [length]. lia.
    + intro r. rewrite P1. cbn [total snd]. pose proof (P r). pose proof (total_filter r (fun x => negb (tkey_eqb (fst x) k)) (a_tunnels s)) as T.
      fold (without k (a_tunnels s)) in T. lia.
  - destruct (lookup k (a_tunnels s)) as [h|] eqn:E.
    + apply lookup_in in E. destruct (without_split k h (a_tunnels s) K E) as [T L].
      destruct (count_down_spec h (a_part s) Z) as (m & E1 & Z1 & P1).
      { intro r. pose proof (P r). rewrite T in H. lia. }
      rewrite E1. assert (NZ : a_num s =? 0 = false) by (apply N.eqb_neq; lia). rewrite NZ. eexists. split; [reflexivity|].
      split; cbn [a_num a_part a_tunnels].
      * now apply NoDup_map_filter.
      * exact Z1.
      * replace (a_num s + USIZE - 1) with ((a_num s - 1) + 1 * USIZE) by lia. rewrite N.mod_add by discriminate. rewrite N.mod_small by lia. lia.
      * intro r. rewrite P1. pose proof (P r). rewrite T in H. lia.
    + eexists. split; [reflexivity|]. split; try assumption. lia.
  - eexists. split; [reflexivity|].
    split; cbn [a_num a_part a_tunnels].
    + now apply NoDup_map_filter.
    + exact Z.
    + match goal with |- N.of_nat (length ?f) <= _ <= _ => assert (length f <= length (a_tunnels s))%nat by apply filter_length_le end. unfold tkey in *. lia.
    + intro r. pose proof (P r). match goal with |- total r ?f <= _ => assert (total r f <= total r (a_tunnels s)) by apply total_filter end. unfold tkey in *. lia.
Qed.
Lemma arun_inv ops : forall b s, ainv b s -> b + N.of_nat (length ops) < USIZE ->
  exists s', arun s ops = (s', false) /\ ainv (b + N.of_nat (length ops)) s'.
Proof.
  induction ops as [|o ops IH]; intros b s I B; cbn [arun length] in *.
  - exists s. split; [reflexivity|]. now rewrite N.add_0_r.
  - destruct (astep_inv b s o ltac:(lia) I) as (s1 & E & I1). rewrite E.
    destruct (IH (b + 1) s1 I1 ltac:(lia)) as (s2 & E2 & I2). rewrite E2. exists s2. split; [reflexivity|].
    now replace (b + N.of_nat (S (length ops))) with (b + 1 + N.of_nat (length ops)) by lia.
Qed.
Lemma ainv_new : ainv 0 acct_new.
Proof. split; cbn; [constructor | intros r v H; discriminate H | lia | intro; cbn; lia]. Qed.

(** The registered tunnels are the ones the history says. *)
Lemma astep_tunnels s o s' w k h : NoDup (map fst (a_tunnels s)) -> astep s o = (s', w) ->
  (In (k, h) (a_tunnels s') <-> registered k (lookup k (a_tunnels s)) [o] = Some h).
Proof.
  intros ND H. assert (L : forall g, In (k, g) (a_tunnels s) <-> lookup k (a_tunnels s) = Some g).
  { intro g. split; [|apply lookup_in]. intro X. destruct (lookup k (a_tunnels s)) as [g'|] eqn:E; [|now apply (lookup_none _ _ g) in E].
    apply lookup_in in E. f_equal.
    clear - ND X E. induction (a_tunnels s) as [|[k0 h0] l IH]; [destruct X|]. cbn [map fst] in ND. inversion ND as [|? ? N1 N2]; subst.
    destruct X as [X|X], E as [E|E]; [congruence | injection X as -> ->; destruct N1; apply (in_map fst) in E; exact E |
      injection E as -> ->; destruct N1; apply (in_map fst) in X; exact X | auto]. }
  destruct o as [k' h'|k'|p]; cbn [astep registered] in *.
  - injection H as <- _. cbn [a_tunnels]. rewrite tkey_eqb_sym. cbn [In]. rewrite without_in. cbn [fst]. destruct (tkey_eqb k k') eqn:E.
    + apply tkey_eqb_eq in E. subst. split; [intros [H|[_ H]]; congruence | intro H; left; congruence].
    + rewrite <- L. assert (k <> k') by (intros ->; now rewrite tkey_eqb_refl in E). split; [intros [H0|H0]; [congruence | tauto] | tauto].
  - assert (X : In (k, h) (without k' (a_tunnels s)) <-> (if tkey_eqb k' k then None else lookup k (a_tunnels s)) = Some h).
    { rewrite without_in. cbn [fst]. rewrite tkey_eqb_sym. destruct (tkey_eqb k k') eqn:E.
      - apply tkey_eqb_eq in E. subst. split; [tauto | discriminate].
      - rewrite <- L. assert (k <> k') by (intros ->; now rewrite tkey_eqb_refl in E). tauto. }
    destruct (lookup k' (a_tunnels s)) as [g|] eqn:E.
    + destruct (count_down (a_part s) g) as [m w0]. injection H as <- _. exact X.
    + injection H as <- _. rewrite <- X. rewrite without_none; [reflexivity|]. intros g. now apply lookup_none.
  - injection H as <- _. cbn [a_tunnels]. rewrite filter_In. cbn [fst]. rewrite L. destruct (fst (fst k) =? p); cbn [negb]; [|tauto]. split; [intros [_ X]; discriminate X | intro X; discriminate X].
Qed.
Lemma lookup_iff l k h : NoDup (map fst l) -> (In (k, h) l <-> lookup k l = Some h).
Proof.
  intros ND. split; [|apply lookup_in]. intro X. destruct (lookup k l) as [g'|] eqn:E; [|now apply (lookup_none _ _ h) in E].
  apply lookup_in in E. f_equal.
  induction l as [|[k0 h0] l IH]; [destruct X|]. cbn [map fst] in ND. inversion ND as [|? ? N1 N2]; subst.
  destruct X as [X|X], E as [E|E]; [congruence | injection X as -> ->; destruct N1; apply (in_map fst) in E; exact E |
    injection E as -> ->; destruct N1; apply (in_map fst) in X; exact X | auto].
Qed.
Lemma registered_app k a : forall c b, registered k c (a ++ b) = registered k (registered k c a) b.
Proof. induction a as [|o a IH]; intros c b; [reflexivity|]. destruct o; cbn [app registered]; apply IH. Qed.
Lemma arun_app a : forall s b, arun s (a ++ b) = (fst (arun (fst (arun s a)) b), snd (arun s a) || snd (arun (fst (arun s a)) b)).
Proof.
  induction a as [|o a IH]; intros s b; cbn [app arun]; [cbn [fst snd orb]; destruct (arun s b); reflexivity|].
  destruct (astep s o) as [s1 w]. rewrite IH. destruct (arun s1 a) as [s2 v]. cbn [fst snd]. now rewrite orb_assoc.
Qed.
Lemma arun_tunnels ops : N.of_nat (length ops) < USIZE ->
  forall k, lookup k (a_tunnels (fst (arun acct_new ops))) = registered k None ops.
Proof.
  induction ops as [|o ops IH] using rev_ind; intros B k; [reflexivity|].
  rewrite app_length in B. cbn [length] in B.
  specialize (IH ltac:(lia)). rewrite arun_app, registered_app. cbn [fst]. rewrite <- (IH k).
  destruct (arun_inv ops 0 acct_new ainv_new ltac:(lia)) as (s & E & I). rewrite E. cbn [fst].
  cbn [arun]. destruct (astep_inv (0 + N.of_nat (length ops)) s o ltac:(lia) I) as (s1 & E1 & I1). rewrite E1. cbn [fst].
  pose proof (fun h => astep_tunnels s o s1 false k h (ai_keys _ _ I) E1) as X.
  pose proof (fun h => lookup_iff (a_tunnels s1) k h (ai_keys _ _ I1)) as Y.
  destruct (lookup k (a_tunnels s1)) as [h|].
  - symmetry. apply X, Y. reflexivity.
  - destruct (registered k (lookup k (a_tunnels s)) [o]) as [h|]; [|reflexivity]. apply (proj1 (Y h)), X. reflexivity.
Qed.

(** Exact counts of orderly histories. *)
Lemma occ_set r h : NoDup h -> occ r h = if existsb (N.eqb r) h then 1 else 0.
Proof.
  intro ND. unfold occ. destruct (existsb (N.eqb r) h) eqn:E.
  - apply existsb_exists in E as (x & X & E). apply N.eqb_eq in E. subst x.
    apply (proj1 (NoDup_count_occ' N.eq_dec h) ND) in X. now rewrite X.
  - assert (~ In r h). { intro X. assert (existsb (N.eqb r) h = true) by (apply existsb_exists; exists r; now rewrite N.eqb_refl). congruence. }
    now rewrite (proj1 (count_occ_not_In N.eq_dec h r) H).
Qed.
Lemma total_sets r l : (forall k h, In (k, h) l -> NoDup h) -> total r l = N.of_nat (tunnels_of r l).
Proof.
  unfold tunnels_of. induction l as [|[k h] l IH]; intro S; [reflexivity|]. cbn [total snd filter].
  rewrite (occ_set r h (S k h (or_introl eq_refl))), (IH (fun k h X => S k h (or_intror X))).
  destruct (existsb (N.eqb r) h); cbn [length]; lia.
Qed.
Lemma filter_all {A} (f : A -> bool) l : (forall x, In x l -> f x = true) -> filter f l = l.
Proof. induction l as [|x l IH]; intro H; cbn; [reflexivity|]. rewrite (H x (or_introl eq_refl)), IH; [reflexivity|]. intros y Y. apply H. now right. Qed.
Lemma arun_exact ops : N.of_nat (length ops) < USIZE -> orderly ops ->
  a_num (fst (arun acct_new ops)) = N.of_nat (length (a_tunnels (fst (arun acct_new ops)))) /\
  forall r, part_of (a_part (fst (arun acct_new ops))) r = total r (a_tunnels (fst (arun acct_new ops))).
Proof.
  induction ops as [|o ops IH] using rev_ind; intros B O; [cbn; auto|].
  rewrite app_length in B. cbn [length] in B.
  assert (O' : orderly ops) by (intros b x a E; apply (O b x (a ++ [o])); now rewrite E, <- app_assoc).
  destruct (IH ltac:(lia) O') as [N1 P1]. pose proof (arun_tunnels ops ltac:(lia)) as T.
  specialize (O ops o [] eq_refl).
  rewrite arun_app. cbn [fst]. destruct (arun_inv ops 0 acct_new ainv_new ltac:(lia)) as (s & E & I). rewrite E in *. cbn [fst] in *.
  destruct I as [K Z M P]. cbn [arun]. destruct o as [k h|k|p]; cbn [astep].
  - assert (W : without k (a_tunnels s) = a_tunnels s).
    { apply without_none. intro g. apply lookup_none. now rewrite T. }
    rewrite W. cbn [fst a_num a_tunnels a_part length total snd]. destruct (count_up_spec h (a_part s) Z) as [Z1 P2].
    rewrite N.mod_small by lia. split; [lia|]. intro r. rewrite P2, P1. lia.
  - destruct (lookup k (a_tunnels s)) as [h|] eqn:EL; [|cbn [fst]; auto].
    apply lookup_in in EL. destruct (without_split k h (a_tunnels s) K EL) as [T1 L1].
    destruct (count_down_spec h (a_part s) Z) as (m & E1 & Z1 & P2).
    { intro r. pose proof (P r). rewrite T1 in H. lia. }
    rewrite E1. cbn [fst a_num a_tunnels a_part].
    replace (a_num s + USIZE - 1) with ((a_num s - 1) + 1 * USIZE) by lia. rewrite N.mod_add by discriminate. rewrite N.mod_small by lia.
    split; [lia|]. intro r. rewrite P2, P1, T1. lia.
  - assert (W : filter (fun x => negb (fst (fst (fst x)) =? p)) (a_tunnels s) = a_tunnels s).
    { apply filter_all. intros [k h] X. cbn [fst]. destruct (N.eqb_spec (fst (fst k)) p) as [EP|]; [|reflexivity].
      apply (lookup_iff _ _ _ K) in X. rewrite T, (O k EP) in X. discriminate X. }
    rewrite W. cbn [fst a_num a_tunnels a_part]. auto.
Qed.

(** ** Shuffling *)
Lemma map_nth_seq (l : list N) : map (fun k => nth k l 0) (seq 0 (length l)) = l.
Proof.
  induction l as [|x l IH]; [reflexivity|]. cbn [length seq map nth]. f_equal. rewrite <- seq_shift, map_map. exact IH.
Qed.
Lemma swap_perm i j l : (i < length l)%nat -> (j < length l)%nat -> Permutation (swap_at i j l) l.
Proof.
  intros HI HJ. unfold swap_at. set (sw := fun k => if Nat.eqb k i then j else if Nat.eqb k j then i else k).
  rewrite <- (map_map sw (fun k => nth k l 0)).
  transitivity (map (fun k => nth k l 0) (seq 0 (length l))); [|now rewrite map_nth_seq].
  apply Permutation_map. apply NoDup_Permutation_bis.
  - apply FinFun.Injective_map_NoDup; [|apply seq_NoDup]. intros a b. unfold sw.
    destruct (Nat.eqb_spec a i), (Nat.eqb_spec b i), (Nat.eqb_spec a j), (Nat.eqb_spec b j); intros; subst; congruence || lia.
  - now rewrite map_length, !seq_length.
  - intros x X. apply in_map_iff in X as (y & <- & Y). apply in_seq in Y. apply in_seq. unfold sw.
    destruct (Nat.eqb y i); [lia|]. destruct (Nat.eqb y j); lia.
Qed.
Lemma swap_length i j l : length (swap_at i j l) = length l.
Proof. unfold swap_at. now rewrite map_length, seq_length. Qed.
Lemma shuffle_perm d l : Permutation (shuffle d l) l.
Proof.
  unfold shuffle. assert (G : forall i l, (i < length l)%nat \/ i = O -> Permutation (shuffle_from d i l) l).
  { clear. induction i as [|i IH]; intros l H; cbn [shuffle_from]; [reflexivity|]. destruct H as [H|H]; [|discriminate H].
    set (j := N.to_nat (d (S i) mod N.of_nat (S i + 1))).
    assert (J : (j < length l)%nat). { unfold j. pose proof (N.mod_lt (d (S i)) (N.of_nat (S i + 1)) ltac:(lia)). lia. }
    rewrite IH; [now apply swap_perm|]. rewrite swap_length. left. lia. }
  apply G. destruct l; cbn; [auto | left; lia].
Qed.

(** ** Groups *)
Definition well_grouped (s : store) (ids : list N) (g : nmap (list N)) : Prop :=
  sorted (nkeys g) /\ forall net l, nget net g = Some l -> l <> [] /\ forall r, In r l -> In r ids /\ lives_in s r net.
Lemma v4_lives s r i a : nget r (s_infos s) = Some i -> In a (v4_addresses i) -> lives_in s r (subnet a).
Proof.
  intros E H. unfold v4_addresses in H. apply nodup_In, in_app_iff in H. exists i, a. split; [exact E|]. split; [|reflexivity].
  unfold v4_of in H. destruct H as [H|H].
  - left. destruct (f_ntcp2 i) as [[b|]|]; [destruct H as [->|[]]; reflexivity | destruct H | destruct H].
  - right. destruct (f_ssu2 i) as [[b|]|]; [destruct H as [->|[]]; reflexivity | destruct H | destruct H].
Qed.
Lemma lives_v4 s r net : lives_in s r net -> exists i a, nget r (s_infos s) = Some i /\ In a (v4_addresses i) /\ subnet a = net.
Proof.
  intros (i & a & E & H & S). exists i, a. split; [exact E|]. split; [|exact S]. unfold v4_addresses. apply nodup_In, in_app_iff.
  destruct H as [->| ->]; [left | right]; now left.
Qed.
Lemma group_spec s ids : well_grouped s ids (group_by_subnet s ids) /\
  forall r net, In r ids -> lives_in s r net -> nhas net (group_by_subnet s ids) = true.
Proof.
  unfold group_by_subnet.
  assert (A : forall r i all, nget r (s_infos s) = Some i -> In r all -> forall l g, (forall a, In a l -> In a (v4_addresses i)) -> well_grouped s all g ->
     well_grouped s all (fold_left (group_add r) l g) /\
     (forall net, nhas net g = true -> nhas net (fold_left (group_add r) l g) = true) /\
     (forall a, In a l -> nhas (subnet a) (fold_left (group_add r) l g) = true)).
  { intros r i all E R. induction l as [|a l IH]; intros g L W; cbn [fold_left]; [split; [exact W|]; split; [auto | intros a []]|].
    assert (W1 : well_grouped s all (group_add r g a)).
    { destruct W as [S W]. split; [now apply nput_Sorted|]. intros net m H. unfold group_add in H. rewrite nget_nput in H.
      destruct (N.eqb_spec net (subnet a)) as [->|]; [|exact (W net m H)]. injection H as <-.
      assert (V : lives_in s r (subnet a)) by (eapply v4_lives; [exact E | apply L; now left]).
      destruct (nget (subnet a) g) as [m0|] eqn:G.
      - destruct (W _ _ G) as [_ W0]. split; [now destruct m0|]. intros x X. apply in_app_iff in X as [X|[<-|[]]]; [now apply W0 | auto].
      - split; [discriminate|]. intros x [<-|[]]. auto. }
    destruct (IH (group_add r g a) (fun b B => L b (or_intror B)) W1) as (I1 & I2 & I3).
    split; [exact I1|]. split.
    - intros net H. apply I2. unfold group_add. rewrite nhas_put, H. apply orb_true_r.
    - intros b [<-|B]; [|now apply I3]. apply I2. unfold group_add. rewrite nhas_put, N.eqb_refl. reflexivity. }
  assert (G : forall todo g, (forall r, In r todo -> In r ids) -> well_grouped s ids g ->
    let g' := fold_left (fun g r => match nget r (s_infos s) with Some i => fold_left (group_add r) (v4_addresses i) g | None => g end) todo g in
    well_grouped s ids g' /\ (forall net, nhas net g = true -> nhas net g' = true) /\
    forall r net, In r todo -> lives_in s r net -> nhas net g' = true).
  { induction todo as [|r todo IH]; intros g T W; cbn [fold_left]; [split; [exact W|]; split; [auto | intros r net []]|].
    destruct (nget r (s_infos s)) as [i|] eqn:E.
    - destruct (A r i ids E (T r (or_introl eq_refl)) (v4_addresses i) g (fun a H => H) W) as (W1 & M1 & C1).
      destruct (IH _ (fun x X => T x (or_intror X)) W1) as (W2 & M2 & C2). split; [exact W2|]. split; [auto|].
      intros x net [<-|X] V; [|now apply C2 with x]. apply lives_v4 in V as (j & a & EJ & AJ & <-). apply M2, C1. congruence.
    - destruct (IH g (fun x X => T x (or_intror X)) W) as (W2 & M2 & C2). split; [exact W2|]. split; [auto|].
      intros x net [<-|X] V; [|now apply C2 with x]. destruct V as (j & a & EJ & _). congruence. }
  destruct (G ids [] (fun r H => H)) as (W & _ & C).
  - split; [constructor | intros net l H; discriminate H].
  - split; [exact W | exact C].
Qed.
Lemma outside_nget a g net : nget net (outside a g) = if nhas net a then None else nget net g.
Proof.
  unfold outside. induction g as [|[k v] g IH]; cbn [filter nget fst]; [now destruct (nhas net a)|].
  destruct (nhas k a) eqn:E; cbn [negb nget]; rewrite ?IH; destruct (N.eqb_spec net k) as [->|]; rewrite ?E; reflexivity.
Qed.
Lemma outside_keys a g : nkeys (outside a g) = filter (fun k => negb (nhas k a)) (nkeys g).
Proof. unfold outside, nkeys. induction g as [|[k v] g IH]; cbn; [reflexivity|]. destruct (nhas k a); cbn; now rewrite IH. Qed.
Lemma sorted_filter f l : sorted l -> sorted (filter f l).
Proof.
  unfold sorted. induction l as [|x l IH]; intro H; cbn; [constructor|]. inversion H as [|? ? S F]; subst.
  destruct (f x); [|auto]. constructor; [auto|]. rewrite Forall_forall in *. intros y Y. apply filter_In in Y. now apply F.
Qed.
Lemma outside_grouped s ids a g : well_grouped s ids g -> well_grouped s ids (outside a g).
Proof.
  intros [S W]. split; [rewrite outside_keys; now apply sorted_filter|]. intros net l H. rewrite outside_nget in H.
  destruct (nhas net a); [discriminate H | now apply W].
Qed.
Lemma outside_has a g net : nhas net (outside a g) = nhas net g && negb (nhas net a).
Proof. unfold nhas. rewrite outside_nget. unfold nhas. destruct (nget net a), (nget net g); reflexivity. Qed.

(** One router of every group. *)
Definition choices (f : N * list N -> N) (g : nmap (list N)) : list (N * N) := map (fun x => (fst x, f x)) g.
Lemma choices_ok s ids g f : well_grouped s ids g -> (forall x, snd x <> [] -> In (f x) (snd x)) ->
  map fst (choices f g) = nkeys g /\ (forall net r, In (net, r) (choices f g) -> In r ids /\ lives_in s r net).
Proof.
  intros [S W] F. unfold choices. split; [now rewrite map_map|]. intros net r H. apply in_map_iff in H as ([k l] & E & X).
  injection E as <- <-. apply (In_nget_nodup _ _ _ _ (sorted_NoDup _ S)) in X. destruct (W _ _ X) as [NE V]. apply V. now apply F.
Qed.
Lemma pick_in k x : snd x <> [] -> In (nth (N.to_nat (k_pick k (fst x) mod N.of_nat (length (snd x)))) (snd x) 0) (snd x).
Proof.
  intro H. apply nth_In. assert (N.of_nat (length (snd x)) <> 0) by (destruct (snd x); [congruence | cbn; lia]).
  pose proof (N.mod_lt (k_pick k (fst x)) _ H0). lia.
Qed.
Lemma last_in (x : N * list N) : snd x <> [] -> In (last (snd x) 0) (snd x).
Proof. intro H. destruct (exists_last H) as (l & a & E). rewrite E, last_last. apply in_or_app. right. now left. Qed.
