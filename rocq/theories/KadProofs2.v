(** Proofs about the search for the routers closest to a target. *)
From Coq Require Import List NArith ZArith Bool Arith Lia ZifyBool ZifyNat ZifyN Sorting.Sorted Permutation.
From Verif Require Import ListUtil Bytes NMap KadModel KadSpec KadProofs.
Import ListNotations.
Open Scope N_scope.

(** ** The order of the buckets *)
Definition bit (d : N) (i : nat) : bool := N.testbit d (N.of_nat i).

Fixpoint zin (d : N) (i : nat) : list nat :=
  match i with O => [] | S j => if bit d j then j :: zin d j else zin d j end.
Definition zout (d : N) (i : nat) : list nat :=
  filter (fun j => negb (bit d j)) (seq (i + 1) (num_buckets - (i + 1))).

Lemma find_filter_seq : forall f n a,
  match find f (seq a n) with
  | Some j => filter f (seq a n) = j :: filter f (seq (j + 1) (a + n - (j + 1))) /\ (a <= j < a + n)%nat
  | None => filter f (seq a n) = []
  end.
Proof.
  induction n as [|n IH]; intro a; [reflexivity|]. cbn [seq find filter].
  destruct (f a) eqn:E.
  - replace (a + 1)%nat with (S a) by lia. replace (a + S n - S a)%nat with n by lia. split; [reflexivity|lia].
  - specialize (IH (S a)). destruct (find f (seq (S a) n)) as [j|]; [|assumption].
    destruct IH as [-> L]. split; [|lia]. do 3 f_equal. lia.
Qed.

Lemma run_out : forall d fuel i, (i < num_buckets)%nat -> (num_buckets - i < fuel)%nat ->
  iter_run fuel d (IZoomOut i) = Some (zout d i).
Proof.
  induction fuel as [|f IH]; intros i Hi Hf; [lia|]. cbn [iter_run iter_next].
  unfold next_out, zout. pose proof (find_filter_seq (fun j => negb (bit d j)) (num_buckets - (i + 1)) (i + 1)) as H.
  change (fun j : nat => negb (N.testbit d (N.of_nat j))) with (fun j => negb (bit d j)).
  destruct (find _ _) as [j|].
  - destruct H as [E L]. rewrite IH by lia. rewrite E. f_equal. f_equal. unfold zout. f_equal. f_equal. lia.
  - now rewrite H.
Qed.

Lemma next_in_zin : forall d i,
  match next_in d i with
  | Some j => zin d i = j :: zin d j /\ (j < i)%nat /\ bit d j = true
  | None => zin d i = []
  end.
Proof.
  induction i as [|i IH]; [reflexivity|]. cbn [next_in zin]. fold (bit d i).
  destruct (bit d i) eqn:E; [split; [reflexivity|split; [lia|exact E]]|].
  destruct (next_in d i) as [j|]; [|assumption]. destruct IH as [-> [L B]]. split; [reflexivity|split; [lia|exact B]].
Qed.

Lemma run_in : forall d fuel i, (i + num_buckets + 1 < fuel)%nat ->
  iter_run fuel d (IZoomIn i) = Some (zin d i ++ 0%nat :: zout d 0).
Proof.
  induction fuel as [|f IH]; intros i Hf; [lia|]. cbn [iter_run iter_next].
  pose proof (next_in_zin d i) as H. destruct (next_in d i) as [j|].
  - destruct H as [-> [L _]]. rewrite IH by lia. reflexivity.
  - rewrite H. rewrite run_out by (unfold num_buckets in *; lia). reflexivity.
Qed.

Definition start (d : N) : nat := match ilog2 d with Some i => i | None => 0%nat end.

Lemma order_eq : forall d, d < 2 ^ 256 ->
  bucket_order d = Some (start d :: zin d (start d) ++ 0%nat :: zout d 0).
Proof.
  intros d Hd. unfold bucket_order, iter_new, start.
  assert (forall i, (i < num_buckets)%nat ->
    iter_run 520 d (IStart i) = Some (i :: zin d i ++ 0%nat :: zout d 0)) as H.
  { intros i Hi. change (iter_run 520 d (IStart i)) with
      (match iter_run 519 d (IZoomIn i) with Some r => Some (i :: r) | None => None end).
    rewrite run_in by (unfold num_buckets in *; lia). reflexivity. }
  destruct (ilog2 d) as [i|] eqn:E; apply H; [now apply (ilog2_small d)|unfold num_buckets; lia].
Qed.

(** [earlier d i j]: everything in bucket [i] is closer to the target than anything in
    bucket [j]. *)
Definition earlier (d : N) (i j : nat) : Prop :=
  ((j < i)%nat /\ bit d i = true) \/ ((i < j)%nat /\ bit d j = false).

Lemma zin_In : forall d i j, In j (zin d i) <-> (j < i)%nat /\ bit d j = true.
Proof.
  induction i as [|i IH]; intro j; [cbn; lia|]. cbn [zin].
  destruct (bit d i) eqn:E; [cbn [In]|]; rewrite IH; split.
  - intros [<-|[L B]]; split; [lia|assumption|lia|assumption].
  - intros [L B]. destruct (Nat.eq_dec i j) as [->|]; [now left|right; split; [lia|assumption]].
  - intros [L B]. split; [lia|assumption].
  - intros [L B]. destruct (Nat.eq_dec i j) as [->|]; [congruence|split; [lia|assumption]].
Qed.

Lemma zout_In : forall d j, In j (zout d 0) <-> (1 <= j < num_buckets)%nat /\ bit d j = false.
Proof.
  intros d j. unfold zout. rewrite filter_In, in_seq, negb_true_iff. unfold num_buckets. intuition lia.
Qed.

Lemma zin_sorted : forall d i, StronglySorted (earlier d) (zin d i).
Proof.
  induction i as [|i IH]; [constructor|]. cbn. destruct (bit d i) eqn:E; [|assumption].
  constructor; [assumption|]. apply Forall_forall. intros j Hj. apply zin_In in Hj as [L B]. left. now split.
Qed.

Lemma zout_sorted_gen : forall d n a,
  StronglySorted (earlier d) (filter (fun j => negb (bit d j)) (seq a n)).
Proof.
  induction n as [|n IH]; intro a; [constructor|]. cbn. destruct (negb (bit d a)); [|apply IH].
  constructor; [apply IH|]. apply Forall_forall. intros j Hj. apply filter_In in Hj as [H B].
  apply in_seq in H. apply negb_true_iff in B. right. split; [lia|assumption].
Qed.

Lemma zout_sorted : forall d, StronglySorted (earlier d) (zout d 0).
Proof. intro d. unfold zout. apply zout_sorted_gen. Qed.

Lemma sorted_app : forall A (R : A -> A -> Prop) l1 l2,
  StronglySorted R l1 -> StronglySorted R l2 -> (forall x y, In x l1 -> In y l2 -> R x y) ->
  StronglySorted R (l1 ++ l2).
Proof.
  induction l1 as [|x l1 IH]; intros l2 H1 H2 H; [assumption|]. cbn. apply StronglySorted_inv in H1 as [H1 F].
  constructor.
  - apply IH; [assumption..|]. intros; apply H; [now right|assumption].
  - apply Forall_app. split; [assumption|]. apply Forall_forall. intros y Hy. apply H; [now left|assumption].
Qed.

(** Does the iterator yield bucket zero twice? *)
Definition twice (d : N) : bool := (d =? 0) || N.testbit d 0.

(** The buckets, each once. *)
Definition zeros (d : N) : list nat := start d :: zin d (start d).
Definition order1 (d : N) : list nat :=
  if twice d then zeros d ++ zout d 0 else zeros d ++ 0%nat :: zout d 0.

Lemma start_bit : forall d, d <> 0 -> bit d (start d) = true.
Proof.
  intros d Hd. unfold start, ilog2, bit. destruct (N.eqb_spec d 0); [congruence|].
  rewrite N2Nat.id. now apply N.bit_log2.
Qed.

Lemma bit_start : forall d i, bit d i = true -> (i <= start d)%nat.
Proof.
  intros d i H. unfold start, ilog2. destruct (N.eqb_spec d 0) as [->|]; [unfold bit in H; rewrite N.bits_0 in H; discriminate|].
  destruct (Nat.le_gt_cases i (N.to_nat (N.log2 d))) as [|G]; [assumption|].
  unfold bit in H. rewrite N.bits_above_log2 in H by lia. discriminate.
Qed.

Lemma zeros_In : forall d i, In i (zeros d) <-> (d = 0 /\ i = 0%nat) \/ bit d i = true.
Proof.
  intros d i. unfold zeros. cbn [In]. rewrite zin_In.
  destruct (N.eq_dec d 0) as [->|Nz].
  - unfold bit. rewrite N.bits_0. unfold start. cbn. intuition (lia || discriminate).
  - pose proof (start_bit d Nz). split.
    + intros [<-|[_ B]]; tauto.
    + intros [[? _]|B]; [contradiction|]. pose proof (bit_start d i B).
      destruct (Nat.eq_dec (start d) i); [now left|right; split; [lia|assumption]].
Qed.

Lemma zeros_sorted : forall d, StronglySorted (earlier d) (zeros d).
Proof.
  intro d. unfold zeros. destruct (N.eq_dec d 0) as [->|Nz]; [cbn; repeat constructor|].
  constructor; [apply zin_sorted|]. apply Forall_forall. intros j Hj. apply zin_In in Hj as [L _].
  left. split; [assumption|]. now apply start_bit.
Qed.

Lemma zeros_zout : forall d i j, In i (zeros d) -> In j (zout d 0) -> earlier d i j.
Proof.
  intros d i j Hi Hj. apply zout_In in Hj as [L B]. apply zeros_In in Hi as [[-> ->]|Hi].
  - right. split; [lia|assumption].
  - destruct (Nat.lt_trichotomy i j) as [H|[->|H]]; [right; tauto|congruence|left; tauto].
Qed.

Lemma twice_zero : forall d, twice d = true -> In 0%nat (zeros d).
Proof.
  intros d H. apply zeros_In. unfold twice in H. apply orb_true_iff in H as [H|H]; [left|now right].
  apply N.eqb_eq in H. now split.
Qed.

Lemma twice_false_zeros : forall d i, twice d = false -> In i (zeros d) -> earlier d i 0.
Proof.
  intros d i E Hi. unfold twice in E. apply orb_false_iff in E as [Nz B]. apply N.eqb_neq in Nz.
  apply zeros_In in Hi as [[? _]|Hi]; [contradiction|]. left. split; [|assumption].
  destruct i as [|i]; [|apply Nat.lt_0_succ]. unfold bit in Hi. change (N.of_nat 0) with 0 in Hi. congruence.
Qed.

Lemma zero_zout : forall d j, In j (zout d 0) -> earlier d 0 j.
Proof. intros d j Hj. apply zout_In in Hj as [[L _] B]. right. split; assumption. Qed.

Lemma order1_sorted : forall d, StronglySorted (earlier d) (order1 d).
Proof.
  intro d. unfold order1. pose proof (zeros_sorted d) as H. pose proof (zout_sorted d) as Z.
  pose proof (zeros_zout d) as ZZ. pose proof (twice_false_zeros d) as TZ. pose proof (zero_zout d) as OZ.
  revert H Z ZZ TZ OZ. generalize (zeros d) (zout d 0). intros l1 l2 H Z ZZ TZ OZ.
  destruct (twice d).
  - apply sorted_app; assumption || (intros; now apply ZZ).
  - apply sorted_app; [assumption| |].
    + constructor; [exact Z|]. apply Forall_forall. exact OZ.
    + intros i j Hi [<-|Hj]; [now apply TZ|now apply ZZ].
Qed.

Lemma in_cons_iff : forall A (a x : A) l, In x (a :: l) <-> a = x \/ In x l.
Proof. intros. cbn. reflexivity. Qed.

Lemma order1_In : forall d i, d < 2 ^ 256 -> (In i (order1 d) <-> (i < num_buckets)%nat).
Proof.
  intros d i Hd.
  assert (B : forall j, bit d j = true -> (j < num_buckets)%nat).
  { intros j Hj. apply bit_start in Hj. unfold start in Hj. destruct (ilog2 d) as [k|] eqn:E.
    - apply ilog2_small in E; [lia|assumption].
    - unfold num_buckets. lia. }
  assert (Z : In i (zeros d) -> (i < num_buckets)%nat).
  { intro H. apply zeros_In in H as [[_ ->]|H]; [unfold num_buckets; lia|auto]. }
  unfold order1. destruct (twice d) eqn:E.
  - rewrite in_app_iff, zout_In. split; [intros [H|[[_ H] _]]; auto|].
    intro L. destruct (bit d i) eqn:Ei; [left; apply zeros_In; now right|].
    destruct (Nat.eq_dec i 0) as [->|]; [left; now apply twice_zero|]. right. split; [lia|reflexivity].
  - rewrite in_app_iff, in_cons_iff, zout_In. split.
    + intros [H|[<-|[[_ H] _]]]; auto. unfold num_buckets. lia.
    + intro L. destruct (bit d i) eqn:Ei; [left; apply zeros_In; now right|].
      right. destruct (Nat.eq_dec i 0) as [->|]; [now left|]. right. split; [lia|reflexivity].
Qed.

Lemma zeros_last : forall d, twice d = true -> exists l, zeros d = l ++ [0%nat].
Proof.
  intros d H. pose proof (twice_zero d H) as Hi. pose proof (zeros_sorted d) as Z.
  apply in_split in Hi as [l [r E]]. exists l. rewrite E in *. f_equal. f_equal.
  destruct r as [|j r]; [reflexivity|]. exfalso.
  assert (In j (zeros d)) as Hj by (rewrite E; apply in_or_app; cbn; tauto).
  assert (earlier d 0 j) as Ea.
  { clear - Z. induction l as [|x l IH]; cbn in Z; apply StronglySorted_inv in Z as [Z F]; [|auto].
    apply Forall_cons_iff in F as [F _]. exact F. }
  apply zeros_In in Hj as [[-> ->]|Hj]; destruct Ea as [[? _]|[? B]]; lia || congruence.
Qed.

(** ** Distances *)
Lemma earlier_closer : forall local target i j a b,
  earlier (kdist local target) i j ->
  ilog2 (kdist local a) = Some i -> ilog2 (kdist local b) = Some j ->
  kdist target a < kdist target b.
Proof.
  intros local target i j a b E Ha Hb. apply log2_belongs in Ha, Hb.
  destruct Ha as [A1 A2], Hb as [B1 B2]. unfold earlier, bit, kdist in *. rewrite !N.lxor_spec in E.
  destruct E as [[L T]|[L T]].
  - apply (lt_by_bit (N.of_nat i)).
    + intros k Hk. rewrite !N.lxor_spec. f_equal.
      rewrite <- (N2Nat.id k), <- A2, <- B2 by lia. reflexivity.
    + rewrite N.lxor_spec. destruct (N.testbit local (N.of_nat i)), (N.testbit target (N.of_nat i)), (N.testbit a (N.of_nat i)); cbn in *; congruence.
    + rewrite N.lxor_spec. rewrite <- (B2 i L).
      destruct (N.testbit local (N.of_nat i)), (N.testbit target (N.of_nat i)); cbn in *; congruence.
  - apply (lt_by_bit (N.of_nat j)).
    + intros k Hk. rewrite !N.lxor_spec. f_equal.
      rewrite <- (N2Nat.id k), <- A2, <- B2 by lia. reflexivity.
    + rewrite N.lxor_spec. rewrite <- (A2 j L).
      destruct (N.testbit local (N.of_nat j)), (N.testbit target (N.of_nat j)); cbn in *; congruence.
    + rewrite N.lxor_spec. destruct (N.testbit local (N.of_nat j)), (N.testbit target (N.of_nat j)), (N.testbit b (N.of_nat j)); cbn in *; congruence.
Qed.

Lemma kdist_inj : forall t a b, kdist t a = kdist t b -> a = b.
Proof.
  intros t a b H. unfold kdist in H. apply (f_equal (N.lxor t)) in H.
  rewrite <- !N.lxor_assoc, N.lxor_nilpotent, !N.lxor_0_l in H. exact H.
Qed.

(** ** Sorting *)
Lemma ins_by_perm : forall A (f : A -> N) x l, Permutation (x :: l) (ins_by f x l).
Proof.
  induction l as [|y l IH]; [reflexivity|]. cbn. destruct (f x <=? f y); [reflexivity|].
  rewrite perm_swap. now rewrite IH.
Qed.
Lemma sort_by_perm : forall A (f : A -> N) l, Permutation l (sort_by f l).
Proof. induction l as [|x l IH]; [reflexivity|]. cbn. rewrite <- ins_by_perm. now rewrite <- IH. Qed.

Lemma ins_by_sorted : forall A (f : A -> N) x l,
  StronglySorted (fun a b => f a <= f b) l -> StronglySorted (fun a b => f a <= f b) (ins_by f x l).
Proof.
  induction l as [|y l IH]; intro H; [repeat constructor|]. cbn. apply StronglySorted_inv in H as [H F].
  destruct (N.leb_spec (f x) (f y)).
  - constructor; [now constructor|]. constructor; [assumption|].
    apply Forall_forall. intros z Hz. rewrite Forall_forall in F. specialize (F z Hz). lia.
  - constructor; [auto|]. apply Forall_forall. intros z Hz.
    apply (Permutation_in z (Permutation_sym (ins_by_perm _ f x l))) in Hz as [<-|Hz]; [lia|].
    rewrite Forall_forall in F. auto.
Qed.
Lemma sort_by_sorted : forall A (f : A -> N) l, StronglySorted (fun a b => f a <= f b) (sort_by f l).
Proof. induction l as [|x l IH]; [constructor|]. cbn. now apply ins_by_sorted. Qed.

Lemma sorted_impl : forall A (R S : A -> A -> Prop) l,
  (forall x y, R x y -> S x y) -> StronglySorted R l -> StronglySorted S l.
Proof. intros A R S0 l H. induction 1 as [|x l Hs IH F]; constructor; [assumption|]. eapply Forall_impl; [|exact F]. intros; auto. Qed.

Lemma closest_iter_perm : forall target b, Permutation (map fst b) (closest_iter target b).
Proof. intros. unfold closest_iter. apply Permutation_map, sort_by_perm. Qed.

Lemma sorted_strict : forall target l,
  NoDup l -> StronglySorted (fun a b => kdist target a <= kdist target b) l -> closest_first target l.
Proof.
  unfold closest_first. induction l as [|x l IH]; intros ND H; [constructor|]. apply NoDup_cons_iff in ND as [Nx ND].
  apply StronglySorted_inv in H as [H F]. constructor; [auto|]. rewrite Forall_forall in *. intros y Hy.
  specialize (F y Hy). destruct (N.eq_dec (kdist target x) (kdist target y)) as [E|E].
  - apply kdist_inj in E. now subst.
  - unfold kdist in *. lia.
Qed.

Lemma map_sorted : forall A B (g : A -> B) (R : B -> B -> Prop) l,
  StronglySorted (fun a b => R (g a) (g b)) l -> StronglySorted R (map g l).
Proof.
  induction l as [|x l IH]; intro H; [constructor|]. apply StronglySorted_inv in H as [H F]. cbn. constructor; [auto|].
  apply Forall_map. exact F.
Qed.

Lemma closest_iter_first : forall target b, NoDup (map fst b) -> closest_first target (closest_iter target b).
Proof.
  intros target b H. apply sorted_strict.
  - now apply (Permutation_NoDup (closest_iter_perm target b)).
  - unfold closest_iter. apply map_sorted. apply sort_by_sorted.
Qed.

(** ** All routers, in order *)
Definition visit (t : table) (target : N) (is : list nat) : list N :=
  flat_map (fun i => closest_iter target (t_bucket t i)) is.

Lemma visit_sorted : forall t target is, table_ok t ->
  StronglySorted (earlier (kdist (t_local t) target)) is -> closest_first target (visit t target is).
Proof.
  intros t target is [Hl Hb]. induction is as [|i is IH]; intro H; [constructor|].
  apply StronglySorted_inv in H as [H F]. cbn. apply sorted_app.
  - apply closest_iter_first, Hb.
  - apply IH; assumption.
  - intros a b Ha Hb'. apply in_flat_map in Hb' as [j [Hj Hb']].
    apply (Permutation_in a (Permutation_sym (closest_iter_perm target _))) in Ha.
    apply (Permutation_in b (Permutation_sym (closest_iter_perm target _))) in Hb'.
    rewrite Forall_forall in F. specialize (F j Hj).
    destruct (Hb i) as [_ [_ Ai]], (Hb j) as [_ [_ Aj]].
    apply (earlier_closer (t_local t) target i j); [assumption|apply Ai|apply Aj]; assumption.
Qed.

Lemma closest_first_NoDup : forall target l, closest_first target l -> NoDup l.
Proof.
  induction l as [|x l IH]; intro H; [constructor|]. apply StronglySorted_inv in H as [H F].
  constructor; [|auto]. intro X. rewrite Forall_forall in F. specialize (F x X). cbn in F. lia.
Qed.

Lemma visit_known : forall t target, table_ok t -> router_id target ->
  Permutation (visit t target (order1 (kdist (t_local t) target))) (known t).
Proof.
  intros t target Ht Hta. pose proof Ht as [Hl Hb].
  apply NoDup_Permutation.
  - apply (closest_first_NoDup target), visit_sorted; [assumption|]. apply order1_sorted.
  - now apply known_NoDup.
  - intro k. rewrite known_In by assumption. unfold visit. rewrite in_flat_map. split.
    + intros [i [_ H]]. exists i. now apply (Permutation_in k (Permutation_sym (closest_iter_perm target _))).
    + intros [i H]. exists i. split; [|now apply (Permutation_in k (closest_iter_perm target _))].
      apply order1_In; [now apply lxor_small|].
      destruct (Hb i) as [_ [_ A]]. destruct (A k H) as [Hk E].
      apply (ilog2_small _ _ (lxor_small 256 _ _ Hl Hk) E).
Qed.

Lemma ilog2_0 : forall d, ilog2 d = Some 0%nat -> d = 1.
Proof.
  intros d H. unfold ilog2 in H. destruct (N.eqb_spec d 0); [discriminate|].
  assert (L : N.log2 d = 0). { assert (N.to_nat (N.log2 d) = 0%nat) by congruence. lia. }
  apply N.log2_null in L. lia.
Qed.

Lemma bucket0 : forall t, table_ok t ->
  map fst (t_bucket t 0) = [] \/ map fst (t_bucket t 0) = [neighbour t].
Proof.
  intros t [Hl Hb]. destruct (Hb 0%nat) as [_ [ND A]].
  assert (forall k, In k (map fst (t_bucket t 0)) -> k = neighbour t) as H.
  { intros k Hk. destruct (A k Hk) as [_ E]. apply ilog2_0 in E. unfold neighbour. rewrite <- E. unfold kdist.
    now rewrite <- N.lxor_assoc, N.lxor_nilpotent, N.lxor_0_l. }
  destruct (map fst (t_bucket t 0)) as [|a [|b l]]; [now left|right; f_equal; apply H; now left|].
  exfalso. apply NoDup_cons_iff in ND as [Nd _]. apply Nd. left.
  rewrite (H a (or_introl eq_refl)), (H b (or_intror (or_introl eq_refl))). reflexivity.
Qed.

(** What the search sees: all routers, closest first, the neighbour possibly twice in a row. *)
Lemma flat_map_cons1 : forall A B (f : A -> list B) x l, flat_map f (x :: l) = f x ++ flat_map f l.
Proof. reflexivity. Qed.

Lemma visited : forall t target, table_ok t -> router_id target ->
  exists is all,
    bucket_order (kdist (t_local t) target) = Some is /\
    Permutation all (known t) /\ closest_first target all /\
    (visit t target is = all \/
     (meets_twice t target /\ exists a b, all = a ++ neighbour t :: b /\ visit t target is = a ++ neighbour t :: neighbour t :: b)) /\
    (meets_twice t target -> In (neighbour t) (known t) -> visit t target is <> all).
Proof.
  intros t target Ht Hta. pose proof Ht as [Hl _].
  pose proof (lxor_small 256 _ _ Hl Hta) as Hd. fold (kdist (t_local t) target) in Hd.
  set (d := kdist (t_local t) target) in *.
  eexists. exists (visit t target (order1 d)). split; [now apply order_eq|].
  split; [now apply visit_known|]. split; [apply visit_sorted; [assumption|apply order1_sorted]|].
  assert (MT : meets_twice t target <-> twice d = true).
  { unfold meets_twice, twice, d, kdist. rewrite orb_true_iff, N.eqb_eq, N.lxor_spec. split.
    - intros [->|H]; [left; apply N.lxor_nilpotent|right]. destruct (N.testbit (t_local t) 0), (N.testbit target 0); cbn; congruence.
    - intros [H|H]; [left; symmetry; now apply N.lxor_eq|right].
      destruct (N.testbit (t_local t) 0), (N.testbit target 0); cbn in H; congruence. }
  rewrite MT. unfold order1. fold (zeros d). change (start d :: zin d (start d) ++ 0%nat :: zout d 0) with (zeros d ++ 0%nat :: zout d 0).
  destruct (twice d) eqn:E.
  - destruct (zeros_last d E) as [l El]. rewrite El. rewrite <- !app_assoc. unfold visit. rewrite !flat_map_app. rewrite !flat_map_cons1. generalize (flat_map (fun i => closest_iter target (t_bucket t i)) (zout d 0)). intro tl. cbn [flat_map app]. rewrite ?app_nil_r. cbn [app].
    destruct (bucket0 t Ht) as [B|B].
    + assert (closest_iter target (t_bucket t 0) = []) as ->.
      { pose proof (closest_iter_perm target (t_bucket t 0)) as P. rewrite B in P. now apply Permutation_nil in P. }
      cbn [app]. split; [left; reflexivity|]. intros _ Hk. exfalso.
      apply (known_bucket t _ 0) in Hk; [|assumption|].
      * rewrite B in Hk. contradiction.
      * unfold neighbour, kdist. rewrite <- N.lxor_assoc, N.lxor_nilpotent, N.lxor_0_l. reflexivity.
    + assert (closest_iter target (t_bucket t 0) = [neighbour t]) as ->.
      { pose proof (closest_iter_perm target (t_bucket t 0)) as P. rewrite B in P. now apply Permutation_length_1_inv in P. }
      cbn [app]. split.
      * right. split; [reflexivity|]. eexists _, _. split; reflexivity.
      * intros _ _ X. apply app_inv_head in X. apply (f_equal (@length N)) in X. cbn [length] in X. lia.
  - split; [now left|]. discriminate.
Qed.

Lemma filter_sorted : forall A (R : A -> A -> Prop) f l, StronglySorted R l -> StronglySorted R (filter f l).
Proof.
  induction l as [|x l IH]; intro H; [constructor|]. apply StronglySorted_inv in H as [H F]. cbn.
  destruct (f x); [|auto]. constructor; [auto|]. apply Forall_forall. intros y Hy. apply filter_In in Hy as [Hy _].
  rewrite Forall_forall in F. auto.
Qed.

Lemma filter_perm : forall A (f : A -> bool) l l', Permutation l l' -> Permutation (filter f l) (filter f l').
Proof.
  intros A f l l' P. induction P as [|x l l' P IH|x y l|l l' l'' P1 IH1 P2 IH2]; cbn.
  - constructor.
  - destruct (f x); [now constructor|assumption].
  - destruct (f x), (f y); try reflexivity. apply perm_swap.
  - now rewrite IH1.
Qed.

Lemma closest_with_ignore_spec : forall t target n ignore, table_ok t -> router_id target ->
  exists all rs,
    closest_with_ignore t target n ignore = Some rs /\
    Permutation all (filter (fun k => negb (smem k ignore)) (known t)) /\ closest_first target all /\
    (rs = firstn n all \/
     (meets_twice t target /\ exists a b, all = a ++ neighbour t :: b /\ rs = firstn n (a ++ neighbour t :: neighbour t :: b))).
Proof.
  intros t target n ignore Ht Hta. destruct (visited t target Ht Hta) as [is [all [Eo [P [Sd [H _]]]]]].
  unfold closest_with_ignore. rewrite Eo. fold (visit t target is).
  set (f := fun k => negb (smem k ignore)).
  exists (filter f all), (firstn n (filter f (visit t target is))). split; [reflexivity|].
  split; [now apply filter_perm|]. split; [now apply filter_sorted|].
  destruct H as [->|[M [a [b [-> ->]]]]]; [now left|].
  rewrite !filter_app. cbn [filter]. destruct (f (neighbour t)); [|now left].
  right. split; [assumption|]. eexists _, _. split; reflexivity.
Qed.

Lemma smem_nil_filter : forall (l : list N), filter (fun k => negb (smem k [])) l = l.
Proof. induction l as [|x l IH]; [reflexivity|]. cbn [filter smem negb]. f_equal. exact IH. Qed.

Lemma closest_ignore_nil : forall t target n, closest t target n = closest_with_ignore t target n [].
Proof.
  intros t target n. unfold closest, closest_with_ignore. destruct (bucket_order _); [|reflexivity].
  now rewrite smem_nil_filter.
Qed.

(** The single closest router is not affected by the repetition. *)
Lemma closest_one : forall t target ignore, table_ok t -> router_id target ->
  closest_with_ignore t target 1 ignore = Some [] /\ (forall k, In k (known t) -> In k ignore) \/
  exists k, closest_with_ignore t target 1 ignore = Some [k] /\ In k (known t) /\ ~ In k ignore /\
    forall k', In k' (known t) -> ~ In k' ignore -> k' = k \/ N.lxor target k < N.lxor target k'.
Proof.
  intros t target ignore Ht Hta. destruct (closest_with_ignore_spec t target 1 ignore Ht Hta) as [all [rs [E [P [Sd H]]]]].
  assert (M : forall k, In k all <-> In k (known t) /\ ~ In k ignore).
  { intro k. split.
    - intro X. apply (Permutation_in k P) in X. apply filter_In in X as [X Y]. split; [assumption|].
      intro Z. apply smem_In in Z. rewrite Z in Y. discriminate.
    - intros [X Y]. apply (Permutation_in k (Permutation_sym P)). apply filter_In. split; [assumption|].
      destruct (smem k ignore) eqn:Z; [|reflexivity]. apply smem_In in Z. contradiction. }
  assert (rs = firstn 1 all) as ->.
  { destruct H as [->|[_ [a [b [-> ->]]]]]; [reflexivity|]. destruct a; reflexivity. }
  destruct all as [|k all].
  - left. split; [exact E|]. intros k Hk. destruct (in_dec N.eq_dec k ignore) as [|Ni]; [assumption|].
    destruct (proj2 (M k) (conj Hk Ni)).
  - right. exists k. split; [exact E|]. destruct (proj1 (M k) (or_introl eq_refl)). split; [assumption|]. split; [assumption|].
    intros k1 K1 K2. destruct (proj2 (M k1) (conj K1 K2)) as [->|X]; [now left|right].
    apply StronglySorted_inv in Sd as [_ F]. rewrite Forall_forall in F. auto.
Qed.

Lemma get_closest_spec : forall target l,
  match get_closest target l with
  | None => l = []
  | Some k => In k l /\ forall k', In k' l -> N.lxor target k <= N.lxor target k'
  end.
Proof.
  intros target l. unfold get_closest. pose proof (sort_by_perm _ (kdist target) l) as P.
  pose proof (sort_by_sorted _ (kdist target) l) as Sd. destruct (sort_by (kdist target) l) as [|k r].
  - now apply Permutation_sym, Permutation_nil in P.
  - split; [apply (Permutation_in k (Permutation_sym P)); now left|].
    intros k' Hk'. apply (Permutation_in k' P) in Hk' as [<-|Hk']; [unfold kdist; lia|].
    apply StronglySorted_inv in Sd as [_ F]. rewrite Forall_forall in F. apply (F k' Hk').
Qed.
