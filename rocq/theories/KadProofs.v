(** Proofs about the Kademlia table. *)
From Coq Require Import List NArith ZArith Bool Arith Lia ZifyBool ZifyNat ZifyN Sorting.Sorted Permutation.
From Verif Require Import ListUtil Bytes NMap KadModel KadSpec.
Import ListNotations.
Open Scope N_scope.

(** ** Bits *)
Lemma shiftr_S : forall x m, N.shiftr x m = 2 * N.shiftr x (m + 1) + N.b2n (N.testbit x m).
Proof.
  intros x m. rewrite <- N.shiftr_shiftr. rewrite (N.div2_odd (N.shiftr x m)) at 1.
  rewrite <- N.div2_spec. f_equal. rewrite <- N.bit0_odd, N.shiftr_spec by lia. now rewrite N.add_0_l.
Qed.

Lemma lt_by_bit : forall m x y,
  (forall k, m < k -> N.testbit x k = N.testbit y k) ->
  N.testbit x m = false -> N.testbit y m = true -> x < y.
Proof.
  intros m x y H Hx Hy.
  assert (E : N.shiftr x (m + 1) = N.shiftr y (m + 1)).
  { apply N.bits_inj. intro k. rewrite !N.shiftr_spec by lia. apply H. lia. }
  pose proof (shiftr_S x m) as Sx. pose proof (shiftr_S y m) as Sy.
  rewrite Hx in Sx. rewrite Hy in Sy. rewrite E in Sx. cbn [N.b2n] in *.
  assert (L : N.shiftr x m < N.shiftr y m) by lia.
  rewrite !N.shiftr_div_pow2 in L.
  destruct (N.lt_ge_cases x y) as [|G]; [assumption|].
  pose proof (N.div_le_mono y x (2 ^ m) ltac:(apply N.pow_nonzero; lia) G). lia.
Qed.

Lemma log2_belongs : forall local k i,
  ilog2 (kdist local k) = Some i <-> belongs local k i.
Proof.
  intros local k i. unfold ilog2, kdist, belongs.
  destruct (N.eqb_spec (N.lxor local k) 0) as [E|E].
  - split; [discriminate|]. intros [H _]. apply N.lxor_eq in E. now subst.
  - split.
    + intros [= <-]. split.
      * rewrite N2Nat.id. pose proof (N.bit_log2 _ E) as B. rewrite N.lxor_spec in B.
        destruct (N.testbit local _), (N.testbit k _); cbn in B; congruence.
      * intros j Hj. assert (N.log2 (N.lxor local k) < N.of_nat j) as L by lia.
        apply N.bits_above_log2 in L. rewrite N.lxor_spec in L.
        destruct (N.testbit local _), (N.testbit k _); cbn in L; congruence.
    + intros [H1 H2]. f_equal.
      assert (B : N.testbit (N.lxor local k) (N.of_nat i) = true).
      { rewrite N.lxor_spec. destruct (N.testbit local _), (N.testbit k _); cbn; congruence. }
      destruct (Nat.lt_trichotomy (N.to_nat (N.log2 (N.lxor local k))) i) as [L|[L|L]]; [|assumption|].
      * assert (N.log2 (N.lxor local k) < N.of_nat i) as L' by lia.
        apply N.bits_above_log2 in L'. congruence.
      * specialize (H2 _ L). rewrite N2Nat.id in H2. pose proof (N.bit_log2 _ E) as B'.
        rewrite N.lxor_spec, H2, xorb_nilpotent in B'. discriminate.
Qed.

Lemma lxor_small : forall n a b, a < 2 ^ n -> b < 2 ^ n -> N.lxor a b < 2 ^ n.
Proof.
  intros n a b Ha Hb. destruct (N.eq_dec (N.lxor a b) 0) as [->|E]; [lia|].
  apply N.log2_lt_pow2; [lia|].
  destruct (N.lt_ge_cases (N.log2 (N.lxor a b)) n) as [|G]; [assumption|].
  pose proof (N.bit_log2 _ E) as B. rewrite N.lxor_spec in B.
  assert (Z : forall c, c < 2 ^ n -> N.testbit c (N.log2 (N.lxor a b)) = false).
  { intros c Hc. destruct (N.eq_dec c 0) as [->|Nz]; [apply N.bits_0|].
    apply N.bits_above_log2. apply N.log2_lt_pow2 in Hc; lia. }
  rewrite (Z a Ha), (Z b Hb) in B. discriminate.
Qed.

Lemma ilog2_small : forall d i, d < 2 ^ 256 -> ilog2 d = Some i -> (i < num_buckets)%nat.
Proof.
  intros d i Hd. unfold ilog2, num_buckets. destruct (N.eqb_spec d 0); [discriminate|]. intros [= <-].
  assert (N.log2 d < 256) by (apply N.log2_lt_pow2; lia). lia.
Qed.

(** ** Buckets *)
Lemma existsb_key : forall k (b : bucket), existsb (fun f => fst f =? k) b = true <-> In k (map fst b).
Proof.
  intros k b. rewrite existsb_exists, in_map_iff. split.
  - intros [x [Hi He]]. exists x. apply N.eqb_eq in He. tauto.
  - intros [x [He Hi]]. exists x. split; [assumption|]. now apply N.eqb_eq.
Qed.

Lemma first_min_spec : forall b i s,
  first_min b = Some (i, s) ->
  (i < length b)%nat /\ (exists k, nth_error b i = Some (k, s)) /\ (forall k s', In (k, s') b -> (s <= s')%Z).
Proof.
  induction b as [|[k0 s0] b IH]; intros i s H; [discriminate|]. cbn [first_min] in H.
  destruct (first_min b) as [[j m]|] eqn:E.
  - destruct (IH j m eq_refl) as [L [[k Hk] M]]. destruct (Z.ltb_spec m s0); injection H as <- <-.
    + cbn [length nth_error]. split; [lia|]. split; [now exists k|]. intros k' s' [X|X].
      * apply pair_equal_spec in X as [_ <-]. lia.
      * eauto.
    + cbn [length nth_error]. split; [lia|]. split; [now exists k0|]. intros k' s' [X|X].
      * apply pair_equal_spec in X as [_ <-]. lia.
      * specialize (M _ _ X). lia.
  - injection H as <- <-. assert (b = []) as ->.
    { destruct b as [|[k1 s1] b]; [reflexivity|]. cbn in E. destruct (first_min b) as [[? ?]|]; [destruct (_ <? _)%Z in E|]; discriminate. }
    cbn. split; [lia|]. split; [now exists k0|]. intros k' s' [X|[]]. apply pair_equal_spec in X as [_ <-]. lia.
Qed.

Lemma first_min_None : forall b, first_min b = None -> b = [].
Proof.
  intros [|[k s] b] H; [reflexivity|]. cbn in H. destruct (first_min b) as [[? ?]|]; [destruct (_ <? _)%Z in H|]; discriminate.
Qed.

Lemma set_nth_length : forall A (x : A) l i, length (set_nth i x l) = length l.
Proof. induction l as [|y l IH]; intros [|i]; cbn; [reflexivity..|now rewrite IH]. Qed.

Lemma set_nth_split : forall A (x y : A) l i,
  nth_error l i = Some y -> exists a b, l = a ++ y :: b /\ set_nth i x l = a ++ x :: b.
Proof.
  induction l as [|z l IH]; intros i H; [destruct i; discriminate|].
  destruct i as [|i]; cbn in H.
  - injection H as <-. now exists [], l.
  - destruct (IH i H) as [a [b [-> E]]]. exists (z :: a), b. cbn. now rewrite E.
Qed.

(** What an insertion into a bucket can do. *)
Inductive inserted (k : N) (b : bucket) : bucket -> Prop :=
| ins_present : In k (map fst b) -> inserted k b b
| ins_room : ~ In k (map fst b) -> (length b < bucket_size)%nat -> inserted k b (b ++ [(k, 0%Z)])
| ins_evict : forall a c old s, ~ In k (map fst b) -> (bucket_size <= length b)%nat ->
    b = a ++ (old, s) :: c -> (s < 0)%Z -> (forall k' s', In (k', s') b -> (s <= s')%Z) ->
    inserted k b (a ++ (k, 0%Z) :: c)
| ins_full : ~ In k (map fst b) -> (bucket_size <= length b)%nat ->
    (forall k' s', In (k', s') b -> (0 <= s')%Z) -> inserted k b b.

Lemma try_insert_cases : forall k b, inserted k b (snd (try_insert k b)).
Proof.
  intros k b. unfold try_insert. destruct (existsb _ b) eqn:E.
  - apply existsb_key in E. now constructor.
  - assert (Ni : ~ In k (map fst b)). { intro X. apply existsb_key in X. congruence. }
    destruct (Nat.ltb_spec (length b) bucket_size) as [L|L]; [now constructor|].
    destruct (first_min b) as [[i s]|] eqn:M.
    + destruct (first_min_spec _ _ _ M) as [_ [[k' Hk] Mi]].
      destruct (Z.ltb_spec s 0) as [Sg|Sg]; cbn [snd].
      * destruct (set_nth_split _ (k, 0%Z) _ _ _ Hk) as [a [c [Eb Es]]]. rewrite Es.
        apply (ins_evict k b a c k' s); assumption.
      * apply ins_full; try assumption. intros k1 s1 H1. specialize (Mi _ _ H1). lia.
    + apply first_min_None in M. subst b. cbn in L. unfold bucket_size in L. lia.
Qed.

Lemma bucket_adjust_keys : forall k a b, map fst (bucket_adjust k a b) = map fst b.
Proof. induction b as [|[k' s] b IH]; [reflexivity|]. cbn. destruct (k' =? k); cbn; now rewrite ?IH. Qed.

(** ** The invariant *)
Definition bucket_ok (local : N) (i : nat) (b : bucket) : Prop :=
  (length b <= bucket_size)%nat /\ NoDup (map fst b) /\
  forall k, In k (map fst b) -> router_id k /\ ilog2 (kdist local k) = Some i.

Definition table_ok (t : table) : Prop :=
  router_id (t_local t) /\ forall i, bucket_ok (t_local t) i (t_bucket t i).

Lemma nodup_snoc : forall A (l : list A) x, NoDup l -> ~ In x l -> NoDup (l ++ [x]).
Proof.
  intros A l x H Hx. apply (Permutation_NoDup (l := x :: l)); [apply Permutation_cons_append|now constructor].
Qed.

Lemma insert_ok : forall local i k b,
  router_id k -> ilog2 (kdist local k) = Some i -> bucket_ok local i b -> bucket_ok local i (snd (try_insert k b)).
Proof.
  intros local i k b Hk Hi [L [ND A]]. destruct (try_insert_cases k b) as [H|H Lt|a c old s H Ge -> Neg Min|H Ge Good].
  - now split.
  - split; [rewrite app_length; cbn; lia|]. rewrite map_app. split; [now apply nodup_snoc|].
    intros k' Hk'. apply in_app_or in Hk' as [X|[<-|[]]]; auto.
  - rewrite map_app in *. cbn [map fst] in *. split; [rewrite app_length in *; cbn [length] in *; lia|]. rewrite map_app; cbn [map fst]. split.
    + assert (Pm : forall x, Permutation (map fst a ++ x :: map fst c) (x :: map fst a ++ map fst c)).
      { intro x. symmetry. apply Permutation_middle. }
      apply (Permutation_NoDup (Pm old)) in ND. apply (Permutation_NoDup (Permutation_sym (Pm k))).
      apply NoDup_cons_iff in ND as [_ ND]. constructor; [|assumption].
      intro X. apply H. apply in_app_or in X. apply in_or_app. cbn. tauto.
    + intros k' Hk'. apply in_app_or in Hk' as [X|[<-|X]]; [|auto|]; apply A; apply in_or_app; cbn; tauto.
  - now split.
Qed.

Lemma set_bucket_ok : forall t i b, table_ok t -> bucket_ok (t_local t) i b -> table_ok (set_bucket t i b).
Proof.
  intros t i b [Hl H] Hb. split; [exact Hl|]. intro j. cbn. destruct (Nat.eqb_spec j i) as [->|]; auto.
Qed.

Lemma kstep_ok : forall t o, router_id (op_key o) -> table_ok t -> table_ok (kstep t o).
Proof.
  intros t [k|k a] Hk Ht; cbn in *; unfold add_router, adjust_score;
    destruct (bucket_index t k) as [i|] eqn:E; try assumption; apply set_bucket_ok; try assumption.
  - apply insert_ok; [assumption..|apply Ht].
  - destruct Ht as [_ Hb]. destruct (Hb i) as [L [ND A]]. split; [|rewrite bucket_adjust_keys; now split].
    rewrite <- (map_length fst), bucket_adjust_keys, map_length. assumption.
Qed.

Lemma kruns_ok : forall ops t, Forall (fun o => router_id (op_key o)) ops -> table_ok t -> table_ok (kruns t ops).
Proof.
  induction ops as [|o ops IH]; intros t F Ht; [assumption|]. apply Forall_cons_iff in F as [Ho F].
  cbn. apply IH; [assumption|]. now apply kstep_ok.
Qed.

Lemma table_new_ok : forall l, router_id l -> table_ok (table_new l).
Proof. intros l H. split; [exact H|]. intro i. cbn. split; [cbn; lia|]. split; [constructor|intros k []]. Qed.

Lemma reachable_ok : forall t, reachable t -> table_ok t.
Proof. intros t [l [ops [Hl [F ->]]]]. apply kruns_ok; [assumption|]. now apply table_new_ok. Qed.

Lemma kstep_local : forall t o, t_local (kstep t o) = t_local t.
Proof. intros t [k|k a]; cbn; unfold add_router, adjust_score; destruct (bucket_index t k); reflexivity. Qed.

(** Entries and buckets. *)
Lemma entries_In : forall t x, table_ok t -> (In x (entries t) <-> exists i, In x (t_bucket t i)).
Proof.
  intros t x [Hl Hb]. unfold entries. rewrite in_flat_map. split.
  - intros [i [_ H]]. eauto.
  - intros [i H]. exists i. split; [|assumption]. apply in_seq.
    destruct (Hb i) as [_ [_ A]]. destruct x as [k s]. destruct (A k) as [Hk E].
    { apply in_map_iff. exists (k, s). auto. }
    pose proof (ilog2_small _ _ (lxor_small 256 _ _ Hl Hk) E). lia.
Qed.

Lemma entries_bucket : forall t k s i, table_ok t -> ilog2 (kdist (t_local t) k) = Some i ->
  (In (k, s) (entries t) <-> In (k, s) (t_bucket t i)).
Proof.
  intros t k s i Ht Hi. rewrite entries_In by assumption. split; [|eauto].
  intros [j H]. destruct Ht as [_ Hb]. destruct (Hb j) as [_ [_ A]]. destruct (A k) as [_ E].
  { apply in_map_iff. exists (k, s). auto. }
  assert (i = j) as -> by congruence. assumption.
Qed.

Lemma known_In : forall t k, table_ok t -> (In k (known t) <-> exists i, In k (map fst (t_bucket t i))).
Proof.
  intros t k Ht. unfold known. rewrite in_map_iff. split.
  - intros [x [<- H]]. apply entries_In in H as [i H]; [|assumption]. exists i. now apply in_map.
  - intros [i H]. apply in_map_iff in H as [x [<- H]]. exists x. split; [reflexivity|].
    apply entries_In; eauto.
Qed.

Lemma known_bucket : forall t k i, table_ok t -> ilog2 (kdist (t_local t) k) = Some i ->
  (In k (known t) <-> In k (map fst (t_bucket t i))).
Proof.
  intros t k i Ht Hi. rewrite known_In by assumption. split; [|eauto].
  intros [j H]. destruct Ht as [_ Hb]. destruct (Hb j) as [_ [_ A]]. destruct (A k H) as [_ E].
  assert (i = j) as -> by congruence. assumption.
Qed.

Lemma nodup_app2 : forall A (a b : list A),
  NoDup a -> NoDup b -> (forall x, In x a -> ~ In x b) -> NoDup (a ++ b).
Proof.
  induction a as [|x a IH]; intros b Ha Hb D; [assumption|]. cbn. apply NoDup_cons_iff in Ha as [Nx Ha]. constructor.
  - intro X. apply in_app_or in X as [X|X]; [now apply Nx|]. now apply (D x (or_introl eq_refl)).
  - apply IH; [assumption..|]. intros y Hy. apply D. now right.
Qed.

Lemma NoDup_flat_map : forall A (f : nat -> list A) is,
  NoDup is -> (forall i, In i is -> NoDup (f i)) ->
  (forall i j x, In i is -> In j is -> In x (f i) -> In x (f j) -> i = j) -> NoDup (flat_map f is).
Proof.
  induction is as [|i is IH]; intros ND H D; [constructor|]. cbn. apply NoDup_cons_iff in ND as [Ni ND].
  apply nodup_app2; [apply H; now left| |].
  - apply IH; [assumption| |]; intros; [apply H; now right|]. eapply D; cbn; eauto.
  - intros x Hx Hy. apply in_flat_map in Hy as [j [Hj Hy]]. assert (i = j) by (eapply D; cbn; eauto). now subst.
Qed.

Lemma map_flat_map : forall A B C (g : B -> C) (f : A -> list B) l,
  map g (flat_map f l) = flat_map (fun x => map g (f x)) l.
Proof. induction l as [|x l IH]; [reflexivity|]. cbn. now rewrite map_app, IH. Qed.

Lemma known_NoDup : forall t, table_ok t -> NoDup (known t).
Proof.
  intros t [Hl Hb]. unfold known, entries. rewrite map_flat_map. apply NoDup_flat_map.
  - apply seq_NoDup.
  - intros i _. apply Hb.
  - intros i j k _ _ Hi Hj. destruct (Hb i) as [_ [_ A]], (Hb j) as [_ [_ A']].
    destruct (A k Hi), (A' k Hj). congruence.
Qed.
