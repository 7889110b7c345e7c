(** The effect of insertions and score changes on the whole table. *)
From Coq Require Import List NArith ZArith Bool Arith Lia ZifyBool ZifyNat ZifyN Sorting.Sorted Permutation.
From Verif Require Import ListUtil Bytes NMap KadModel KadSpec KadProofs KadProofs2.
Import ListNotations.
Open Scope N_scope.

Lemma bucket_index_Some : forall t k, k <> t_local t -> exists i, bucket_index t k = Some i.
Proof.
  intros t k H. unfold bucket_index, ilog2, kdist. destruct (N.eqb_spec (N.lxor (t_local t) k) 0) as [E|E]; [|eauto].
  apply N.lxor_eq in E. congruence.
Qed.

Lemma add_bucket : forall t k i j, bucket_index t k = Some i ->
  t_bucket (add_router t k) j = if (j =? i)%nat then snd (try_insert k (t_bucket t i)) else t_bucket t j.
Proof. intros t k i j E. unfold add_router. rewrite E. reflexivity. Qed.

Lemma add_ok : forall t k, router_id k -> table_ok t -> table_ok (add_router t k).
Proof. intros t k Hk Ht. now apply (kstep_ok t (KAdd k)). Qed.

Lemma add_local : forall t k, t_local (add_router t k) = t_local t.
Proof. intros t k. apply (kstep_local t (KAdd k)). Qed.

(** Entries of other buckets are not touched by an insertion. *)
Lemma add_other : forall t k i x j, table_ok t -> router_id k -> bucket_index t k = Some i -> j <> i ->
  (In x (t_bucket (add_router t k) j) <-> In x (t_bucket t j)).
Proof.
  intros t k i x j Ht Hk E Nj. rewrite (add_bucket _ _ _ _ E). destruct (Nat.eqb_spec j i); [contradiction|reflexivity].
Qed.

Lemma add_good_stays : forall t k k' s, table_ok t -> router_id k ->
  In (k', s) (entries t) -> (0 <= s)%Z -> In (k', s) (entries (add_router t k)).
Proof.
  intros t k k' s Ht Hk H Hs. apply entries_In in H as [j H]; [|assumption].
  apply entries_In; [now apply add_ok|]. exists j.
  destruct (bucket_index t k) as [i|] eqn:E; [|unfold add_router; now rewrite E].
  rewrite (add_bucket _ _ _ _ E). destruct (Nat.eqb_spec j i) as [->|]; [|assumption].
  destruct (try_insert_cases k (t_bucket t i)) as [? | ? ? | a c old s' ? ? Eb Neg Min | ? ? ?]; try assumption.
  - apply in_or_app. now left.
  - rewrite Eb in H. apply in_app_or in H as [H|[H|H]]; apply in_or_app; cbn; try tauto.
    apply pair_equal_spec in H as [_ ->]. lia.
Qed.

Lemma add_outcome : forall t k, table_ok t -> router_id k -> k <> t_local t ->
  In k (known (add_router t k)) \/
  (entries (add_router t k) = entries t /\
   exists i, belongs (t_local t) k i /\ length (t_bucket t i) = bucket_size /\
     forall k' s, In (k', s) (t_bucket t i) -> (0 <= s)%Z).
Proof.
  intros t k Ht Hk Hl. destruct (bucket_index_Some t k Hl) as [i E]. pose proof E as Ei.
  unfold bucket_index in Ei. pose proof (add_bucket t k i i E) as B. rewrite Nat.eqb_refl in B.
  assert (Kn : In k (map fst (t_bucket (add_router t k) i)) -> In k (known (add_router t k))).
  { intro H. apply known_In; [now apply add_ok|]. eauto. }
  destruct (try_insert_cases k (t_bucket t i)) as [P|P L|a c old s' P L Eb Neg Min|P L G].
  - left. apply Kn. now rewrite B.
  - left. apply Kn. rewrite B, map_app. apply in_or_app. right. now left.
  - left. apply Kn. rewrite B, map_app. apply in_or_app. right. now left.
  - right. split.
    + unfold entries. apply flat_map_ext. intro j. rewrite (add_bucket _ _ _ _ E).
      destruct (Nat.eqb_spec j i) as [->|]; [|reflexivity]. unfold try_insert.
      destruct (existsb _ _); [reflexivity|]. destruct (Nat.ltb_spec (length (t_bucket t i)) bucket_size); [lia|].
      destruct (first_min _) as [[m s]|] eqn:M; [|reflexivity].
      destruct (first_min_spec _ _ _ M) as [_ [[k' Hk'] _]]. apply nth_error_In in Hk'. specialize (G _ _ Hk').
      destruct (Z.ltb_spec s 0); [lia|reflexivity].
    + exists i. split; [now apply log2_belongs|]. split; [|assumption].
      destruct Ht as [_ Hb]. destruct (Hb i) as [L' _]. lia.
Qed.

Lemma add_evicts : forall t k old s, table_ok t -> router_id k ->
  In (old, s) (entries t) -> ~ In (old, s) (entries (add_router t k)) ->
  (s < 0)%Z /\ In (k, 0%Z) (entries (add_router t k)) /\ ~ In k (known t) /\
  exists i, belongs (t_local t) k i /\ In (old, s) (t_bucket t i) /\ length (t_bucket t i) = bucket_size /\
    (forall k' s', In (k', s') (t_bucket t i) -> (s <= s')%Z) /\
    forall x, In x (entries t) -> x <> (old, s) -> In x (entries (add_router t k)).
Proof.
  intros t k old s Ht Hk H Hn.
  assert (Ent : forall x, In x (entries (add_router t k)) <-> exists i, In x (t_bucket (add_router t k) i)).
  { intro x. apply entries_In. now apply add_ok. }
  destruct (bucket_index t k) as [i|] eqn:E.
  2:{ exfalso. apply Hn. unfold add_router. now rewrite E. }
  pose proof E as Ei. unfold bucket_index in Ei. pose proof (add_bucket t k i i E) as B. rewrite Nat.eqb_refl in B.
  apply entries_In in H as [j H]; [|assumption].
  assert (j = i) as ->.
  { destruct (Nat.eq_dec j i) as [|Nj]; [assumption|]. exfalso. apply Hn. apply Ent. exists j. now apply (add_other t k i). }
  assert (Hn' : ~ In (old, s) (snd (try_insert k (t_bucket t i)))).
  { intro X. apply Hn. apply Ent. exists i. now rewrite B. }
  destruct (try_insert_cases k (t_bucket t i)) as [P|P L|a c old' s' P L Eb Neg Min|P L G]; try contradiction.
  - exfalso. apply Hn'. apply in_or_app. now left.
  - assert ((old', s') = (old, s)) as X.
    { rewrite Eb in H. apply in_app_or in H as [H|[H|H]]; [|assumption|]; exfalso; apply Hn'; apply in_or_app; cbn; tauto. }
    apply pair_equal_spec in X as [-> ->]. split; [assumption|]. split.
    { apply Ent. exists i. rewrite B. apply in_or_app. right. now left. }
    split. { intro X. apply (known_bucket t k i) in X; [contradiction|assumption..]. }
    exists i. split; [now apply log2_belongs|]. split; [assumption|]. split.
    { destruct Ht as [_ Hb]. destruct (Hb i) as [L' _]. lia. }
    split; [assumption|]. intros x Hx Nx. apply entries_In in Hx as [j Hx]; [|assumption].
    apply Ent. exists j. destruct (Nat.eq_dec j i) as [->|Nj]; [|now apply (add_other t k i)].
    rewrite B. rewrite Eb in Hx. apply in_app_or in Hx as [Hx|[Hx|Hx]]; apply in_or_app; cbn; try tauto. congruence.
Qed.

Lemma add_only : forall t k x, table_ok t -> router_id k ->
  In x (entries (add_router t k)) -> x = (k, 0%Z) \/ In x (entries t).
Proof.
  intros t k x Ht Hk H. apply entries_In in H as [j H]; [|now apply add_ok].
  destruct (bucket_index t k) as [i|] eqn:E.
  2:{ unfold add_router in H. rewrite E in H. right. apply entries_In; eauto. }
  rewrite (add_bucket _ _ _ _ E) in H. destruct (Nat.eqb_spec j i) as [->|]; [|right; apply entries_In; eauto].
  destruct (try_insert_cases k (t_bucket t i)) as [P|P L|a c old s' P L Eb Neg Min|P L G];
    try (right; apply entries_In; now eauto).
  - apply in_app_or in H as [H|[<-|[]]]; [right; apply entries_In; eauto|now left].
  - apply in_app_or in H as [H|[<-|H]]; [|now left|]; right; apply entries_In; try assumption; exists i; rewrite Eb;
      apply in_or_app; cbn; tauto.
Qed.

Definition scored (k : N) (a : Z) (x : N * Z) : N * Z := if fst x =? k then (fst x, (snd x + a)%Z) else x.

Lemma bucket_adjust_map : forall k a b, NoDup (map fst b) -> bucket_adjust k a b = map (scored k a) b.
Proof.
  induction b as [|[k' s] b IH]; intro ND; [reflexivity|]. cbn [map bucket_adjust] in *.
  apply NoDup_cons_iff in ND as [Ni ND]. unfold scored at 1. cbn [fst snd] in *.
  destruct (N.eqb_spec k' k) as [->|].
  - f_equal. rewrite <- (map_id b) at 1. apply map_ext_in. intros [k2 s2] H2. unfold scored. cbn [fst].
    destruct (N.eqb_spec k2 k) as [->|]; [|reflexivity]. exfalso. apply Ni. apply in_map_iff. now exists (k, s2).
  - f_equal. auto.
Qed.

Lemma scored_other : forall k a b, ~ In k (map fst b) -> map (scored k a) b = b.
Proof.
  intros k a b H. rewrite <- (map_id b) at 2. apply map_ext_in. intros [k2 s2] H2. unfold scored. cbn [fst].
  destruct (N.eqb_spec k2 k) as [->|]; [|reflexivity]. exfalso. apply H. apply in_map_iff. now exists (k, s2).
Qed.

Lemma adjust_entries : forall t k a, table_ok t -> entries (adjust_score t k a) = map (scored k a) (entries t).
Proof.
  intros t k a [Hl Hb]. unfold entries. rewrite map_flat_map. apply flat_map_ext. intro j.
  unfold adjust_score. destruct (bucket_index t k) as [i|] eqn:E.
  - cbn. destruct (Nat.eqb_spec j i) as [->|Nj].
    + apply bucket_adjust_map. apply Hb.
    + symmetry. apply scored_other. intro X. destruct (Hb j) as [_ [_ A]]. destruct (A k X) as [_ E'].
      unfold bucket_index in E. congruence.
  - symmetry. apply scored_other. intro X. destruct (Hb j) as [_ [_ A]]. destruct (A k X) as [_ E'].
    unfold bucket_index in E. congruence.
Qed.
