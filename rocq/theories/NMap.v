(** Finite maps and sets keyed by [N], used to model BTreeMap/BTreeSet/HashMap with
    integer keys.  A map is an association list; [nput] keeps keys in ascending order, so
    iterating the list is iterating the BTreeMap. *)
From Coq Require Import List NArith Lia Sorting.Sorted.
Import ListNotations.
Open Scope N_scope.

Definition nmap (V : Type) := list (N * V).

(** BTreeMap::get *)
Fixpoint nget {V} (k : N) (m : nmap V) : option V :=
  match m with
  | [] => None
  | (k', v) :: t => if k =? k' then Some v else nget k t
  end.

(** BTreeMap::insert *)
Fixpoint nput {V} (k : N) (v : V) (m : nmap V) : nmap V :=
  match m with
  | [] => [(k, v)]
  | (k', v') :: t =>
      if k <? k' then (k, v) :: m
      else if k =? k' then (k, v) :: t
      else (k', v') :: nput k v t
  end.

(** BTreeMap::remove *)
Fixpoint ndel {V} (k : N) (m : nmap V) : nmap V :=
  match m with
  | [] => []
  | (k', v) :: t => if k =? k' then ndel k t else (k', v) :: ndel k t
  end.

Definition nkeys {V} (m : nmap V) : list N := map fst m.

Definition nhas {V} (k : N) (m : nmap V) : bool :=
  match nget k m with Some _ => true | None => false end.

(** BTreeSet operations *)
Fixpoint smem (k : N) (s : list N) : bool :=
  match s with [] => false | x :: t => (k =? x) || smem k t end.

Fixpoint sadd (k : N) (s : list N) : list N :=
  match s with
  | [] => [k]
  | x :: t => if k <? x then k :: s else if k =? x then s else x :: sadd k t
  end.

Fixpoint sdel (k : N) (s : list N) : list N :=
  match s with
  | [] => []
  | x :: t => if k =? x then sdel k t else x :: sdel k t
  end.

(** [nseq a n] is [a; a+1; ...; a+n-1]. *)
Fixpoint nseq (a : N) (n : nat) : list N :=
  match n with O => [] | S n' => a :: nseq (a + 1) n' end.

Definition sorted (s : list N) : Prop := StronglySorted N.lt s.

(** ** Map laws *)
Lemma nget_nput_same : forall V k (v : V) m, nget k (nput k v m) = Some v.
Proof.
  induction m as [|[k' v'] t IH]; cbn; [now rewrite N.eqb_refl|].
  destruct (N.ltb_spec k k'); cbn; [now rewrite N.eqb_refl|].
  destruct (N.eqb_spec k k'); cbn; [now rewrite N.eqb_refl|].
  destruct (N.eqb_spec k k'); congruence.
Qed.

Lemma nget_nput_other : forall V k j (v : V) m, j <> k -> nget j (nput k v m) = nget j m.
Proof.
  intros V k j v m Hne. induction m as [|[k' v'] t IH]; cbn.
  - destruct (N.eqb_spec j k); congruence.
  - destruct (N.ltb_spec k k'); cbn.
    + destruct (N.eqb_spec j k); congruence.
    + destruct (N.eqb_spec k k'); cbn.
      * subst. destruct (N.eqb_spec j k'); congruence.
      * destruct (N.eqb_spec j k'); auto.
Qed.

Lemma nget_ndel_same : forall V k (m : nmap V), nget k (ndel k m) = None.
Proof.
  induction m as [|[k' v'] t IH]; cbn; auto.
  destruct (N.eqb_spec k k'); cbn; auto.
  destruct (N.eqb_spec k k'); congruence.
Qed.

Lemma nget_ndel_other : forall V k j (m : nmap V), j <> k -> nget j (ndel k m) = nget j m.
Proof.
  intros V k j m Hne. induction m as [|[k' v'] t IH]; cbn; auto.
  destruct (N.eqb_spec k k'); cbn.
  - subst. rewrite IH. destruct (N.eqb_spec j k'); congruence.
  - destruct (N.eqb_spec j k'); auto.
Qed.

Lemma nget_In : forall V k v (m : nmap V), nget k m = Some v -> In (k, v) m.
Proof.
  induction m as [|[k' v'] t IH]; cbn; [discriminate|].
  destruct (N.eqb_spec k k').
  - intros [= ->]. subst. now left.
  - intros H. right. auto.
Qed.

Lemma In_nget_nodup : forall V k v (m : nmap V), NoDup (nkeys m) -> In (k, v) m -> nget k m = Some v.
Proof.
  induction m as [|[k' v'] t IH]; cbn; [tauto|]. intros Hnd [Heq|Hin].
  - injection Heq as -> ->. now rewrite N.eqb_refl.
  - inversion Hnd as [|? ? Hni Hnd']; subst. destruct (N.eqb_spec k k').
    + subst. exfalso. apply Hni. change k' with (fst (k', v)). now apply in_map.
    + auto.
Qed.

Lemma nget_None_nkeys : forall V k (m : nmap V), nget k m = None <-> ~ In k (nkeys m).
Proof.
  induction m as [|[k' v'] t IH]; cbn; [tauto|].
  destruct (N.eqb_spec k k').
  - subst. split; [discriminate|]. intros H. exfalso; auto.
  - rewrite IH. split; intros H; [intros [E|E]|]; auto.
Qed.

Lemma nget_Some_nkeys : forall V k (m : nmap V), (exists v, nget k m = Some v) <-> In k (nkeys m).
Proof.
  intros V k m. destruct (nget k m) eqn:E.
  - split; eauto. intros _. apply nget_In in E. change k with (fst (k, v)). now apply in_map.
  - apply nget_None_nkeys in E. split; [intros [? ?]; discriminate|tauto].
Qed.

Lemma In_nkeys_nput : forall V k j (v : V) m, In j (nkeys (nput k v m)) <-> j = k \/ In j (nkeys m).
Proof.
  intros. rewrite <- !nget_Some_nkeys. destruct (N.eq_dec j k).
  - subst. rewrite nget_nput_same. split; eauto.
  - rewrite nget_nput_other by auto. split; auto. intros [?|?]; [congruence|auto].
Qed.

Lemma In_nkeys_ndel : forall V k j (m : nmap V), In j (nkeys (ndel k m)) <-> j <> k /\ In j (nkeys m).
Proof.
  intros. rewrite <- !nget_Some_nkeys. destruct (N.eq_dec j k).
  - subst. rewrite nget_ndel_same. split; [intros [? ?]; discriminate|intros [? ?]; congruence].
  - rewrite nget_ndel_other by auto. tauto.
Qed.

(** entries *)
Lemma In_nput : forall V k (v : V) m x, In x (nput k v m) -> x = (k, v) \/ In x m.
Proof.
  induction m as [|[k' v'] t IH]; cbn; [intuition|]. intros x.
  destruct (N.ltb_spec k k'); cbn; [intuition|].
  destruct (N.eqb_spec k k'); cbn; [intuition|].
  intros [H1|H1]; auto. apply IH in H1. intuition.
Qed.

Lemma In_ndel : forall V k (m : nmap V) x, In x (ndel k m) <-> In x m /\ fst x <> k.
Proof.
  induction m as [|[k' v'] t IH]; cbn; [intuition|]. intros x.
  destruct (N.eqb_spec k k'); cbn; rewrite IH; subst.
  - split; [intuition|]. intros [[<-|H] Hk]; cbn in *; [congruence|auto].
  - split; [|intuition]. intros [<-|H]; cbn; intuition.
Qed.

Lemma nput_Sorted : forall V k (v : V) m, sorted (nkeys m) -> sorted (nkeys (nput k v m)).
Proof.
  unfold sorted. induction m as [|[k' v'] t IH]; cbn; intros Hs.
  - repeat constructor.
  - inversion Hs as [|? ? Hs' Hall]; subst. destruct (N.ltb_spec k k'); cbn.
    + constructor; auto. constructor; auto. eapply Forall_impl; [|exact Hall]. cbn; intros; lia.
    + destruct (N.eqb_spec k k'); cbn; subst; auto.
      constructor; auto. apply Forall_forall. intros x Hx.
      apply In_nkeys_nput in Hx as [->|Hx]; [lia|]. rewrite Forall_forall in Hall; auto.
Qed.

Lemma ndel_Sorted : forall V k (m : nmap V), sorted (nkeys m) -> sorted (nkeys (ndel k m)).
Proof.
  unfold sorted. induction m as [|[k' v'] t IH]; cbn; intros Hs; auto.
  inversion Hs as [|? ? Hs' Hall]; subst. destruct (N.eqb_spec k k'); cbn; auto.
  constructor; auto. apply Forall_forall. intros x Hx.
  apply In_nkeys_ndel in Hx as [_ Hx]. rewrite Forall_forall in Hall; auto.
Qed.

Lemma sorted_NoDup : forall s, sorted s -> NoDup s.
Proof.
  induction 1 as [|x s Hs IH Hall]; constructor; auto.
  intros Hin. rewrite Forall_forall in Hall. apply Hall in Hin. lia.
Qed.

Lemma nput_length_le : forall V k (v : V) m, (length (nput k v m) <= S (length m))%nat.
Proof.
  induction m as [|[k' v'] t IH]; cbn; auto.
  destruct (N.ltb_spec k k'); cbn; auto.
  destruct (N.eqb_spec k k'); cbn; lia.
Qed.

Lemma ndel_length_le : forall V k (m : nmap V), (length (ndel k m) <= length m)%nat.
Proof.
  induction m as [|[k' v'] t IH]; cbn; auto. destruct (N.eqb_spec k k'); cbn; lia.
Qed.

Lemma ndel_length_lt : forall V k (m : nmap V), In k (nkeys m) -> (length (ndel k m) < length m)%nat.
Proof.
  induction m as [|[k' v'] t IH]; cbn; [tauto|]. intros [->|H].
  - rewrite N.eqb_refl. pose proof (ndel_length_le V k t). lia.
  - destruct (N.eqb_spec k k'); cbn; [pose proof (ndel_length_le V k t); lia|]. apply IH in H. lia.
Qed.

(** ** Set laws *)
Lemma smem_In : forall k s, smem k s = true <-> In k s.
Proof.
  induction s as [|x t IH]; cbn; [split; [discriminate|tauto]|].
  rewrite Bool.orb_true_iff, IH, N.eqb_eq. intuition.
Qed.

Lemma sadd_In : forall k j s, In j (sadd k s) <-> j = k \/ In j s.
Proof.
  induction s as [|x t IH]; cbn; [intuition|].
  destruct (N.ltb_spec k x); cbn; [intuition|].
  destruct (N.eqb_spec k x); cbn; [subst; intuition|]. rewrite IH. intuition.
Qed.

Lemma sdel_In : forall k j s, In j (sdel k s) <-> j <> k /\ In j s.
Proof.
  induction s as [|x t IH]; cbn; [intuition|].
  destruct (N.eqb_spec k x); cbn; rewrite IH; subst; intuition; subst; intuition.
Qed.

Lemma sadd_sorted : forall k s, sorted s -> sorted (sadd k s).
Proof.
  unfold sorted. induction s as [|x t IH]; cbn; intros Hs; [repeat constructor|].
  inversion Hs as [|? ? Hs' Hall]; subst. destruct (N.ltb_spec k x).
  - constructor; auto. constructor; auto. eapply Forall_impl; [|exact Hall]. cbn; intros; lia.
  - destruct (N.eqb_spec k x); auto. constructor; auto. apply Forall_forall. intros y Hy.
    apply sadd_In in Hy as [->|Hy]; [lia|]. rewrite Forall_forall in Hall; auto.
Qed.

Lemma sdel_sorted : forall k s, sorted s -> sorted (sdel k s).
Proof.
  unfold sorted. induction s as [|x t IH]; cbn; intros Hs; auto.
  inversion Hs as [|? ? Hs' Hall]; subst. destruct (N.eqb_spec k x); auto.
  constructor; auto. apply Forall_forall. intros y Hy. apply sdel_In in Hy as [_ Hy].
  rewrite Forall_forall in Hall; auto.
Qed.

Lemma sorted_head_min : forall x s y, sorted (x :: s) -> In y (x :: s) -> x <= y.
Proof.
  intros x s y Hs [->|Hin]; [lia|]. inversion Hs as [|? ? _ Hall]; subst.
  rewrite Forall_forall in Hall. apply Hall in Hin. lia.
Qed.

(** ** nseq *)
Lemma nseq_In : forall n a x, In x (nseq a n) <-> a <= x < a + N.of_nat n.
Proof.
  induction n as [|n IH]; cbn [nseq In]; intros a x; [split; [tauto|lia]|].
  rewrite IH. split; [intros [?|?]|intros ?]; try lia.
Qed.

Lemma nseq_length : forall n a, length (nseq a n) = n.
Proof. induction n; cbn; intros; auto. Qed.

Lemma nseq_app : forall n m a, nseq a (n + m) = nseq a n ++ nseq (a + N.of_nat n) m.
Proof.
  induction n as [|n IH]; intros m a; cbn [nseq plus app].
  - f_equal. lia.
  - f_equal. rewrite IH. f_equal. f_equal. lia.
Qed.

Lemma nseq_snoc : forall n a, nseq a (S n) = nseq a n ++ [a + N.of_nat n].
Proof. intros. replace (S n) with (n + 1)%nat by lia. rewrite nseq_app. reflexivity. Qed.
