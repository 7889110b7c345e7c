(** Acknowledgements, duplicate filter and Bloom filter of an SSU2 session. *)
From Coq Require Import List NArith Bool Arith Lia ZArith ZifyBool ZifyNat ZifyN Sorting.Sorted.
From Verif Require Import ListUtil Bytes NMap PrimModel I2npModel Ntcp2Model TunnelModel Ssu2Model Ssu2Spec.
Import ListNotations.
Open Scope N_scope.

(** ** Maps given by their values *)
Lemma nmap_ext {V} : forall m1 m2 : nmap V, sorted (nkeys m1) -> sorted (nkeys m2) ->
  (forall k, nget k m1 = nget k m2) -> m1 = m2.
Proof.
  induction m1 as [|[k v] m1 IH]; intros [|[k' v'] m2] S1 S2 H; auto.
  - specialize (H k'). cbn in H. rewrite N.eqb_refl in H. discriminate.
  - specialize (H k). cbn in H. rewrite N.eqb_refl in H. discriminate.
  - assert (k = k') as <-.
    { assert (A : In k (nkeys ((k', v') :: m2))).
      { apply nget_Some_nkeys. rewrite <- H. cbn. rewrite N.eqb_refl. eauto. }
      assert (B : In k' (nkeys ((k, v) :: m1))).
      { apply nget_Some_nkeys. rewrite H. cbn. rewrite N.eqb_refl. eauto. }
      pose proof (sorted_head_min _ _ _ S1 B) as L1. pose proof (sorted_head_min _ _ _ S2 A) as L2. cbn [fst] in L1, L2. lia. }
    inversion S1 as [|? ? S1' F1]; subst. inversion S2 as [|? ? S2' F2]; subst.
    assert (v = v') as <-.
    { specialize (H k). cbn in H. rewrite N.eqb_refl in H. congruence. }
    f_equal. apply IH; auto. intros j. specialize (H j). cbn in H.
    destruct (N.eqb_spec j k) as [Ej|]; auto. rewrite Ej.
    assert (forall m : nmap V, Forall (N.lt k) (nkeys m) -> nget k m = None) as X.
    { intros m Hm. apply nget_None_nkeys. intros Hin. rewrite Forall_forall in Hm.
      apply Hm in Hin. lia. }
    now rewrite !X.
Qed.

Definition tab (f : N -> bool) (a : N) (n : nat) : nmap bool := map (fun p => (p, f p)) (nseq a n).
Lemma nget_tab f n : forall a k,
  nget k (tab f a n) = if (a <=? k) && (k <? a + N.of_nat n) then Some (f k) else None.
Proof.
  induction n; intros a k; cbn [tab nseq map nget].
  - destruct (N.leb_spec a k), (N.ltb_spec k (a + N.of_nat 0)); cbn [andb]; auto; lia.
  - destruct (N.eqb_spec k a) as [->|].
    + destruct (N.leb_spec a a), (N.ltb_spec a (a + N.of_nat (S n))); cbn [andb]; auto; lia.
    + fold (tab f (a + 1) n). rewrite IHn.
      destruct (N.leb_spec (a + 1) k), (N.leb_spec a k), (N.ltb_spec k (a + 1 + N.of_nat n)),
        (N.ltb_spec k (a + N.of_nat (S n))); cbn [andb]; auto; lia.
Qed.
Lemma nkeys_tab f n : forall a, nkeys (tab f a n) = nseq a n.
Proof. intros. unfold nkeys, tab. rewrite map_map. cbn [fst]. apply map_id. Qed.
Lemma nseq_sorted n : forall a, sorted (nseq a n).
Proof.
  unfold sorted. induction n; intros a; cbn [nseq]; constructor; auto.
  apply Forall_forall. intros x Hx. apply nseq_In in Hx. lia.
Qed.

Lemma nget_set_insert n v m k :
  nget k (set_insert n v m) =
  match nget k m with Some x => Some x | None => if k =? n then Some v else None end.
Proof.
  unfold set_insert, nhas. destruct (nget n m) eqn:E.
  - destruct (N.eqb_spec k n) as [->|]; [now rewrite E|]. now destruct (nget k m).
  - destruct (N.eqb_spec k n) as [->|]; [now rewrite nget_nput_same, E|].
    rewrite nget_nput_other by auto. now destruct (nget k m).
Qed.
Lemma sorted_set_insert n v m : sorted (nkeys m) -> sorted (nkeys (set_insert n v m)).
Proof. intros. unfold set_insert. destruct (nhas n m); auto. now apply nput_Sorted. Qed.
Lemma nget_fold_missing k : forall n a m,
  nget k (fold_left (fun m p => set_insert p false m) (nseq a n) m) =
  match nget k m with
  | Some x => Some x
  | None => if (a <=? k) && (k <? a + N.of_nat n) then Some false else None
  end.
Proof.
  induction n; intros a m; cbn [nseq fold_left].
  - destruct (nget k m); auto.
    destruct (N.leb_spec a k), (N.ltb_spec k (a + N.of_nat 0)); cbn [andb]; auto; lia.
  - rewrite IHn, nget_set_insert. destruct (nget k m); auto.
    destruct (N.eqb_spec k a) as [->|].
    + destruct (N.leb_spec a a), (N.ltb_spec a (a + N.of_nat (S n))); cbn [andb]; auto; lia.
    + destruct (N.leb_spec (a + 1) k), (N.leb_spec a k), (N.ltb_spec k (a + 1 + N.of_nat n)),
        (N.ltb_spec k (a + N.of_nat (S n))); cbn [andb]; auto; lia.
Qed.
Lemma sorted_fold_missing : forall n a m, sorted (nkeys m) ->
  sorted (nkeys (fold_left (fun m p => set_insert p false m) (nseq a n) m)).
Proof. induction n; intros a m H; cbn [nseq fold_left]; auto. apply IHn. now apply sorted_set_insert. Qed.

(** ** The manager knows exactly the packets up to the highest *)
Definition gotb (hist : list N) (p : N) : bool := (p =? 0) || smem p hist.
Lemma gotb_spec hist p : gotb hist p = true <-> got hist p.
Proof. unfold gotb, got. rewrite orb_true_iff, N.eqb_eq, smem_In. reflexivity. Qed.
Lemma gotb_false hist p : gotb hist p = false <-> ~ got hist p.
Proof. rewrite <- gotb_spec. destruct (gotb hist p); split; congruence. Qed.

Definition ack_inv (hist : list N) (a : ackmgr) : Prop :=
  sorted (nkeys (packets a)) /\
  (forall k, In k hist -> k <= highest_seen a) /\ got hist (highest_seen a) /\
  (hist = [] /\ packets a = [] \/
   forall k, nget k (packets a) = if k <=? highest_seen a then Some (gotb hist k) else None).

Lemma ack_inv_new : ack_inv [] ack_new.
Proof. repeat apply conj; try (constructor; fail); cbn; auto; try tauto. now left. Qed.

Lemma gotb_cons hist n k : gotb (n :: hist) k = (k =? n) || gotb hist k.
Proof. unfold gotb. cbn [smem]. destruct (k =? 0), (k =? n); auto. Qed.

Ltac bd := repeat match goal with
  | |- context [?a =? ?b] => destruct (N.eqb_spec a b)
  | |- context [?a <=? ?b] => destruct (N.leb_spec a b)
  | |- context [?a <? ?b] => destruct (N.ltb_spec a b)
  end.

Lemma register_inv hist a n : ack_inv hist a -> highest_seen a < 2 ^ 32 - 1 -> n < 2 ^ 32 - 1 ->
  exists a', register_pkt a n = Some a' /\ ack_inv (n :: hist) a' /\
    highest_seen a' = N.max (highest_seen a) n.
Proof.
  intros (S & Hmax & Hgot & Hform) Hh Hn. unfold register_pkt.
  set (h := highest_seen a) in *.
  destruct (N.eqb_spec h (2 ^ 32 - 1)); [lia|].
  assert (Hno : forall k, h < k -> gotb hist k = false).
  { intros k Hk. apply gotb_false. intros [->|Hi]; [lia|]. apply Hmax in Hi. lia. }
  assert (Hgh : gotb hist h = true) by now apply gotb_spec.
  destruct (N.eqb_spec (h + 1) n) as [E|E].
  - eexists. split; [reflexivity|]. cbn [highest_seen packets]. split; [|lia].
    repeat apply conj; cbn [highest_seen packets].
    + now repeat apply sorted_set_insert.
    + intros k [->|Hk]; [lia|]. apply Hmax in Hk. lia.
    + right. now left.
    + right. intros k. rewrite !nget_set_insert, gotb_cons.
      destruct Hform as [[-> P]|F].
      * rewrite P. cbn [nget]. assert (h = 0) by (destruct Hgot as [|[]]; auto).
        unfold gotb. cbn [smem]. bd; cbn [orb]; auto; try lia.
      * rewrite F. bd; cbn [orb]; auto; try lia.
        all: try (assert (k = h) by lia; congruence).
  - destruct (N.ltb_spec (h + 1) n) as [L|L]; cbn [highest_seen packets].
    + destruct (N.eqb_spec n (2 ^ 32 - 1)); [lia|].
      destruct (N.ltb_spec n (n + 1)); [|lia].
      eexists. split; [reflexivity|]. cbn [highest_seen packets]. split; [|lia].
      repeat apply conj; cbn [highest_seen packets].
      * now apply sorted_set_insert, ndel_Sorted, sorted_set_insert, sorted_fold_missing.
      * intros k [->|Hk]; [lia|]. apply Hmax in Hk. lia.
      * right. now left.
      * right. intros k. rewrite nget_set_insert, gotb_cons.
        destruct (N.eqb_spec k n) as [->|Hkn].
        -- rewrite nget_ndel_same. cbn [orb]. bd; auto; lia.
        -- rewrite nget_ndel_other by auto. rewrite nget_set_insert, nget_fold_missing. cbn [orb].
           destruct Hform as [[-> P]|F].
           ++ rewrite P. cbn [nget]. assert (h = 0) by (destruct Hgot as [|[]]; auto).
              unfold gotb. cbn [smem]. bd; cbn [orb andb]; auto; try lia.
           ++ rewrite F. bd; cbn [orb andb]; auto; try lia.
              all: try (rewrite Hno by lia; reflexivity).
    + fold h. destruct (N.eqb_spec h (2 ^ 32 - 1)); [lia|].
      destruct (N.ltb_spec n (h + 1)); [|lia].
      eexists. split; [reflexivity|]. cbn [highest_seen packets]. split; [|lia].
      repeat apply conj; cbn [highest_seen packets].
      * now apply sorted_set_insert, ndel_Sorted.
      * intros k [->|Hk]; [lia|]. apply Hmax in Hk. lia.
      * destruct Hgot as [|]; [now left|right; now right].
      * right. intros k. rewrite nget_set_insert, gotb_cons.
        destruct (N.eqb_spec k n) as [->|Hkn].
        -- rewrite nget_ndel_same. cbn [orb]. bd; auto; lia.
        -- rewrite nget_ndel_other by auto. cbn [orb].
           destruct Hform as [[-> P]|F].
           ++ rewrite P. cbn [nget]. assert (h = 0) by (destruct Hgot as [|[]]; auto).
              unfold gotb. cbn [smem]. bd; cbn [orb andb]; auto; try lia.
           ++ rewrite F. bd; auto.
Qed.

Lemma register_all_inv : forall hist0 hist a, ack_inv hist0 a -> highest_seen a < 2 ^ 32 - 1 ->
  Forall (fun n => n < 2 ^ 32 - 1) hist ->
  exists a', register_all a hist = Some a' /\ ack_inv (rev hist ++ hist0) a' /\
    highest_seen a' < 2 ^ 32 - 1.
Proof.
  intros hist0 hist. revert hist0. induction hist as [|n hist IH]; intros hist0 a I H F.
  - exists a. auto.
  - inversion F; subst. destruct (register_inv hist0 a n) as (a1 & E & I1 & M); auto.
    cbn [register_all]. rewrite E. destruct (IH _ _ I1) as (a' & E' & I' & H'); auto; [lia|].
    exists a'. split; [exact E'|]. split; [|exact H']. cbn [rev]. now rewrite <- app_assoc.
Qed.
(** ** Reading the list from the top *)
Definition dn (n : nat) : list N := rev (nseq 0 n).
Lemma dn_S n : dn (S n) = N.of_nat n :: dn n.
Proof. unfold dn. rewrite nseq_snoc, rev_app_distr. cbn. f_equal. Qed.
Definition tabd (f : N -> bool) (n : nat) : list (N * bool) := map (fun p => (p, f p)) (dn n).
Lemma tabd_S f n : tabd f (S n) = (N.of_nat n, f (N.of_nat n)) :: tabd f n.
Proof. unfold tabd. now rewrite dn_S. Qed.

Lemma count_acks_spec f n : forall h i, N.of_nat n + i = h ->
  exists c, count_acks h i (tabd f n) = c /\ c <= N.of_nat n /\
    (forall p, N.of_nat n - c <= p < N.of_nat n -> f p = true) /\
    (c = N.of_nat n \/ f (N.of_nat n - c - 1) = false).
Proof.
  induction n; intros h i H.
  - exists 0. repeat apply conj; auto; cbn; lia.
  - rewrite tabd_S. cbn [count_acks]. destruct (f (N.of_nat n)) eqn:E.
    + destruct (N.eqb_spec h (N.of_nat n + i + 1)); [|lia].
      destruct (IHn h (i + 1)) as (c & E1 & L & A & B); [lia|].
      rewrite E1. exists (1 + c). repeat apply conj; auto; try lia.
      * intros p Hp. destruct (N.eq_dec p (N.of_nat n)) as [->|]; auto. apply A. lia.
      * destruct B as [B|B]; [left; lia|right]. rewrite <- B. f_equal. lia.
    + exists 0. repeat apply conj; auto; try lia. right. rewrite <- E. f_equal. lia.
Qed.
Lemma past_missing_spec f n :
  (past_missing (tabd f n) = None /\ forall p, p < N.of_nat n -> f p = true) \/
  exists q, (q < n)%nat /\ past_missing (tabd f n) = Some (tabd f q) /\ f (N.of_nat q) = false /\
    forall p, N.of_nat q < p < N.of_nat n -> f p = true.
Proof.
  induction n; [left; split; auto; lia|]. rewrite tabd_S. cbn [past_missing].
  destruct (f (N.of_nat n)) eqn:E.
  - destruct IHn as [[A B]|(q & L & A & B & C)].
    + left. split; auto. intros p Hp. destruct (N.eq_dec p (N.of_nat n)) as [->|]; auto. apply B. lia.
    + right. exists q. repeat apply conj; auto. intros p Hp.
      destruct (N.eq_dec p (N.of_nat n)) as [->|]; auto. apply C. lia.
  - right. exists n. repeat apply conj; auto. intros. lia.
Qed.

Section Runs.
Variable f : N -> bool.
Variable high : N.
Hypothesis Hf : forall q a, f q = false -> q <= a -> a + 255 <= high ->
  (exists p, a <= p <= a + 255 /\ f p = true) /\ (exists p, a <= p <= a + 255 /\ f p = false).

Lemma short_missing n cur : N.of_nat n + cur <= high + 1 ->
  (forall p, N.of_nat n <= p < N.of_nat n + cur -> f p = false) -> cur <= 255.
Proof.
  intros H A. destruct (N.leb_spec cur 255); auto. exfalso.
  destruct (Hf (N.of_nat n) (N.of_nat n)) as [(p & Hp & T) _]; try lia; [apply A; lia|].
  rewrite A in T by lia. discriminate.
Qed.
Lemma short_received n cur : N.of_nat (S n) + cur <= high + 1 -> f (N.of_nat n) = false ->
  (forall p, N.of_nat (S n) <= p < N.of_nat (S n) + cur -> f p = true) -> cur <= 255.
Proof.
  intros H M A. destruct (N.leb_spec cur 255); auto. exfalso.
  destruct (Hf (N.of_nat n) (N.of_nat (S n))) as [_ (p & Hp & T)]; try lia.
  rewrite A in T by lia. discriminate.
Qed.

Lemma ranges_sound n :
  (forall cur p, 1 <= cur -> N.of_nat n + cur <= high + 1 ->
     (forall p, N.of_nat n <= p < N.of_nat n + cur -> f p = false) ->
     in_ranges (N.of_nat n + cur) (ack_pairs (run_lengths cur false (tabd f n))) p = true ->
     p < N.of_nat n /\ f p = true) /\
  (forall cur k p, 1 <= cur -> k <= 255 -> N.of_nat n + cur <= high + 1 ->
     (forall p, N.of_nat n <= p < N.of_nat n + cur -> f p = true) ->
     in_ranges (N.of_nat n + cur + k) (ack_pairs (k :: run_lengths cur true (tabd f n))) p = true ->
     p < N.of_nat n + cur /\ f p = true).
Proof.
  induction n as [|n [IH1 IH2]]; split.
  - intros cur p H1 H2 A. cbn [tabd dn nseq rev map run_lengths ack_pairs in_ranges]. bd; cbn; try discriminate; lia.
  - intros cur k p H1 Hk H2 A. cbn [tabd dn nseq rev map run_lengths ack_pairs in_ranges].
    intros H. assert (p < cur) by (revert H; bd; cbn; try discriminate; lia).
    split; [lia|]. apply A. lia.
  - intros cur p H1 H2 A H. rewrite tabd_S in H. cbn [run_lengths] in H.
    assert (C : cur <= 255) by (eapply short_missing; eauto).
    destruct (f (N.of_nat n)) eqn:E; cbn [Bool.eqb] in H.
    + replace (N.of_nat (S n) + cur) with (N.of_nat n + 1 + cur) in H by lia.
      apply IH2 in H; try lia.
      * intros q Hq. now replace q with (N.of_nat n) by lia.
    + replace (N.of_nat (S n) + cur) with (N.of_nat n + (cur + 1)) in H by lia.
      apply IH1 in H; try lia. intros q Hq. destruct (N.eq_dec q (N.of_nat n)) as [->|]; auto.
      apply A. lia.
  - intros cur k p H1 Hk H2 A H. rewrite tabd_S in H. cbn [run_lengths] in H.
    destruct (f (N.of_nat n)) eqn:E; cbn [Bool.eqb] in H.
    + replace (N.of_nat (S n) + cur) with (N.of_nat n + (cur + 1)) in H by lia.
      apply IH2 in H; try lia. intros q Hq. destruct (N.eq_dec q (N.of_nat n)) as [->|]; auto.
      apply A. lia.
    + assert (C : cur <= 255) by (eapply short_received; eauto).
      cbn [ack_pairs in_ranges] in H.
      replace (N.of_nat (S n) + cur + k - N.min k 255) with (N.of_nat (S n) + cur) in H by lia.
      replace (N.of_nat (S n) + cur - N.min cur 255) with (N.of_nat n + 1) in H by lia.
      apply orb_true_iff in H as [H|H].
      * split; [lia|]. apply A. lia.
      * apply IH1 in H; try lia. intros q Hq. now replace q with (N.of_nat n) by lia.
Qed.

Lemma ranges_complete n :
  (forall cur p q, 1 <= cur -> N.of_nat n + cur <= high + 1 ->
     (forall p, N.of_nat n <= p < N.of_nat n + cur -> f p = false) ->
     q < p -> f q = false -> p < N.of_nat n -> f p = true ->
     in_ranges (N.of_nat n + cur) (ack_pairs (run_lengths cur false (tabd f n))) p = true) /\
  (forall cur k p q, 1 <= cur -> k <= 255 -> N.of_nat n + cur <= high + 1 ->
     (forall p, N.of_nat n <= p < N.of_nat n + cur -> f p = true) ->
     q < p -> f q = false -> p < N.of_nat n + cur -> f p = true ->
     in_ranges (N.of_nat n + cur + k) (ack_pairs (k :: run_lengths cur true (tabd f n))) p = true).
Proof.
  induction n as [|n [IH1 IH2]]; split.
  - lia.
  - intros cur k p q H1 Hk H2 A Hq Fq Hp Fp. rewrite A in Fq by lia. discriminate.
  - intros cur p q H1 H2 A Hq Fq Hp Fp. rewrite tabd_S. cbn [run_lengths].
    assert (C : cur <= 255) by (eapply short_missing; eauto).
    destruct (f (N.of_nat n)) eqn:E; cbn [Bool.eqb].
    + replace (N.of_nat (S n) + cur) with (N.of_nat n + 1 + cur) by lia.
      apply (IH2 1 cur p q); auto; try lia. intros r Hr. now replace r with (N.of_nat n) by lia.
    + replace (N.of_nat (S n) + cur) with (N.of_nat n + (cur + 1)) by lia.
      apply (IH1 (cur + 1) p q); auto; try lia.
      * intros r Hr. destruct (N.eq_dec r (N.of_nat n)) as [->|]; auto. apply A. lia.
      * destruct (N.eq_dec p (N.of_nat n)) as [->|]; [congruence|lia].
  - intros cur k p q H1 Hk H2 A Hq Fq Hp Fp. rewrite tabd_S. cbn [run_lengths].
    destruct (f (N.of_nat n)) eqn:E; cbn [Bool.eqb].
    + replace (N.of_nat (S n) + cur) with (N.of_nat n + (cur + 1)) by lia.
      apply (IH2 (cur + 1) k p q); auto; try lia.
      intros r Hr. destruct (N.eq_dec r (N.of_nat n)) as [->|]; auto. apply A. lia.
    + assert (C : cur <= 255) by (eapply short_received; eauto).
      cbn [ack_pairs in_ranges].
      replace (N.of_nat (S n) + cur + k - N.min k 255) with (N.of_nat (S n) + cur) by lia.
      replace (N.of_nat (S n) + cur - N.min cur 255) with (N.of_nat n + 1) by lia.
      apply orb_true_iff. destruct (N.leb_spec (N.of_nat n + 1) p); [left; lia|right].
      apply (IH1 1 p q); auto; try lia.
      * intros r Hr. now replace r with (N.of_nat n) by lia.
      * destruct (N.eq_dec p (N.of_nat n)) as [->|]; [congruence|lia].
Qed.
End Runs.

(** ** What [ack_info] says *)
Lemma packets_tab hist a : ack_inv hist a ->
  hist = [] /\ packets a = [] /\ highest_seen a = 0 \/
  rev (packets a) = tabd (gotb hist) (S (N.to_nat (highest_seen a))).
Proof.
  intros (S & _ & G & [[-> P]|F]); [left|right].
  - destruct G as [|[]]; auto.
  - assert (packets a = tab (gotb hist) 0 (Datatypes.S (N.to_nat (highest_seen a)))) as ->.
    { apply nmap_ext; auto.
      - rewrite nkeys_tab. apply nseq_sorted.
      - intros k. rewrite F, nget_tab. bd; cbn [andb]; auto; lia. }
    unfold tab, tabd, dn. now rewrite map_rev.
Qed.

Lemma ack_info_first hist a through num ranges : ack_inv hist a ->
  ack_info a = (through, num, ranges) ->
  through = highest_seen a /\ num <= 255 /\ num <= through /\
  forall p, through - num <= p <= through -> got hist p.
Proof.
  intros I E. pose proof I as (_ & _ & G & _). destruct (packets_tab _ _ I) as [(-> & P & E0)|P].
  - unfold ack_info in E. rewrite P, E0 in E. cbn in E.
    assert (through = 0 /\ num = 0) as [-> ->] by (split; congruence).
    rewrite E0. repeat apply conj; try lia. intros p Hp. left. lia.
  - unfold ack_info in E. rewrite P in E. rewrite tabd_S in E. cbn [skipn] in E.
    destruct (count_acks_spec (gotb hist) (N.to_nat (highest_seen a)) (highest_seen a) 0)
      as (c & Ec & L & A & _); [lia|]. rewrite Ec in E.
    assert (through = highest_seen a /\ num = N.min c 255) as [-> ->]
      by (destruct (past_missing _); split; congruence).
    repeat apply conj; try lia. intros p Hp. destruct (N.eq_dec p (highest_seen a)) as [->|]; auto.
    apply gotb_spec, A. lia.
Qed.

Lemma ack_info_sound hist a : ack_inv hist a -> short_runs hist (highest_seen a) ->
  (forall p, ack_says (ack_info a) p = true -> got hist p) /\
  (forall p q, q < p -> ~ got hist q -> got hist p -> p <= highest_seen a -> ack_says (ack_info a) p = true).
Proof.
  intros I SR. pose proof I as (_ & _ & G & _). destruct (packets_tab _ _ I) as [(-> & P & E0)|P].
  - unfold ack_info. rewrite P, E0. cbn [rev skipn count_acks past_missing ack_says in_ranges].
    split.
    + intros p H. left. revert H. bd; cbn; try discriminate; lia.
    + intros p q Hq _ _ Hp. lia.
  - assert (HF : forall q a0, gotb hist q = false -> q <= a0 -> a0 + 255 <= highest_seen a ->
      (exists p, a0 <= p <= a0 + 255 /\ gotb hist p = true) /\
      (exists p, a0 <= p <= a0 + 255 /\ gotb hist p = false)).
    { intros q a0 Hq L1 L2. destruct (SR q a0) as [(p1 & H1 & T1) (p2 & H2 & T2)]; auto.
      - now apply gotb_false.
      - split; [exists p1|exists p2]; split; auto; [now apply gotb_spec|now apply gotb_false]. }
    set (h := highest_seen a) in *. set (f := gotb hist) in *.
    assert (Gh : f h = true) by now apply gotb_spec.
    destruct (count_acks_spec f (N.to_nat h) h 0) as (c & Ec & L & A & B); [lia|].
    unfold ack_info. rewrite P. fold h.
    replace (skipn 1 (tabd f (S (N.to_nat h)))) with (tabd f (N.to_nat h)) by now rewrite tabd_S.
    rewrite Ec.
    destruct (past_missing_spec f (S (N.to_nat h))) as [[Hp All]|(m & Lm & Hp & Fm & Above)]; rewrite Hp.
    + cbn [ack_says in_ranges]. split.
      * intros p H. apply gotb_spec. apply All. lia.
      * intros p q Hq Nq _ Lp. exfalso. apply Nq. apply gotb_spec. apply All. lia.
    + (* the first missing packet is right below the first run *)
      assert (Em : N.of_nat m = h - c - 1 /\ c < h).
      { destruct B as [B|B].
        - exfalso. destruct (N.eq_dec (N.of_nat m) h) as [X|X]; [congruence|].
          rewrite A in Fm by lia. discriminate.
        - rewrite N2Nat.id in *. destruct (N.eq_dec c h) as [->|].
          + destruct (N.eq_dec (N.of_nat m) h) as [X|X]; [congruence|].
            rewrite A in Fm by lia. discriminate.
          + split; [|lia]. destruct (N.lt_trichotomy (N.of_nat m) (h - c - 1)) as [T|[T|T]]; auto.
            * rewrite Above in B by lia. discriminate.
            * exfalso. destruct (N.eq_dec (N.of_nat m) h) as [X|X]; [congruence|].
              rewrite A in Fm by lia. discriminate. }
      destruct Em as [Em Lc].
      assert (C : c <= 255).
      { destruct (N.leb_spec c 255); auto. exfalso.
        destruct (HF (N.of_nat m) (N.of_nat (S m))) as [_ (p & Hp' & T)]; auto; try lia.
        rewrite A in T by lia. discriminate. }
      assert (M1 : forall p, N.of_nat m <= p < N.of_nat m + 1 -> f p = false)
        by (intros p X; now replace p with (N.of_nat m) by lia).
      cbn [ack_says]. rewrite N.min_l by lia.
      replace (h - c) with (N.of_nat m + 1) by lia.
      split.
      * intros p H. apply gotb_spec. apply orb_true_iff in H as [H|H].
        -- destruct (N.eq_dec p h) as [->|]; auto. apply A. lia.
        -- now apply (proj1 (ranges_sound f h HF m)) in H; auto; try lia.
      * intros p q Hq Nq Gp Lp. apply orb_true_iff.
        destruct (N.leb_spec (N.of_nat m + 1) p); [left; lia|right].
        apply gotb_false in Nq. apply gotb_spec in Gp. fold f in Nq, Gp.
        apply (proj1 (ranges_complete f h HF m) 1 p q); auto; try lia.
        destruct (N.eq_dec p (N.of_nat m)) as [->|]; [congruence|lia].
Qed.

(** ** Duplicate filter *)
Lemma dup_run_app d a b : dup_run d (a ++ b) = dup_run (dup_run d a) b.
Proof. unfold dup_run. apply fold_left_app. Qed.
Lemma monotone_app {A} : forall (a b : list (N * A)) s, monotone s (a ++ b) ->
  monotone s a /\ (forall t, s <= t -> (forall x, In x a -> fst x <= t) -> b = [] \/ monotone s b).
Proof.
  induction a as [|[t o] a IH]; intros b s H; cbn [app monotone] in *; [split; auto|].
  destruct H as [H1 H2]. destruct (IH _ _ H2) as [H3 H4]. split; [split; auto|].
  intros t' Ht' Hall. destruct (H4 (N.max t t')) as [->|H5]; auto; try lia.
  - intros x Hx. specialize (Hall x (or_intror Hx)). lia.
  - right. destruct b as [|[u o'] b]; auto. cbn [monotone] in *. split; [lia|tauto].
Qed.
Lemma monotone_In {A} : forall (ops : list (N * A)) s x, monotone s ops -> In x ops -> s <= fst x.
Proof.
  induction ops as [|[t o] ops IH]; intros s x H Hin; [destruct Hin|]. cbn [monotone] in H.
  destruct H as [H1 H2]. destruct Hin as [<-|Hin]; [exact H1|]. specialize (IH _ _ H2 Hin). lia.
Qed.
Lemma monotone_split {A} : forall (a : list (N * A)) x b s, monotone s (a ++ x :: b) ->
  monotone s a /\ s <= fst x /\ monotone (fst x) b /\ (forall y, In y a -> fst y <= fst x).
Proof.
  induction a as [|[t o] a IH]; intros [u o'] b s H; cbn [app monotone fst] in *.
  - repeat apply conj; try tauto. intros y [].
  - destruct H as [H1 H2]. destruct (IH _ _ _ H2) as (A1 & A2 & A3 & A4). cbn [fst] in *.
    repeat apply conj; auto; [lia|]. intros y [<-|Hy]; auto.
Qed.

Definition polls_below (t : N) (ops : list (N * dop)) : Prop :=
  forall p, In (p, DPoll) ops -> p < t.
(** Why [id] is in the current, or in the previous generation. *)
Definition why_current (start : N) (ops : list (N * dop)) (timer id : N) : Prop :=
  exists pre t mid, ops = pre ++ (t, DInsert id) :: mid /\ lets_through start pre id = true /\
    timer <= t + minute /\ polls_below timer mid.
Definition why_previous (start : N) (ops : list (N * dop)) (timer id : N) : Prop :=
  exists pre t mid1 q mid2, ops = pre ++ (t, DInsert id) :: mid1 ++ (q, DPoll) :: mid2 /\
    lets_through start pre id = true /\ polls_below (t + minute) mid1 /\ timer = q + minute /\
    polls_below timer mid2.
Definition dup_inv (start : N) (ops : list (N * dop)) (d : dupfilter) : Prop :=
  (exists t, d_timer d = t + minute /\ start <= t /\ forall s x, monotone start (ops ++ [(s, x)]) -> t <= s) /\
  (forall id, In id (d_current d) -> why_current start ops (d_timer d) id) /\
  (forall id, In id (d_previous d) -> why_previous start ops (d_timer d) id).

Lemma polls_below_snoc t ops o : polls_below t ops -> (forall p, o = (p, DPoll) -> p < t) ->
  polls_below t (ops ++ [o]).
Proof.
  intros H1 H2 p Hp. apply in_app_iff in Hp as [Hp|[Hp|[]]]; auto.
Qed.

Lemma dup_inv_run start : forall ops, monotone start ops -> dup_inv start ops (dup_run (dup_new start) ops).
Proof.
  intros ops. induction ops as [|[t o] ops IH] using rev_ind; intros M.
  - repeat apply conj.
    + exists start. repeat apply conj; try reflexivity. intros s x [H _]. exact H.
    + intros id [].
    + intros id [].
  - destruct (monotone_split _ _ _ _ M) as (M1 & _ & _ & _).
    specialize (IH M1). rewrite dup_run_app. set (d := dup_run (dup_new start) ops) in *.
    destruct IH as ((t0 & T1 & T0 & T2) & C & P).
    assert (Tt : t0 <= t) by (apply (T2 t o); exact M).
    cbn [dup_run fold_left dup_step snd fst]. destruct o as [id|].
    + unfold dup_step. cbn [snd fst]. unfold dup_insert at 1.
      assert (Cext : forall i, why_current start ops (d_timer d) i -> why_current start (ops ++ [(t, DInsert id)]) (d_timer d) i).
      { intros i (pre & u & mid & -> & L & Tu & B). exists pre, u, (mid ++ [(t, DInsert id)]).
        rewrite <- app_assoc. repeat apply conj; auto. apply polls_below_snoc; auto. discriminate. }
      assert (Pext : forall i, why_previous start ops (d_timer d) i -> why_previous start (ops ++ [(t, DInsert id)]) (d_timer d) i).
      { intros i (pre & u & mid1 & q & mid2 & E & L & B1 & Tu & B2).
        exists pre, u, mid1, q, (mid2 ++ [(t, DInsert id)]).
        rewrite E. repeat apply conj; auto.
        - rewrite <- !app_assoc. cbn [app]. rewrite <- !app_assoc. reflexivity.
        - apply polls_below_snoc; auto. discriminate. }
      assert (Tnew : exists t1, d_timer d = t1 + minute /\ start <= t1 /\
                forall s x, monotone start ((ops ++ [(t, DInsert id)]) ++ [(s, x)]) -> t1 <= s).
      { exists t0. repeat apply conj; auto. intros s x Hm.
        destruct (monotone_split _ _ _ _ Hm) as (_ & _ & _ & Ha).
        specialize (Ha (t, DInsert id)). cbn [fst] in Ha.
        assert (t <= s) by (apply Ha, in_app_iff; right; now left). lia. }
      destruct (smem id (d_current d) || smem id (d_previous d)) eqn:E; cbn [fst].
      * repeat apply conj; auto.
      * repeat apply conj; cbn [d_timer d_current d_previous]; auto.
        intros i Hi. apply sadd_In in Hi as [->|Hi]; auto.
        exists ops, t, []. repeat apply conj; auto.
        -- unfold lets_through. fold d. unfold dup_insert. now rewrite E.
        -- lia.
        -- intros p [].
    + unfold dup_step. cbn [snd fst]. unfold dup_poll.
      destruct (N.ltb_spec t (d_timer d)) as [Lt|Lt].
      * repeat apply conj.
        -- exists t0. repeat apply conj; auto. intros s x Hm.
           destruct (monotone_split _ _ _ _ Hm) as (_ & _ & _ & Ha).
           specialize (Ha (t, DPoll)). cbn [fst] in Ha.
           assert (t <= s) by (apply Ha, in_app_iff; right; now left). lia.
        -- intros i Hi. destruct (C i Hi) as (pre & u & mid & -> & L & Tu & B).
           exists pre, u, (mid ++ [(t, DPoll)]). rewrite <- app_assoc. repeat apply conj; auto.
           apply polls_below_snoc; auto. intros p Hp. injection Hp as <-. exact Lt.
        -- intros i Hi. destruct (P i Hi) as (pre & u & mid1 & q & mid2 & E & L & B1 & Tu & B2).
           exists pre, u, mid1, q, (mid2 ++ [(t, DPoll)]). rewrite E. repeat apply conj; auto.
           ++ rewrite <- !app_assoc. cbn [app]. rewrite <- !app_assoc. reflexivity.
           ++ apply polls_below_snoc; auto. intros p Hp. injection Hp as <-. exact Lt.
      * repeat apply conj; cbn [d_timer d_current d_previous].
        -- exists t. change decay_interval with minute. repeat apply conj; auto; [lia|]. intros s x Hm.
           destruct (monotone_split _ _ _ _ Hm) as (_ & _ & _ & Ha).
           specialize (Ha (t, DPoll)). cbn [fst] in Ha.
           apply Ha, in_app_iff. right. now left.
        -- intros i [].
        -- intros i Hi. destruct (C i Hi) as (pre & u & mid & -> & L & Tu & B).
           exists pre, u, mid, t, []. rewrite <- app_assoc. repeat apply conj; auto.
           ++ intros p Hp. apply B in Hp. lia.
           ++ intros p [].
Qed.

Lemma dup_insert_false d id : snd (dup_insert d id) = false <-> In id (d_current d) \/ In id (d_previous d).
Proof.
  unfold dup_insert. rewrite <- !smem_In.
  destruct (smem id (d_current d)), (smem id (d_previous d)); cbn; intuition discriminate.
Qed.

(** A rejected message was let through before, and since then the filter was not polled at two
    moments a minute apart. *)
Lemma dup_reject_why start ops id : monotone start ops -> lets_through start ops id = false ->
  exists pre t mid, ops = pre ++ (t, DInsert id) :: mid /\ lets_through start pre id = true /\
    ~ polled_twice t mid.
Proof.
  intros M H. pose proof (dup_inv_run start ops M) as (_ & C & P).
  apply dup_insert_false in H as [H|H].
  - destruct (C id H) as (pre & t & mid & E & L & T & B). exists pre, t, mid. repeat apply conj; auto.
    intros (a & p1 & b & p2 & c & E' & H1 & H2). specialize (B p1).
    assert (p1 < d_timer (dup_run (dup_new start) ops)); [|lia].
    apply B. rewrite E'. apply in_app_iff. right. now left.
  - destruct (P id H) as (pre & t & mid1 & q & mid2 & E & L & B1 & T & B2).
    exists pre, t, (mid1 ++ (q, DPoll) :: mid2). repeat apply conj; auto.
    intros (a & p1 & b & p2 & c & E' & H1 & H2).
    rewrite E in M. rewrite app_comm_cons, app_assoc in M.
    destruct (monotone_split _ _ _ _ M) as (_ & _ & M2 & _). cbn [fst] in M2.
    (* p1 is not in mid1 *)
    assert (Hp1 : exists l, (q, DPoll) :: mid2 = l ++ (p1, DPoll) :: b ++ (p2, DPoll) :: c).
    { apply app_eq_app in E'. destruct E' as (l & [[E1 E2]|[E1 E2]]).
      - destruct l as [|x l].
        + exists []. cbn [app] in *. auto.
        + cbn [app] in E2. assert (x = (p1, DPoll)) as -> by congruence.
          specialize (B1 p1). assert (p1 < t + minute); [|lia].
          apply B1. rewrite E1. apply in_app_iff. right. now left.
      - exists l. exact E2. }
    destruct Hp1 as (l & El).
    assert (Q : q <= p1 /\ In (p2, DPoll) mid2).
    { destruct l as [|x l]; cbn [app] in El.
      - assert (q = p1) by congruence. assert (mid2 = b ++ (p2, DPoll) :: c) as -> by congruence.
        split; [lia|]. apply in_app_iff. right. now left.
      - assert (mid2 = l ++ (p1, DPoll) :: b ++ (p2, DPoll) :: c) as X by congruence. split.
        + apply (monotone_In _ _ (p1, DPoll) M2). rewrite X. apply in_app_iff. right. now left.
        + rewrite X. apply in_app_iff. right. right. apply in_app_iff. right. now left. }
    destruct Q as [Q1 Q2]. apply B2 in Q2. lia.
Qed.

(** A message let through at [t] is rejected while all polls happen before [t + minute]. *)
Lemma dup_keeps start pre t id mid : monotone start (pre ++ (t, DInsert id) :: mid) ->
  lets_through start pre id = true -> polls_below (t + minute) mid ->
  lets_through start (pre ++ (t, DInsert id) :: mid) id = false.
Proof.
  intros M L B. apply dup_insert_false.
  change (pre ++ (t, DInsert id) :: mid) with (pre ++ [(t, DInsert id)] ++ mid) in *.
  rewrite app_assoc, dup_run_app.
  set (d := dup_run (dup_new start) (pre ++ [(t, DInsert id)])).
  assert (Hd : In id (d_current d)).
  { subst d. rewrite dup_run_app. unfold lets_through in L. cbn [dup_run fold_left].
    unfold dup_step. cbn [snd fst]. fold (dup_run (dup_new start) pre). revert L. unfold dup_insert.
    destruct (smem id _ || smem id _); cbn [fst snd]; [discriminate|]. intros _.
    cbn [d_current]. apply sadd_In. now left. }
  rewrite app_assoc in M.
  assert (Mm : monotone t mid).
  { rewrite <- app_assoc in M. destruct (monotone_split _ _ _ _ M) as (_ & _ & M2 & _). exact M2. }
  clear L. clearbody d. clear M.
  (* either still current, or previous with a timer beyond the window *)
  assert (X : In id (d_current (dup_run d mid)) \/
              In id (d_previous (dup_run d mid)) /\ t + minute <= d_timer (dup_run d mid)).
  { clear pre. induction mid as [|[s o] mid IH] using rev_ind; [now left|].
    destruct (monotone_split _ _ _ _ Mm) as (M1 & Ms & _ & _). cbn [fst] in Ms.
    assert (B1 : polls_below (t + minute) mid) by (intros p Hp; apply B, in_app_iff; now left).
    specialize (IH B1 M1). rewrite dup_run_app. set (d1 := dup_run d mid) in *.
    cbn [dup_run fold_left]. unfold dup_step. cbn [snd fst]. destruct o as [i|].
    - unfold dup_insert. destruct (smem i (d_current d1) || smem i (d_previous d1)); cbn [fst]; auto.
      cbn [d_current d_previous d_timer]. destruct IH as [IH|IH]; auto. left. apply sadd_In. now right.
    - assert (s < t + minute) by (apply B, in_app_iff; right; now left).
      unfold dup_poll. destruct (N.ltb_spec s (d_timer d1)); auto. cbn [d_current d_previous d_timer].
      right. destruct IH as [IH|[_ IH]]; [|lia]. split; auto. change decay_interval with minute. lia. }
  tauto.
Qed.

(** ** Bloom filter *)
Section Bloom.
Variable bits : bytes -> list N.
Lemma accrue_In : forall l f b, In b (fold_left (fun f b => sadd b f) l f) <-> In b l \/ In b f.
Proof.
  induction l as [|x l IH]; intros f b; cbn [fold_left In]; [tauto|]. rewrite IH, sadd_In. intuition.
Qed.
Lemma contains_spec f x : bloom_contains bits f x = true <-> forall b, In b (bits x) -> In b f.
Proof.
  unfold bloom_contains. rewrite forallb_forall. split; intros H b Hb.
  - now apply smem_In, H.
  - now apply smem_In, H.
Qed.
Lemma bloom_keeps ops1 ops2 x : is_new bits ops1 x = true -> (decays ops2 <= 1)%nat ->
  is_new bits (ops1 ++ BInsert x :: ops2) x = false.
Proof.
  unfold is_new, bloom_run. rewrite fold_left_app. cbn [fold_left].
  set (b0 := fold_left (bloom_step bits) ops1 bloom_new). intros Hn Hd.
  cbn [bloom_step]. set (b1 := fst (bloom_insert bits b0 x)).
  assert (H1 : bloom_contains bits (b_current b1) x = true).
  { subst b1. revert Hn. unfold bloom_insert. destruct (_ || _); cbn [fst snd]; [discriminate|].
    intros _. cbn [b_current]. apply contains_spec. intros b Hb. apply accrue_In. now left. }
  clearbody b1. clear Hn.
  assert (X : (decays ops2 = 0%nat -> bloom_contains bits (b_current (fold_left (bloom_step bits) ops2 b1)) x = true)
     /\ (decays ops2 = 1%nat -> bloom_contains bits (b_previous (fold_left (bloom_step bits) ops2 b1)) x = true)).
  { clear Hd. induction ops2 as [|o ops2 IH] using rev_ind; [split; [auto|discriminate]|].
    rewrite fold_left_app. cbn [fold_left]. unfold decays in *. rewrite filter_app, app_length.
    set (b2 := fold_left (bloom_step bits) ops2 b1) in *. destruct IH as [IH0 IH1].
    destruct o as [y|]; cbn [filter length bloom_step]; rewrite ?Nat.add_0_r.
    - unfold bloom_insert. destruct (_ || _); cbn [fst]; auto. cbn [b_current b_previous]. split; auto.
      intros H. specialize (IH0 H). rewrite contains_spec in IH0. apply contains_spec.
      intros b Hb. apply accrue_In. right. auto.
    - cbn [bloom_decay b_current b_previous]. split; [lia|]. intros H. apply IH0. lia. }
  set (b2 := fold_left (bloom_step bits) ops2 b1) in *. unfold bloom_insert.
  destruct (decays ops2) as [|[|]]; [rewrite (proj1 X) by auto|rewrite (proj2 X) by auto|lia];
    rewrite ?orb_true_r; reflexivity.
Qed.

Lemma bloom_bits_why : forall ops,
  (forall b, In b (b_current (bloom_run bits bloom_new ops)) ->
     exists pre y mid, ops = pre ++ BInsert y :: mid /\ is_new bits pre y = true /\
       decays mid = 0%nat /\ In b (bits y)) /\
  (forall b, In b (b_previous (bloom_run bits bloom_new ops)) ->
     exists pre y mid, ops = pre ++ BInsert y :: mid /\ is_new bits pre y = true /\
       decays mid = 1%nat /\ In b (bits y)).
Proof.
  intros ops. induction ops as [|o ops [C P]] using rev_ind; [split; intros b []|].
  unfold bloom_run in *. rewrite fold_left_app. cbn [fold_left].
  set (d := fold_left (bloom_step bits) ops bloom_new) in *.
  assert (Ext : forall k b, decays [o] = 0%nat \/ True ->
    (exists pre y mid, ops = pre ++ BInsert y :: mid /\ is_new bits pre y = true /\
       decays mid = k /\ In b (bits y)) ->
    (exists pre y mid, ops ++ [o] = pre ++ BInsert y :: mid /\ is_new bits pre y = true /\
       decays mid = (k + decays [o])%nat /\ In b (bits y))).
  { intros k b _ (pre & y & mid & -> & H1 & H2 & H3). exists pre, y, (mid ++ [o]).
    rewrite <- app_assoc. repeat apply conj; auto. unfold decays in *. rewrite filter_app, app_length. now rewrite H2. }
  destruct o as [x|]; cbn [bloom_step].
  - change (decays [BInsert x]) with 0%nat in Ext.
    unfold bloom_insert at 1 2. destruct (bloom_contains bits (b_current d) x || bloom_contains bits (b_previous d) x) eqn:E; cbn [fst b_current b_previous].
    + split; intros b Hb; [apply (Ext 0%nat)|apply (Ext 1%nat)]; auto.
    + split; intros b Hb; [|apply (Ext 1%nat); auto].
      unfold bloom_accrue in Hb. apply accrue_In in Hb as [Hb|Hb]; [|apply (Ext 0%nat); auto].
      exists ops, x, []. repeat apply conj; auto. unfold is_new, bloom_run. fold d. unfold bloom_insert.
      now rewrite E.
  - change (decays [BDecay]) with 1%nat in Ext. cbn [bloom_decay b_current b_previous].
    split; [intros b []|]. intros b Hb. apply (Ext 0%nat); auto.
Qed.
Lemma bloom_seen_why ops x : is_new bits ops x = false ->
  forall b, In b (bits x) ->
    exists pre y mid, ops = pre ++ BInsert y :: mid /\ is_new bits pre y = true /\
      (decays mid <= 1)%nat /\ In b (bits y).
Proof.
  intros H b Hb. destruct (bloom_bits_why ops) as [C P]. unfold is_new, bloom_insert in H.
  destruct (bloom_contains bits (b_current (bloom_run bits bloom_new ops)) x) eqn:E1; cbn [orb] in H.
  - rewrite contains_spec in E1. destruct (C b (E1 b Hb)) as (pre & y & mid & H1 & H2 & H3 & H4).
    exists pre, y, mid. repeat apply conj; auto. lia.
  - destruct (bloom_contains bits (b_previous (bloom_run bits bloom_new ops)) x) eqn:E2; cbn [snd] in H; [|discriminate].
    rewrite contains_spec in E2. destruct (P b (E2 b Hb)) as (pre & y & mid & H1 & H2 & H3 & H4).
    exists pre, y, mid. repeat apply conj; auto. lia.
Qed.
End Bloom.
