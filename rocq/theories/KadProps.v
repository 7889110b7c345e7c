(** C20, C21: the Kademlia table of floodfills. *)
From Coq Require Import List NArith ZArith Bool Arith Lia ZifyBool ZifyNat ZifyN Sorting.Sorted Permutation.
From Verif Require Import ListUtil Bytes NMap KadModel KadSpec KadProofs KadProofs2 KadProofs3.
Import ListNotations.
Open Scope N_scope.

(** ** C20: the buckets *)
(** Whatever is added and scored, in whatever order: no bucket holds more than twenty routers,
    every router sits in the one bucket given by the highest bit in which it differs from the
    local router, no router is there twice and the local router is not there. *)
Theorem C20_buckets_bounded_and_placed :
  forall t, reachable t ->
    (forall i, (length (t_bucket t i) <= 20)%nat) /\
    (forall i k s, In (k, s) (t_bucket t i) -> (i < 256)%nat /\ belongs (t_local t) k i) /\
    NoDup (known t) /\ ~ In (t_local t) (known t).
Proof.
  intros t R. pose proof (reachable_ok t R) as Ht. pose proof Ht as [Hl Hb]. split; [intro i; apply Hb|]. split.
  - intros i k s H. destruct (Hb i) as [_ [_ A]]. destruct (A k) as [Hk E].
    { apply in_map_iff. now exists (k, s). }
    split; [apply (ilog2_small _ _ (lxor_small 256 _ _ Hl Hk) E)|now apply log2_belongs].
  - split; [now apply known_NoDup|]. intro X. apply known_In in X as [i X]; [|assumption].
    destruct (Hb i) as [_ [_ A]]. destruct (A _ X) as [_ E]. apply log2_belongs in E as [E _]. now apply E.
Qed.
Print Assumptions C20_buckets_bounded_and_placed.

(** A router whose score is not negative is never evicted: it is still there, with the same
    score, after any insertion. *)
Theorem C20_good_routers_stay :
  forall t k new s,
    reachable t -> router_id new -> In (k, s) (entries t) -> (0 <= s)%Z ->
    In (k, s) (entries (add_router t new)).
Proof. intros t k new s R Hn H Hs. apply add_good_stays; try assumption. now apply reachable_ok. Qed.
Print Assumptions C20_good_routers_stay.

(** A router is taken in unless its bucket holds twenty routers none of which has a negative
    score; then nothing changes. *)
Theorem C20_refused_only_if_full :
  forall t k,
    reachable t -> router_id k -> k <> t_local t ->
    In k (known (add_router t k)) \/
    (entries (add_router t k) = entries t /\
     exists i, belongs (t_local t) k i /\ length (t_bucket t i) = 20%nat /\
       forall k' s, In (k', s) (t_bucket t i) -> (0 <= s)%Z).
Proof. intros t k R Hk Hl. apply add_outcome; try assumption. now apply reachable_ok. Qed.
Print Assumptions C20_refused_only_if_full.

(** A router is evicted only to make room in a full bucket, only if its score is negative and
    the least of the bucket, and it is the only one to go.  Nothing but the new router, with
    score zero, enters. *)
Theorem C20_eviction :
  forall t k,
    reachable t -> router_id k ->
    (forall x, In x (entries (add_router t k)) -> x = (k, 0%Z) \/ In x (entries t)) /\
    forall old s, In (old, s) (entries t) -> ~ In (old, s) (entries (add_router t k)) ->
      (s < 0)%Z /\ In (k, 0%Z) (entries (add_router t k)) /\ ~ In k (known t) /\
      exists i, belongs (t_local t) k i /\ In (old, s) (t_bucket t i) /\ length (t_bucket t i) = 20%nat /\
        (forall k' s', In (k', s') (t_bucket t i) -> (s <= s')%Z) /\
        forall x, In x (entries t) -> x <> (old, s) -> In x (entries (add_router t k)).
Proof.
  intros t k R Hk. pose proof (reachable_ok t R) as Ht. split.
  - intros x. now apply add_only.
  - intros old s. now apply add_evicts.
Qed.
Print Assumptions C20_eviction.

(** A score change changes the score of that router and of no other, and moves nothing. *)
Theorem C20_score_changes_one_router :
  forall t k a,
    reachable t ->
    entries (adjust_score t k a) =
    map (fun x => if fst x =? k then (fst x, (snd x + a)%Z) else x) (entries t).
Proof. intros t k a R. apply adjust_entries. now apply reachable_ok. Qed.
Print Assumptions C20_score_changes_one_router.

(** A full bucket (number 5: ids 32 to 51 seen from id 0): the router with the lowest score makes
    room, and once none is negative a newcomer is refused. *)
Definition full_bucket : table :=
  kruns (table_new 0) (map KAdd (nseq 32 20) ++ [KScore 40 score_no_reply; KScore 35 score_success; KScore 44 (-6)%Z]).
Lemma full_bucket_reachable : reachable full_bucket.
Proof.
  exists 0, (map KAdd (nseq 32 20) ++ [KScore 40 score_no_reply; KScore 35 score_success; KScore 44 (-6)%Z]).
  split; [reflexivity|]. split; [|reflexivity].
  apply Forall_forall. intros o H.
  assert (forall l, forallb (fun o => op_key o <? 2 ^ 256) l = true -> forall x, In x l -> router_id (op_key x)) as F.
  { intros l Fl x Hx. rewrite forallb_forall in Fl. specialize (Fl x Hx). now apply N.ltb_lt in Fl. }
  revert o H. apply F. vm_compute. reflexivity.
Qed.
Example C20_eviction_case :
  In (44, (-6)%Z) (entries full_bucket) /\ ~ In 44 (known (add_router full_bucket 60)) /\
  In 60 (known (add_router full_bucket 60)) /\ In (35, 10%Z) (entries (add_router full_bucket 60)).
Proof.
  split; [vm_compute; tauto|]. split; [|split; vm_compute; tauto].
  intro H. vm_compute in H. repeat destruct H as [H|H]; try discriminate. contradiction.
Qed.
Example C20_refusal_case :
  let t := kruns full_bucket [KAdd 60; KAdd 61] in
  known (add_router t 62) = known t /\ length (known t) = 20%nat.
Proof. vm_compute. split; reflexivity. Qed.

(** ** C21: the closest routers *)
(** The search visits every known router that is not to be ignored, closest first.  When the
    target and the local id differ in the last bit (or are the same), the local router's
    neighbour is visited twice in a row: this is the only deviation. *)
Theorem C21_closest_exact :
  forall t target n ignore,
    reachable t -> router_id target ->
    exists all rs,
      closest_with_ignore t target n ignore = Some rs /\
      Permutation all (filter (fun k => negb (smem k ignore)) (known t)) /\
      closest_first target all /\
      (rs = firstn n all \/
       (meets_twice t target /\ exists a b, all = a ++ neighbour t :: b /\
          rs = firstn n (a ++ neighbour t :: neighbour t :: b))).
Proof. intros t target n ignore R Hta. apply closest_with_ignore_spec; [now apply reachable_ok|assumption]. Qed.
Print Assumptions C21_closest_exact.

(** The full property, for every table in which the neighbour is not met twice: the answer is
    min(n, known) distinct known routers and every router left out is strictly farther than every
    router returned.
    Missing for the unrestricted claim: see [C21_refuted_repeated_router]. *)
Theorem C21_closest_partial :
  forall t target n,
    reachable t -> router_id target ->
    ~ (meets_twice t target /\ In (neighbour t) (known t)) ->
    exists rs,
      closest t target n = Some rs /\
      NoDup rs /\ length rs = Nat.min n (length (known t)) /\
      (forall r, In r rs -> In r (known t)) /\
      (forall r s, In r rs -> In s (known t) -> ~ In s rs -> N.lxor target r < N.lxor target s).
Proof.
  intros t target n R Hta Hm. rewrite closest_ignore_nil.
  destruct (C21_closest_exact t target n [] R Hta) as [all [rs [E [P [Sd H]]]]].
  rewrite smem_nil_filter in P. exists rs. split; [exact E|].
  assert (rs = firstn n all) as ->.
  { destruct H as [->|[M [a [b [-> _]]]]]; [reflexivity|]. exfalso. apply Hm. split; [assumption|].
    apply (Permutation_in _ P). apply in_or_app. right. now left. }
  pose proof (firstn_skipn n all) as FS. pose proof (closest_first_NoDup _ _ Sd) as ND.
  split. { rewrite <- FS in ND. clear - ND. induction (firstn n all) as [|x l IH]; [constructor|].
           cbn in ND. apply NoDup_cons_iff in ND as [Nx ND]. constructor; [|auto]. intro X. apply Nx. apply in_or_app. now left. }
  split. { rewrite firstn_length. now rewrite (Permutation_length P). }
  split. { intros r Hr. apply (Permutation_in r P). now apply In_firstn in Hr. }
  intros r s Hr Hs Ns. apply (Permutation_in s (Permutation_sym P)) in Hs. rewrite <- FS in Hs.
  apply in_app_or in Hs as [Hs|Hs]; [contradiction|]. rewrite <- FS in Sd. clear - Sd Hr Hs.
  unfold closest_first in Sd. revert Hr Sd. generalize (firstn n all) as l. intro l. induction l as [|x l IH]; intros Hr Sd; [contradiction|].
  cbn in Sd. apply StronglySorted_inv in Sd as [Sd F]. destruct Hr as [->|Hr]; [|now apply IH].
  rewrite Forall_forall in F. apply F. apply in_or_app. now right.
Qed.
Print Assumptions C21_closest_partial.

(** Even when the neighbour is met twice, only known routers are returned, no router left out is
    closer than one returned, and at most one place is wasted. *)
Theorem C21_closest_nothing_closer_left_out :
  forall t target n,
    reachable t -> router_id target ->
    exists rs,
      closest t target n = Some rs /\
      (forall r, In r rs -> In r (known t)) /\
      (forall r s, In r rs -> In s (known t) -> ~ In s rs -> N.lxor target r < N.lxor target s) /\
      (length rs <= n)%nat /\ (Nat.min n (length (known t)) - 1 <= length (nodup N.eq_dec rs))%nat.
Proof.
  intros t target n R Hta. rewrite closest_ignore_nil.
  destruct (C21_closest_exact t target n [] R Hta) as [all [rs [E [P [Sd H]]]]].
  rewrite smem_nil_filter in P. exists rs. split; [exact E|].
  assert (Hi : exists m, (forall x, In x rs <-> In x (firstn m all)) /\ (Nat.min n (length all) - 1 <= Nat.min m (length all))%nat).
  { destruct H as [->|[_ [a [b [-> ->]]]]].
    - exists n. split; [reflexivity|lia].
    - set (x := neighbour t). destruct (Nat.le_gt_cases n (length a)) as [L|L].
      + exists n. split; [|lia]. intro y. rewrite !firstn_app. replace (n - length a)%nat with 0%nat by lia. reflexivity.
      + exists (n - 1 + (if (n =? length a + 1)%nat then 1 else 0))%nat.
        destruct (Nat.eqb_spec n (length a + 1)) as [->|Ne].
        * split; [|rewrite app_length; cbn [length]; lia]. intro y.
          rewrite !firstn_app. replace (length a + 1 - length a)%nat with 1%nat by lia.
          replace (length a + 1 - 1 + 1 - length a)%nat with 1%nat by lia. cbn [firstn].
          rewrite !firstn_all2 by lia. reflexivity.
        * split; [|lia]. intro y. rewrite !firstn_app. rewrite !firstn_all2 by lia.
          replace (n - length a)%nat with (S (S (n - length a - 2))) by lia.
          replace (n - 1 + 0 - length a)%nat with (S (n - length a - 2)) by lia. cbn [firstn].
          rewrite !in_app_iff. cbn [In]. rewrite (firstn_all2 (n := n - 1 + 0) a) by lia. tauto. }
  destruct Hi as [m [Hi Hm]]. pose proof (firstn_skipn m all) as FS. pose proof (closest_first_NoDup _ _ Sd) as ND.
  split. { intros r Hr. apply Hi in Hr. apply (Permutation_in r P). now apply In_firstn in Hr. }
  split.
  { intros r s Hr Hs Ns. apply Hi in Hr. rewrite Hi in Ns.
    apply (Permutation_in s (Permutation_sym P)) in Hs. rewrite <- FS in Hs.
    apply in_app_or in Hs as [Hs|Hs]; [contradiction|]. rewrite <- FS in Sd. clear - Sd Hr Hs.
    unfold closest_first in Sd. revert Hr Sd. generalize (firstn m all) as l. intro l. induction l as [|x l IH]; intros Hr Sd; [contradiction|].
    cbn in Sd. apply StronglySorted_inv in Sd as [Sd F]. destruct Hr as [->|Hr]; [|now apply IH].
    rewrite Forall_forall in F. apply F. apply in_or_app. now right. }
  split. { destruct H as [->|[_ [a [b [_ ->]]]]]; apply firstn_le_length. }
  assert (NDf : NoDup (firstn m all)).
  { rewrite <- FS in ND. clear - ND. induction (firstn m all) as [|x l IH]; [constructor|].
    cbn in ND. apply NoDup_cons_iff in ND as [Nx ND]. constructor; [|auto]. intro X. apply Nx. apply in_or_app. now left. }
  assert (L : (length (firstn m all) <= length (nodup N.eq_dec rs))%nat).
  { apply NoDup_incl_length; [assumption|]. intros x Hx. apply nodup_In. now apply Hi. }
  rewrite firstn_length in L. rewrite <- (Permutation_length P). lia.
Qed.
Print Assumptions C21_closest_nothing_closer_left_out.

(** The single closest router, which is what every lookup asks for, is right without exception. *)
Theorem C21_single_closest :
  forall t target ignore,
    reachable t -> router_id target ->
    closest_with_ignore t target 1 ignore = Some [] /\ (forall k, In k (known t) -> In k ignore) \/
    exists k, closest_with_ignore t target 1 ignore = Some [k] /\ In k (known t) /\ ~ In k ignore /\
      forall k', In k' (known t) -> ~ In k' ignore -> k' = k \/ N.lxor target k < N.lxor target k'.
Proof. intros t target ignore R Hta. apply closest_one; [now apply reachable_ok|assumption]. Qed.
Print Assumptions C21_single_closest.

(** The property fails when the neighbour is met twice: three of four known routers are asked
    for, and the answer has two, one of them repeated. *)
Theorem C21_refuted_repeated_router :
  exists t target rs, reachable t /\ router_id target /\ length (known t) = 4%nat /\
    closest t target 3 = Some rs /\ ~ NoDup rs /\
    exists s, In s (known t) /\ ~ In s rs /\ length (nodup N.eq_dec rs) = 2%nat.
Proof.
  exists (kruns (table_new 0) (map KAdd [1; 2; 8; 64])), 3, [2; 1; 1].
  split. { exists 0, (map KAdd [1; 2; 8; 64]). split; [reflexivity|]. split; [|reflexivity].
           repeat (apply Forall_cons; [reflexivity|]). constructor. }
  split; [reflexivity|]. split; [reflexivity|]. split; [vm_compute; reflexivity|].
  split. { intro X. apply NoDup_cons_iff in X as [_ X]. apply NoDup_cons_iff in X as [X _]. apply X. now left. }
  exists 8. split; [vm_compute; tauto|]. split; [cbn; intuition discriminate|reflexivity].
Qed.
Print Assumptions C21_refuted_repeated_router.

(** Twenty-three routers in three buckets, queried from a target in one of them. *)
Definition three_buckets : table := kruns full_bucket (map KAdd [2; 3; 100]).
Example C21_case :
  closest three_buckets 98 4 = Some [100; 34; 35; 32] /\
  ~ (meets_twice three_buckets 98 /\ In (neighbour three_buckets) (known three_buckets)).
Proof.
  split; [vm_compute; reflexivity|]. intros [[H|H] _]; vm_compute in H; [discriminate|now apply H].
Qed.
