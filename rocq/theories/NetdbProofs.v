(** Proofs about lookups. *)
From Coq Require Import List NArith ZArith Bool Arith Lia ZifyBool ZifyNat ZifyN Sorting.Sorted Permutation.
From Verif Require Import ListUtil Bytes NMap KadModel KadSpec KadProofs KadProofs2 KadProofs3 NetdbModel NetdbSpec.
Import ListNotations.
Open Scope N_scope.

Definition mk (l : bool) (q : query) : kind := if l then KLease q else KInfo q.

Lemma adjust_ok : forall t k a, table_ok t -> table_ok (adjust_score t k a).
Proof.
  intros t k a Ht. unfold adjust_score. destruct (bucket_index t k) as [i|]; [|assumption].
  apply set_bucket_ok; [assumption|]. destruct Ht as [_ Hb]. destruct (Hb i) as [L [ND A]].
  split; [|rewrite bucket_adjust_keys; now split].
  rewrite <- (map_length fst), bucket_adjust_keys, map_length. assumption.
Qed.
Lemma score_sender_ok : forall o a t, table_ok t -> table_ok (score_sender o a t).
Proof. intros [r|] a t H; [now apply adjust_ok|assumption]. Qed.
Lemma adjust_local : forall t k a, t_local (adjust_score t k a) = t_local t.
Proof. intros. apply (kstep_local t (KScore k a)). Qed.

(** ** The pieces of a query *)
Lemma fold_sadd_In : forall (p : N -> bool) l s x,
  In x (fold_left (fun s r => if p r then sadd r s else s) l s) <-> In x s \/ (In x l /\ p x = true).
Proof.
  induction l as [|y l IH]; intros s x; cbn [fold_left]; [cbn; tauto|]. rewrite IH. cbn [In].
  destruct (p y) eqn:E; [rewrite sadd_In|]; split; intros H.
  - destruct H as [[->|H]|H]; tauto.
  - destruct H as [H|[[->|H] Hp]]; tauto.
  - destruct H as [H|[H Hp]]; tauto.
  - destruct H as [H|[[->|H] Hp]]; [tauto|congruence|tauto].
Qed.

Lemma promote_In : forall e q x,
  (In x (q_pending (promote e q)) <-> In x (q_pending q) /\ e_has e x = false) /\
  (In x (q_queryable (promote e q)) <-> In x (q_queryable q) \/ (In x (q_pending q) /\ e_has e x = true)).
Proof.
  intros e q x. unfold promote. cbn. split; [rewrite filter_In, negb_true_iff; reflexivity|apply fold_sadd_In].
Qed.

Definition same_head (q q' : query) : Prop :=
  q_id q' = q_id q /\ q_started q' = q_started q /\ q_subs q' = q_subs q.

Lemma same_head_refl : forall q, same_head q q.
Proof. intro q. now repeat split. Qed.
Lemma same_head_trans : forall a b c, same_head a b -> same_head b c -> same_head a c.
Proof. intros a b c [A1 [A2 A3]] [B1 [B2 B3]]. repeat split; congruence. Qed.

Lemma promote_head : forall e q, same_head q (promote e q).
Proof. intros. now repeat split. Qed.
Lemma promote_queried : forall e q, q_queried (promote e q) = q_queried q.
Proof. reflexivity. Qed.

(** A floodfill is settled for a query when it is marked as asked and nothing can bring it up
    again. *)
Definition done_with (q : query) (f : N) : Prop :=
  In f (q_queried q) /\ ~ In f (q_queryable q) /\ ~ In f (q_pending q).

Definition search_body (e : env) := fun (acc : query * list N) (r : N) =>
       let (q, unknown) := acc in
       if smem r (q_queried q) then acc
       else if e_has e r then
         (mkQuery (q_id q) (q_pending q) (q_queried q) (sadd r (q_queryable q)) (q_selected q) (q_started q) (q_subs q),
          unknown)
       else
         (mkQuery (q_id q) (sadd r (q_pending q)) (q_queried q) (q_queryable q) (q_selected q) (q_started q) (q_subs q),
          unknown ++ [r]).

Lemma search_fold : forall e routers q u q' u',
  fold_left (search_body e) routers (q, u) = (q', u') ->
  same_head q q' /\ q_selected q' = q_selected q /\ (forall f, done_with q f -> done_with q' f).
Proof.
  induction routers as [|r l IH]; intros q u q' u' H; cbn [fold_left] in H.
  - apply pair_equal_spec in H as [<- <-]. split; [apply same_head_refl|]. split; [reflexivity|auto].
  - cbn [search_body] in H. destruct (smem r (q_queried q)) eqn:Em; [eauto|].
    assert (Nr : ~ In r (q_queried q)) by (intro X; apply smem_In in X; congruence).
    destruct (e_has e r); apply IH in H as [H1 [H2 H3]]; (split; [exact H1|]; split; [exact H2|]);
      intros f [D1 [D2 D3]]; apply H3; unfold done_with; cbn; rewrite ?sadd_In;
      (split; [assumption|]); split; try assumption; intros [->|X]; contradiction.
Qed.

Lemma search_reply_spec : forall e routers q q' u,
  handle_search_reply e routers q = (q', u) ->
  same_head q q' /\ q_selected q' = None /\ (forall f, done_with q f -> done_with q' f).
Proof.
  intros e routers q q' u H. unfold handle_search_reply in H. fold (search_body e) in H.
  apply search_fold in H as [H1 [H2 H3]]. split; [exact H1|]. split; [exact H2|]. intros f D. apply H3. exact D.
Qed.

Lemma sdel_spec : forall k j s, In j (sdel k s) <-> j <> k /\ In j s.
Proof. apply sdel_In. Qed.

Lemma next_floodfill_spec : forall e t key q r q',
  table_ok t -> router_id (e_target e key) ->
  next_floodfill e t key q = (r, q') ->
  same_head q q' /\ q_selected q' = q_selected q /\ q_queried q' = q_queried q /\
  (forall x, In x (q_queryable q') -> In x (q_queryable q) \/ (In x (q_pending q) /\ e_has e x = true)) /\
  (forall x, In x (q_pending q') -> In x (q_pending q) /\ (r <> inl ETimeout -> e_has e x = false)) /\
  (forall f, r = inr f ->
     e_now e - q_started q < query_total_timeout /\
     ~ In f (q_queryable q') /\
     (In f (q_queryable q) \/ (In f (q_pending q) /\ e_has e f = true) \/
      (~ In f (q_queried q) /\ In f (known t)))) /\
  (forall err, r = inl err -> err = ETimeout \/ err = ENoFloodfills).
Proof.
  intros e t key q r q' Ht Hta H. unfold next_floodfill in H.
  destruct (N.leb_spec query_total_timeout (e_now e - q_started q)) as [L|L].
  - apply pair_equal_spec in H as [<- <-]. split; [apply same_head_refl|]. do 2 (split; [reflexivity|]).
    split; [now left|]. split; [intros x Hx; split; [assumption|congruence]|]. split; [discriminate|].
    intros err [= <-]. now left.
  - pose proof (get_closest_spec (e_target e key) (q_queryable (promote e q))) as G.
    destruct (get_closest (e_target e key) (q_queryable (promote e q))) as [f|].
    + apply pair_equal_spec in H as [<- <-]. destruct G as [Hf _].
      split; [apply promote_head|]. do 2 (split; [reflexivity|]).
      split. { intros x Hx. cbn in Hx. apply sdel_In in Hx as [_ Hx]. now apply promote_In in Hx. }
      split. { intros x Hx. cbn [q_pending] in Hx. apply promote_In in Hx as [Hx1 Hx2]. now split. }
      split; [|discriminate]. intros f0 [= <-]. split; [assumption|]. split.
      { cbn. rewrite sdel_In. tauto. }
      apply promote_In in Hf. tauto.
    + destruct (closest_one t (e_target e key) (q_queried (promote e q)) Ht Hta) as [[E _]|[k [E [Hk [Ni _]]]]];
        rewrite E in H; apply pair_equal_spec in H as [<- <-];
        (split; [apply promote_head|]; do 2 (split; [reflexivity|]);
         split; [intros x Hx; now apply promote_In in Hx|];
         split; [intros x Hx; apply promote_In in Hx as [Hx1 Hx2]; now split|]).
      * split; [discriminate|]. intros err [= <-]. now right.
      * split; [|discriminate]. intros f [= <-]. split; [assumption|]. split; [rewrite G; intros []|].
        right. right. now split.
Qed.

(** What the retry of a lease set query picks. *)
Lemma pick_spec : forall fuel e t key q r q',
  table_ok t -> router_id (e_target e key) ->
  pick_floodfill fuel e t key q = Some (r, q') ->
  same_head q q' /\ q_selected q' = q_selected q /\
  (forall f, done_with q f -> done_with q' f) /\
  (forall f, r = inr f ->
     e_has e f = true /\ e_now e - q_started q < query_total_timeout /\
     ~ done_with q f /\ ~ In f (q_queryable q') /\ ~ In f (q_pending q')) /\
  (forall err, r = inl err -> err = ETimeout \/ err = ENoFloodfills).
Proof.
  induction fuel as [|n IH]; intros e t key q r q' Ht Hta H; [discriminate|]. cbn [pick_floodfill] in H.
  destruct (next_floodfill e t key q) as [[err|f] q1] eqn:E;
    destruct (next_floodfill_spec _ _ _ _ _ _ Ht Hta E) as [Hh [Hs [Hq [Hyq [Hpd [Hf He]]]]]].
  - injection H as <- <-. split; [assumption|]. split; [assumption|]. split.
    { intros f [D1 [D2 D3]]. unfold done_with. rewrite Hq. split; [assumption|]. split; intro X.
      - apply Hyq in X as [X|[X _]]; contradiction.
      - apply Hpd in X as [X _]. contradiction. }
    split; [discriminate|]. intros err0 X. apply He. exact X.
  - destruct (Hf f eq_refl) as [Tm [Nf Src]].
    assert (Keep : forall g, done_with q g -> done_with q1 g).
    { intros g [D1 [D2 D3]]. unfold done_with. rewrite Hq. split; [assumption|]. split; intro X.
      - apply Hyq in X as [X|[X _]]; contradiction.
      - apply Hpd in X as [X _]. contradiction. }
    assert (Nd : ~ done_with q f).
    { intros [D1 [D2 D3]]. destruct Src as [X|[[X _]|[X _]]]; contradiction. }
    destruct (e_has e f) eqn:Eh.
    + injection H as <- <-. split; [assumption|]. split; [assumption|]. split; [assumption|]. split; [|discriminate].
      intros f0 [= <-]. split; [assumption|]. split; [assumption|]. split; [assumption|]. split; [assumption|].
      intro X. apply Hpd in X as [_ X]. specialize (X ltac:(discriminate)). congruence.
    + apply IH in H; [|assumption..]. destruct H as [H1 [H2 [H3 [H4 H5]]]].
      split. { eapply same_head_trans; [exact Hh|]. exact H1. }
      split. { rewrite H2. cbn. exact Hs. }
      split. { intros g D. apply H3. apply Keep in D as [D1 [D2 D3]]. split; [|now split].
               cbn. apply sadd_In. now right. }
      split; [|assumption]. intros f0 E0. destruct (H4 f0 E0) as [A1 [A2 [A3 [A4 A5]]]].
      split; [assumption|]. split. { destruct Hh as [_ [Hst _]]. cbn in A2. now rewrite Hst in A2. }
      split. { intro D. apply A3. apply Keep in D as [D1 [D2 D3]]. split; [|now split].
               cbn. apply sadd_In. now right. }
      now split.
Qed.

(** ** The loops end *)
Definition fresh_known (t : table) (ignored : list N) : nat :=
  length (filter (fun k => negb (smem k ignored)) (known t)).

Lemma known_length : forall t, length (known t) = table_size t.
Proof. intro t. unfold known. rewrite map_length. reflexivity. Qed.

Lemma filter_length_le0 : forall A (p : A -> bool) l, (length (filter p l) <= length l)%nat.
Proof. induction l as [|x l IH]; [cbn; lia|]. cbn. destruct (p x); cbn; lia. Qed.

Lemma fresh_known_le : forall t ig, (fresh_known t ig <= table_size t)%nat.
Proof. intros t ig. unfold fresh_known. rewrite <- known_length. apply filter_length_le0. Qed.

Lemma fresh_shrinks : forall l f ig, In f l -> ~ In f ig ->
  (length (filter (fun k => negb (smem k (sadd f ig))) l) < length (filter (fun k => negb (smem k ig)) l))%nat.
Proof.
  assert (W : forall l f ig, (length (filter (fun k => negb (smem k (sadd f ig))) l) <= length (filter (fun k => negb (smem k ig)) l))%nat).
  { induction l as [|x l IH]; intros f ig; [cbn; lia|]. cbn [filter]. specialize (IH f ig).
    destruct (smem x ig) eqn:E.
    - assert (smem x (sadd f ig) = true) as -> by (apply smem_In, sadd_In; right; now apply smem_In). cbn. exact IH.
    - destruct (smem x (sadd f ig)); cbn [negb length]; lia. }
  induction l as [|x l IH]; intros f ig Hi Ni; [contradiction|]. cbn [filter]. destruct Hi as [->|Hi].
  - assert (smem f (sadd f ig) = true) as -> by (apply smem_In, sadd_In; now left).
    assert (smem f ig = false) as -> by (destruct (smem f ig) eqn:E; [apply smem_In in E; contradiction|reflexivity]).
    cbn [negb length]. specialize (W l f ig). lia.
  - specialize (IH f ig Hi Ni). destruct (smem x ig) eqn:E.
    + assert (smem x (sadd f ig) = true) as -> by (apply smem_In, sadd_In; right; now apply smem_In). cbn. exact IH.
    + destruct (smem x (sadd f ig)); cbn [negb length]; lia.
Qed.

Lemma first_floodfill_ends : forall fuel e t key ig, table_ok t -> router_id (e_target e key) ->
  (fresh_known t ig < fuel)%nat ->
  exists r, first_floodfill fuel e t key ig = Some r /\
    forall f, r = Some f -> e_has e f = true /\ In f (known t).
Proof.
  induction fuel as [|n IH]; intros e t key ig Ht Hta L; [lia|]. cbn [first_floodfill].
  destruct (closest_one t (e_target e key) ig Ht Hta) as [[-> _]|[k [-> [Hk [Ni _]]]]].
  - exists None. split; [reflexivity|discriminate].
  - destruct (e_has e k) eqn:E.
    + exists (Some k). split; [reflexivity|]. intros f [= <-]. now split.
    + apply IH; [assumption..|]. pose proof (fresh_shrinks (known t) k ig Hk Ni). unfold fresh_known in *. lia.
Qed.

Lemma sadd_length_le : forall x s, (length (sadd x s) <= S (length s))%nat.
Proof.
  induction s as [|y s IH]; [cbn; lia|]. cbn. destruct (x <? y); [cbn; lia|]. destruct (x =? y); cbn; lia.
Qed.

Lemma promote_measure : forall e q,
  (length (q_pending (promote e q)) + length (q_queryable (promote e q)) <= length (q_pending q) + length (q_queryable q))%nat.
Proof.
  intros e q. unfold promote. cbn. generalize (q_queryable q). induction (q_pending q) as [|r l IH]; intro s; [cbn; lia|].
  cbn [filter fold_left]. destruct (e_has e r); cbn [negb length].
  - specialize (IH (sadd r s)). pose proof (sadd_length_le r s). lia.
  - specialize (IH s). lia.
Qed.

Lemma sdel_length : forall x s, In x s -> (length (sdel x s) < length s)%nat.
Proof.
  assert (W : forall x s, (length (sdel x s) <= length s)%nat).
  { induction s as [|y s IH]; [cbn; lia|]. cbn. destruct (x =? y); cbn; lia. }
  induction s as [|y s IH]; intro H; [contradiction|]. cbn [sdel]. destruct (N.eqb_spec x y) as [->|].
  - specialize (W y s). cbn [length]. lia.
  - destruct H as [->|H]; [contradiction|]. specialize (IH H). cbn [length]. lia.
Qed.

Lemma pick_ends : forall fuel e t key q, table_ok t -> router_id (e_target e key) ->
  (length (q_pending q) + length (q_queryable q) + fresh_known t (q_queried q) < fuel)%nat ->
  exists r, pick_floodfill fuel e t key q = Some r.
Proof.
  induction fuel as [|n IH]; intros e t key q Ht Hta L; [lia|]. cbn [pick_floodfill].
  unfold next_floodfill. destruct (query_total_timeout <=? e_now e - q_started q); [eauto|].
  pose proof (get_closest_spec (e_target e key) (q_queryable (promote e q))) as G.
  pose proof (promote_measure e q) as PM.
  destruct (get_closest _ _) as [f|].
  - destruct G as [Hf _]. destruct (e_has e f) eqn:E; [eauto|]. apply IH; [assumption..|].
    unfold mark_queried. cbn [q_pending q_queryable q_queried].
    pose proof (sdel_length _ _ Hf).
    assert (fresh_known t (sadd f (q_queried (promote e q))) <= fresh_known t (q_queried q))%nat.
    { unfold fresh_known. rewrite promote_queried. clear. induction (known t) as [|x l IHl]; [cbn; lia|]. cbn [filter].
      destruct (smem x (q_queried q)) eqn:E1.
      - assert (smem x (sadd f (q_queried q)) = true) as -> by (apply smem_In, sadd_In; right; now apply smem_In). cbn. exact IHl.
      - destruct (smem x (sadd f (q_queried q))); cbn [negb length]; lia. }
    lia.
  - destruct (closest_one t (e_target e key) (q_queried (promote e q)) Ht Hta) as [[-> _]|[k [-> [Hk [Ni _]]]]]; [eauto|].
    destruct (e_has e k) eqn:E; [eauto|]. apply IH; [assumption..|].
    unfold mark_queried. cbn [q_pending q_queryable q_queried].
    pose proof (fresh_shrinks (known t) k _ Hk Ni). unfold fresh_known in *. rewrite promote_queried in *. lia.
Qed.
