(** C37: the hops of a tunnel.  C38: participation counts. *)
From Coq Require Import List NArith Bool Lia Arith.
From Verif Require Import NMap Bytes RouteProofs ProfileModel ProfileSpec ProfileProofs ProfileProps
  SelectModel SelectSpec SelectProofs SelectProofs2.
Import ListNotations.
Open Scope N_scope.

Lemma participates_iff a r : can_participate a r = true <-> little_used a r.
Proof.
  unfold can_participate, little_used. fold (part_of (a_part a) r). rewrite orb_true_iff, N.eqb_eq, N.ltb_lt. reflexivity.
Qed.

(** ** C37 *)
(** Selection never panics; it gives exactly as many hops as asked for or none; every hop is
    reachable and part of less than a third of the tunnels; and the hops can be matched with
    pairwise different /16 networks in which they have an address. *)
Theorem C37_one_hop_per_network : forall client s a now k n, reached s -> clock_ok s now ->
  match select_hops false client s a now k n with
  | SelPanic => False
  | SelNone => True
  | SelHops hops =>
      length hops = n /\
      (forall r, In r hops -> little_used a r /\ exists i, nget r (s_infos s) = Some i /\ f_reachable i = true) /\
      exists nets, NoDup nets /\ Forall2 (lives_in s) hops nets
  end.
Proof.
  intros client s a now k n R K. apply reached_inv in R.
  assert (G : forall first second, match select_secure s a now k first second n with
    | SelPanic => False | SelNone => True
    | SelHops hops => length hops = n /\
      (forall r, In r hops -> little_used a r /\ exists i, nget r (s_infos s) = Some i /\ f_reachable i = true) /\
      exists nets, NoDup nets /\ Forall2 (lives_in s) hops nets end).
  { intros first second. pose proof (select_secure_ok s a now k first second n R K) as H.
    destruct (select_secure s a now k first second n) as [| |hops]; [exact H | exact I|]. destruct H as (L & F & N).
    split; [exact L|]. split; [|exact N]. intros r X. rewrite Forall_forall in F. destruct (F r X) as (_ & V & C).
    split; [now apply participates_iff | exact V]. }
  unfold select_hops. destruct client; apply G.
Qed.
Print Assumptions C37_one_hop_per_network.

(** No hops are given only if there are not enough different networks among the routers that
    may be used. *)
Theorem C37_none_only_if_short : forall client s a now k n, reached s -> clock_ok s now ->
  select_hops false client s a now k n = SelNone ->
  forall routers nets, NoDup nets -> Forall2 (lives_in s) routers nets ->
    (forall r, In r routers -> findable s r /\ little_used a r /\ exists i, nget r (s_infos s) = Some i /\ f_reachable i = true) ->
    (length routers < n)%nat.
Proof.
  intros client s a now k n R K E routers nets ND F U. apply reached_inv in R.
  assert (G : forall first second, select_secure s a now k first second n = SelNone -> (length routers < n)%nat).
  { intros first second E1. pose proof (select_secure_ok s a now k first second n R K) as H. rewrite E1 in H.
    assert (LN : length nets = length routers) by (clear - F; induction F; cbn; congruence).
    assert (M : matched s (can_participate a) (combine nets routers)).
    { split.
      - assert (X : forall (x : list N) (y : list N), length x = length y -> map fst (combine x y) = x).
        { clear. induction x as [|a x IH]; destruct y as [|b y]; cbn; intro H; try discriminate H; [reflexivity|]. f_equal. apply IH. congruence. }
        rewrite X; [exact ND | exact LN].
      - clear - F U. induction F as [|r net routers nets V F IH]; intros n' r' X; [destruct X|]. destruct X as [X|X].
        + injection X as -> ->. destruct (U r' (or_introl eq_refl)) as (U1 & U2 & U3). split; [|exact V].
          split; [exact U1|]. split; [exact U3 | now apply participates_iff].
        + apply IH; [|exact X]. intros x Y. apply U. now right. }
    specialize (H _ M). rewrite combine_length, LN, Nat.min_id in H. exact H. }
  unfold select_hops in E. destruct client; exact (G _ _ E).
Qed.
Print Assumptions C37_none_only_if_short.

(** If every router has addresses in one /16 network only, the hops are different routers and no
    two of them share a network.  The full claim has no such condition ([C37_refuted]). *)
Theorem C37_distinct_partial : forall client s a now k n hops, reached s -> clock_ok s now ->
  (forall r n1 n2, lives_in s r n1 -> lives_in s r n2 -> n1 = n2) ->
  select_hops false client s a now k n = SelHops hops ->
  NoDup hops /\ forall r1 r2 net, In r1 hops -> In r2 hops -> lives_in s r1 net -> lives_in s r2 net -> r1 = r2.
Proof.
  intros client s a now k n hops R K O E. pose proof (C37_one_hop_per_network client s a now k n R K) as H. rewrite E in H.
  destruct H as (_ & _ & nets & ND & F). clear - ND F O. induction F as [|r net hops nets V F IH]; [split; [constructor | intros r1 r2 net []]|].
  inversion ND as [|? ? N1 N2]; subst. destruct (IH N2) as [D S].
  assert (A : forall r' net', In r' hops -> lives_in s r' net' -> In net' nets).
  { clear - F O. induction F as [|r net hops nets V F IH]; intros r' net' X L; [destruct X|]. destruct X as [->|X].
    - left. eapply O; eauto.
    - right. eapply IH; eauto. }
  split.
  - constructor; [|exact D]. intro X. apply N1. eapply A; eauto.
  - intros r1 r2 net' [<-|X1] [<-|X2] L1 L2.
    + reflexivity.
    + destruct N1. rewrite (O _ _ _ V L1). eapply A; eauto.
    + destruct N1. rewrite (O _ _ _ V L2). eapply A; eauto.
    + eapply S; eauto.
Qed.
Print Assumptions C37_distinct_partial.

(** A router with addresses in two /16 networks can be two hops of one tunnel, and two hops can
    be in the same network. *)
Definition two_homed : rinfo := mkRi true true true true (Some (V4 (10 * 65536 + 1))) (Some (V4 (20 * 65536 + 1))).
Definition homed (net : N) : rinfo := mkRi true true true true (Some (V4 (net * 65536 + 7))) None.
Definition no_luck : luck := mkLuck (fun _ => 0) (fun _ _ => 0).
Lemma reached_new routers : reached (storage_new same same routers []).
Proof. exists same, same, routers, [], [], []. split; [apply same_sorts|]. split; [apply same_sorts|]. split; [exact I | reflexivity]. Qed.
Definition only_two_homed : store := storage_new same same [(1, two_homed)] [].
Definition shared : store := storage_new same same [(1, two_homed); (2, homed 20)] [].
Theorem C37_refuted :
  (reached only_two_homed /\ exists k, select_hops false true only_two_homed acct_new 0 k 2 = SelHops [1; 1]) /\
  (reached shared /\ exists k hops, select_hops false true shared acct_new 0 k 2 = SelHops hops /\
     In 1 hops /\ In 2 hops /\ lives_in shared 1 20 /\ lives_in shared 2 20).
Proof.
  split; (split; [apply reached_new|]).
  - exists no_luck. vm_compute. reflexivity.
  - exists (mkLuck (fun _ => 1) (fun _ _ => 0)). exists [2; 1].
    split; [vm_compute; reflexivity|]. split; [right; left; reflexivity|]. split; [left; reflexivity|]. split.
    + exists two_homed, (20 * 65536 + 1). split; [vm_compute; reflexivity|]. split; [right; reflexivity | vm_compute; reflexivity].
    + exists (homed 20), (20 * 65536 + 7). split; [vm_compute; reflexivity|]. split; [left; reflexivity | vm_compute; reflexivity].
Qed.
Print Assumptions C37_refuted.

(** Insecure mode gives the right number of reachable routers or none. *)
Theorem C37_insecure_count : forall client s a now k n, reached s -> clock_ok s now ->
  match select_hops true client s a now k n with
  | SelPanic => False
  | SelNone => True
  | SelHops hops => length hops = n /\ forall r, In r hops -> exists i, nget r (s_infos s) = Some i /\ f_reachable i = true
  end.
Proof.
  intros client s a now k n R K. apply reached_inv in R.
  assert (G : forall first second, match select_insecure s now k client first second n with
    | SelPanic => False | SelNone => True
    | SelHops hops => length hops = n /\ forall r, In r hops -> exists i, nget r (s_infos s) = Some i /\ f_reachable i = true end).
  { intros first second. pose proof (select_insecure_ok s now k client first second n R K) as H.
    destruct (select_insecure s now k client first second n) as [| |hops]; [exact H | exact I|]. destruct H as (L & F).
    split; [exact L|]. intros r X. rewrite Forall_forall in F. destruct (F r X) as (_ & V & _). exact V. }
  unfold select_hops. destruct client; apply G.
Qed.
Print Assumptions C37_insecure_count.

(** It can give the same router twice: the routers of the last resort are all routers. *)
Theorem C37_insecure_distinct_refuted : exists s k hops, reached s /\
  select_hops true true s acct_new 0 k 2 = SelHops hops /\ ~ NoDup hops.
Proof.
  set (s0 := storage_new same same [] []).
  destruct (prun s0 [PAdd 1 (homed 10)]) as [[s1 o1]|] eqn:E; [|discriminate E].
  exists s1, no_luck, [1; 1]. split; [|split].
  - exists same, same, [], [], [PAdd 1 (homed 10)], o1. split; [apply same_sorts|]. split; [apply same_sorts|]. split; [cbn; auto | exact E].
  - vm_compute in E. injection E as <- _. vm_compute. reflexivity.
  - intro H. inversion H as [|? ? X _]; subst. apply X. now left.
Qed.
Print Assumptions C37_insecure_distinct_refuted.

(** A selection that meets the hypotheses: five routers in four networks, one of them used by too
    many tunnels. *)
Definition five : store := storage_new same same [(1, homed 1); (2, homed 2); (3, homed 3); (4, homed 3); (5, homed 5)] [].
Definition busy : acct := fst (arun acct_new [AAdd (0, true, 7) [5]]).
Example C37_hypotheses : reached five /\ clock_ok five 100 /\
  (forall r n1 n2, lives_in five r n1 -> lives_in five r n2 -> n1 = n2) /\
  select_hops false false five busy 100 no_luck 3 = SelHops [2; 4; 1] /\
  select_hops false false five busy 100 no_luck 4 = SelNone /\
  select_hops false false five acct_new 100 no_luck 4 = SelHops [2; 4; 5; 1].
Proof.
  split; [apply reached_new|]. split.
  - intros r p H. unfold five in H. vm_compute in H.
    assert (p = profile_new) as ->; [|discriminate].
    destruct r as [|[q|q|]]; try discriminate H; try (injection H as <-; reflexivity);
    repeat (destruct q as [q|q|]; try discriminate H; try (injection H as <-; reflexivity)).
  - split; [|vm_compute; auto].
    intros r n1 n2 (i & a & E & A & <-) (j & b & F & B & <-). rewrite E in F. injection F as <-.
    assert (S : f_ssu2 i = None).
    { unfold five in E. vm_compute in E.
      destruct r as [|[q|q|]]; try discriminate E; try (injection E as <-; reflexivity);
      repeat (destruct q as [q|q|]; try discriminate E; try (injection E as <-; reflexivity)). }
    rewrite S in *. destruct A as [A|A]; [|discriminate A]. destruct B as [B|B]; [|discriminate B]. congruence.
Qed.

(** ** C38 *)
(** No counter ever goes below zero, whatever is added, removed or shut down. *)
Theorem C38_no_underflow : forall ops, N.of_nat (length ops) < 2 ^ 64 -> snd (arun acct_new ops) = false.
Proof.
  intros ops B. destruct (arun_inv ops 0 acct_new ainv_new) as (s & E & _); [exact B|]. now rewrite E.
Qed.
Print Assumptions C38_no_underflow.

(** The counters are never smaller than what is registered. *)
Theorem C38_never_too_small : forall ops l, N.of_nat (length ops) < 2 ^ 64 -> sets ops -> lists_live ops l ->
  let s := fst (arun acct_new ops) in
  N.of_nat (length l) <= a_num s /\
  forall r, N.of_nat (tunnels_of r l) <= match nget r (a_part s) with Some v => v | None => 0 end.
Proof.
  intros ops l B S [ND L]. pose proof (arun_tunnels ops B) as T.
  destruct (arun_inv ops 0 acct_new ainv_new) as (s & E & I); [exact B|]. rewrite E in *. cbn [fst] in *. cbv zeta.
  destruct I as [K Z M P].
  assert (PM : Permutation.Permutation l (a_tunnels s)).
  { apply Permutation.NoDup_Permutation; [eapply NoDup_map_inv; exact ND | eapply NoDup_map_inv; exact K|].
    intros [k h]. rewrite L, <- T. symmetry. now apply lookup_iff. }
  split; [rewrite (Permutation.Permutation_length PM); lia|].
  intro r. specialize (P r). unfold part_of in P. rewrite <- total_sets.
  - assert (TP : forall x y, Permutation.Permutation x y -> total r x = total r y) by (induction 1; cbn; lia).
    rewrite (TP _ _ PM). exact P.
  - intros k h X. apply L in X. clear - X S. revert X S. assert (G : forall cur, registered k cur ops = Some h ->
      (forall k h, In (AAdd k h) ops -> NoDup h) -> (forall g, cur = Some g -> NoDup g) -> NoDup h).
    { induction ops as [|o ops IH]; intros cur X S C; cbn [registered] in X; [now apply C|].
      destruct o as [k' h'|k'|p]; (eapply IH; [exact X | intros k0 h0 Y; apply (S k0); now right |]).
      - intros g G. destruct (tkey_eqb k' k); [injection G as <-; apply (S k'); now left | now apply C].
      - intros g G. destruct (tkey_eqb k' k); [discriminate G | now apply C].
      - intros g G. destruct (fst (fst k) =? p); [discriminate G | now apply C]. }
    intros X S. eapply G; [exact X | exact S | discriminate].
Qed.
Print Assumptions C38_never_too_small.

(** If tunnels get unused ids and are removed before their pool is shut down, the counters are
    exactly those of the registered tunnels.  The full claim has no such conditions
    ([C38_shutdown_refuted], [C38_same_id_refuted]). *)
Theorem C38_exact_partial : forall ops l, N.of_nat (length ops) < 2 ^ 64 -> sets ops -> orderly ops -> lists_live ops l ->
  let s := fst (arun acct_new ops) in
  a_num s = N.of_nat (length l) /\
  forall r, match nget r (a_part s) with Some v => v | None => 0 end = N.of_nat (tunnels_of r l).
Proof.
  intros ops l B S O [ND L]. pose proof (arun_tunnels ops B) as T. pose proof (arun_exact ops B O) as [XN XP].
  destruct (arun_inv ops 0 acct_new ainv_new) as (s & E & I); [exact B|]. rewrite E in *. cbn [fst] in *. cbv zeta.
  destruct I as [K Z M P].
  assert (PM : Permutation.Permutation l (a_tunnels s)).
  { apply Permutation.NoDup_Permutation; [eapply NoDup_map_inv; exact ND | eapply NoDup_map_inv; exact K|].
    intros [k h]. rewrite L, <- T. symmetry. now apply lookup_iff. }
  split; [rewrite (Permutation.Permutation_length PM); exact XN|].
  intro r. specialize (XP r). unfold part_of in XP. rewrite XP, <- total_sets.
  - assert (TP : forall x y, Permutation.Permutation x y -> total r x = total r y) by (induction 1; cbn; lia).
    symmetry. apply TP, PM.
  - intros k h X. apply L in X. clear - X S. revert X S. assert (G : forall cur, registered k cur ops = Some h ->
      (forall k h, In (AAdd k h) ops -> NoDup h) -> (forall g, cur = Some g -> NoDup g) -> NoDup h).
    { induction ops as [|o ops IH]; intros cur X S C; cbn [registered] in X; [now apply C|].
      destruct o as [k' h'|k'|p]; (eapply IH; [exact X | intros k0 h0 Y; apply (S k0); now right |]).
      - intros g G. destruct (tkey_eqb k' k); [injection G as <-; apply (S k'); now left | now apply C].
      - intros g G. destruct (tkey_eqb k' k); [discriminate G | now apply C].
      - intros g G. destruct (fst (fst k) =? p); [discriminate G | now apply C]. }
    intros X S. eapply G; [exact X | exact S | discriminate].
Qed.
Print Assumptions C38_exact_partial.

(** A client pool that is shut down with tunnels leaves its counts behind for ever: nothing is
    registered any more, but the router counts as part of a tunnel and is not used. *)
Theorem C38_shutdown_refuted : exists ops, lists_live ops [] /\
  forall k n, match nget 9 (a_part (fst (arun acct_new (ops ++ [ARemove k])))) with Some v => v | None => 0 end = 1 /\
  a_num (fst (arun acct_new ops)) = 1 /\
  select_hops false false (storage_new same same [(9, homed 9)] []) (fst (arun acct_new ops)) 0 no_luck (S n) = SelNone.
Proof.
  exists [AAdd (4, true, 1) [9]; AShutdown 4]. split.
  - split; [constructor|]. intros k h. split; [intros []|]. cbn [registered].
    destruct (N.eqb_spec (fst (fst k)) 4) as [E|E]; [discriminate|].
    destruct (tkey_eqb (4, true, 1) k) eqn:X; [|discriminate]. apply tkey_eqb_eq in X. subst k. now destruct E.
  - intros k n. split; [vm_compute; reflexivity|]. split; [vm_compute; reflexivity|]. vm_compute. reflexivity.
Qed.
Print Assumptions C38_shutdown_refuted.

(** So does registering a tunnel under an id in use (ids are drawn at random, for outbound tunnels
    without a check). *)
Theorem C38_same_id_refuted : exists ops, lists_live ops [] /\ (forall p, ~ In (AShutdown p) ops) /\
  a_num (fst (arun acct_new ops)) = 1 /\ nget 9 (a_part (fst (arun acct_new ops))) = Some 1.
Proof.
  exists [AAdd (0, true, 1) [9]; AAdd (0, true, 1) [8]; ARemove (0, true, 1)]. split; [|split; [|vm_compute; auto]].
  - split; [constructor|]. intros k h. split; [intros []|]. cbn [registered].
    destruct (tkey_eqb (0, true, 1) k); discriminate.
  - intros p [H|[H|[H|[]]]]; discriminate H.
Qed.
Print Assumptions C38_same_id_refuted.

Example C38_hypotheses :
  let ops := [AAdd (0, true, 1) [9; 8]; AAdd (3, false, 1) [9; 7]; ARemove (0, true, 1); AAdd (0, true, 1) [7; 6; 5]; AShutdown 2] in
  sets ops /\ orderly ops /\ lists_live ops [((3, false, 1), [9; 7]); ((0, true, 1), [7; 6; 5])] /\
  nget 7 (a_part (fst (arun acct_new ops))) = Some 2.
Proof.
  cbv zeta. split; [|split; [|split]].
  - intros k h H. repeat (destruct H as [H|H]; [try discriminate H; injection H as <- <-; repeat constructor; cbn; intuition discriminate|]). destruct H.
  - intros before o after H.
    repeat (destruct before as [|? before]; cbn in H; [injection H as <- <-; try exact I; try reflexivity|]; try (injection H as <- H)).
    + intros k E. cbn [registered]. destruct (tkey_eqb (0, true, 1) k) eqn:E1; [apply tkey_eqb_eq in E1; subst k; discriminate E|].
      destruct (tkey_eqb (3, false, 1) k) eqn:E2; [apply tkey_eqb_eq in E2; subst k; discriminate E | reflexivity].
    + destruct before; discriminate H.
  - split; [repeat constructor; cbn; intuition discriminate|]. intros k h. cbn [In registered].
    destruct (tkey_eqb (0, true, 1) k) eqn:E1; [apply tkey_eqb_eq in E1; subst k; cbn; split; [intros [H|[H|[]]]; try discriminate H; now injection H as <- | intro H; injection H as <-; auto]|].
    destruct (tkey_eqb (3, false, 1) k) eqn:E2; [apply tkey_eqb_eq in E2; subst k; cbn; split; [intros [H|[H|[]]]; try discriminate H; now injection H as <- | intro H; injection H as <-; auto]|].
    assert ((3, false, 1) <> k) by (intros <-; now rewrite tkey_eqb_refl in E2).
    assert ((0, true, 1) <> k) by (intros <-; now rewrite tkey_eqb_refl in E1).
    destruct (fst (fst k) =? 2); intuition congruence.
  - vm_compute. reflexivity.
Qed.
