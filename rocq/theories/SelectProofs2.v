(** Proofs about the hop selector: the selection itself. *)
From Coq Require Import List NArith Bool Lia Permutation Arith.
From Verif Require Import NMap Bytes RouteProofs DialProofs ProfileModel ProfileSpec ProfileProofs SelectModel SelectSpec SelectProofs.
Import ListNotations.
Open Scope N_scope.

Lemma choose_ok' s f l :
  (forall r i p, In r l -> nget r (s_infos s) = Some i -> nget r (s_profiles s) = Some p -> f r i p <> None) ->
  (forall r, In r l -> nhas r (s_infos s) = true /\ nhas r (s_profiles s) = true) -> exists x, choose s f l = Some x.
Proof.
  induction l as [|r l IH]; intros F H; cbn [choose]; [eauto|].
  destruct (H r (or_introl eq_refl)) as [H1 H2]. unfold nhas in H1, H2.
  destruct (nget r (s_profiles s)) as [p|] eqn:EP; [|discriminate H2]. destruct (nget r (s_infos s)) as [i|] eqn:EI; [|discriminate H1].
  destruct (IH (fun x i p X => F x i p (or_intror X)) (fun x X => H x (or_intror X))) as [x ->].
  pose proof (F r i p (or_introl eq_refl) EI EP) as G. destruct (f r i p); [eauto | now destruct G].
Qed.
Lemma bucket_findable s b r : In r (bucket_ids s b) -> findable s r.
Proof. intro X. apply findable_iff. destruct b; cbn [bucket_ids] in X; rewrite ?in_app_iff in X; tauto. Qed.

(** What every chosen router satisfies. *)
Definition usable_hop (s : store) (c : N -> bool) (r : N) : Prop :=
  findable s r /\ (exists i, nget r (s_infos s) = Some i /\ f_reachable i = true) /\ c r = true.
Lemma usable_known s c r : pinv s -> usable_hop s c r -> nhas r (s_profiles s) && nhas r (s_infos s) = true.
Proof. intros I [F _]. pose proof (pi_info s I r F) as H. rewrite H, (pi_prof s I r H). reflexivity. Qed.

Definition demands_hop (s : store) (c : N -> bool) (f : filter_t) : Prop :=
  (forall r i p, nget r (s_profiles s) = Some p -> f r i p <> None) /\
  (forall r i p, f r i p = Some true -> f_reachable i = true /\ c r = true).
Lemma strict_demands s now c : clock_ok s now -> demands_hop s c (strict now c).
Proof.
  intro K. split.
  - intros r i p H. unfold strict, and_then. specialize (K r p H). destruct (is_failing now p); [discriminate | now destruct K].
  - intros r i p H. unfold strict, and_then in H. destruct (is_failing now p) as [x|]; [|discriminate H]. injection H as H.
    apply andb_true_iff in H as [_ H]. apply andb_true_iff in H as [H H2]. apply andb_true_iff in H as [H H1]. auto.
Qed.
Lemma relaxed_demands s now c : clock_ok s now -> demands_hop s c (relaxed now c).
Proof.
  intro K. split.
  - intros r i p H. unfold relaxed, and_then. specialize (K r p H). destruct (is_failing now p); [discriminate | now destruct K].
  - intros r i p H. unfold relaxed, and_then in H. destruct (is_failing now p) as [x|]; [|discriminate H]. injection H as H.
    apply andb_true_iff in H as [_ H]. apply andb_true_iff in H as [H H2]. auto.
Qed.
Lemma any_demands s c : demands_hop s c (any_router c).
Proof. split; [discriminate|]. intros r i p H. injection H as H. now apply andb_true_iff in H. Qed.

Lemma get_ok s c b f : pinv s -> demands_hop s c f ->
  exists ids, get_router_ids s b f = Some ids /\ forall r, In r ids -> usable_hop s c r.
Proof.
  intros I [D1 D2]. destruct (choose_ok' s f (bucket_ids s b)) as [ids E].
  - intros r i p _ _ P. now apply D1.
  - intros r X. apply bucket_findable in X. split; [now apply (pi_info s I) | now apply (pi_prof s I), (pi_info s I)].
  - exists ids. split; [exact E|]. intros r X. apply (choose_spec _ _ _ _ E) in X as [X (i & p & EI & EP & F)].
    apply D2 in F as [F1 F2]. split; [eapply bucket_findable, X|]. split; [eauto | exact F2].
Qed.
Lemma get_any s c r : pinv s -> usable_hop s c r -> forall ids, get_router_ids s BAny (any_router c) = Some ids -> In r ids.
Proof.
  intros I (F & (i & EI & R) & C) ids E. apply (choose_spec _ _ _ _ E). split; [exact F|].
  pose proof (pi_prof s I r (pi_info s I r F)) as P. unfold nhas in P. destruct (nget r (s_profiles s)) as [p|]; [|discriminate P].
  exists i, p. unfold any_router. rewrite R, C. auto.
Qed.

(** Routers matched with different networks they have an address in. *)
Definition matched (s : store) (c : N -> bool) (L : list (N * N)) : Prop :=
  NoDup (map fst L) /\ forall net r, In (net, r) L -> usable_hop s c r /\ lives_in s r net.
Definition spread (s : store) (c : N -> bool) (n : nat) (hops : list N) : Prop :=
  length hops = n /\ Forall (usable_hop s c) hops /\ exists nets, NoDup nets /\ Forall2 (lives_in s) hops nets.

Lemma finish_ok s c n l L : pinv s -> matched s c L -> Permutation l (map snd L) -> (n <= length L)%nat ->
  exists hops, finish s n l = SelHops hops /\ spread s c n hops.
Proof.
  intros I [ND M] P LE. apply Permutation_map_inv in P as (L' & -> & P).
  assert (ND' : NoDup (map fst L')) by apply (Permutation_NoDup (Permutation_map fst P) ND).
  assert (M' : forall net r, In (net, r) L' -> usable_hop s c r /\ lives_in s r net).
  { intros net r X. apply M. apply (Permutation_in _ (Permutation_sym P)), X. }
  apply Permutation_length in P. unfold finish. rewrite map_length.
  destruct (Nat.ltb_spec (length L') n); [lia|]. rewrite firstn_map.
  assert (S : forall x, In x (firstn n L') -> In x L').
  { intros x X. rewrite <- (firstn_skipn n L'). apply in_or_app. now left. }
  assert (U : forall r, In r (map snd (firstn n L')) -> usable_hop s c r).
  { intros r X. apply in_map_iff in X as ([net r'] & <- & X). now apply (M' net r'), S. }
  assert (A : forallb (fun r => nhas r (s_profiles s) && nhas r (s_infos s)) (map snd (firstn n L')) = true).
  { apply forallb_forall. intros r X. apply (usable_known s c r I), U, X. }
  rewrite A. eexists. split; [reflexivity|]. split; [rewrite map_length, firstn_length; lia|].
  split; [now apply Forall_forall|]. exists (map fst (firstn n L')). split.
  - rewrite <- (firstn_skipn n L'), map_app in ND'. revert ND'. generalize (map fst (firstn n L')), (map fst (skipn n L')). clear.
    intros x y. induction x as [|z x IH]; intro ND; [constructor|]. inversion ND as [|? ? X Y]; subst. constructor; [intro G; apply X, in_or_app; now left | now apply IH].
  - assert (V : forall x, In x (firstn n L') -> lives_in s (snd x) (fst x)).
    { intros [net r] X. now apply M', S. }
    clear - V. induction (firstn n L') as [|x t IH]; cbn [map]; constructor; [apply V; now left|]. apply IH. intros y Y. apply V. now right.
Qed.

Lemma matched_app s c A B : matched s c A -> matched s c B -> (forall net, In net (map fst A) -> ~ In net (map fst B)) -> matched s c (A ++ B).
Proof.
  intros [N1 M1] [N2 M2] D. split.
  - rewrite map_app. revert D N1 N2. generalize (map fst A), (map fst B). clear. intros a b. induction a as [|x a IH]; intros D N1 N2; [exact N2|].
    cbn. inversion N1 as [|? ? X Y]; subst. constructor; [|apply IH; auto; intros n H; apply D; now right].
    intro H. apply in_app_iff in H as [H|H]; [auto | apply (D x (or_introl eq_refl) H)].
  - intros net r X. apply in_app_iff in X as [X|X]; auto.
Qed.
Lemma choices_matched s c ids g f : well_grouped s ids g -> (forall r, In r ids -> usable_hop s c r) ->
  (forall x, snd x <> [] -> In (f x) (snd x)) -> matched s c (choices f g).
Proof.
  intros W U F. destruct (choices_ok s ids g f W F) as [K V]. split; [rewrite K; apply sorted_NoDup, W|].
  intros net r X. apply V in X as [X1 X2]. auto.
Qed.
Lemma picks_choices k g : picks k g = map snd (choices (fun x => nth (N.to_nat (k_pick k (fst x) mod N.of_nat (length (snd x)))) (snd x) 0) g).
Proof. unfold picks, choices. now rewrite map_map. Qed.
Lemma lasts_choices g : lasts g = map snd (choices (fun x => last (snd x) 0) g).
Proof. unfold lasts, choices. now rewrite map_map. Qed.
Lemma choices_keys f g : map fst (choices f g) = nkeys g.
Proof. unfold choices, nkeys. now rewrite map_map. Qed.
Lemma choices_length f g : length (choices f g) = length g.
Proof. unfold choices. apply map_length. Qed.
Lemma outside_disjoint a g net : In net (nkeys a) -> ~ In net (nkeys (outside a g)).
Proof. intros H X. apply nhas_keys in H, X. rewrite outside_has, H, andb_false_r in X. discriminate X. Qed.
Lemma outside_sub a g net : In net (nkeys (outside a g)) -> In net (nkeys g).
Proof. intro X. apply nhas_keys in X. rewrite outside_has in X. apply andb_true_iff in X as [X _]. now apply nhas_keys. Qed.

Lemma select_secure_ok s a now k first second n : pinv s -> clock_ok s now ->
  match select_secure s a now k first second n with
  | SelPanic => False
  | SelNone => forall L, matched s (can_participate a) L -> (length L < n)%nat
  | SelHops hops => spread s (can_participate a) n hops
  end.
Proof.
  intros I K. unfold select_secure. set (c := can_participate a). cbv zeta.
  destruct (get_ok s c first (strict now c) I (strict_demands s now c K)) as (ids & E1 & U1). rewrite E1. cbn [bind_ids].
  destruct (group_spec s ids) as [W1 _]. set (g1 := group_by_subnet s ids) in *.
  set (fp := fun x : N * list N => nth (N.to_nat (k_pick k (fst x) mod N.of_nat (length (snd x)))) (snd x) 0).
  set (fl := fun x : N * list N => last (snd x) 0).
  assert (M1 : matched s c (choices fp g1)) by (eapply choices_matched; [exact W1 | exact U1 | intros x X; apply pick_in, X]).
  destruct (Nat.ltb_spec (length g1) n) as [SH|SH].
  2:{ destruct (finish_ok s c n (shuffle (k_shuffle k 0%nat) (picks k g1)) (choices fp g1) I M1) as (hops & -> & S); [| |exact S].
      - rewrite picks_choices. apply shuffle_perm.
      - now rewrite choices_length. }
  destruct (get_ok s c second (relaxed now c) I (relaxed_demands s now c K)) as (ids2 & E2 & U2). rewrite E2. cbn [bind_ids].
  destruct (group_spec s ids2) as [W2 _]. apply (outside_grouped s ids2 g1) in W2. set (g2 := outside g1 (group_by_subnet s ids2)) in *.
  assert (M2 : matched s c (choices fl g2)) by (eapply choices_matched; [exact W2 | exact U2 | intros x X; apply last_in, X]).
  assert (X3 : exists ids3, (if Nat.ltb (length g1 + length g2) n then get_router_ids s BUntracked (relaxed now c) else Some []) = Some ids3 /\
     forall r, In r ids3 -> usable_hop s c r).
  { destruct (Nat.ltb (length g1 + length g2) n); [apply (get_ok s c BUntracked (relaxed now c) I (relaxed_demands s now c K))|].
    exists []. split; [reflexivity | intros r []]. }
  destruct X3 as (ids3 & -> & U3). cbn [bind_ids].
  destruct (group_spec s ids3) as [W3 _]. apply (outside_grouped s ids3 g1), (outside_grouped s ids3 g2) in W3.
  set (g3 := outside g2 (outside g1 (group_by_subnet s ids3))) in *.
  assert (M3 : matched s c (choices fl g3)) by (eapply choices_matched; [exact W3 | exact U3 | intros x X; apply last_in, X]).
  assert (X4 : exists ids4, (if Nat.ltb (length g1 + length g2 + length g3) n then get_router_ids s BAny (any_router c) else Some []) = Some ids4 /\
     (forall r, In r ids4 -> usable_hop s c r) /\
     (Nat.ltb (length g1 + length g2 + length g3) n = true -> get_router_ids s BAny (any_router c) = Some ids4)).
  { destruct (Nat.ltb (length g1 + length g2 + length g3) n).
    - destruct (get_ok s c BAny (any_router c) I (any_demands s c)) as (x & E & U). exists x. auto.
    - exists []. split; [reflexivity|]. split; [intros r [] | discriminate]. }
  destruct X4 as (ids4 & -> & U4 & E4). cbn [bind_ids].
  destruct (group_spec s ids4) as [W4 C4]. apply (outside_grouped s ids4 g1), (outside_grouped s ids4 g2), (outside_grouped s ids4 g3) in W4.
  set (G4 := group_by_subnet s ids4) in *. set (g4 := outside g3 (outside g2 (outside g1 G4))) in *.
  assert (M4 : matched s c (choices fl g4)) by (eapply choices_matched; [exact W4 | exact U4 | intros x X; apply last_in, X]).
  assert (M : matched s c (choices fp g1 ++ choices fl g2 ++ choices fl g3 ++ choices fl g4)).
  { apply matched_app; [exact M1 | apply matched_app; [exact M2 | apply matched_app; [exact M3 | exact M4 |] |] |].
    - intros net X Y. rewrite choices_keys in X, Y. now apply (outside_disjoint g3 (outside g2 (outside g1 G4)) net).
    - intros net X Y. rewrite map_app, in_app_iff, !choices_keys in Y. rewrite choices_keys in X. destruct Y as [Y|Y].
      + now apply (outside_disjoint g2 (outside g1 (group_by_subnet s ids3)) net).
      + apply outside_sub in Y. now apply (outside_disjoint g2 (outside g1 G4) net).
    - intros net X Y. rewrite !map_app, !in_app_iff, !choices_keys in Y. rewrite choices_keys in X. destruct Y as [Y|[Y|Y]].
      + now apply (outside_disjoint g1 (group_by_subnet s ids2) net).
      + apply outside_sub in Y. now apply (outside_disjoint g1 (group_by_subnet s ids3) net).
      + do 2 apply outside_sub in Y. now apply (outside_disjoint g1 G4 net). }
  destruct (Nat.ltb_spec (length g1 + length g2 + length g3 + length g4) n) as [S4|S4].
  - intros L [NL ML]. assert (ids4all : get_router_ids s BAny (any_router c) = Some ids4).
    { apply E4. apply Nat.ltb_lt. lia. }
    assert (INC : incl (map fst L) (nkeys g1 ++ nkeys g2 ++ nkeys g3 ++ nkeys g4)).
    { intros net X. apply in_map_iff in X as ([net' r] & <- & X). cbn [fst]. apply ML in X as [U V].
      pose proof (get_any s c r I U ids4 ids4all) as R. pose proof (C4 r net' R V) as H4.
      rewrite !in_app_iff, <- !nhas_keys. unfold g4. rewrite !outside_has, H4.
      destruct (nhas net' g1); [auto|]. destruct (nhas net' g2); [auto|]. destruct (nhas net' g3); auto. }
    apply (NoDup_incl_length NL) in INC. rewrite !app_length in INC. unfold nkeys in INC. rewrite !map_length in INC.
    eapply Nat.le_lt_trans; [exact INC|]. lia.
  - match goal with |- match finish s n ?l with _ => _ end =>
      destruct (finish_ok s c n l (choices fp g1 ++ choices fl g2 ++ choices fl g3 ++ choices fl g4) I M) as (hops & -> & S); [| |exact S] end.
    + rewrite !map_app. rewrite picks_choices, !lasts_choices. repeat apply Permutation_app; apply shuffle_perm.
    + rewrite !app_length, !choices_length. lia.
Qed.

(** *** Insecure mode: as many as asked for, or none *)
Lemma finish_plain s c n l : pinv s -> (forall r, In r l -> usable_hop s c r) -> (n <= length l)%nat ->
  exists hops, finish s n l = SelHops hops /\ length hops = n /\ Forall (usable_hop s c) hops.
Proof.
  intros I U L. unfold finish. destruct (Nat.ltb_spec (length l) n); [lia|].
  assert (S : forall x, In x (firstn n l) -> usable_hop s c x).
  { intros x X. apply U. rewrite <- (firstn_skipn n l). apply in_or_app. now left. }
  assert (A : forallb (fun r => nhas r (s_profiles s) && nhas r (s_infos s)) (firstn n l) = true).
  { apply forallb_forall. intros r X. apply (usable_known s c r I), S, X. }
  rewrite A. eexists. split; [reflexivity|]. split; [rewrite firstn_length; lia | now apply Forall_forall].
Qed.
Lemma select_insecure_ok s now k client first second n : pinv s -> clock_ok s now ->
  match select_insecure s now k client first second n with
  | SelPanic => False
  | SelNone => True
  | SelHops hops => length hops = n /\ Forall (usable_hop s (fun _ => true)) hops
  end.
Proof.
  intros I K. unfold select_insecure. set (c := fun _ : N => true). cbv zeta.
  assert (PS : forall d l r, In r (shuffle d l) -> In r l) by (intros d l r; apply Permutation_in, shuffle_perm).
  assert (PL : forall d l, length (shuffle d l) = length l) by (intros d l; apply Permutation_length, shuffle_perm).
  destruct (get_ok s c first (strict now c) I (strict_demands s now c K)) as (ids & E1 & U1). rewrite E1. cbn [bind_ids].
  rewrite PL. destruct (Nat.ltb_spec (length ids) n) as [SH|SH].
  2:{ destruct (finish_plain s c n (shuffle (k_shuffle k 0%nat) ids) I) as (hops & -> & S); [eauto | rewrite PL; exact SH | exact S]. }
  destruct (get_ok s c second (relaxed now c) I (relaxed_demands s now c K)) as (e1 & E2 & U2). rewrite E2. cbn [bind_ids].
  assert (X3 : exists e2, (if Nat.ltb (length e1) (n - length ids) then
      option_map (fun u => nodup N.eq_dec (e1 ++ u)) (get_router_ids s BUntracked (relaxed now c)) else Some e1) = Some e2 /\
      forall r, In r e2 -> usable_hop s c r).
  { destruct (Nat.ltb (length e1) (n - length ids)); [|eauto].
    destruct (get_ok s c BUntracked (relaxed now c) I (relaxed_demands s now c K)) as (x & -> & U). cbn [option_map].
    eexists. split; [reflexivity|]. intros r X. apply nodup_In, in_app_iff in X as [X|X]; auto. }
  destruct X3 as (e2 & -> & U3). cbn [bind_ids].
  assert (X4 : exists e3, (if Nat.ltb (length e2) (n - length ids) then
      option_map (fun u => nodup N.eq_dec (e2 ++ u)) (get_router_ids s BAny (any_router c)) else Some e2) = Some e3 /\
      forall r, In r e3 -> usable_hop s c r).
  { destruct (Nat.ltb (length e2) (n - length ids)); [|eauto].
    destruct (get_ok s c BAny (any_router c) I (any_demands s c)) as (x & -> & U). cbn [option_map].
    eexists. split; [reflexivity|]. intros r X. apply nodup_In, in_app_iff in X as [X|X]; auto. }
  destruct X4 as (e3 & -> & U4). cbn [bind_ids].
  destruct (Nat.ltb_spec (length e3) (n - length ids)) as [S4|S4]; [exact Logic.I|].
  match goal with |- match finish s n ?l with _ => _ end => destruct (finish_plain s c n l I) as (hops & -> & S); [| |exact S] end.
  - intros r X. apply in_app_iff in X as [X|X]; [eauto|].
    assert (Y : In r (if client then e3 else shuffle (k_shuffle k 1%nat) e3)).
    { rewrite <- (firstn_skipn (n - length ids)). apply in_or_app. now left. }
    destruct client; eauto.
  - rewrite app_length, firstn_length, PL. destruct client; rewrite ?PL; lia.
Qed.
