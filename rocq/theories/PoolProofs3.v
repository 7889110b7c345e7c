(** Proofs about the tunnel pool: first hops, tests, maintenance. *)
From Coq Require Import List NArith PeanoNat Bool Lia Permutation.
From Verif Require Import ListUtil NMap RouteProofs DestProofs PoolModel PoolSpec PoolProofs PoolProofs2.
Import ListNotations.
Open Scope N_scope.

Lemma clock_cons t e r : clock t (e :: r) = clock (clock t [e]) r.
Proof. change (e :: r) with ([e] ++ r). apply clock_app. Qed.
Lemma clock_ge t tr : t <= clock t tr.
Proof. revert t. induction tr as [|[o us] r IH]; intro t; cbn; [lia|]. destruct o; try apply IH. specialize (IH (N.max now t)). lia. Qed.
Lemma trials_from_app t Q a b : trials_from t Q (a ++ b) = trials_from (clock t a) (trials_from t Q a) b.
Proof.
  revert t Q. induction a as [|e r IH]; intros t Q; [reflexivity|].
  rewrite clock_cons. cbn [app trials_from]. apply IH.
Qed.
Lemma trials_snoc t0 tr e :
  trials t0 (tr ++ [e]) =
  fold_left (try_it (clock t0 (tr ++ [e]))) (snd e)
    (match e with (OTestDone sn _, _ :: _) => filter (fun x => negb (tr_sn x =? sn)) (trials t0 tr) | _ => trials t0 tr end).
Proof. unfold trials. rewrite trials_from_app, clock_app. reflexivity. Qed.
Lemma last_maintenance_snoc t0 acc tr e :
  last_maintenance t0 acc (tr ++ [e]) =
  if maintained (snd e) then Some (clock t0 (tr ++ [e])) else last_maintenance t0 acc tr.
Proof.
  revert t0 acc. induction tr as [|x r IH]; intros t0 acc; [reflexivity|].
  cbn [app last_maintenance]. rewrite IH. now rewrite (clock_cons t0 x (r ++ [e])).
Qed.
Lemma last_round_snoc t0 acc tr e :
  last_round t0 acc (tr ++ [e]) =
  if maintained (snd e) && (last_round t0 acc tr + seconds 15 <=? clock t0 (tr ++ [e])) then clock t0 (tr ++ [e])
  else last_round t0 acc tr.
Proof.
  revert t0 acc. induction tr as [|x r IH]; intros t0 acc; [reflexivity|].
  cbn [app last_round]. rewrite IH. now rewrite (clock_cons t0 x (r ++ [e])).
Qed.
Lemma failed_snoc acc tr e :
  failed_since acc (tr ++ [e]) = match fst e with OEnd _ => false | _ => failed_since acc tr || fails (snd e) end.
Proof. revert acc. induction tr as [|x r IH]; intro acc; [reflexivity|]. cbn [app failed_since]. apply IH. Qed.
Lemma started_snoc tr e id h :
  started (tr ++ [e]) id h <-> started tr id h \/ exists sn z, In (StartOut sn id h z) (snd e).
Proof.
  unfold started. split.
  - intros (x & sn & z & I & J). apply in_app_or in I as [I|[<-|[]]]; [left; exists x, sn, z; auto | right; exists sn, z; auto].
  - intros [(x & sn & z & I & J)|(sn & z & J)].
    + exists x, sn, z. split; [apply in_or_app; auto | auto].
    + exists e, sn, z. split; [apply in_or_app; right; now left | auto].
Qed.
Lemma in_try t us Q x :
  In x (fold_left (try_it t) us Q) <-> In x Q \/ (tr_at x = t /\ In (Tested (tr_sn x) (tr_out x) (tr_in x)) us).
Proof.
  revert Q. induction us as [|u us IH]; intro Q; cbn [fold_left].
  - cbn. tauto.
  - rewrite IH. cbn [In].
    assert (E : In x (try_it t Q u) <-> In x Q \/ (tr_at x = t /\ u = Tested (tr_sn x) (tr_out x) (tr_in x))).
    { destruct u; cbn [try_it]; try (split; [auto|intros [A|[_ A]]; [auto|discriminate]]; fail).
      cbn [In]. split.
      - intros [<-|A]; [right; auto | auto].
      - intros [A|[<- A]]; [auto|]. left. injection A as -> -> ->. now destruct x. }
    rewrite E. intuition congruence.
Qed.

(** Outputs that are neither tests nor notices of maintenance or failure. *)
Definition plain (us : list out) : Prop :=
  forall u, In u us -> match u with Tested _ _ _ | Maintained | Failed _ => False | _ => True end.
Lemma plain_nil : plain [].
Proof. intros u []. Qed.
Lemma plain_app a b : plain a -> plain b -> plain (a ++ b).
Proof. intros A B u H. apply in_app_or in H as [H|H]; [exact (A u H) | exact (B u H)]. Qed.
Lemma plain_maint us : plain us -> maintained us = false /\ fails us = false.
Proof.
  intro P. unfold maintained, fails. induction us as [|u us IH]; [auto|].
  destruct IH as [IH1 IH2]; [intros x Hx; apply P; now right|]. cbn [existsb]. rewrite IH1, IH2.
  specialize (P u (or_introl eq_refl)). now destruct u.
Qed.
Lemma plain_try us t Q : plain us -> fold_left (try_it t) us Q = Q.
Proof.
  revert Q. induction us as [|u us IH]; intros Q P; [reflexivity|]. cbn [fold_left].
  replace (try_it t Q u) with Q; [apply IH; intros x Hx; apply P; now right|].
  specialize (P u (or_introl eq_refl)). now destruct u.
Qed.
Lemma plain_tested us : plain us -> tested_out us = [] /\ tested_in us = [].
Proof.
  intro P. unfold tested_out, tested_in. induction us as [|u us IH]; [auto|].
  destruct IH as [IH1 IH2]; [intros x Hx; apply P; now right|]. cbn [flat_map]. rewrite IH1, IH2.
  specialize (P u (or_introl eq_refl)). now destruct u.
Qed.

Definition side (p : pool) := (p_tests p, p_last_test p, p_maint p, p_failed p).
Definition more_out (p p' : pool) (us : list out) : Prop :=
  forall x, In x (p_po p') -> In x (p_po p) \/ exists sn z, In (StartOut sn (po_id x) (po_router x) z) us.

Lemma build_out_side p b p' us :
  build_out p b = (p', us) -> side p' = side p /\ more_out p p' us /\ plain us.
Proof.
  unfold build_out. intro H.
  assert (K : forall x, (p, []) = x -> side (fst x) = side p /\ more_out p (fst x) (snd x) /\ plain (snd x)).
  { intros x <-. repeat split; [now left | apply plain_nil]. }
  destruct (negb (b_hops b)); [apply (K _ H)|]. destruct (b_via b).
  - destruct (b_ok b); [|apply (K _ H)]. apply pair_equal_spec in H as [<- <-]. repeat split.
    + intros x Hx. cbn in Hx. apply in_app_or in Hx as [Hx|[<-|[]]]; [now left|]. right. eexists _, _. now left.
    + intros u [<-|[]]. exact I.
  - destruct (draw (b_draws b) (p_rt p)); [|apply (K _ H)]. destruct (b_ok b); [|apply (K _ H)].
    apply pair_equal_spec in H as [<- <-]. repeat split.
    + intros x Hx. cbn in Hx. apply in_app_or in Hx as [Hx|[<-|[]]]; [now left|]. right. eexists _, _. now left.
    + intros u [<-|[]]. exact I.
Qed.
Lemma build_in_side p b p' us :
  build_in p b = (p', us) -> side p' = side p /\ more_out p p' us /\ plain us.
Proof.
  unfold build_in. intro H.
  assert (K : forall x, (p, []) = x -> side (fst x) = side p /\ more_out p (fst x) (snd x) /\ plain (snd x)).
  { intros x <-. repeat split; [now left | apply plain_nil]. }
  destruct (negb (b_hops b)); [apply (K _ H)|].
  destruct (draw (b_draws b) (p_rt p)); [|apply (K _ H)]. destruct (b_ok b); [|apply (K _ H)].
  apply pair_equal_spec in H as [<- <-]. repeat split.
  - intros x Hx. now left.
  - intros u [<-|[]]. exact I.
Qed.
Lemma builds_side f :
  (forall p b p' us, f p b = (p', us) -> side p' = side p /\ more_out p p' us /\ plain us) ->
  forall n bs p p' us, builds f n bs p = (p', us) -> side p' = side p /\ more_out p p' us /\ plain us.
Proof.
  intros F n. induction n as [|n IH]; intros [|b bs] p p' us H; cbn [builds] in H.
  1-3: apply pair_equal_spec in H as [<- <-]; repeat split; [now left | apply plain_nil].
  destruct (f p b) as [p1 o1] eqn:E1. destruct (builds f n bs p1) as [p2 o2] eqn:E2.
  apply pair_equal_spec in H as [<- <-]. apply F in E1 as (A1 & B1 & C1). apply IH in E2 as (A2 & B2 & C2).
  split; [congruence|]. split; [|now apply plain_app].
  intros x Hx. apply B2 in Hx as [Hx|(sn & z & Hx)].
  - apply B1 in Hx as [Hx|(sn & z & Hx)]; [auto|]. right. exists sn, z. apply in_or_app. auto.
  - right. exists sn, z. apply in_or_app. auto.
Qed.

Lemma tested_out_app a b : tested_out (a ++ b) = tested_out a ++ tested_out b.
Proof. apply flat_map_app. Qed.
Lemma tested_in_app a b : tested_in (a ++ b) = tested_in a ++ tested_in b.
Proof. apply flat_map_app. Qed.

Lemma test_all_side l sent p p' us :
  test_all l sent p = (p', us) ->
  p_po p' = p_po p /\ p_last_test p' = p_last_test p /\ p_maint p' = p_maint p /\ p_failed p' = p_failed p /\
  (forall sn o i t, In (mkT sn o i t) (p_tests p') <-> In (mkT sn o i t) (p_tests p) \/ (t = p_now p /\ In (Tested sn o i) us)) /\
  (forall u, In u us -> exists sn o i, u = Tested sn o i) /\
  (forall o, In o (tested_out us) -> In o (map fst l)) /\ (forall i, In i (tested_in us) -> In i (map snd l)) /\
  (NoDup (map fst l) -> NoDup (tested_out us)) /\ (NoDup (map snd l) -> NoDup (tested_in us)) /\
  (forallb (fun b => b) sent = true -> tested_out us = map fst l /\ tested_in us = map snd l).
Proof.
  revert sent p p' us. induction l as [|[o i] l IH]; intros sent p p' us H; cbn [test_all] in H.
  { apply pair_equal_spec in H as [<- <-]. cbn. do 4 (split; [reflexivity|]).
    split; [intros; tauto|]. split; [intros u []|]. split; [intros u []|]. split; [intros u []|].
    split; [constructor|]. split; [constructor|]. auto. }
  destruct (test_one p o i (hd true sent)) as [p1 o1] eqn:E1.
  destruct (test_all l (tl sent) p1) as [p2 o2] eqn:E2. apply pair_equal_spec in H as [<- <-].
  apply IH in E2 as (A1 & A2 & A3 & A4 & A5 & A6 & A7 & A8 & A9 & A10 & A11). unfold test_one in E1.
  assert (ND : forall (A : Type) (x : A) l' q, NoDup (x :: q) -> (forall y, In y l' -> In y q) -> NoDup l' -> NoDup (x :: l')).
  { intros A x l' q N I N'. inversion N; subst. constructor; auto. }
  destruct (hd true sent) eqn:S; apply pair_equal_spec in E1 as [<- <-]; cbn [map fst snd app].
  - cbn in A1, A2, A3, A4, A5. rewrite A1, A2, A3, A4. do 4 (split; [reflexivity|]). split; [|split; [|split; [|split; [|split; [|split]]]]].
    + intros sn o' i' t. rewrite A5, in_app_iff. cbn [In]. split.
      * intros [[B|[B|[]]]|[-> B]]; [auto | injection B as <- <- <- <-; auto | auto].
      * intros [B|[-> [B|B]]]; [auto | injection B as <- <- <-; auto | auto].
    + intros u [<-|B]; [eauto | auto].
    + intros o' B. cbn in B. destruct B as [<-|B]; [now left | right; auto].
    + intros o' B. cbn in B. destruct B as [<-|B]; [now left | right; auto].
    + intro N. cbn. apply (ND _ _ _ _ N A7). apply A9. now inversion N.
    + intro N. cbn. apply (ND _ _ _ _ N A8). apply A10. now inversion N.
    + intro F.
      destruct A11 as [B1 B2]; [destruct sent; [reflexivity|]; cbn in F; now apply andb_true_iff in F as [_ F]|].
      cbn. rewrite <- B1, <- B2. auto.
  - do 4 (split; [assumption|]). split; [exact A5|]. split; [exact A6|]. split; [intros; right; auto|]. split; [intros; right; auto|].
    split; [intro N; apply A9; now inversion N|]. split; [intro N; apply A10; now inversion N|].
    intro F. destruct sent as [|b sent]; [discriminate|]. cbn in S, F. subst b. discriminate.
Qed.

(** Orders of iteration. *)
Lemma pull_at_lt A i (l : list A) : (i < length l)%nat -> exists x r, pull_at i l = Some (x, r).
Proof.
  intro H. destruct (nth_error l i) as [x|] eqn:E; [|apply nth_error_None in E; lia].
  apply pull_at_nth in E as [r E]. eauto.
Qed.
Lemma arrange_perm A n picks (l : list A) : length l = n -> Permutation (arrange n picks l) l.
Proof.
  revert picks l. induction n as [|n IH]; intros picks l H.
  - destruct l; [constructor | discriminate].
  - cbn [arrange]. destruct (pull_at_lt A (Nat.modulo (hd O picks) (length l)) l) as (x & r & E).
    { apply Nat.mod_upper_bound. lia. }
    rewrite E. apply pull_at_spec in E as (a & b & -> & ->).
    rewrite IH; [apply Permutation_middle|]. rewrite app_length in *. cbn in H. lia.
Qed.
Lemma combine_fst_in A B (l : list A) (l' : list B) x : In x (map fst (combine l l')) -> In x l.
Proof. intro H. apply in_map_iff in H as ([a b] & <- & H). now apply in_combine_l in H. Qed.
Lemma combine_snd_in A B (l : list A) (l' : list B) x : In x (map snd (combine l l')) -> In x l'.
Proof. intro H. apply in_map_iff in H as ([a b] & <- & H). now apply in_combine_r in H. Qed.
Lemma combine_fst_nodup A B (l : list A) (l' : list B) : NoDup l -> NoDup (map fst (combine l l')).
Proof.
  revert l'. induction l as [|x l IH]; intros [|y l'] N; try constructor.
  - inversion N; subst. intro I. now apply combine_fst_in in I.
  - inversion N; subst. now apply IH.
Qed.
Lemma combine_snd_nodup A B (l : list A) (l' : list B) : NoDup l' -> NoDup (map snd (combine l l')).
Proof.
  revert l'. induction l as [|x l IH]; intros [|y l'] N; try constructor.
  - inversion N; subst. intro I. now apply combine_snd_in in I.
  - inversion N; subst. now apply IH.
Qed.
Lemma combine_all A B (l : list A) (l' : list B) :
  map fst (combine l l') = l \/ map snd (combine l l') = l'.
Proof.
  revert l'. induction l as [|x l IH]; intros [|y l']; auto. cbn. destruct (IH l') as [->| ->]; auto.
Qed.

Lemma test_pairs_spec p p1 p2 :
  sorted (nkeys (p_out p)) -> sorted (nkeys (p_intun p)) ->
  let l := test_pairs p p1 p2 in
  NoDup (map fst l) /\ NoDup (map snd l) /\
  (forall o, In o (map fst l) -> In o (nkeys (p_out p)) /\ ~ In o (p_exp_out p)) /\
  (forall i, In i (map snd l) -> In i (nkeys (p_intun p)) /\ ~ In i (p_exp_in p)) /\
  ((forall o, In o (nkeys (p_out p)) -> ~ In o (p_exp_out p) -> In o (map fst l)) \/
   (forall i, In i (nkeys (p_intun p)) -> ~ In i (p_exp_in p) -> In i (map snd l))).
Proof.
  intros SO SI. unfold test_pairs.
  assert (PO : Permutation (arrange (length (p_out p)) p1 (nkeys (p_out p))) (nkeys (p_out p))).
  { apply arrange_perm. unfold nkeys. now rewrite map_length. }
  assert (PI : Permutation (arrange (length (p_intun p)) p2 (nkeys (p_intun p))) (nkeys (p_intun p))).
  { apply arrange_perm. unfold nkeys. now rewrite map_length. }
  set (A := arrange (length (p_out p)) p1 (nkeys (p_out p))) in *.
  set (B := arrange (length (p_intun p)) p2 (nkeys (p_intun p))) in *.
  set (fo := fun o => negb (smem o (p_exp_out p))). set (fi := fun i => negb (smem i (p_exp_in p))).
  assert (NA : NoDup (filter fo A)).
  { apply NoDup_filter. eapply Permutation_NoDup; [symmetry; exact PO|]. now apply sorted_NoDup. }
  assert (NB : NoDup (filter fi B)).
  { apply NoDup_filter. eapply Permutation_NoDup; [symmetry; exact PI|]. now apply sorted_NoDup. }
  assert (IA : forall o, In o (filter fo A) <-> In o (nkeys (p_out p)) /\ ~ In o (p_exp_out p)).
  { intro o. rewrite filter_In. unfold fo. rewrite negb_true_iff, <- not_true_iff_false, smem_In.
    split; intros [H1 H2]; (split; [|exact H2]); [now apply (Permutation_in _ PO) | now apply (Permutation_in _ (Permutation_sym PO))]. }
  assert (IB : forall o, In o (filter fi B) <-> In o (nkeys (p_intun p)) /\ ~ In o (p_exp_in p)).
  { intro o. rewrite filter_In. unfold fi. rewrite negb_true_iff, <- not_true_iff_false, smem_In.
    split; intros [H1 H2]; (split; [|exact H2]); [now apply (Permutation_in _ PI) | now apply (Permutation_in _ (Permutation_sym PI))]. }
  split; [now apply combine_fst_nodup|]. split; [now apply combine_snd_nodup|].
  split; [intros o H; apply IA; now apply combine_fst_in in H|].
  split; [intros o H; apply IB; now apply combine_snd_in in H|].
  destruct (combine_all _ _ (filter fo A) (filter fi B)) as [->| ->]; [left|right]; intros o H1 H2; [apply IA | apply IB]; auto.
Qed.

(** Maintenance as a whole. *)
Definition due (p : pool) : bool := p_last_test p + TEST_INTERVAL <=? p_now p.
Lemma maintain_side p a p' us :
  sorted (nkeys (p_out p)) -> sorted (nkeys (p_intun p)) -> p_last_test p <= p_now p ->
  maintain p a = (p', us) ->
  maintained us = true /\ fails us = false /\ more_out p p' us /\
  p_maint p' = p_maint p /\ p_failed p' = p_failed p /\
  p_last_test p' = (if due p then p_now p else p_last_test p) /\
  (forall sn o i t, In (mkT sn o i t) (p_tests p') <-> In (mkT sn o i t) (p_tests p) \/ (t = p_now p /\ In (Tested sn o i) us)) /\
  NoDup (tested_out us) /\ NoDup (tested_in us) /\
  (forall o, In o (tested_out us) -> In o (nkeys (p_out p)) /\ ~ In o (p_exp_out p)) /\
  (forall i, In i (tested_in us) -> In i (nkeys (p_intun p)) /\ ~ In i (p_exp_in p)) /\
  (due p = false -> tested_out us = []) /\
  (due p = true -> forallb (fun b => b) (m_sent a) = true ->
     (forall o, In o (nkeys (p_out p)) -> ~ In o (p_exp_out p) -> In o (tested_out us)) \/
     (forall i, In i (nkeys (p_intun p)) -> ~ In i (p_exp_in p) -> In i (tested_in us))).
Proof.
  intros SO SI LE. unfold maintain.
  destruct (builds build_out (out_count p) (m_outs a) p) as [p1 o1] eqn:E1.
  destruct (builds build_in (in_count p1) (m_ins a) p1) as [p2 o2] eqn:E2.
  pose proof E1 as C1. pose proof E2 as C2.
  apply (builds_core _ build_out_core) in C1 as [C1 _]. apply (builds_core _ build_in_core) in C2 as [C2 _].
  apply (builds_side _ build_out_side) in E1 as (S1 & M1 & P1). apply (builds_side _ build_in_side) in E2 as (S2 & M2 & P2).
  assert (S : side p2 = side p) by congruence. assert (C : core p2 = core p) by congruence.
  unfold side in S. injection S as St Sl Sm Sf. unfold core in C. injection C as _ _ Cn _ Co Ceo Cei _ Ci _ _ _ _.
  assert (M : more_out p p2 (o1 ++ o2)).
  { intros x Hx. apply M2 in Hx as [Hx|(sn & z & Hx)].
    - apply M1 in Hx as [Hx|(sn & z & Hx)]; [auto|]. right. exists sn, z. apply in_or_app. auto.
    - right. exists sn, z. apply in_or_app. auto. }
  assert (PL : plain (o1 ++ o2)) by (now apply plain_app).
  destruct (plain_maint _ PL) as [PM PF]. destruct (plain_tested _ PL) as [TO TI].
  assert (D : (p_now p2 - p_last_test p2 <? TEST_INTERVAL) = negb (due p)).
  { unfold due. rewrite Cn, Sl. unfold TEST_INTERVAL. destruct (N.ltb_spec (p_now p - p_last_test p) 15000), (N.leb_spec (p_last_test p + 15000) (p_now p)); cbn; lia. }
  rewrite D. destruct (due p) eqn:DU; cbn [negb].
  - destruct (test_all _ (m_sent a) _) as [p4 o4] eqn:E4. intro H; apply pair_equal_spec in H as [<- <-].
    apply test_all_side in E4 as (A1 & A2 & A3 & A4 & A5 & A6 & A7 & A8 & A9 & A10 & A11). cbn in A1, A2, A3, A4, A5.
    destruct (test_pairs_spec (s_last p2 (p_now p2)) (m_p1 a) (m_p2 a)) as (B1 & B2 & B3 & B4 & B5).
    { cbn. now rewrite Co. } { cbn. now rewrite Ci. }
    cbn [p_out p_intun p_exp_out p_exp_in s_last] in B3, B4, B5. rewrite Co, Ceo in B3. rewrite Ci, Cei in B4. rewrite Co, Ceo, Ci, Cei in B5.
    set (l := test_pairs (s_last p2 (p_now p2)) (m_p1 a) (m_p2 a)) in *.
    assert (EO : tested_out (Maintained :: o1 ++ o2 ++ o4) = tested_out o4).
    { change (tested_out (o1 ++ o2 ++ o4) = tested_out o4). now rewrite app_assoc, tested_out_app, TO. }
    assert (EI : tested_in (Maintained :: o1 ++ o2 ++ o4) = tested_in o4).
    { change (tested_in (o1 ++ o2 ++ o4) = tested_in o4). now rewrite app_assoc, tested_in_app, TI. }
    rewrite EO, EI. split; [reflexivity|]. split.
    { unfold fails in *. cbn [existsb]. rewrite app_assoc, existsb_app, PF. cbn [orb].
      apply not_true_iff_false. rewrite existsb_exists. intros (u & Hu & Fu). apply A6 in Hu as (sn & o & i & ->). discriminate. }
    split.
    { intros x Hx. rewrite A1 in Hx. apply M in Hx as [Hx|(sn & z & Hx)]; [auto|]. right. exists sn, z. right.
      rewrite app_assoc. apply in_or_app. auto. }
    split; [congruence|]. split; [congruence|]. split; [congruence|]. split.
    { intros sn o i t. rewrite A5, St, Cn. cbn [In].
      assert (X : In (Tested sn o i) (o1 ++ o2 ++ o4) <-> In (Tested sn o i) o4).
      { rewrite app_assoc, in_app_iff. split; [|auto]. intros [I|I]; [now apply PL in I | exact I]. }
      rewrite X. intuition discriminate. }
    split; [auto|]. split; [auto|]. split; [auto|]. split; [auto|]. split; [discriminate|].
    intros _ F. destruct (A11 F) as [-> ->]. exact B5.
  - intro H; apply pair_equal_spec in H as [<- <-].
    change (tested_out (Maintained :: o1 ++ o2)) with (tested_out (o1 ++ o2)).
    change (tested_in (Maintained :: o1 ++ o2)) with (tested_in (o1 ++ o2)). rewrite TO, TI.
    split; [reflexivity|]. split; [exact PF|]. split.
    { intros x Hx. apply M in Hx as [Hx|(sn & z & Hx)]; [auto|]. right. exists sn, z. now right. }
    split; [exact Sm|]. split; [exact Sf|]. split; [exact Sl|]. split.
    { intros sn o i t. rewrite St. cbn [In]. split; [auto|]. intros [I|[_ [I|I]]]; [exact I | discriminate | now apply PL in I]. }
    split; [constructor|]. split; [constructor|]. split; [intros o []|]. split; [intros o []|]. split; [reflexivity|]. discriminate.
Qed.

(** ** The ledger *)
Record ledger (t0 : N) (p : pool) (tr : history) : Prop := mkLed {
  g_so : sorted (nkeys (p_out p)); g_si : sorted (nkeys (p_intun p));
  g_eo : sorted (p_exp_out p); g_ei : sorted (p_exp_in p);
  g_po : forall x, In x (p_po p) -> started tr (po_id x) (po_router x);
  g_out : forall id h, nget id (p_out p) = Some h -> started tr id h;
  g_tr : forall sn o i t, In (mkTrial sn o i t) (trials t0 tr) <-> In (mkT sn o i t) (p_tests p);
  g_last : p_last_test p = last_round t0 t0 tr;
  g_le : p_last_test p <= p_now p;
  g_maint : match last_maintenance t0 None tr with None => p_maint p = t0 | Some t => p_maint p <= t + MAINTENANCE end;
  g_failed : (0 <? p_failed p) = build_failed tr }.

Lemma ledger_new ni no t0 : ledger t0 (p_new ni no t0) [].
Proof.
  constructor; cbn; try constructor; try tauto; try reflexivity; try (intros; discriminate); try (intros; contradiction).
Qed.

(** Steps with plain outputs that leave all this alone. *)
Lemma ledger_keep t0 p p' tr o us :
  ledger t0 p tr -> (forall a, o <> OEnd a) -> (forall sn r, o = OTestDone sn r -> us = []) -> plain us ->
  (p_out p', p_intun p', p_exp_out p', p_exp_in p', p_po p') = (p_out p, p_intun p, p_exp_out p, p_exp_in p, p_po p) ->
  side p' = side p -> p_now p <= p_now p' -> ledger t0 p' (tr ++ [(o, us)]).
Proof.
  intros [] NE NT PL E S LE. injection E as E1 E2 E3 E4 E5. unfold side in S. injection S as S1 S2 S3 S4.
  destruct (plain_maint _ PL) as [PM PF].
  constructor; rewrite ?E1, ?E2, ?E3, ?E4, ?E5, ?S1, ?S2, ?S3, ?S4; auto.
  - intros x Hx. apply started_snoc. auto.
  - intros id h H. apply started_snoc. auto.
  - intros sn o' i t. rewrite trials_snoc. cbn [snd]. rewrite plain_try by exact PL.
    destruct o; try apply g_tr0. rewrite (NT _ _ eq_refl). apply g_tr0.
  - rewrite last_round_snoc. cbn [snd]. now rewrite PM.
  - lia.
  - rewrite last_maintenance_snoc. cbn [snd]. now rewrite PM.
  - unfold build_failed. rewrite failed_snoc. cbn [fst snd]. rewrite PF, orb_false_r.
    destruct o; try exact g_failed0. now elim (NE a).
Qed.

Ltac plain_tac := (intros ? [<-|[]]; exact I) || apply plain_nil.

Lemma ledger_step t0 p tr o p' us :
  ledger t0 p tr -> agree t0 p tr -> books p (of_history tr) -> p_up p = true -> step p o = (p', us) -> ends (o, us) = false ->
  ledger t0 p' (tr ++ [(o, us)]).
Proof.
  intros G A B U S E.
  assert (K : forall x, (p, []) = x -> (forall a, o <> OEnd a) -> ledger t0 (fst x) (tr ++ [(o, snd x)])).
  { intros x <- NE. apply (ledger_keep t0 p); auto; [apply plain_nil | apply N.le_refl]. }
  destruct o; unfold step in S; rewrite ?U in S; cbn [negb] in S.
  - apply pair_equal_spec in S as [<- <-]. apply (ledger_keep t0 p); auto; try discriminate; [apply plain_nil | cbn; lia].
  - unfold out_done in S. destruct (pull po_sn sn (p_po p)) as [[x rest]|] eqn:P;
      [|apply (K _ S); discriminate].
    apply pull_spec in P as (<- & a & b & EP & -> & _).
    assert (SUB : forall y, In y (a ++ b) -> In y (p_po p)).
    { intros y H. rewrite EP. apply in_app_or in H as [H|H]; apply in_or_app; cbn; auto. }
    assert (FAIL : forall p1, (p_out p1, p_intun p1, p_exp_out p1, p_exp_in p1) = (p_out p, p_intun p, p_exp_out p, p_exp_in p) ->
             p_po p1 = a ++ b -> p_now p1 = p_now p -> side p1 = side (s_failed p (p_failed p + 1)) ->
             ledger t0 p1 (tr ++ [(OOutDone (po_sn x) r, [Failed (po_sn x)])])).
    { destruct G. intros p1 E1 E5 E6 S1. injection E1 as E1 E2 E3 E4. unfold side in S1. injection S1 as S1 S2 S3 S4. cbn in S1, S2, S3, S4.
      constructor; rewrite ?E1, ?E2, ?E3, ?E4, ?E5, ?E6, ?S1, ?S2, ?S3, ?S4; auto.
      - intros y Hy. apply started_snoc. auto.
      - intros id h H. apply started_snoc. auto.
      - intros sn o' i t. rewrite trials_snoc. cbn. apply g_tr0.
      - rewrite last_round_snoc. exact g_last0.
      - rewrite last_maintenance_snoc. exact g_maint0.
      - unfold build_failed. rewrite failed_snoc. cbn. rewrite orb_true_r. apply N.ltb_lt. lia. }
    destruct r; apply pair_equal_spec in S as [<- <-]; try (apply FAIL; reflexivity). clear FAIL.
    destruct G. constructor; cbn [p_out p_intun p_exp_out p_exp_in p_po p_tests p_last_test p_now p_maint p_failed s_timers s_out s_sel_out s_listen s_po]; auto.
    + now apply nput_Sorted.
    + intros y Hy. apply started_snoc. auto.
    + intros id h H. apply started_snoc. left. rewrite nget_nput in H. destruct (N.eqb_spec id (po_id x)) as [->|NE]; [|auto].
      injection H as <-. apply g_po0. rewrite EP. apply in_or_app. right. now left.
    + intros sn o' i t. rewrite trials_snoc. cbn. apply g_tr0.
    + rewrite last_round_snoc. exact g_last0.
    + rewrite last_maintenance_snoc. exact g_maint0.
    + unfold build_failed. rewrite failed_snoc. cbn. rewrite orb_false_r. exact g_failed0.
  - unfold in_done in S. destruct (pull pi_sn sn (p_pi p)) as [[x rest]|] eqn:P;
      [|apply (K _ S); discriminate].
    apply pull_spec in P as (<- & a & b & EP & -> & _).
    assert (FAIL : forall p1, (p_out p1, p_intun p1, p_exp_out p1, p_exp_in p1) = (p_out p, p_intun p, p_exp_out p, p_exp_in p) ->
             p_po p1 = p_po p -> p_now p1 = p_now p -> side p1 = side (s_failed p (p_failed p + 1)) ->
             ledger t0 p1 (tr ++ [(OInDone (pi_sn x) r, [Failed (pi_sn x)])])).
    { destruct G. intros p1 E1 E5 E6 S1. injection E1 as E1 E2 E3 E4. unfold side in S1. injection S1 as S1 S2 S3 S4. cbn in S1, S2, S3, S4.
      constructor; rewrite ?E1, ?E2, ?E3, ?E4, ?E5, ?E6, ?S1, ?S2, ?S3, ?S4; auto.
      - intros y Hy. apply started_snoc. auto.
      - intros id h H. apply started_snoc. auto.
      - intros sn o' i t. rewrite trials_snoc. cbn. apply g_tr0.
      - rewrite last_round_snoc. exact g_last0.
      - rewrite last_maintenance_snoc. exact g_maint0.
      - unfold build_failed. rewrite failed_snoc. cbn. rewrite orb_true_r. apply N.ltb_lt. lia. }
    destruct r; apply pair_equal_spec in S as [<- <-]; try (apply FAIL; reflexivity). clear FAIL.
    destruct G. constructor; cbn [p_out p_intun p_exp_out p_exp_in p_po p_tests p_last_test p_now p_maint p_failed s_timers s_inb s_intun s_sel_in s_listen s_pi]; auto.
    + now apply nput_Sorted.
    + intros y Hy. apply started_snoc. auto.
    + intros id h H. apply started_snoc. auto.
    + intros sn o' i t. rewrite trials_snoc. cbn. apply g_tr0.
    + rewrite last_round_snoc. exact g_last0.
    + rewrite last_maintenance_snoc. exact g_maint0.
    + unfold build_failed. rewrite failed_snoc. cbn. rewrite orb_false_r. exact g_failed0.
  - unfold in_end in S. destruct (pull in_sn sn (p_inb p)) as [[x rest]|] eqn:P; [|apply (K _ S); discriminate].
    destruct (_ <=? _); [|apply (K _ S); discriminate]. apply pair_equal_spec in S as [<- <-].
    destruct G. constructor; cbn [p_out p_intun p_exp_out p_exp_in p_po p_tests p_last_test p_now p_maint p_failed s_inb s_intun s_sel_in s_rt s_exp_in]; auto.
    + now apply ndel_Sorted.
    + now apply sdel_sorted.
    + intros y Hy. apply started_snoc. auto.
    + intros id h H. apply started_snoc. auto.
    + intros sn' o' i t. rewrite trials_snoc. cbn. apply g_tr0.
    + rewrite last_round_snoc. exact g_last0.
    + rewrite last_maintenance_snoc. exact g_maint0.
    + unfold build_failed. rewrite failed_snoc. cbn. rewrite orb_false_r. exact g_failed0.
  - unfold in_panic in S. destruct (pull in_sn sn (p_inb p)) as [[? ?]|]; [|apply (K _ S); discriminate].
    apply pair_equal_spec in S as [<- <-]. discriminate.
  - apply pair_equal_spec in S as [<- <-]. apply (ledger_keep t0 p); auto; try discriminate; [|lia].
    assert (PS : forall t to m q', plain (send t to m q')) by (intros [[? ?]|] to m q'; plain_tac).
    destruct q; cbn [message]; try apply PS. plain_tac.
  - apply pair_equal_spec in S as [<- <-]. discriminate.
  - unfold test_done in S. destruct (pull t_sn sn (p_tests p)) as [[x rest]|] eqn:P; [|apply (K _ S); discriminate].
    assert (Y : forall p1 u, core p1 = core p -> p_po p1 = p_po p -> p_tests p1 = rest ->
              (p_last_test p1, p_maint p1, p_failed p1) = (p_last_test p, p_maint p, p_failed p) -> plain [u] ->
              ledger t0 p1 (tr ++ [(OTestDone sn r, [u])])).
    { destruct G. intros p1 u C E1 E2 E3 PL. unfold core in C. injection C as _ _ Cn _ Co Ceo Cei _ Ci _ _ _ _. injection E3 as E3 E4 E5.
      destruct (plain_maint _ PL) as [PM PF].
      constructor; rewrite ?Co, ?Ceo, ?Cei, ?Ci, ?Cn, ?E1, ?E3, ?E4, ?E5; auto.
      - intros y Hy. apply started_snoc. auto.
      - intros id h H. apply started_snoc. auto.
      - intros sn' o' i t. rewrite trials_snoc. cbn [snd fst]. rewrite plain_try by exact PL. rewrite filter_In, g_tr0, E2.
        cbn [tr_sn]. apply pull_spec in P as (<- & a & b & EP & -> & _). rewrite EP, in_mid.
        assert (ND : NoDup (map t_sn (a ++ x :: b))).
        { pose proof (b_nd _ _ B) as N. rewrite EP in N. rewrite !app_assoc in N. apply NoDup_left in N.
          apply (Permutation_NoDup (Permutation_app_comm _ _)) in N. now apply NoDup_left in N. }
        rewrite map_app in ND. cbn [map] in ND. apply NoDup_remove in ND as [_ ND]. rewrite <- map_app in ND.
        rewrite negb_true_iff, N.eqb_neq. split.
        + intros [[Q|I] NE]; [subst x; now elim NE | exact I].
        + intro I. split; [auto|]. intros ->. apply ND. change (t_sn x) with (t_sn (mkT (t_sn x) o' i t)). now apply in_map.
      - rewrite last_round_snoc. cbn [snd]. now rewrite PM.
      - rewrite last_maintenance_snoc. cbn [snd]. now rewrite PM.
      - unfold build_failed. rewrite failed_snoc. cbn [fst snd]. rewrite PF, orb_false_r. exact g_failed0. }
    destruct r; [|destruct (_ <=? _); [|apply (K _ S); discriminate]]; apply pair_equal_spec in S as [<- <-]; apply Y; try reflexivity; plain_tac.
  - unfold timer in S. destruct (pull_at i (p_timers p)) as [[[d ev] rest]|] eqn:P; [|apply (K _ S); discriminate].
    destruct (_ <? _); [apply (K _ S); discriminate|].
    assert (Y : forall p1 u, sorted (nkeys (p_out p1)) -> sorted (p_exp_out p1) -> sorted (p_exp_in p1) -> p_intun p1 = p_intun p -> p_now p1 = p_now p ->
              p_po p1 = p_po p -> side p1 = side p -> (forall id h, nget id (p_out p1) = Some h -> nget id (p_out p) = Some h) -> plain [u] ->
              ledger t0 p1 (tr ++ [(OTimer i, [u])])).
    { clear S. destruct G. intros p1 u H1 H2 H3 H4 H5 H6 S H7 PL. unfold side in S. injection S as S1 S2 S3 S4.
      destruct (plain_maint _ PL) as [PM PF].
      constructor; rewrite ?H4, ?H5, ?H6, ?S1, ?S2, ?S3, ?S4; auto.
      - intros y Hy. apply started_snoc. auto.
      - intros id h H. apply started_snoc. auto.
      - intros sn' o' i' t. rewrite trials_snoc. cbn [snd fst]. rewrite plain_try by exact PL. apply g_tr0.
      - rewrite last_round_snoc. cbn [snd]. now rewrite PM.
      - rewrite last_maintenance_snoc. cbn [snd]. now rewrite PM.
      - unfold build_failed. rewrite failed_snoc. cbn [fst snd]. rewrite PF, orb_false_r. exact g_failed0. }
    destruct ev; apply pair_equal_spec in S as [<- <-]; apply Y; try reflexivity; try plain_tac; destruct G;
      cbn [p_out p_exp_out p_exp_in s_timers s_exp_out s_exp_in s_out s_sel_out]; auto using sadd_sorted, sdel_sorted, ndel_Sorted.
    intros id' h. rewrite nget_ndel. destruct (_ =? _); [discriminate | auto].
  - apply pair_equal_spec in S as [<- <-]. discriminate.
  - assert (Y : forall p0 p1 us, p_now p0 = p_now p -> p_maint p0 <= p_now p + MAINTENANCE ->
        sorted (nkeys (p_out p0)) -> sorted (nkeys (p_intun p0)) -> p_last_test p0 = p_last_test p -> p_po p0 = p_po p ->
        p_tests p0 = p_tests p -> core p0 = core p -> maintain p0 a = (p1, us) ->
        ledger t0 (s_failed p1 0) (tr ++ [(OEnd a, us)])).
    { clear S E. destruct G. intros p0 p1 us0 E1 E2 E3 E4 E5 E6 E7 C M.
      assert (LE : p_last_test p0 <= p_now p0) by (rewrite E1, E5; exact g_le0).
      pose proof M as MC. apply maintain_core in MC as [MC _]. rewrite C in MC. unfold core in MC. injection MC as _ _ Cn _ Co Ceo Cei _ Ci _ _ _ _.
      destruct (maintain_side _ _ _ _ E3 E4 LE M) as (M1 & M2 & M3 & M4 & M5 & M6 & M7 & M8 & M9 & M10 & M11 & M12 & M13).
      assert (CK : clock t0 (tr ++ [(OEnd a, us0)]) = p_now p).
      { rewrite clock_app, clock_not_tick by discriminate. symmetry. apply (a_now _ _ _ A). }
      constructor; cbn [p_out p_intun p_exp_out p_exp_in p_po p_tests p_last_test p_now p_maint p_failed s_failed];
        rewrite ?Co, ?Ceo, ?Cei, ?Ci, ?Cn, ?M4; auto.
      - intros x Hx. apply started_snoc. apply M3 in Hx as [Hx|Hx]; [rewrite E6 in Hx; auto | right; exact Hx].
      - intros id h H. apply started_snoc. auto.
      - intros sn o i t. rewrite trials_snoc, in_try, CK. cbn [snd tr_sn tr_out tr_in tr_at]. rewrite M7, E7, E1, g_tr0. tauto.
      - rewrite last_round_snoc, CK, M6. cbn [snd]. rewrite M1. cbn [andb]. unfold due. rewrite E5, E1, g_last0. reflexivity.
      - rewrite M6. unfold due. rewrite E1, E5. destruct (_ <=? _); lia.
      - rewrite last_maintenance_snoc, CK. cbn [snd]. rewrite M1. exact E2.
      - unfold build_failed. rewrite failed_snoc. reflexivity. }
    pose proof G as G0. destruct G. unfold poll_end in S. destruct (N.leb_spec (p_maint p) (p_now p)).
    + destruct (maintain _ a) as [p1 o] eqn:M. apply pair_equal_spec in S as [<- <-].
      eapply Y; [| | | | | | | |exact M]; auto; cbn; lia.
    + destruct (0 <? p_failed p) eqn:F.
      * destruct (maintain p a) as [p1 o] eqn:M. apply pair_equal_spec in S as [<- <-].
        eapply Y; [| | | | | | | |exact M]; auto.
        (* the timer is set at most ten seconds ahead *)
        destruct (last_maintenance t0 None tr) as [t|] eqn:LM.
        -- assert (t <= clock t0 tr).
           { clear -LM. revert t LM. induction tr as [|e r IH] using rev_ind; intros t LM; [discriminate|].
             rewrite last_maintenance_snoc in LM. destruct (maintained (snd e)).
             - injection LM as <-. lia.
             - apply IH in LM. rewrite clock_app. destruct e as [o us]. destruct o; cbn; lia. }
           rewrite (a_now _ _ _ A). lia.
        -- pose proof (clock_ge t0 tr). rewrite (a_now _ _ _ A) in *. lia.
      * apply pair_equal_spec in S as [<- <-].
        assert (Z : p_failed p = 0) by (apply N.ltb_ge in F; lia).
        constructor; auto.
        -- intros x Hx. apply started_snoc. auto.
        -- intros id h H'. apply started_snoc. auto.
        -- intros sn o i t. rewrite trials_snoc. cbn. apply g_tr0.
        -- rewrite last_round_snoc. exact g_last0.
        -- rewrite last_maintenance_snoc. exact g_maint0.
        -- unfold build_failed. rewrite failed_snoc. cbn. now rewrite Z.
  - destruct (smem g (p_zero p)); [|apply (K _ S); discriminate].
    apply pair_equal_spec in S as [<- <-]. apply (ledger_keep t0 p); auto; try discriminate; [apply plain_nil | cbn; lia].
  - destruct (waited p sn); [apply (K _ S); discriminate|].
    apply pair_equal_spec in S as [<- <-]. apply (ledger_keep t0 p); auto; try discriminate; [apply plain_nil | cbn; lia].
  - destruct (smem id (p_rt p)); [apply (K _ S); discriminate|].
    apply pair_equal_spec in S as [<- <-]. apply (ledger_keep t0 p); auto; try discriminate; [apply plain_nil | cbn; lia].
  - destruct (smem id (p_alien p)); [|apply (K _ S); discriminate].
    apply pair_equal_spec in S as [<- <-]. apply (ledger_keep t0 p); auto; try discriminate; [apply plain_nil | cbn; lia].
Qed.

Theorem run_all ni no t0 ops p tr :
  run (p_new ni no t0) ops = (p, tr) -> running tr ->
  agree t0 p tr /\ books p (of_history tr) /\ ledger t0 p tr /\ p_up p = true.
Proof.
  revert p tr. apply (run_ind (fun p tr => running tr -> agree t0 p tr /\ books p (of_history tr) /\ ledger t0 p tr /\ p_up p = true)).
  - intros _. split; [apply agree_new|]. split; [apply books_new|]. split; [apply ledger_new | reflexivity].
  - intros p tr o p' us IH S R. apply running_snoc in R as [R E]. destruct (IH R) as (A & B & G & U).
    destruct (agree_step _ _ _ _ _ _ A U S E) as [A' U'].
    split; [exact A'|]. split; [rewrite of_snoc; now apply (books_step p)|]. split; [now apply (ledger_step t0 p) | exact U'].
Qed.
