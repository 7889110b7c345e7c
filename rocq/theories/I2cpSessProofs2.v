(** Losses, payloads, lookups and the end of an I2CP session. *)
From Coq Require Import Ascii String.
From Coq Require Import List NArith PeanoNat Bool Lia Permutation.
From Verif Require Import ListUtil Bytes NMap PrimModel EncModel I2cpModel SamModel RouteProofs DestModel DestSpec DestProofs DestProofs2 SamSessSpec SamSessProofs3 I2cpSessModel I2cpSessSpec I2cpSessProofs.
Import ListNotations.
Local Open Scope list_scope.
Open Scope N_scope.

Section S.
Variables (sid : N) (book : bool) (did : bytes -> N) (written : destination -> bytes).
Notation step := (cstep sid book did written).
Notation run := (crun sid book did written).
Notation req := (request_of book did).
Ltac inj H := apply pair_equal_spec in H as [H ?]; injection H as <-; subst.

Lemma run_cons a op ops a' os : run (Active a) (op :: ops) = (Active a', os) ->
  exists a1 o os', step (Active a) op = (Active a1, o) /\ run (Active a1) ops = (Active a', os') /\ os = o :: os'.
Proof.
  cbn [crun]. destruct (step (Active a) op) as [c o] eqn:E. destruct (active_stays _ _ _ _ _ _ _ _ E) as [(a1 & -> & _)|[-> _]].
  - destruct (run (Active a1) ops) as [c2 os2] eqn:E2. intros H; injection H as -> <-. eauto 6.
  - rewrite crun_over. discriminate.
Qed.

(** ** Losses *)
Lemma losses_cons d o os : losses d (o :: os) = losses d [o] ++ losses d os.
Proof. unfold losses. cbn [concat]. now rewrite !flat_map_app, app_nil_r. Qed.
Lemma losses_sends d d' l : losses d [map (SendTo d') l] = [].
Proof. unfold losses. cbn [concat]. rewrite app_nil_r. induction l; cbn; auto. Qed.
Lemma losses_losts d d' l : d' <> d -> losses d [map (Lost d') l] = [].
Proof. intros H. apply N.eqb_neq in H. unfold losses. cbn [concat]. rewrite app_nil_r. induction l; cbn; auto. now rewrite H. Qed.
Lemma losses_payloads d l : forall mid, losses d [snd (payloads sid l mid)] = [].
Proof.
  unfold losses. cbn [concat]. induction l as [|x l IH]; intros mid; auto. cbn [payloads].
  specialize (IH ((mid + 1) mod 2 ^ 32)). destruct (payloads sid l _) as [m o]. cbn [snd flat_map app] in *. exact IH.
Qed.
Lemma step_losses a op a' o d : step (Active a) op = (Active a', o) ->
  (forall x, req op = Message d x NotFound -> nget d (a_conns a) = None) ->
  (forall x, req op = Message d x Pending -> nget d (a_conns a) <> None) ->
  op <> CNotFound d -> losses d [o] = [].
Proof.
  intros H Q1 Q2 Q3. destruct (active_stays _ _ _ _ _ _ _ _ H) as [(a'' & X & En)|[X _]]; [|discriminate]. injection X as <-.
  cbn [cstep] in H; unfold active_step in H.
  destruct op as [m now room st value| | |e|l|x value|x|l|key v|]; cbn [request_of] in *; try (inj H; reflexivity); try discriminate.
  - unfold lift in H. destruct (on_active_message sid book did m now st value a) as [a1 o1] eqn:E. injection H as <- <-.
    unfold on_active_message in E. destruct m; cbn [common] in E; cbn [request_of] in *; try (injection E as <- <-; reflexivity).
    + destruct book.
      * destruct kind; [injection E as <- <-; reflexivity|]. destruct st; injection E as <- <-; try reflexivity.
        unfold forgot_of. destruct (nget _ (a_looks a)) as [[s r]|]; reflexivity.
      * injection E as <- <-. destruct kind; reflexivity.
    + set (x := did (d_hash dest)) in *. destruct st.
      * injection E as <- <-. reflexivity.
      * injection E as <- <-. destruct (N.eqb_spec x d) as [Hd|Hne].
        -- rewrite Hd, (Q1 payload) by now rewrite Hd. reflexivity.
        -- unfold lost_of. destruct (nget x _); [now apply losses_losts|reflexivity].
      * destruct (nget x (a_conns a)) as [l|] eqn:G; injection E as <- <-; [reflexivity|].
        destruct (N.eqb_spec x d) as [Hd|Hne].
        -- exfalso. apply (Q2 payload); [now rewrite Hd|now rewrite <- Hd].
        -- apply N.eqb_neq in Hne. unfold losses; cbn. now rewrite Hne.
  - destruct (payloads sid l (a_mid a)) as [mid o1] eqn:E. inj H. replace o with (snd (payloads sid l (a_mid a))) by now rewrite E. apply losses_payloads.
  - unfold lift in H. destruct (on_found x value a) as [a1 o1] eqn:E. injection H as <- <-. unfold on_found in E.
    destruct (nget x (a_conns a)) as [l|]; [injection E as <- <-; apply losses_sends|].
    destruct (nget x (a_looks a)) as [[s r]|]; injection E as <- <-; reflexivity.
  - unfold lift in H. destruct (on_not_found x a) as [a1 o1] eqn:E. injection H as <- <-. unfold on_not_found in E.
    destruct (nget x (a_conns a)) as [l|]; [injection E as <- <-; apply losses_losts; congruence|].
    destruct (nget x (a_looks a)) as [[s r]|]; injection E as <- <-; reflexivity.
  - destruct l; [discriminate|]. inj H. reflexivity.
  - unfold lift in H. destruct (on_answer key v a) as [a1 o1] eqn:E. injection H as <- <-. unfold on_answer in E.
    destruct (nget key (a_futs a)) as [[s r]|]; injection E as <- <-; reflexivity.
Qed.
Lemma conns_step a op a' o d : step (Active a) op = (Active a', o) -> ends op = false /\ nget d (a_conns a') = pm (pend_step book did d (at_ a d) op).
Proof.
  intros H. destruct (active_stays _ _ _ _ _ _ _ _ H) as [(a'' & X & En)|[X _]]; [|discriminate]. split; auto.
  now rewrite <- (step_at _ _ _ _ _ _ _ _ d H).
Qed.

Lemma no_losses d ops : forall a a' os busy mine, run (Active a) ops = (Active a', os) ->
  (nget d (a_conns a) <> None -> busy = true) -> (mine = true -> nget d (a_conns a) <> None) ->
  in_order d busy (flat_map (hears book did) ops) = true -> own book did d mine ops = true -> losses d os = [].
Proof.
  induction ops as [|op ops IH]; intros a a' os busy mine E I1 I2 O W; [cbn in E; injection E as <- <-; reflexivity|].
  apply run_cons in E as (a1 & o & os' & E1 & E2 & ->). rewrite losses_cons.
  pose proof (step_losses _ _ _ _ d E1) as L. pose proof (conns_step _ _ _ _ d E1) as [En C]. unfold pend_step in C. rewrite En in C.
  cbn [own] in W. cbn [flat_map] in O. unfold hears in O at 1.
  assert (G : forall busy' mine', losses d [o] = [] -> (nget d (a_conns a1) <> None -> busy' = true) -> (mine' = true -> nget d (a_conns a1) <> None) ->
     in_order d busy' (flat_map (hears book did) ops) = true -> own book did d mine' ops = true -> losses d [o] ++ losses d os' = []).
  { intros b m L' J1 J2 O' W'. rewrite L'. cbn [app]. eapply IH; eauto. }
  destruct (req op) as [d' x st|s r d' st v|s r n|s r|] eqn:R.
  - assert (Hop : op <> CNotFound d) by (intros ->; discriminate).
    cbn [app in_order] in O. destruct (N.eqb_spec d' d) as [->|Hne].
    + destruct st; cbn [pm at_] in C.
      * apply andb_true_iff in O as [O1 O2]. apply (G busy mine); auto; try (now rewrite C). apply L; auto; intros; discriminate.
      * apply andb_true_iff in O as [O1 O2]. apply negb_true_iff in O1.
        assert (Hn : nget d (a_conns a) = None). { destruct (nget d (a_conns a)); auto. rewrite I1 in O1; [discriminate|congruence]. }
        apply (G true true); auto; try (rewrite C; congruence). apply L; auto; intros; discriminate.
      * apply andb_true_iff in W as [-> W2]. specialize (I2 eq_refl).
        apply (G true true); auto.
        -- apply L; auto. intros; discriminate.
        -- intros _. rewrite C. destruct (nget d (a_conns a)); [discriminate|congruence].
    + assert (C' : nget d (a_conns a1) = nget d (a_conns a)) by (destruct st; exact C).
      apply (G busy mine); auto; try (now rewrite C'). apply L; auto; intros y Y; congruence.
  - assert (Hop : op <> CNotFound d) by (intros ->; discriminate).
    assert (L0 : losses d [o] = []) by (apply L; auto; intros; discriminate).
    assert (C' : nget d (a_conns a1) = nget d (a_conns a)) by (destruct st; try exact C; destruct (d' =? d); exact C).
    assert (W' : own book did d mine ops = true).
    { destruct st; [| |]; cbn in W; try (destruct op; try discriminate; exact W). apply andb_true_iff in W; tauto. }
    cbn [app in_order] in O. destruct (d' =? d).
    + destruct st.
      * apply andb_true_iff in O as [O1 O2]. apply (G busy mine); auto; now rewrite C'.
      * apply andb_true_iff in O as [O1 O2]. apply (G true mine); auto; now rewrite C'.
      * apply (G true mine); auto; now rewrite C'.
    + apply (G busy mine); auto; now rewrite C'.
  - assert (Hop : op <> CNotFound d) by (intros ->; discriminate).
    apply (G busy mine); auto; try (now rewrite C); [apply L; auto; intros; discriminate|]. destruct op; try discriminate; exact W.
  - assert (Hop : op <> CNotFound d) by (intros ->; discriminate).
    apply (G busy mine); auto; try (now rewrite C); [apply L; auto; intros; discriminate|]. destruct op; try discriminate; exact W.
  - destruct op as [m now room st value| | |e|l|x value|x|l|key v|]; cbn [app in_order] in O;
      try (apply (G busy mine); auto; try (now rewrite C); apply L; auto; intros; discriminate).
    + destruct (N.eqb_spec x d) as [->|Hne]; cbn [negb] in *.
      * assert (C' : nget d (a_conns a1) = None) by (rewrite C; destruct (pm (at_ a d)); reflexivity).
        refine (G (busy && false) (mine && false) _ _ _ O W); [apply L; intros; discriminate|intros X; now exfalso; apply X|rewrite andb_false_r; discriminate].
      * apply (G (busy && true) (mine && true)); auto; rewrite ?andb_true_r in *; auto; try (now rewrite C); apply L; auto; intros; discriminate.
    + apply andb_true_iff in W as [W1 W2]. apply negb_true_iff in W1. pose proof W1 as Hne. apply N.eqb_neq in Hne. rewrite W1 in *. cbn [negb] in *. rewrite andb_true_r in *.
      apply (G busy mine); auto; try (now rewrite C); apply L; auto; [intros; discriminate|intros; discriminate|congruence].
Qed.
Lemma dealt_passed d os : losses d os = [] -> dealt d os = passed_on d os.
Proof.
  unfold losses, dealt, passed_on. generalize (concat os). induction l as [|x l IH]; cbn [flat_map]; auto. intros H. apply app_eq_nil in H as [H1 H2].
  rewrite (IH H2). destruct x; auto. destruct (d0 =? d); [discriminate|auto].
Qed.

(** ** The end *)
Lemma leave_none d m : ~ In d (nkeys m) -> flat_map (fun o => match o with SendTo d' x | Lost d' x => if d' =? d then [x] else [] | _ => [] end)
  (flat_map (fun e : N * list bytes => map (Lost (fst e)) (snd e)) m) = [].
Proof.
  induction m as [|[k l] m IH]; intros H; auto. cbn [flat_map fst snd]. rewrite flat_map_app, IH by (intros X; apply H; cbn; auto).
  assert (Hk : k <> d) by (intros ->; apply H; cbn; auto). apply N.eqb_neq in Hk. rewrite app_nil_r. clear - Hk. induction l; cbn; auto. now rewrite Hk.
Qed.
Lemma leave_conns d m : sorted (nkeys m) -> flat_map (fun o => match o with SendTo d' x | Lost d' x => if d' =? d then [x] else [] | _ => [] end)
  (flat_map (fun e : N * list bytes => map (Lost (fst e)) (snd e)) m) = match nget d m with Some l => l | None => [] end.
Proof.
  intros Sd. apply sorted_NoDup in Sd. induction m as [|[k l] m IH]; auto. cbn [flat_map fst snd nkeys map] in *. inversion Sd as [|? ? Hn Nd]; subst.
  rewrite flat_map_app. cbn [nget]. rewrite (N.eqb_sym d k). destruct (N.eqb_spec k d) as [->|Hne].
  - rewrite leave_none by auto. rewrite app_nil_r. clear. induction l; cbn; auto. rewrite N.eqb_refl. cbn. now rewrite IHl.
  - rewrite IH by auto. apply N.eqb_neq in Hne. assert (X : flat_map (fun o => match o with SendTo d' x | Lost d' x => if d' =? d then [x] else [] | _ => [] end) (map (Lost k) l) = []); [|now rewrite X].
    clear - Hne. induction l; cbn; auto. now rewrite Hne.
Qed.
Lemma flat_map_map_nil {A B C : Type} (f : B -> list C) (g : A -> B) l : (forall x, f (g x) = []) -> flat_map f (map g l) = [].
Proof. intros H. induction l; cbn; auto. now rewrite H. Qed.
Lemma leave_dealt a d : wf a -> dealt d [leave a] = wait_of a d.
Proof.
  intros (W1 & _). unfold dealt, leave. cbn [concat]. rewrite !flat_map_app, leave_conns by auto.
  rewrite !flat_map_map_nil by reflexivity. now rewrite !app_nil_r.
Qed.
Lemma leave_forgot a : forgotten [leave a] = held a.
Proof.
  unfold forgotten, leave, held. cbn [concat]. rewrite !flat_map_app, app_nil_r.
  assert (A : forall (m : nmap (list bytes)), flat_map (fun o => match o with Forgot s r => [(s, r)] | _ => [] end) (flat_map (fun e : N * list bytes => map (Lost (fst e)) (snd e)) m) = []).
  { induction m as [|[k l] m IH]; auto. cbn [flat_map]. rewrite flat_map_app, IH, flat_map_map_nil by reflexivity. reflexivity. }
  rewrite A. cbn [app].
  assert (B : forall (m : nmap (N * N)), flat_map (fun o => match o with Forgot s r => [(s, r)] | _ => [] end) (map (fun e => Forgot (fst (snd e)) (snd (snd e))) m) = map snd m).
  { induction m as [|[k [s r]] m IH]; auto. cbn. now rewrite IH. }
  now rewrite !B.
Qed.

(** ** Payloads *)
Lemma numbered_app n l1 l2 : numbered sid n (l1 ++ l2) = numbered sid n l1 ++ numbered sid (n + N.of_nat (length l1)) l2.
Proof.
  revert n. induction l1 as [|x l1 IH]; intros n; cbn [app numbered length]; [now rewrite N.add_0_r|]. rewrite IH. do 3 f_equal. lia.
Qed.
Lemma payloads_numbered l : forall n, fst (payloads sid l (n mod 2 ^ 32)) = (n + N.of_nat (length l)) mod 2 ^ 32
  /\ handed [snd (payloads sid l (n mod 2 ^ 32))] = numbered sid n l.
Proof.
  unfold handed. cbn [concat]. induction l as [|x l IH]; intros n; cbn [payloads length].
  - cbn [fst snd]. rewrite N.add_0_r. auto.
  - rewrite N.add_mod_idemp_l by discriminate. specialize (IH (n + 1)). destruct (payloads sid l _) as [m o]. cbn [fst snd flat_map app numbered] in *.
    destruct IH as [-> ->]. split; auto. f_equal. lia.
Qed.
Lemma handed_app a b : handed (a ++ b) = handed a ++ handed b. Proof. unfold handed. now rewrite concat_app, flat_map_app. Qed.
Lemma handed_nil_map {A : Type} (f : A -> cout) l : (forall x, match f x with Reply (RpMessagePayload _ _ _) => False | _ => True end) -> handed [map f l] = [].
Proof.
  intros H. unfold handed. cbn [concat]. rewrite app_nil_r. induction l as [|x l IH]; auto. cbn [map flat_map]. rewrite IH. specialize (H x). destruct (f x) as [[]| | | | | | | |]; auto. destruct H.
Qed.
Lemma step_other_payload a op a' o : step (Active a) op = (Active a', o) -> (forall l, op <> CMessages l) -> a_mid a' = a_mid a /\ handed [o] = [].
Proof.
  intros H Q. cbn [cstep] in H; unfold active_step in H.
  destruct op as [m now room st value| | |e|l|x value|x|l|key v|]; try (inj H; split; reflexivity); try discriminate.
  - unfold lift in H. destruct (on_active_message sid book did m now st value a) as [a1 o1] eqn:E. injection H as <- <-.
    unfold on_active_message in E. destruct m; cbn [common] in E; try (injection E as <- <-; split; reflexivity).
    + destruct book; [|destruct kind; injection E as <- <-; split; reflexivity].
      destruct kind; [injection E as <- <-; split; reflexivity|]. destruct st; injection E as <- <-; split; try reflexivity.
      unfold forgot_of. destruct (nget _ _) as [[s r]|]; reflexivity.
    + destruct st.
      * injection E as <- <-; split; reflexivity.
      * injection E as <- <-; split; [reflexivity|]. unfold lost_of. destruct (nget _ _); [now apply handed_nil_map|reflexivity].
      * destruct (nget _ _); injection E as <- <-; split; reflexivity.
  - now exfalso; apply (Q l).
  - unfold lift in H. destruct (on_found x value a) as [a1 o1] eqn:E. injection H as <- <-. unfold on_found in E.
    destruct (nget x (a_conns a)) as [l|]; [injection E as <- <-; split; [reflexivity|now apply handed_nil_map]|].
    destruct (nget x (a_looks a)) as [[s r]|]; injection E as <- <-; split; reflexivity.
  - unfold lift in H. destruct (on_not_found x a) as [a1 o1] eqn:E. injection H as <- <-. unfold on_not_found in E.
    destruct (nget x (a_conns a)) as [l|]; [injection E as <- <-; split; [reflexivity|now apply handed_nil_map]|].
    destruct (nget x (a_looks a)) as [[s r]|]; injection E as <- <-; split; reflexivity.
  - destruct l; [discriminate|]. inj H. split; reflexivity.
  - unfold lift in H. destruct (on_answer key v a) as [a1 o1] eqn:E. injection H as <- <-. unfold on_answer in E.
    destruct (nget key (a_futs a)) as [[s r]|]; injection E as <- <-; split; reflexivity.
Qed.
Lemma handed_all ops a os : run (Active fresh) ops = (Active a, os) -> a_mid a = N.of_nat (length (arrived ops)) mod 2 ^ 32 /\ handed os = numbered sid 0 (arrived ops).
Proof.
  revert ops a os. apply (active_ind sid book did written (fun a ops os => a_mid a = N.of_nat (length (arrived ops)) mod 2 ^ 32 /\ handed os = numbered sid 0 (arrived ops))).
  - split; reflexivity.
  - intros a ops os op a' o _ [I1 I2] St _. rewrite handed_app, I2. unfold arrived in *. rewrite flat_map_app, app_length. cbn [flat_map]. rewrite app_nil_r.
    assert (D : (exists l, op = CMessages l) \/ forall l, op <> CMessages l) by (destruct op; eauto; right; discriminate).
    destruct D as [[l ->]|D].
    + cbn [cstep active_step] in St. pose proof (payloads_numbered l (N.of_nat (length (arrived ops)))) as [P1 P2]. unfold arrived in P1, P2.
      rewrite I1 in St. destruct (payloads sid l _) as [mid o1]. cbn [fst snd] in P1, P2. inj St. cbn [a_mid u_mid].
      split; [rewrite Nat2N.inj_add; reflexivity|]. rewrite numbered_app, P2. reflexivity.
    + destruct (step_other_payload _ _ _ _ St D) as [-> ->]. rewrite app_nil_r.
      assert (Z : match op with CMessages l => l | _ => [] end = []) by (destruct op; auto; now exfalso; apply (D l)). rewrite Z. cbn [length]. rewrite app_nil_r, Nat.add_0_r. auto.
Qed.

(** ** Lookups *)
Lemma perm_ndel {V} k (m : nmap V) v : sorted (nkeys m) -> nget k m = Some v -> Permutation (map snd m) (v :: map snd (ndel k m)).
Proof.
  intros Sd. apply sorted_NoDup in Sd. induction m as [|[k' v'] m IH]; [discriminate|]. cbn [nget ndel map snd nkeys fst] in *. inversion Sd as [|? ? Hn Nd]; subst.
  destruct (N.eqb_spec k k') as [->|].
  - intros H; injection H as <-. apply perm_skip. assert (E : ndel k' m = m); [|now rewrite E].
    clear - Hn. induction m as [|[a b] m IH]; auto. cbn [ndel]. destruct (N.eqb_spec k' a) as [->|]; [exfalso; apply Hn; cbn; auto|]. rewrite IH; auto. intros X; apply Hn; cbn; auto.
  - intros H. cbn [map snd]. rewrite (IH Nd H). apply perm_swap.
Qed.
Lemma perm_nput {V} k (m : nmap V) v : sorted (nkeys m) -> Permutation (map snd (nput k v m)) (v :: map snd (ndel k m)).
Proof.
  intros Sd. rewrite (perm_ndel k (nput k v m) v); [|now apply nput_Sorted|apply nget_nput_same]. apply perm_skip.
  assert (E : ndel k (nput k v m) = ndel k m); [|now rewrite E].
  clear. induction m as [|[a b] m IH]; cbn [nput ndel]; [now rewrite N.eqb_refl|].
  destruct (N.ltb_spec k a); cbn [ndel].
  - rewrite N.eqb_refl. reflexivity.
  - destruct (N.eqb_spec k a) as [->|]; cbn [ndel]; [now rewrite N.eqb_refl|]. apply N.eqb_neq in n. rewrite n. now rewrite IH.
Qed.
Lemma perm_ndel_none {V} k (m : nmap V) : nget k m = None -> ndel k m = m.
Proof. induction m as [|[a b] m IH]; auto. cbn [nget ndel]. destruct (k =? a); [discriminate|]. intros H. now rewrite IH. Qed.

Lemma answered_app a b : answered (a ++ b) = answered a ++ answered b. Proof. unfold answered. now rewrite concat_app, flat_map_app. Qed.
Lemma forgotten_app a b : forgotten (a ++ b) = forgotten a ++ forgotten b. Proof. unfold forgotten. now rewrite concat_app, flat_map_app. Qed.
Lemma lookups_app a b : lookups book did (a ++ b) = lookups book did a ++ lookups book did b. Proof. unfold lookups. now rewrite flat_map_app. Qed.
Definition quiet (o : list cout) : Prop := answered [o] = [] /\ forgotten [o] = [].
Lemma quiet_map {A : Type} (f : A -> cout) l : (forall x, match f x with Reply (RpHostReply _ _ _) | Forgot _ _ => False | _ => True end) -> quiet (map f l).
Proof.
  intros H. unfold quiet, answered, forgotten. cbn [concat]. rewrite app_nil_r. induction l as [|x l IH]; auto. cbn [map flat_map]. destruct IH as [-> ->]. specialize (H x).
  destruct (f x) as [[]| | | | | | | |]; auto; destruct H.
Qed.
Lemma quiet_payloads l : forall mid, quiet (snd (payloads sid l mid)).
Proof.
  unfold quiet, answered, forgotten. cbn [concat]. induction l as [|x l IH]; intros mid; auto. cbn [payloads].
  specialize (IH ((mid + 1) mod 2 ^ 32)). destruct (payloads sid l _) as [m o]. cbn [snd flat_map app] in *. exact IH.
Qed.

Lemma step_lookups a op a' o : wf a -> step (Active a) op = (Active a', o) ->
  Permutation (held a ++ lookups book did [op]) (answered [o] ++ forgotten [o] ++ held a').
Proof.
  intros (W1 & W2 & W3 & W4) H. unfold lookups. cbn [flat_map]. rewrite app_nil_r.
  assert (P : forall u, held u = held a -> quiet o -> Permutation (held a ++ []) (answered [o] ++ forgotten [o] ++ held u)).
  { intros u Hu [-> ->]. cbn [app]. rewrite app_nil_r, Hu. apply Permutation_refl. }
  cbn [cstep] in H; unfold active_step in H.
  destruct op as [m now room st value| | |e|l|x value|x|l|key v|]; cbn [request_of]; try (inj H; apply P; [reflexivity|split; reflexivity]); try discriminate.
  - unfold lift in H. destruct (on_active_message sid book did m now st value a) as [a1 o1] eqn:E. injection H as <- <-.
    unfold on_active_message in E. destruct m; cbn [common] in E; cbn [request_of]; try (injection E as <- <-; apply P; [reflexivity|split; reflexivity]).
    + destruct book.
      * destruct kind as [name|h]; [|destruct st].
        -- injection E as <- <-. unfold held, u_futs; cbn [a_looks a_futs answered forgotten concat flat_map app]. rewrite perm_nput by auto.
           rewrite perm_ndel_none; [|destruct (nget (a_next a) (a_futs a)) eqn:G; auto; apply W4 in G; lia].
           rewrite <- app_assoc. apply Permutation_app_head. apply Permutation_app_comm.
        -- injection E as <- <-. cbn [answered forgotten concat flat_map app]. apply Permutation_app_comm.
        -- injection E as <- <-. unfold held, u_looks; cbn [a_looks a_futs]. rewrite perm_nput by auto. unfold forgot_of.
           destruct (nget (did h) (a_looks a)) as [[s r]|] eqn:G; cbn [answered forgotten concat flat_map app].
           ++ rewrite (perm_ndel _ _ _ W2 G). eapply perm_trans; [apply Permutation_app_comm|]. cbn [app]. apply perm_swap.
           ++ rewrite perm_ndel_none by auto. apply Permutation_app_comm.
        -- injection E as <- <-. cbn [answered forgotten concat flat_map app]. apply Permutation_app_comm.
      * injection E as <- <-. destruct kind; cbn [answered forgotten concat flat_map app]; apply Permutation_app_comm.
    + destruct st.
      * injection E as <- <-. apply P; [reflexivity|split; reflexivity].
      * injection E as <- <-. apply P; [reflexivity|]. unfold lost_of. destruct (nget _ _); [now apply quiet_map|split; reflexivity].
      * destruct (nget _ _); injection E as <- <-; apply P; try reflexivity; split; reflexivity.
  - destruct (payloads sid l (a_mid a)) as [mid o1] eqn:E. inj H. replace o with (snd (payloads sid l (a_mid a))) in * by now rewrite E. apply P; [reflexivity|apply quiet_payloads].
  - unfold lift in H. destruct (on_found x value a) as [a1 o1] eqn:E. injection H as <- <-. unfold on_found in E.
    destruct (nget x (a_conns a)) as [l|]; [injection E as <- <-; apply P; [reflexivity|now apply quiet_map]|].
    destruct (nget x (a_looks a)) as [[s r]|] eqn:G; injection E as <- <-; [|apply P; [reflexivity|split; reflexivity]].
    unfold held, u_looks; cbn [a_looks a_futs answered forgotten concat flat_map app]. rewrite (perm_ndel _ _ _ W2 G). rewrite app_nil_r. reflexivity.
  - unfold lift in H. destruct (on_not_found x a) as [a1 o1] eqn:E. injection H as <- <-. unfold on_not_found in E.
    destruct (nget x (a_conns a)) as [l|]; [injection E as <- <-; apply P; [reflexivity|now apply quiet_map]|].
    destruct (nget x (a_looks a)) as [[s r]|] eqn:G; injection E as <- <-; [|apply P; [reflexivity|split; reflexivity]].
    unfold held, u_looks; cbn [a_looks a_futs answered forgotten concat flat_map app]. rewrite (perm_ndel _ _ _ W2 G). rewrite app_nil_r. reflexivity.
  - destruct l; [discriminate|]. inj H. apply P; [reflexivity|split; reflexivity].
  - unfold lift in H. destruct (on_answer key v a) as [a1 o1] eqn:E. injection H as <- <-. unfold on_answer in E.
    destruct (nget key (a_futs a)) as [[s r]|] eqn:G; injection E as <- <-; [|apply P; [reflexivity|split; reflexivity]].
    unfold held, u_futs; cbn [a_looks a_futs answered forgotten concat flat_map app]. rewrite (perm_ndel _ _ _ W3 G). rewrite app_nil_r.
    symmetry. apply Permutation_middle.
Qed.
Lemma lookups_kept ops a os : run (Active fresh) ops = (Active a, os) -> Permutation (lookups book did ops) (answered os ++ forgotten os ++ held a).
Proof.
  revert ops a os. apply (active_ind sid book did written (fun a ops os => Permutation (lookups book did ops) (answered os ++ forgotten os ++ held a))).
  - apply Permutation_refl.
  - intros a ops os op a' o E IH St _. rewrite lookups_app, answered_app, forgotten_app, IH.
    pose proof (step_lookups a op a' o (active_wf _ _ _ _ _ _ _ E) St) as P.
    rewrite <- !app_assoc. apply Permutation_app_head.
    rewrite P. rewrite (app_assoc (forgotten os)), (Permutation_app_comm (forgotten os) (answered [o])), <- app_assoc. reflexivity.
Qed.
End S.
