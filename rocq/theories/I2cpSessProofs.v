(** Proofs about active I2CP sessions. *)
From Coq Require Import Ascii String.
From Coq Require Import List NArith PeanoNat Bool Lia Permutation.
From Verif Require Import ListUtil Bytes NMap PrimModel EncModel I2cpModel SamModel RouteProofs DestModel DestSpec DestProofs DestProofs2 SamSessSpec SamSessProofs3 I2cpSessModel I2cpSessSpec.
Import ListNotations.
Local Open Scope list_scope.
Open Scope N_scope.

Definition fresh : act := mkAct 0 [] [] [] 0.

Lemma in_order_ok d l : forall busy, in_order d busy l = ok_words d busy l.
Proof.
  induction l as [|w l IH]; intros busy; auto. destruct w as [d' st|d'|d']; cbn [in_order ok_words ok_word after_word andb]; auto.
  destruct (d' =? d); cbn [andb]; [|destruct st; cbn; auto]. destruct st; rewrite ?IH; auto.
Qed.
Lemma in_order_app d a b : forall busy, in_order d busy (a ++ b) = in_order d busy a && in_order d (after_words d busy a) b.
Proof. intros. now rewrite !in_order_ok, ok_words_app. Qed.

Section S.
Variables (sid : N) (book : bool) (did : bytes -> N) (written : destination -> bytes).
Notation step := (cstep sid book did written).
Notation run := (crun sid book did written).
Notation req := (request_of book did).

Lemma crun_app c a b : run c (a ++ b) = (fst (run (fst (run c a)) b), snd (run c a) ++ snd (run (fst (run c a)) b)).
Proof.
  revert c. induction a as [|op a IH]; intros c; cbn [crun app].
  - cbn. destruct (run c b); auto.
  - destruct (step c op) as [c1 o]. rewrite IH. destruct (run c1 a) as [c2 os]. cbn. reflexivity.
Qed.
Lemma crun_over ops : run Over ops = (Over, map (fun _ => []) ops).
Proof. induction ops as [|op ops IH]; cbn [crun cstep]; auto. rewrite IH. auto. Qed.
Lemma active_stays a op c o : step (Active a) op = (c, o) -> (exists a', c = Active a' /\ ends op = false) \/ (c = Over /\ ends op = true).
Proof.
  cbn [cstep]; unfold active_step. destruct op; try (intros H; injection H as <- <-; left; eauto; fail); try (intros H; injection H as <- <-; right; eauto; fail).
  - unfold lift. destruct (on_active_message sid book did m now st value a). intros H; injection H as <- <-; left; eauto.
  - destruct (payloads sid l (a_mid a)). intros H; injection H as <- <-; left; eauto.
  - unfold lift. destruct (on_found d value a). intros H; injection H as <- <-; left; eauto.
  - unfold lift. destruct (on_not_found d a). intros H; injection H as <- <-; left; eauto.
  - destruct l; intros H; injection H as <- <-; [right|left]; eauto.
  - unfold lift. destruct (on_answer key value a). intros H; injection H as <- <-; left; eauto.
Qed.

(** Induction over the histories of a session that is still active. *)
Lemma active_ind (P : act -> list cop -> list (list cout) -> Prop) :
  P fresh [] [] ->
  (forall a ops os op a' o, run (Active fresh) ops = (Active a, os) -> P a ops os -> step (Active a) op = (Active a', o) -> ends op = false ->
    P a' (ops ++ [op]) (os ++ [o])) ->
  forall ops a os, run (Active fresh) ops = (Active a, os) -> P a ops os.
Proof.
  intros H0 H1 ops. induction ops as [|op ops IH] using rev_ind; intros a os H.
  - cbn in H. injection H as <- <-. exact H0.
  - rewrite crun_app in H. destruct (run (Active fresh) ops) as [c os1] eqn:E. cbn [fst snd crun] in H.
    destruct c as [p|a1|].
    + exfalso. clear - E. revert E. generalize fresh. revert p os1. induction ops as [|x ops IH]; intros p os1 a; cbn [crun]; [discriminate|].
      destruct (step (Active a) x) as [c o] eqn:E1. destruct (active_stays _ _ _ _ E1) as [(a' & -> & _)|[-> _]].
      * destruct (run (Active a') ops) as [c2 os2] eqn:E2. intros H; injection H as -> _. eapply IH; eauto.
      * rewrite crun_over. discriminate.
    + destruct (step (Active a1) op) as [c o] eqn:E1. injection H as -> <-.
      destruct (active_stays _ _ _ _ E1) as [(a' & X & En)|[X _]]; [|discriminate]. injection X as <-.
      apply (H1 a1 ops os1 op a o); auto.
    + cbn [cstep] in H. discriminate.
Qed.

(** ** Per destination *)
Definition at_ (a : act) (d : N) : pend := mkPend (nget d (a_conns a)) (nget d (a_looks a)).
Definition wf (a : act) : Prop := sorted (nkeys (a_conns a)) /\ sorted (nkeys (a_looks a)) /\ sorted (nkeys (a_futs a)) /\ (forall k v, nget k (a_futs a) = Some v -> k < a_next a).

Ltac inj H := apply pair_equal_spec in H as [H ?]; injection H as <-; subst.

Lemma step_at a op a' o d : step (Active a) op = (Active a', o) -> at_ a' d = pend_step book did d (at_ a d) op.
Proof.
  intros H. destruct (active_stays _ _ _ _ H) as [(a'' & X & En)|[X _]]; [|discriminate]. injection X as <-.
  unfold pend_step. rewrite En. cbn [cstep] in H; unfold active_step in H.
  destruct op as [m now room st value| | |e|l|x value|x|l|key v|]; cbn [request_of]; try (inj H; reflexivity); try discriminate.
  - unfold lift in H. destruct (on_active_message sid book did m now st value a) as [a1 o1] eqn:E. injection H as <- <-.
    unfold on_active_message in E. destruct m; cbn [common] in E; cbn [request_of]; try (injection E as <- <-; reflexivity).
    + destruct book.
      * destruct kind; [injection E as <- <-; reflexivity|]. destruct st; injection E as <- <-; try reflexivity.
        unfold at_, u_looks; cbn [a_conns a_looks pm pl]. rewrite nget_nput, N.eqb_sym. destruct (_ =? d); reflexivity.
      * injection E as <- <-. destruct kind; reflexivity.
    + destruct st.
      * injection E as <- <-. reflexivity.
      * injection E as <- <-. unfold at_, u_conns; cbn [a_conns a_looks pm pl]. rewrite nget_nput, N.eqb_sym. destruct (_ =? d); reflexivity.
      * destruct (nget (did (d_hash dest)) (a_conns a)) eqn:G; injection E as <- <-.
        -- unfold at_, u_conns; cbn [a_conns a_looks pm pl]. rewrite nget_nput, N.eqb_sym. destruct (N.eqb_spec (did (d_hash dest)) d) as [<-|]; auto.
           rewrite G. reflexivity.
        -- destruct (N.eqb_spec (did (d_hash dest)) d) as [<-|]; auto. unfold at_. cbn [pm pl]. rewrite G. reflexivity.
  - destruct (payloads sid l (a_mid a)). inj H. reflexivity.
  - unfold lift in H. destruct (on_found x value a) as [a1 o1] eqn:E. injection H as <- <-. unfold on_found in E.
    unfold at_ at 2 3 4. cbn [pm pl]. destruct (N.eqb_spec x d) as [->|Hne].
    + destruct (nget d (a_conns a)) eqn:G; [injection E as <- <-; unfold at_, u_conns; cbn [a_conns a_looks]; now rewrite nget_ndel, N.eqb_refl|].
      destruct (nget d (a_looks a)) as [[s r]|] eqn:G2; injection E as <- <-; unfold at_, u_looks; cbn [a_conns a_looks]; rewrite ?nget_ndel, ?N.eqb_refl, ?G, ?G2; reflexivity.
    + assert (Hb : d =? x = false) by (apply N.eqb_neq; congruence).
      destruct (nget x (a_conns a)); [injection E as <- <-; unfold at_, u_conns; cbn [a_conns a_looks]; now rewrite nget_ndel, Hb|].
      destruct (nget x (a_looks a)) as [[s r]|]; injection E as <- <-; unfold at_, u_looks; cbn [a_conns a_looks]; rewrite ?nget_ndel, ?Hb; reflexivity.
  - unfold lift in H. destruct (on_not_found x a) as [a1 o1] eqn:E. injection H as <- <-. unfold on_not_found in E.
    unfold at_ at 2 3 4. cbn [pm pl]. destruct (N.eqb_spec x d) as [->|Hne].
    + destruct (nget d (a_conns a)) eqn:G; [injection E as <- <-; unfold at_, u_conns; cbn [a_conns a_looks]; now rewrite nget_ndel, N.eqb_refl|].
      destruct (nget d (a_looks a)) as [[s r]|] eqn:G2; injection E as <- <-; unfold at_, u_looks; cbn [a_conns a_looks]; rewrite ?nget_ndel, ?N.eqb_refl, ?G, ?G2; reflexivity.
    + assert (Hb : d =? x = false) by (apply N.eqb_neq; congruence).
      destruct (nget x (a_conns a)); [injection E as <- <-; unfold at_, u_conns; cbn [a_conns a_looks]; now rewrite nget_ndel, Hb|].
      destruct (nget x (a_looks a)) as [[s r]|]; injection E as <- <-; unfold at_, u_looks; cbn [a_conns a_looks]; rewrite ?nget_ndel, ?Hb; reflexivity.
  - destruct l; [discriminate|]. inj H. reflexivity.
  - unfold lift in H. destruct (on_answer key v a) as [a1 o1] eqn:E. injection H as <- <-. unfold on_answer in E.
    destruct (nget key (a_futs a)) as [[s r]|]; injection E as <- <-; reflexivity.
Qed.

Lemma step_wf a op a' o : wf a -> step (Active a) op = (Active a', o) -> wf a'.
Proof.
  intros (W1 & W2 & W3 & W4) H. cbn [cstep] in H; unfold active_step in H.
  assert (K : forall c l f n, c = a_conns a \/ (exists d v, c = nput d v (a_conns a)) \/ (exists d, c = ndel d (a_conns a)) ->
              l = a_looks a \/ (exists d v, l = nput d v (a_looks a)) \/ (exists d, l = ndel d (a_looks a)) ->
              (f = a_futs a /\ n = a_next a) \/ (exists v, f = nput (a_next a) v (a_futs a) /\ n = a_next a + 1) \/ (exists k, f = ndel k (a_futs a) /\ n = a_next a) ->
              forall m, wf (mkAct m c l f n)).
  { intros c l f n Hc Hl Hf m. unfold wf; cbn [a_conns a_looks a_futs a_next]. split; [|split; [|split]].
    - destruct Hc as [->|[(d & v & ->)|(d & ->)]]; auto using nput_Sorted, ndel_Sorted.
    - destruct Hl as [->|[(d & v & ->)|(d & ->)]]; auto using nput_Sorted, ndel_Sorted.
    - destruct Hf as [[-> _]|[(v & -> & _)|(k & -> & _)]]; auto using nput_Sorted, ndel_Sorted.
    - intros k v. destruct Hf as [[-> ->]|[(w & -> & ->)|(x & -> & ->)]]; [apply W4| |].
      + rewrite nget_nput. destruct (N.eqb_spec k (a_next a)); [lia|]. intros G. apply W4 in G. lia.
      + rewrite nget_ndel. destruct (k =? x); [discriminate|apply W4]. }
  assert (U : forall u m, a' = u -> (exists c l f n, u = mkAct m c l f n) -> True) by auto. clear U.
  destruct op as [m now room st value| | |e|l|x value|x|l|key v|]; try (inj H; repeat split; assumption); try discriminate.
  - unfold lift in H. destruct (on_active_message sid book did m now st value a) as [a1 o1] eqn:E. injection H as <- <-.
    unfold on_active_message in E. destruct m; cbn [common] in E; try (injection E as <- <-; repeat split; assumption).
    + destruct book; [|injection E as <- <-; repeat split; assumption].
      destruct kind; [injection E as <- <-; apply K; eauto|]. destruct st; injection E as <- <-; try (repeat split; assumption). apply K; eauto 6.
    + destruct st; try (injection E as <- <-; repeat split; assumption).
      * injection E as <- <-. apply K; eauto 6.
      * destruct (nget _ (a_conns a)); injection E as <- <-; [apply K; eauto 6|repeat split; assumption].
  - destruct (payloads sid l (a_mid a)). inj H. apply K; eauto.
  - unfold lift in H. destruct (on_found x value a) as [a1 o1] eqn:E. injection H as <- <-. unfold on_found in E.
    destruct (nget x (a_conns a)); [injection E as <- <-; apply K; eauto|].
    destruct (nget x (a_looks a)) as [[s r]|]; injection E as <- <-; [apply K; eauto|repeat split; assumption].
  - unfold lift in H. destruct (on_not_found x a) as [a1 o1] eqn:E. injection H as <- <-. unfold on_not_found in E.
    destruct (nget x (a_conns a)); [injection E as <- <-; apply K; eauto|].
    destruct (nget x (a_looks a)) as [[s r]|]; injection E as <- <-; [apply K; eauto|repeat split; assumption].
  - destruct l; [discriminate|]. inj H. repeat split; assumption.
  - unfold lift in H. destruct (on_answer key v a) as [a1 o1] eqn:E. injection H as <- <-. unfold on_answer in E.
    destruct (nget key (a_futs a)) as [[s r]|]; injection E as <- <-; [apply K; eauto 6|repeat split; assumption].
Qed.

Lemma active_wf ops a os : run (Active fresh) ops = (Active a, os) -> wf a.
Proof.
  revert ops a os. apply active_ind.
  - repeat split; cbn; try constructor. discriminate.
  - intros a ops os op a' o _ W E _. eapply step_wf; eauto.
Qed.
Lemma pend_run_snoc d ops op : pend_run book did d (ops ++ [op]) = pend_step book did d (pend_run book did d ops) op.
Proof. unfold pend_run. now rewrite fold_left_app. Qed.
Lemma active_at ops a os : run (Active fresh) ops = (Active a, os) -> forall d, at_ a d = pend_run book did d ops.
Proof.
  revert ops a os. apply (active_ind (fun a ops _ => forall d, at_ a d = pend_run book did d ops)).
  - reflexivity.
  - intros a ops os op a' o _ W E _ d. rewrite pend_run_snoc, <- W. eapply step_at; eauto.
Qed.

(** ** Messages in order *)
Definition wait_of (a : act) (d : N) : list bytes := match nget d (a_conns a) with Some l => l | None => [] end.
Lemma dealt_app d a b : dealt d (a ++ b) = dealt d a ++ dealt d b.
Proof. unfold dealt. now rewrite concat_app, flat_map_app. Qed.
Lemma given_app d a b : given book did d (a ++ b) = given book did d a ++ given book did d b.
Proof. unfold given. now rewrite flat_map_app. Qed.
Lemma dealt_sends d d' l : dealt d [map (SendTo d') l] = if d' =? d then l else [].
Proof.
  unfold dealt. cbn [concat]. rewrite app_nil_r. induction l as [|x l IH]; cbn [map flat_map]; [destruct (_ =? _); auto|].
  rewrite IH. destruct (d' =? d); auto.
Qed.
Lemma dealt_losts d d' l : dealt d [map (Lost d') l] = if d' =? d then l else [].
Proof.
  unfold dealt. cbn [concat]. rewrite app_nil_r. induction l as [|x l IH]; cbn [map flat_map]; [destruct (_ =? _); auto|].
  rewrite IH. destruct (d' =? d); auto.
Qed.
Lemma payloads_plain l : forall mid d, dealt d [snd (payloads sid l mid)] = [].
Proof.
  unfold dealt. cbn [concat]. induction l as [|x l IH]; intros mid d; auto. cbn [payloads].
  specialize (IH ((mid + 1) mod 2 ^ 32) d). destruct (payloads sid l _) as [m o]. cbn [snd flat_map app] in *. exact IH.
Qed.

Lemma step_order a op a' o d : step (Active a) op = (Active a', o) ->
  (forall x, req op = Message d x Found -> nget d (a_conns a) = None) ->
  dealt d [o] ++ wait_of a' d = wait_of a d ++ given book did d [op].
Proof.
  intros H Q. destruct (active_stays _ _ _ _ H) as [(a'' & X & En)|[X _]]; [|discriminate]. injection X as <-.
  cbn [cstep] in H; unfold active_step in H. unfold given. cbn [flat_map]. rewrite app_nil_r.
  assert (P : forall (w : list bytes) , [] ++ w = w ++ []) by (intros; now rewrite app_nil_r).
  destruct op as [m now room st value| | |e|l|x value|x|l|key v|]; cbn [request_of] in *; try (inj H; apply P); try discriminate.
  - unfold lift in H. destruct (on_active_message sid book did m now st value a) as [a1 o1] eqn:E. injection H as <- <-.
    unfold on_active_message in E. destruct m; cbn [common] in E; cbn [request_of] in *; try (injection E as <- <-; apply P).
    + destruct book.
      * destruct kind; [injection E as <- <-; apply P|]. destruct st; injection E as <- <-; try apply P.
        unfold wait_of, u_looks; cbn [a_conns]. unfold forgot_of. destruct (nget _ (a_looks a)) as [[s r]|]; apply P.
      * injection E as <- <-. destruct kind; apply P.
    + set (x := did (d_hash dest)) in *. destruct st.
      * injection E as <- <-. unfold dealt; cbn [concat flat_map app]. rewrite app_nil_r. destruct (N.eqb_spec x d) as [Hd|]; [|apply P].
        unfold wait_of. rewrite (Q payload) by now rewrite Hd. reflexivity.
      * injection E as <- <-. unfold wait_of, u_conns; cbn [a_conns]. rewrite nget_nput. unfold lost_of.
        destruct (nget x (a_conns a)) as [l|] eqn:G.
        -- rewrite dealt_losts, (N.eqb_sym d x). destruct (N.eqb_spec x d) as [<-|]; [now rewrite G|apply P].
        -- unfold dealt; cbn [concat flat_map app]. rewrite (N.eqb_sym d x). destruct (N.eqb_spec x d) as [<-|]; [now rewrite G|apply P].
      * destruct (nget x (a_conns a)) as [l|] eqn:G; injection E as <- <-.
        -- unfold dealt; cbn [concat flat_map app]. unfold wait_of, u_conns; cbn [a_conns]. rewrite nget_nput, (N.eqb_sym d x).
           destruct (N.eqb_spec x d) as [<-|]; [now rewrite G|apply P].
        -- unfold dealt; cbn [concat flat_map app]. rewrite app_nil_r. destruct (N.eqb_spec x d) as [<-|]; [|apply P].
           unfold wait_of. now rewrite G.
  - destruct (payloads sid l (a_mid a)) as [mid o1] eqn:E. inj H. replace o with (snd (payloads sid l (a_mid a))) by now rewrite E.
    rewrite payloads_plain. apply P.
  - unfold lift in H. destruct (on_found x value a) as [a1 o1] eqn:E. injection H as <- <-. unfold on_found in E.
    destruct (nget x (a_conns a)) as [l|] eqn:G.
    + injection E as <- <-. rewrite dealt_sends. unfold wait_of, u_conns; cbn [a_conns]. rewrite nget_ndel, (N.eqb_sym d x).
      destruct (N.eqb_spec x d) as [<-|]; [now rewrite G|apply P].
    + destruct (nget x (a_looks a)) as [[s r]|]; injection E as <- <-; apply P.
  - unfold lift in H. destruct (on_not_found x a) as [a1 o1] eqn:E. injection H as <- <-. unfold on_not_found in E.
    destruct (nget x (a_conns a)) as [l|] eqn:G.
    + injection E as <- <-. rewrite dealt_losts. unfold wait_of, u_conns; cbn [a_conns]. rewrite nget_ndel, (N.eqb_sym d x).
      destruct (N.eqb_spec x d) as [<-|]; [now rewrite G|apply P].
    + destruct (nget x (a_looks a)) as [[s r]|]; injection E as <- <-; apply P.
  - destruct l; [discriminate|]. inj H. apply P.
  - unfold lift in H. destruct (on_answer key v a) as [a1 o1] eqn:E. injection H as <- <-. unfold on_answer in E.
    destruct (nget key (a_futs a)) as [[s r]|]; injection E as <- <-; apply P.
Qed.

(** While something waits, the session has been told so. *)
Definition none (p : pend) : Prop := pm p = None /\ pl p = None.
Lemma busy_waits d ops : in_order d false (flat_map (hears book did) ops) = true ->
  (pm (pend_run book did d ops) = None \/ pl (pend_run book did d ops) = None)
  /\ (after_words d false (flat_map (hears book did) ops) = false -> none (pend_run book did d ops)).
Proof.
  assert (A : forall l1 l2 b, after_words d b (l1 ++ l2) = after_words d (after_words d b l1) l2) by (induction l1; cbn; auto).
  induction ops as [|op ops IH] using rev_ind; intros O; [split; [left; reflexivity|split; reflexivity]|].
  rewrite flat_map_app in *. rewrite in_order_app in O. apply andb_true_iff in O as [O1 O2]. rewrite A. cbn [flat_map] in *. rewrite app_nil_r in *.
  rewrite pend_run_snoc. unfold pend_step. destruct (ends op) eqn:En; [split; [left; reflexivity|split; reflexivity]|].
  set (p := pend_run book did d ops) in *. set (b := after_words d false _) in *. unfold hears in *. specialize (IH O1) as [IH1 IH2].
  destruct (req op) as [d' x st|s r d' st v|s r n|s r|] eqn:R; cbn [after_words after_word in_order] in *.
  - destruct (N.eqb_spec d' d) as [->|Hne]; [|destruct st; auto].
    destruct st; [auto| |].
    + rewrite andb_true_r in O2. apply negb_true_iff in O2. split; [right; cbn; apply (IH2 O2)|discriminate].
    + cbn [pm pl]. split; [|discriminate]. destruct IH1 as [H|H]; [left; now rewrite H|right; auto].
  - destruct (N.eqb_spec d' d) as [->|Hne]; [|destruct st; auto].
    destruct st; [auto| |].
    + rewrite andb_true_r in O2. apply negb_true_iff in O2. split; [left; cbn; apply (IH2 O2)|discriminate].
    + split; [auto|discriminate].
  - auto.
  - auto.
  - assert (K : forall x, (pm (if x =? d then match pm p with Some _ => mkPend None (pl p) | None => no_pend end else p) = None
       \/ pl (if x =? d then match pm p with Some _ => mkPend None (pl p) | None => no_pend end else p) = None)
       /\ (b && negb (x =? d) = false -> none (if x =? d then match pm p with Some _ => mkPend None (pl p) | None => no_pend end else p))).
    { intros x. destruct (N.eqb_spec x d) as [->|]; cbn [negb].
      - split; [destruct (pm p); left; reflexivity|]. intros _. destruct (pm p) eqn:G; [|split; reflexivity].
        split; [reflexivity|]. cbn. destruct IH1 as [H|H]; [congruence|auto].
      - rewrite andb_true_r. auto. }
    destruct op as [m now room st value| | |e|l|x value|x|l|key v|]; cbn [after_words after_word in_order] in *; auto; apply K.
Qed.

Lemma order_here d ops op x : in_order d false (flat_map (hears book did) (ops ++ [op])) = true -> req op = Message d x Found ->
  pm (pend_run book did d ops) = None.
Proof.
  intros O R. rewrite flat_map_app, in_order_app in O. apply andb_true_iff in O as [O1 O2]. cbn [flat_map] in O2. unfold hears in O2 at 2. rewrite R in O2.
  cbn [app in_order] in O2. rewrite N.eqb_refl, andb_true_r in O2. apply negb_true_iff in O2. apply (busy_waits d ops O1); auto.
Qed.
Lemma in_order_init d a b : in_order d false (flat_map (hears book did) (a ++ b)) = true -> in_order d false (flat_map (hears book did) a) = true.
Proof. rewrite flat_map_app, in_order_app. intros H. now apply andb_true_iff in H. Qed.

Lemma messages_order d ops a os : run (Active fresh) ops = (Active a, os) -> in_order d false (flat_map (hears book did) ops) = true ->
  dealt d os ++ wait_of a d = given book did d ops.
Proof.
  revert ops a os. apply (active_ind (fun a ops os => in_order d false (flat_map (hears book did) ops) = true -> dealt d os ++ wait_of a d = given book did d ops)).
  - reflexivity.
  - intros a ops os op a' o E IH St En O. rewrite dealt_app, given_app, <- app_assoc, (step_order a op a' o d St), <- IH, app_assoc; eauto using in_order_init.
    intros x R. pose proof (order_here d ops op x O R) as Q. rewrite <- (active_at ops a os E d) in Q. exact Q.
Qed.

(** ** ... and lost only if a lookup fails or was not the session's *)
Definition losses (d : N) (os : list (list cout)) : list bytes :=
  flat_map (fun o => match o with Lost d' x => if d' =? d then [x] else [] | _ => [] end) (concat os).
End S.
