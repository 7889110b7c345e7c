(** Proofs about the tunnel pool: builds under way, routing table entries, reply listeners. *)
From Coq Require Import List NArith Bool Lia Permutation.
From Verif Require Import ListUtil NMap RouteProofs DestProofs PoolModel PoolSpec PoolProofs.
Import ListNotations.
Open Scope N_scope.

(** The lists of the specification, and how outputs and operations change them. *)
Record lists := mkLs { k_bo : list N; k_bi : list N; k_en : list (N * N); k_ze : list N; k_wa : list N }.
Definition tell (us : list out) (k : lists) : lists :=
  mkLs (fold_left begin_out us (k_bo k)) (fold_left begin_in us (k_bi k)) (fold_left enter us (k_en k))
       (fold_left enter_zero us (k_ze k)) (fold_left begin_wait us (k_wa k)).
Definition before (e : op * list out) (k : lists) : lists :=
  mkLs (match e with (OOutDone sn _, _ :: _) => drop_sn sn (k_bo k) | _ => k_bo k end)
       (match e with (OInDone sn _, _ :: _) => drop_sn sn (k_bi k) | _ => k_bi k end)
       (match e with
        | (OInDone _ BGood, _) => k_en k
        | (OInDone sn _, _ :: _) => leave sn (k_en k)
        | (OInEnd sn, _ :: _) => leave sn (k_en k)
        | _ => k_en k
        end)
       (match fst e with OZeroEnd g => sdel g (k_ze k) | _ => k_ze k end)
       (match e with
        | (OOutDone sn _, _ :: _) | (OInDone sn _, _ :: _) | (OTestDone sn _, _ :: _) => sdel sn (k_wa k)
        | _ => k_wa k
        end).
Definition of_history (tr : history) : lists :=
  mkLs (building Outb tr) (building Inb tr) (entries tr) (zeros tr) (waits tr).
Lemma of_snoc tr e : of_history (tr ++ [e]) = tell (snd e) (before e (of_history tr)).
Proof.
  unfold of_history, building, entries, zeros, waits. rewrite !fold_left_app. cbn [fold_left].
  destruct e as [o us]. reflexivity.
Qed.
Lemma tell_app a b k : tell (a ++ b) k = tell b (tell a k).
Proof. unfold tell. cbn. now rewrite !fold_left_app. Qed.
Lemma tell_nil k : tell [] k = k.
Proof. now destruct k. Qed.

Record books (p : pool) (k : lists) : Prop := mkBooks {
  b_po : k_bo k = map po_sn (p_po p);
  b_pi : k_bi k = map pi_sn (p_pi p);
  b_lt : forall sn, In sn (map po_sn (p_po p) ++ map pi_sn (p_pi p) ++ map t_sn (p_tests p)
                           ++ map in_sn (p_inb p) ++ p_listen p) -> sn < p_next p;
  b_nd : NoDup (map po_sn (p_po p) ++ map pi_sn (p_pi p) ++ map t_sn (p_tests p) ++ map in_sn (p_inb p));
  b_en : forall sn tid, In (sn, tid) (k_en k) <->
           (exists x, In x (p_pi p) /\ pi_sn x = sn /\ pi_tid x = tid) \/
           (exists y, In y (p_inb p) /\ in_sn y = sn /\ in_tid y = tid);
  b_ze : k_ze k = p_zero p;
  b_rt : forall id, In id (p_rt p) <-> In id (map pi_tid (p_pi p) ++ map in_tid (p_inb p) ++ p_zero p ++ p_alien p);
  b_rn : NoDup (map pi_tid (p_pi p) ++ map in_tid (p_inb p) ++ p_zero p ++ p_alien p);
  b_wa : forall sn, In sn (k_wa k) <->
           (exists x, In x (p_po p) /\ po_sn x = sn /\ po_zero x = false) \/
           (exists x, In x (p_pi p) /\ pi_sn x = sn) \/ (exists x, In x (p_tests p) /\ t_sn x = sn);
  b_li : forall sn, In sn (k_wa k) -> In sn (p_listen p) }.

Lemma books_new ni no t0 : books (p_new ni no t0) (of_history []).
Proof.
  constructor; cbn; try tauto; try reflexivity; try (constructor; fail); try (intros; tauto).
  - intros sn tid. split; [tauto|]. intros [(x & [] & _)|(x & [] & _)].
  - intro sn. split; [tauto|]. intros [(x & [] & _)|[(x & [] & _)|(x & [] & _)]].
Qed.

Lemma NoDup_left A (a b : list A) : NoDup (a ++ b) -> NoDup a.
Proof.
  induction a as [|x a IH]; intro D; [constructor|]. inversion D; subst. constructor; [|auto].
  intro I. apply H1, in_or_app. auto.
Qed.

(** ** Draws *)
Lemma draw_free ds rt g : draw ds rt = Some g -> ~ In g rt /\ In g ds.
Proof.
  induction ds as [|d ds IH]; cbn; [discriminate|]. destruct (smem d rt) eqn:E.
  - intro H. destruct (IH H). auto.
  - intro H. injection H as <-. split; [|auto]. intro I. apply smem_In in I. congruence.
Qed.

Lemma NoDup_mid A (x : A) a b : ~ In x (a ++ b) -> NoDup (a ++ b) -> NoDup (a ++ x :: b).
Proof. intros N D. apply NoDup_Add with (a := x) (l := a ++ b); [apply Add_app|]. auto. Qed.

(** ** Starting builds and tests *)
Lemma build_out_books p b p' us k :
  books p k -> build_out p b = (p', us) -> books p' (tell us k).
Proof.
  intro B. unfold build_out.
  assert (K : forall x, (p, []) = x -> books (fst x) (tell (snd x) k)) by (intros x <-; now rewrite tell_nil).
  destruct (b_hops b); cbn [negb]; [|intro H; apply (K _ H)].
  destruct B as [Bo Bi Blt Bnd Ben Bze Brt Brn Bwa Bli].
  assert (FR : ~ In (p_next p) (map po_sn (p_po p) ++ map pi_sn (p_pi p) ++ map t_sn (p_tests p) ++ map in_sn (p_inb p))).
  { intro I. assert (p_next p < p_next p); [|lia]. apply Blt.
    rewrite !app_assoc in *. apply in_or_app. auto. }
  assert (LT : forall l sn, In sn ((map po_sn (p_po p) ++ [p_next p]) ++ map pi_sn (p_pi p) ++ map t_sn (p_tests p)
                           ++ map in_sn (p_inb p) ++ l) -> (forall s, In s l -> s = p_next p \/ In s (p_listen p)) -> sn < p_next p + 1).
  { intros l sn I Hl. assert (S : sn = p_next p \/ sn < p_next p); [|lia].
    rewrite <- !app_assoc in I. cbn [app] in I.
    apply in_app_or in I as [I|[<-|I]]; [right; apply Blt; apply in_or_app; auto | auto |].
    apply in_app_or in I as [I|I]; [right; apply Blt; apply in_or_app; right; apply in_or_app; auto|].
    apply in_app_or in I as [I|I]; [right; apply Blt; do 2 (apply in_or_app; right); apply in_or_app; auto|].
    apply in_app_or in I as [I|I]; [right; apply Blt; do 3 (apply in_or_app; right); apply in_or_app; auto|].
    destruct (Hl _ I) as [->|J]; [auto|right; apply Blt; do 4 (apply in_or_app; right); auto]. }
  assert (ND : NoDup ((map po_sn (p_po p) ++ [p_next p]) ++ map pi_sn (p_pi p) ++ map t_sn (p_tests p) ++ map in_sn (p_inb p))).
  { rewrite <- app_assoc. cbn [app]. now apply NoDup_mid. }
  destruct (b_via b).
  - destruct (b_ok b); [|intro H; constructor; apply pair_equal_spec in H as [<- <-]; rewrite ?tell_nil; assumption].
    intro H; apply pair_equal_spec in H as [<- <-].
    constructor; cbn [tell fold_left begin_out begin_in enter enter_zero begin_wait k_bo k_bi k_en k_ze k_wa
      p_po p_pi p_tests p_inb p_listen p_next p_rt p_zero p_alien s_listen s_po s_next]; rewrite ?map_app; cbn [map po_sn]; auto.
    + now rewrite Bo.
    + intros sn I. apply (LT _ _ I). intros s [<-|J]; auto.
    + intro sn. cbn. rewrite Bwa. split.
      * intros [<-|[(x & Hx & X)|Y]]; [left; eexists; split; [apply in_or_app; right; now left|]; auto
                                      |left; exists x; split; [apply in_or_app|]; auto | auto].
      * intros [(x & Hx & E & Z)|Y]; [|auto]. apply in_app_or in Hx as [Hx|[<-|[]]]; [right; left; eauto | left; exact E].
    + intros sn [<-|I]; [now left | right; auto].
  - destruct (draw (b_draws b) (p_rt p)) as [g|] eqn:D;
      [|intro H; constructor; apply pair_equal_spec in H as [<- <-]; rewrite ?tell_nil; assumption].
    destruct (b_ok b); [|intro H; constructor; apply pair_equal_spec in H as [<- <-]; rewrite ?tell_nil; assumption].
    apply draw_free in D as [DF _].
    intro H; apply pair_equal_spec in H as [<- <-].
    constructor; cbn [tell fold_left begin_out begin_in enter enter_zero begin_wait k_bo k_bi k_en k_ze k_wa
      p_po p_pi p_tests p_inb p_listen p_next p_rt p_zero p_alien s_listen s_po s_next s_rt s_zero]; rewrite ?map_app; cbn [map po_sn]; auto.
    + now rewrite Bo.
    + intros sn I. apply (LT _ _ I). auto.
    + now rewrite Bze.
    + intro id. cbn. rewrite Brt, !in_app_iff. cbn. rewrite !in_app_iff. tauto.
    + rewrite app_assoc. cbn [app]. apply NoDup_mid; rewrite <- app_assoc; [now rewrite <- Brt | exact Brn].
    + intro sn. rewrite Bwa. split.
      * intros [(x & Hx & X)|Y]; [left; exists x; split; [apply in_or_app|]; auto | auto].
      * intros [(x & Hx & E & Z)|Y]; [|auto]. apply in_app_or in Hx as [Hx|[<-|[]]]; [left; eauto | discriminate].
Qed.

Lemma build_in_books p b p' us k :
  books p k -> build_in p b = (p', us) -> books p' (tell us k).
Proof.
  intro B. unfold build_in.
  assert (K : forall x, (p, []) = x -> books (fst x) (tell (snd x) k)) by (intros x <-; now rewrite tell_nil).
  destruct (b_hops b); cbn [negb]; [|intro H; apply (K _ H)].
  destruct (draw (b_draws b) (p_rt p)) as [tid|] eqn:D; [|intro H; apply (K _ H)].
  destruct (b_ok b); [|intro H; apply (K _ H)]. clear K.
  destruct B as [Bo Bi Blt Bnd Ben Bze Brt Brn Bwa Bli].
  apply draw_free in D as [DF _].
  assert (FR : ~ In (p_next p) (map po_sn (p_po p) ++ map pi_sn (p_pi p) ++ map t_sn (p_tests p) ++ map in_sn (p_inb p))).
  { intro I. assert (p_next p < p_next p); [|lia]. apply Blt.
    rewrite !app_assoc in *. apply in_or_app. auto. }
  intro H; apply pair_equal_spec in H as [<- <-].
  constructor; cbn [tell fold_left begin_out begin_in enter enter_zero begin_wait k_bo k_bi k_en k_ze k_wa
      p_po p_pi p_tests p_inb p_listen p_next p_rt p_zero p_alien s_listen s_pi s_next s_rt]; rewrite ?map_app; cbn [map pi_sn pi_tid]; auto.
  - now rewrite Bi.
  - intros sn I. assert (S : sn = p_next p \/ sn < p_next p); [|lia].
    assert (X : sn = p_next p \/ In sn (map po_sn (p_po p) ++ map pi_sn (p_pi p) ++ map t_sn (p_tests p)
                           ++ map in_sn (p_inb p) ++ p_listen p)); [|destruct X; auto].
    rewrite !in_app_iff in *. cbn in I. intuition auto.
  - rewrite <- app_assoc. cbn [app]. rewrite app_assoc. apply NoDup_mid; rewrite <- app_assoc; auto.
  - intros sn t. cbn. rewrite Ben. split.
    + intros [E|[(x & Hx & X)|Y]]; [injection E as <- <-; left; eexists; split; [apply in_or_app; right; now left|]; auto
                                   |left; exists x; split; [apply in_or_app|]; auto | auto].
    + intros [(x & Hx & E & Z)|Y]; [|auto]. apply in_app_or in Hx as [Hx|[<-|[]]]; [right; left; eauto | left; cbn in *; congruence].
  - intro id. cbn. rewrite Brt, !in_app_iff. cbn. tauto.
  - rewrite <- app_assoc. cbn [app]. apply NoDup_mid; [now rewrite <- Brt | exact Brn].
  - intro sn. cbn. rewrite Bwa. split.
    + intros [<-|[X|[(x & Hx & X)|Y]]]; [right; left; eexists; split; [apply in_or_app; right; now left|]; auto | auto
                                        |right; left; exists x; split; [apply in_or_app|]; auto | auto].
    + intros [X|[(x & Hx & E)|Y]]; [auto| |auto]. apply in_app_or in Hx as [Hx|[<-|[]]]; [right; right; left; eauto | left; exact E].
  - intros sn [<-|I]; [now left | right; auto].
Qed.

Lemma builds_books f :
  (forall p b p' us k, books p k -> f p b = (p', us) -> books p' (tell us k)) ->
  forall n bs p p' us k, books p k -> builds f n bs p = (p', us) -> books p' (tell us k).
Proof.
  intros F n. induction n as [|n IH]; intros bs p p' us k B H.
  - cbn in H. apply pair_equal_spec in H as [<- <-]. now rewrite tell_nil.
  - destruct bs as [|b bs]; [cbn in H; apply pair_equal_spec in H as [<- <-]; now rewrite tell_nil|].
    cbn [builds] in H. destruct (f p b) as [p1 o1] eqn:E1. destruct (builds f n bs p1) as [p2 o2] eqn:E2.
    apply pair_equal_spec in H as [<- <-]. rewrite tell_app. eauto.
Qed.

Lemma test_all_books l : forall sent p p' us k, books p k -> test_all l sent p = (p', us) -> books p' (tell us k).
Proof.
  induction l as [|[o i] l IH]; intros sent p p' us k B H.
  - cbn in H. apply pair_equal_spec in H as [<- <-]. now rewrite tell_nil.
  - cbn [test_all] in H. destruct (test_one p o i (hd true sent)) as [p1 o1] eqn:E1.
    destruct (test_all l (tl sent) p1) as [p2 o2] eqn:E2. apply pair_equal_spec in H as [<- <-].
    rewrite tell_app. cut (books p1 (tell o1 k)); [intro B1; eauto|]. clear IH E2.
    unfold test_one in E1. destruct (hd true sent); apply pair_equal_spec in E1 as [<- <-]; [|now rewrite tell_nil].
    destruct B as [Bo Bi Blt Bnd Ben Bze Brt Brn Bwa Bli].
    assert (FR : ~ In (p_next p) (map po_sn (p_po p) ++ map pi_sn (p_pi p) ++ map t_sn (p_tests p) ++ map in_sn (p_inb p))).
    { intro I. assert (p_next p < p_next p); [|lia]. apply Blt.
      rewrite !app_assoc in *. apply in_or_app. auto. }
    constructor; cbn [tell fold_left begin_out begin_in enter enter_zero begin_wait k_bo k_bi k_en k_ze k_wa
      p_po p_pi p_tests p_inb p_listen p_next p_rt p_zero p_alien s_listen s_tests s_next]; rewrite ?map_app; cbn [map t_sn]; auto.
    + intros sn I. assert (S : sn = p_next p \/ sn < p_next p); [|lia].
      assert (X : sn = p_next p \/ In sn (map po_sn (p_po p) ++ map pi_sn (p_pi p) ++ map t_sn (p_tests p)
                           ++ map in_sn (p_inb p) ++ p_listen p)); [|destruct X; auto].
      rewrite !in_app_iff in *. cbn in I. intuition auto.
    + rewrite <- app_assoc. cbn [app]. rewrite !app_assoc. rewrite !app_assoc in FR, Bnd. now apply NoDup_mid.
    + intro sn. cbn. rewrite Bwa. split.
      * intros [<-|[X|[X|(x & Hx & X)]]]; [right; right; eexists; split; [apply in_or_app; right; now left|]; auto | auto | auto
                                        |right; right; exists x; split; [apply in_or_app|]; auto].
      * intros [X|[X|(x & Hx & E)]]; [auto|auto|]. apply in_app_or in Hx as [Hx|[<-|[]]]; [do 3 right; eauto | left; exact E].
    + intros sn [<-|I]; [now left | right; auto].
Qed.

Lemma books_last p x k : books p k -> books (s_last p x) k.
Proof. intros []. constructor; assumption. Qed.
Lemma books_maint p x k : books p k -> books (s_maint p x) k.
Proof. intros []. constructor; assumption. Qed.
Lemma books_failed p x k : books p k -> books (s_failed p x) k.
Proof. intros []. constructor; assumption. Qed.

Lemma maintain_books p a p' us k : books p k -> maintain p a = (p', us) -> books p' (tell us k).
Proof.
  intro B. unfold maintain. destruct (builds build_out (out_count p) (m_outs a) p) as [p1 o1] eqn:E1.
  destruct (builds build_in (in_count p1) (m_ins a) p1) as [p2 o2] eqn:E2.
  apply (builds_books _ build_out_books _ _ _ _ _ _ B) in E1.
  apply (builds_books _ build_in_books _ _ _ _ _ _ E1) in E2.
  destruct (_ <? _).
  - intro H; apply pair_equal_spec in H as [<- <-]. change (Maintained :: o1 ++ o2) with ([Maintained] ++ o1 ++ o2).
    rewrite !tell_app. exact E2.
  - destruct (test_all _ _ _) as [p4 o4] eqn:E4. apply (test_all_books _ _ _ _ _ _ (books_last _ _ _ E2)) in E4.
    intro H; apply pair_equal_spec in H as [<- <-]. change (Maintained :: o1 ++ o2 ++ o4) with ([Maintained] ++ o1 ++ o2 ++ o4).
    rewrite !tell_app. exact E4.
Qed.
Lemma poll_end_books p a p' us k : books p k -> poll_end p a = (p', us) -> books p' (tell us k).
Proof.
  intro B. unfold poll_end. destruct (_ <=? _).
  - destruct (maintain _ a) as [p1 o] eqn:E. apply (maintain_books _ _ _ _ _ (books_maint _ _ _ B)) in E.
    intro H; apply pair_equal_spec in H as [<- <-]. now apply books_failed.
  - destruct (0 <? p_failed p).
    + destruct (maintain p a) as [p1 o] eqn:E. apply (maintain_books _ _ _ _ _ B) in E.
      intro H; apply pair_equal_spec in H as [<- <-]. now apply books_failed.
    + intro H; apply pair_equal_spec in H as [<- <-]. now rewrite tell_nil.
Qed.

(** ** Ends *)
Lemma drop_mid A (f : A -> N) a x b :
  NoDup (map f (a ++ x :: b)) -> drop_sn (f x) (map f (a ++ x :: b)) = map f (a ++ b).
Proof.
  unfold drop_sn. rewrite !map_app. cbn [map]. intro D. apply NoDup_remove in D as [_ D].
  rewrite filter_app. cbn [filter]. rewrite N.eqb_refl. cbn [negb].
  assert (F : forall l, ~ In (f x) l -> filter (fun y => negb (y =? f x)) l = l).
  { induction l as [|y l IH]; intro N; [reflexivity|]. cbn [filter]. destruct (N.eqb_spec y (f x)); [subst; elim N; now left|].
    cbn [negb]. f_equal. apply IH. intro I. apply N. now right. }
  rewrite !F; [reflexivity| |]; intro I; apply D, in_or_app; auto.
Qed.
Lemma drop_none (sn : N) l : ~ In sn l -> drop_sn sn l = l.
Proof.
  unfold drop_sn. induction l as [|y l IH]; intro N; [reflexivity|]. cbn [filter].
  destruct (N.eqb_spec y sn); [subst; elim N; now left|]. cbn [negb]. f_equal. apply IH. intro I. apply N. now right.
Qed.
Lemma sdel_none (sn : N) l : ~ In sn l -> sdel sn l = l.
Proof.
  induction l as [|y l IH]; intro N; [reflexivity|]. cbn [sdel].
  destruct (N.eqb_spec sn y); [subst; elim N; now left|]. f_equal. apply IH. intro I. apply N. now right.
Qed.
Lemma sdel_mid (sn : N) a b : NoDup (a ++ sn :: b) -> sdel sn (a ++ sn :: b) = a ++ b.
Proof.
  intro D. apply NoDup_remove in D as [_ D].
  assert (S : forall l l', sdel sn (l ++ l') = sdel sn l ++ sdel sn l').
  { induction l as [|y l IH]; intro l'; [reflexivity|]. cbn [app sdel]. rewrite IH. now destruct (sn =? y). }
  rewrite S. cbn [sdel]. rewrite N.eqb_refl. rewrite !sdel_none; [reflexivity| |]; intro I; apply D, in_or_app; auto.
Qed.
Lemma leave_in sn E a b : In (a, b) (leave sn E) <-> In (a, b) E /\ a <> sn.
Proof. unfold leave. rewrite filter_In, negb_true_iff, N.eqb_neq. reflexivity. Qed.

Lemma in_mid A (x y : A) a b : In y (a ++ x :: b) <-> y = x \/ In y (a ++ b).
Proof. rewrite !in_app_iff. cbn. intuition auto. Qed.

Lemma out_done_books p sn r p' us k :
  books p k -> out_done p sn r = (p', us) -> books p' (tell us (before (OOutDone sn r, us) k)).
Proof.
  intro B. unfold out_done. destruct B as [Bo Bi Blt Bnd Ben Bze Brt Brn Bwa Bli].
  destruct (pull po_sn sn (p_po p)) as [[x rest]|] eqn:P.
  - apply pull_spec in P as (<- & a & b & EP & -> & _). rewrite EP in *.
    assert (ND1 : NoDup (map po_sn (a ++ x :: b))) by (apply NoDup_left in Bnd; exact Bnd).
    assert (NI : ~ In (po_sn x) (map po_sn (a ++ b) ++ map pi_sn (p_pi p) ++ map t_sn (p_tests p) ++ map in_sn (p_inb p))).
    { rewrite map_app in Bnd. cbn [map] in Bnd. rewrite <- app_assoc in Bnd. cbn [app] in Bnd.
      apply NoDup_remove in Bnd as [_ Bnd]. now rewrite map_app, <- app_assoc. }
    assert (ND2 : NoDup (map po_sn (a ++ b) ++ map pi_sn (p_pi p) ++ map t_sn (p_tests p) ++ map in_sn (p_inb p))).
    { rewrite map_app in Bnd. cbn [map] in Bnd. rewrite <- app_assoc in Bnd. cbn [app] in Bnd.
      apply NoDup_remove in Bnd as [Bnd _]. now rewrite map_app, <- app_assoc. }
    assert (LS : forall l s, (forall y, In y l -> In y (p_listen p)) ->
              In s (map po_sn (a ++ b) ++ map pi_sn (p_pi p) ++ map t_sn (p_tests p) ++ map in_sn (p_inb p) ++ l) -> s < p_next p).
    { intros l s Hl I. apply Blt. rewrite !in_app_iff in *. rewrite map_app in *. cbn [map]. rewrite in_mid, <- map_app in *.
      intuition auto. }
    set (l' := if po_zero x then p_listen p else listen_after r (po_sn x) (p_listen p)).
    assert (LL : forall y, In y l' -> In y (p_listen p)).
    { unfold l'. intros y. destruct (po_zero x); [auto|]. destruct r; cbn [listen_after]; rewrite ?sdel_In; tauto. }
    assert (WA : forall s, In s (sdel (po_sn x) (k_wa k)) <->
           (exists y, In y (a ++ b) /\ po_sn y = s /\ po_zero y = false) \/
           (exists y, In y (p_pi p) /\ pi_sn y = s) \/ (exists y, In y (p_tests p) /\ t_sn y = s)).
    { intro s. rewrite sdel_In, Bwa. split.
      - intros (NE & [(y & Hy & E & Z)|W]); [|auto]. left. exists y. split; [|auto]. apply in_mid in Hy as [->|Hy]; [congruence | exact Hy].
      - intro W. split.
        + intro; subst s. apply NI. rewrite !in_app_iff, !in_map_iff.
          destruct W as [(y & Hy & E & _)|[(y & Hy & E)|(y & Hy & E)]]; [left|right; left|right; right; left]; exists y; auto.
        + destruct W as [(y & Hy & E & Z)|W]; [|auto]. left. exists y. split; [apply in_mid; auto | auto]. }
    assert (LI : forall s, In s (sdel (po_sn x) (k_wa k)) -> In s l').
    { intros s I. apply sdel_In in I as [NE I]. apply Bli in I. unfold l'. destruct (po_zero x); [exact I|].
      destruct r; cbn [listen_after]; rewrite ?sdel_In; auto. }
    destruct r; intro H; apply pair_equal_spec in H as [<- <-];
      (constructor; cbn [tell before fold_left begin_out begin_in enter enter_zero begin_wait k_bo k_bi k_en k_ze k_wa fst snd
        p_po p_pi p_tests p_inb p_listen p_next p_rt p_zero p_alien s_listen s_po s_failed s_timers s_out s_sel_out];
       [rewrite Bo; now apply drop_mid | exact Bi | intros s; apply LS; exact LL | exact ND2 | exact Ben | exact Bze | exact Brt | exact Brn | exact WA | exact LI]).
  - intro H; apply pair_equal_spec in H as [<- <-]. rewrite tell_nil.
    constructor; assumption.
Qed.

Lemma NoDup_drop A (x : A) a b c : NoDup (a ++ (b ++ x :: c)) -> NoDup (a ++ (b ++ c)) /\ ~ In x (a ++ (b ++ c)).
Proof. rewrite !app_assoc. apply NoDup_remove. Qed.

Lemma in_done_books p sn r p' us k :
  books p k -> in_done p sn r = (p', us) -> books p' (tell us (before (OInDone sn r, us) k)).
Proof.
  intro B. unfold in_done. destruct B as [Bo Bi Blt Bnd Ben Bze Brt Brn Bwa Bli].
  destruct (pull pi_sn sn (p_pi p)) as [[x rest]|] eqn:P.
  2: { intro H; apply pair_equal_spec in H as [<- <-]. rewrite tell_nil. constructor; try assumption;
       destruct r; assumption. }
  apply pull_spec in P as (<- & a & b & EP & -> & _). rewrite EP in *.
  assert (DD : NoDup (map po_sn (p_po p) ++ map pi_sn (a ++ b) ++ map t_sn (p_tests p) ++ map in_sn (p_inb p)) /\
               ~ In (pi_sn x) (map po_sn (p_po p) ++ map pi_sn (a ++ b) ++ map t_sn (p_tests p) ++ map in_sn (p_inb p))).
  { rewrite map_app in *. cbn [map] in Bnd. rewrite <- !app_assoc in *. cbn [app] in Bnd. now apply NoDup_drop. }
  destruct DD as [ND NI].
  assert (NDI : NoDup (map pi_sn (a ++ x :: b))).
  { apply (Permutation_NoDup (Permutation_app_comm _ _)) in Bnd. rewrite <- !app_assoc in Bnd. now apply NoDup_left in Bnd. }
  assert (RD : NoDup (map pi_tid (a ++ b) ++ map in_tid (p_inb p) ++ p_zero p ++ p_alien p) /\
               ~ In (pi_tid x) (map pi_tid (a ++ b) ++ map in_tid (p_inb p) ++ p_zero p ++ p_alien p)).
  { rewrite map_app in *. cbn [map] in Brn. rewrite <- !app_assoc in *. cbn [app] in Brn. now apply NoDup_remove in Brn. }
  destruct RD as [RN RI].
  assert (IM : forall A (f : pend_in -> A) y, In y (map f (a ++ x :: b)) <-> y = f x \/ In y (map f (a ++ b))).
  { intros A f y. rewrite !map_app. cbn [map]. now rewrite in_mid. }
  assert (LL : forall y, In y (listen_after r (pi_sn x) (p_listen p)) -> In y (p_listen p)).
  { intros y. destruct r; cbn [listen_after]; rewrite ?sdel_In; tauto. }
  assert (WA : forall s, In s (sdel (pi_sn x) (k_wa k)) <->
         (exists y, In y (p_po p) /\ po_sn y = s /\ po_zero y = false) \/
         (exists y, In y (a ++ b) /\ pi_sn y = s) \/ (exists y, In y (p_tests p) /\ t_sn y = s)).
  { intro s. rewrite sdel_In, Bwa. split.
    - intros (NE & [W|[(y & Hy & E)|W]]); [auto| |auto]. right. left. exists y. split; [|auto]. apply in_mid in Hy as [->|Hy]; [congruence | exact Hy].
    - intro W. split.
      + intro; subst s. apply NI. rewrite !in_app_iff, !in_map_iff.
        destruct W as [(y & Hy & E & _)|[(y & Hy & E)|(y & Hy & E)]]; [left|right; left|right; right; left]; exists y; auto.
      + destruct W as [W|[(y & Hy & E)|W]]; [auto| |auto]. right. left. exists y. split; [apply in_mid; auto | auto]. }
  assert (LI : forall s, In s (sdel (pi_sn x) (k_wa k)) -> In s (listen_after r (pi_sn x) (p_listen p))).
  { intros s I. apply sdel_In in I as [NE I]. apply Bli in I.
    destruct r; cbn [listen_after]; rewrite ?sdel_In; auto. }
  destruct r; intro H; apply pair_equal_spec in H as [<- <-];
    (constructor; cbn [tell before fold_left begin_out begin_in enter enter_zero begin_wait k_bo k_bi k_en k_ze k_wa fst snd
      p_po p_pi p_tests p_inb p_listen p_next p_rt p_zero p_alien s_listen s_pi s_failed s_timers s_intun s_sel_in s_inb s_rt];
     [exact Bo | rewrite Bi; now apply drop_mid | | | | exact Bze | | | exact WA | exact LI]).
  1-5,6-10,11-15: idtac.
  - intros s I. apply Blt. rewrite !in_app_iff in *. rewrite IM. intuition auto.
  - exact ND.
  - intros s t. rewrite leave_in, Ben. split.
    + intros ([(y & Hy & E & T)|Y] & NE); [|auto]. left. exists y. split; [|auto]. apply in_mid in Hy as [->|Hy]; [congruence | exact Hy].
    + intro W. split.
      * destruct W as [(y & Hy & E & T)|Y]; [|auto]. left. exists y. split; [apply in_mid; auto | auto].
      * intro; subst s. apply NI. rewrite !in_app_iff, !in_map_iff.
        destruct W as [(y & Hy & E & _)|(y & Hy & E & _)]; [right; left|right; right; right]; exists y; auto.
  - intro id. rewrite sdel_In, Brt, !in_app_iff, IM in *. rewrite <- !in_app_iff in *. split.
    + rewrite !in_app_iff. tauto.
    + rewrite !in_app_iff in *. intro I. split; [intro; subst; tauto | tauto].
  - exact RN.
  - intros s I. apply Blt. rewrite !in_app_iff in *. rewrite IM. intuition auto.
  - exact ND.
  - intros s t. rewrite leave_in, Ben. split.
    + intros ([(y & Hy & E & T)|Y] & NE); [|auto]. left. exists y. split; [|auto]. apply in_mid in Hy as [->|Hy]; [congruence | exact Hy].
    + intro W. split.
      * destruct W as [(y & Hy & E & T)|Y]; [|auto]. left. exists y. split; [apply in_mid; auto | auto].
      * intro; subst s. apply NI. rewrite !in_app_iff, !in_map_iff.
        destruct W as [(y & Hy & E & _)|(y & Hy & E & _)]; [right; left|right; right; right]; exists y; auto.
  - intro id. rewrite sdel_In, Brt, !in_app_iff, IM in *. rewrite <- !in_app_iff in *. split.
    + rewrite !in_app_iff. tauto.
    + rewrite !in_app_iff in *. intro I. split; [intro; subst; tauto | tauto].
  - exact RN.
  - intros s I. apply Blt. rewrite !in_app_iff in *. rewrite IM. intuition auto.
  - exact ND.
  - intros s t. rewrite leave_in, Ben. split.
    + intros ([(y & Hy & E & T)|Y] & NE); [|auto]. left. exists y. split; [|auto]. apply in_mid in Hy as [->|Hy]; [congruence | exact Hy].
    + intro W. split.
      * destruct W as [(y & Hy & E & T)|Y]; [|auto]. left. exists y. split; [apply in_mid; auto | auto].
      * intro; subst s. apply NI. rewrite !in_app_iff, !in_map_iff.
        destruct W as [(y & Hy & E & _)|(y & Hy & E & _)]; [right; left|right; right; right]; exists y; auto.
  - intro id. rewrite sdel_In, Brt, !in_app_iff, IM in *. rewrite <- !in_app_iff in *. split.
    + rewrite !in_app_iff. tauto.
    + rewrite !in_app_iff in *. intro I. split; [intro; subst; tauto | tauto].
  - exact RN.
  - intros s I. apply Blt. rewrite (map_app in_sn) in I. cbn [map in_sn] in I. rewrite !in_app_iff in I. rewrite !in_app_iff, IM.
    cbn [In] in I. rewrite (in_app_iff (map pi_sn a)) || idtac. clear - I LL. 
    destruct I as [I|[I|[I|[[I|[I|[]]]|I]]]]; auto 6.
  - rewrite (map_app in_sn). cbn [map in_sn]. rewrite !app_assoc. rewrite !app_assoc in NI, ND.
    apply NoDup_mid; rewrite app_nil_r; [exact NI | exact ND].
  - intros s t. rewrite Ben. split.
    + intros [(y & Hy & E & T)|(y & Hy & E & T)].
      * apply in_mid in Hy as [->|Hy]; [|left; exists y; auto]. right. eexists. split; [apply in_or_app; right; now left|]. auto.
      * right. exists y. split; [apply in_or_app; auto | auto].
    + intros [(y & Hy & E & T)|(y & Hy & E & T)].
      * left. exists y. split; [apply in_mid; auto | auto].
      * apply in_app_or in Hy as [Hy|[<-|[]]]; [right; exists y; auto|]. left. exists x. split; [apply in_mid; auto | auto].
  - intro id. rewrite Brt, (map_app in_tid). cbn [map in_tid]. rewrite !(in_app_iff (map pi_tid _)), IM, !in_app_iff. cbn [In].
    clear. split; [intros [[I|I]|[I|[I|I]]]|intros [I|[[I|[I|[]]]|[I|I]]]]; auto 6.
  - rewrite (map_app in_tid). cbn [map in_tid]. rewrite <- app_assoc. cbn [app]. rewrite app_assoc. apply NoDup_mid; rewrite <- app_assoc; assumption.
Qed.

Lemma in_end_books p sn p' us k :
  books p k -> in_end p sn = (p', us) -> books p' (tell us (before (OInEnd sn, us) k)).
Proof.
  intro B. unfold in_end.
  assert (K : forall x, (p, []) = x -> books (fst x) (tell (snd x) (before (OInEnd sn, snd x) k))).
  { intros x <-. cbn [fst snd]. rewrite tell_nil. destruct B. constructor; assumption. }
  destruct (pull in_sn sn (p_inb p)) as [[x rest]|] eqn:P; [|intro H; apply (K _ H)].
  destruct (_ <=? _); [|intro H; apply (K _ H)]. clear K. destruct B as [Bo Bi Blt Bnd Ben Bze Brt Brn Bwa Bli].
  apply pull_spec in P as (<- & a & b & EP & -> & _). rewrite EP in *.
  assert (IM : forall A (f : inb -> A) y, In y (map f (a ++ x :: b)) <-> y = f x \/ In y (map f (a ++ b))).
  { intros A f y. rewrite !map_app. cbn [map]. now rewrite in_mid. }
  assert (DD : NoDup (map po_sn (p_po p) ++ map pi_sn (p_pi p) ++ map t_sn (p_tests p) ++ map in_sn (a ++ b)) /\
               ~ In (in_sn x) (map po_sn (p_po p) ++ map pi_sn (p_pi p) ++ map t_sn (p_tests p) ++ map in_sn (a ++ b))).
  { rewrite (map_app in_sn) in *. cbn [map] in Bnd. rewrite !app_assoc in *. now apply NoDup_remove. }
  destruct DD as [ND NI].
  assert (RD : NoDup (map pi_tid (p_pi p) ++ map in_tid (a ++ b) ++ p_zero p ++ p_alien p) /\
               ~ In (in_tid x) (map pi_tid (p_pi p) ++ map in_tid (a ++ b) ++ p_zero p ++ p_alien p)).
  { rewrite (map_app in_tid) in *. cbn [map] in Brn. rewrite <- !app_assoc in *. cbn [app] in Brn. now apply NoDup_drop. }
  destruct RD as [RN RI].
  intro H; apply pair_equal_spec in H as [<- <-].
  constructor; cbn [tell before fold_left begin_out begin_in enter enter_zero begin_wait k_bo k_bi k_en k_ze k_wa fst snd
      p_po p_pi p_tests p_inb p_listen p_next p_rt p_zero p_alien s_intun s_sel_in s_inb s_rt s_exp_in]; auto.
  - intros s I. apply Blt. rewrite !in_app_iff in *. rewrite IM. intuition auto.
  - intros s t. rewrite leave_in, Ben. split.
    + intros ([Y|(y & Hy & E & T)] & NE); [auto|]. right. exists y. split; [|auto]. apply in_mid in Hy as [->|Hy]; [congruence | exact Hy].
    + intro W. split.
      * destruct W as [Y|(y & Hy & E & T)]; [auto|]. right. exists y. split; [apply in_mid; auto | auto].
      * intro; subst s. apply NI. rewrite !in_app_iff, !in_map_iff.
        destruct W as [(y & Hy & E & _)|(y & Hy & E & _)]; [right; left|right; right; right]; exists y; auto.
  - intro id. rewrite sdel_In, Brt, !in_app_iff, IM in *. split; [tauto|]. intro I. split; [intro; subst; tauto | tauto].
Qed.

Lemma test_done_books p sn r p' us k :
  books p k -> test_done p sn r = (p', us) -> books p' (tell us (before (OTestDone sn r, us) k)).
Proof.
  intro B. unfold test_done.
  assert (K : forall x, (p, []) = x -> books (fst x) (tell (snd x) (before (OTestDone sn r, snd x) k))).
  { intros x <-. cbn [fst snd]. rewrite tell_nil. destruct B. constructor; assumption. }
  destruct (pull t_sn sn (p_tests p)) as [[x rest]|] eqn:P; [|intro H; apply (K _ H)].
  assert (Y : forall l' u, (forall y, In y l' -> In y (p_listen p)) -> (forall y, In y (p_listen p) -> y <> sn -> In y l') ->
            (forall n i h z, u <> StartOut n i h z) -> (forall n i h, u <> StartIn n i h) -> (forall n i h, u <> Tested n i h) ->
            books (s_listen (s_tests p rest) l') (tell [u] (before (OTestDone sn r, [u]) k))).
  { clear K. intros l' u LL LI U1 U2 U3. destruct B as [Bo Bi Blt Bnd Ben Bze Brt Brn Bwa Bli].
    apply pull_spec in P as (<- & a & b & EP & -> & _). rewrite EP in *.
    assert (IM : forall A (f : tst -> A) y, In y (map f (a ++ x :: b)) <-> y = f x \/ In y (map f (a ++ b))).
    { intros A f y. rewrite !map_app. cbn [map]. now rewrite in_mid. }
    assert (DD : NoDup (map po_sn (p_po p) ++ map pi_sn (p_pi p) ++ map t_sn (a ++ b) ++ map in_sn (p_inb p)) /\
               ~ In (t_sn x) (map po_sn (p_po p) ++ map pi_sn (p_pi p) ++ map t_sn (a ++ b) ++ map in_sn (p_inb p))).
    { rewrite (map_app t_sn) in *. cbn [map] in Bnd. rewrite (app_assoc (map po_sn _)) in *. rewrite <- (app_assoc (map t_sn a)) in *. cbn [app] in Bnd. now apply NoDup_drop. }
    destruct DD as [ND NI].
    assert (EU : tell [u] (before (OTestDone (t_sn x) r, [u]) k) = mkLs (k_bo k) (k_bi k) (k_en k) (k_ze k) (sdel (t_sn x) (k_wa k))).
    { destruct u; try reflexivity; [now elim (U1 sn id first_hop zero) | now elim (U2 sn tid gw) | now elim (U3 sn outbound inbound)]. }
    rewrite EU.
    constructor; cbn [k_bo k_bi k_en k_ze k_wa p_po p_pi p_tests p_inb p_listen p_next p_rt p_zero p_alien s_listen s_tests]; auto.
    - intros s I. apply Blt. rewrite !in_app_iff in *. rewrite IM. intuition auto.
    - intro s. rewrite sdel_In, Bwa. split.
      + intros (NE & [W|[W|(y & Hy & E)]]); [auto|auto|]. right. right. exists y. split; [|auto]. apply in_mid in Hy as [->|Hy]; [congruence | exact Hy].
      + intro W. split.
        * intro; subst s. apply NI. rewrite !in_app_iff, !in_map_iff.
          destruct W as [(y & Hy & E & _)|[(y & Hy & E)|(y & Hy & E)]]; [left|right; left|right; right; left]; exists y; auto.
        * destruct W as [W|[W|(y & Hy & E)]]; [auto|auto|]. right. right. exists y. split; [apply in_mid; auto | auto].
    - intros s I. apply sdel_In in I as [NE I]. auto. }
  destruct r.
  - intro H; apply pair_equal_spec in H as [<- <-]. apply Y; try (intros; discriminate).
    + intros y I. now apply sdel_In in I.
    + intros y I NE. now apply sdel_In.
  - destruct (_ <=? _); [|intro H; apply (K _ H)]. intro H; apply pair_equal_spec in H as [<- <-].
    assert (E : s_tests p rest = s_listen (s_tests p rest) (p_listen p)) by reflexivity. rewrite E.
    apply Y; auto; intros; discriminate.
Qed.

Lemma books_core p p' k :
  books p k ->
  (p_po p', p_pi p', p_tests p', p_inb p', p_listen p', p_next p') = (p_po p, p_pi p, p_tests p, p_inb p, p_listen p, p_next p) ->
  (p_rt p', p_zero p', p_alien p') = (p_rt p, p_zero p, p_alien p) -> books p' k.
Proof.
  intros [] E1 E2. injection E1 as E1 E3 E4 E5 E6 E7. injection E2 as E2 E8 E9.
  constructor; rewrite ?E1, ?E2, ?E3, ?E4, ?E5, ?E6, ?E7, ?E8, ?E9; assumption.
Qed.

Lemma message_tell p q r k : tell (message p q r) k = k.
Proof.
  assert (S : forall t to m q', tell (send t to m q') k = k) by (intros [[? ?]|] to m q'; now destruct k).
  destruct q; cbn [message]; try apply S. now destruct k.
Qed.

Lemma books_step p o p' us k :
  books p k -> p_up p = true -> step p o = (p', us) -> ends (o, us) = false ->
  books p' (tell us (before (o, us) k)).
Proof.
  intros B U S E.
  assert (K0 : books p (tell [] (before (OTick 0, []) k))) by (rewrite tell_nil; destruct B; constructor; assumption).
  destruct o; unfold step in S; rewrite ?U in S; cbn [negb] in S.
  - apply pair_equal_spec in S as [<- <-]. now apply (books_core p).
  - eapply out_done_books; eauto.
  - eapply in_done_books; eauto.
  - eapply in_end_books; eauto.
  - unfold in_panic in S. destruct (pull in_sn sn (p_inb p)) as [[? ?]|]; apply pair_equal_spec in S as [<- <-];
      [discriminate | exact K0].
  - apply pair_equal_spec in S as [<- <-]. rewrite message_tell. destruct B; constructor; assumption.
  - apply pair_equal_spec in S as [<- <-]. discriminate.
  - eapply test_done_books; eauto.
  - unfold timer in S. destruct (pull_at i (p_timers p)) as [[[d ev] ?]|]; [destruct (_ <? _); [|destruct ev]|];
      apply pair_equal_spec in S as [<- <-]; try exact K0; (apply (books_core p); [|reflexivity|reflexivity];
        destruct B; constructor; assumption).
  - apply pair_equal_spec in S as [<- <-]. discriminate.
  - eapply poll_end_books in S; [exact S | destruct B; constructor; assumption].
  - destruct (smem g (p_zero p)) eqn:G; apply pair_equal_spec in S as [<- <-].
    + destruct B as [Bo Bi Blt Bnd Ben Bze Brt Brn Bwa Bli]. apply smem_In in G.
      assert (SP : exists a b, p_zero p = a ++ g :: b) by (now apply in_split). destruct SP as (a & b & SP).
      assert (RD : NoDup (map pi_tid (p_pi p) ++ map in_tid (p_inb p) ++ (a ++ b) ++ p_alien p) /\
               ~ In g (map pi_tid (p_pi p) ++ map in_tid (p_inb p) ++ (a ++ b) ++ p_alien p)).
      { rewrite SP in Brn. rewrite <- app_assoc in *. cbn [app] in Brn. rewrite (app_assoc (map pi_tid _)) in *. now apply NoDup_drop. }
      assert (SD : sdel g (p_zero p) = a ++ b).
      { rewrite SP. apply sdel_mid. rewrite SP in Brn.
        apply (Permutation_NoDup (Permutation_app_comm _ _)) in Brn. rewrite <- app_assoc in Brn.
        apply (Permutation_NoDup (Permutation_app_comm _ _)) in Brn. rewrite <- app_assoc in Brn. 
        rewrite <- !app_assoc in Brn. cbn [app] in Brn. apply NoDup_left with (b := p_alien p ++ map pi_tid (p_pi p) ++ map in_tid (p_inb p)).
        eapply Permutation_NoDup; [|exact Brn]. rewrite <- !app_assoc. cbn [app].
        apply Permutation_app_head. apply perm_skip. reflexivity. }
      destruct RD as [RN RI].
      constructor; cbn [tell before fold_left begin_out begin_in enter enter_zero begin_wait k_bo k_bi k_en k_ze k_wa fst snd
        p_po p_pi p_tests p_inb p_listen p_next p_rt p_zero p_alien s_zero s_rt]; rewrite ?SD; auto.
      * now rewrite Bze, SD.
      * intro id0. rewrite sdel_In, Brt, SP, !in_app_iff in *. cbn. split.
        -- intros [NE [H|[H|[[H|[H|H]]|H]]]]; auto 6; congruence.
        -- intro H. split; [intro; subst; tauto | tauto].
    + assert (Z : sdel g (k_ze k) = k_ze k).
      { apply sdel_none. rewrite (b_ze _ _ B). intro I. apply smem_In in I. congruence. }
      rewrite tell_nil. destruct B. constructor; cbn [before fst k_bo k_bi k_en k_ze k_wa]; rewrite ?Z; assumption.
  - destruct (waited p sn) eqn:W; apply pair_equal_spec in S as [<- <-]; [exact K0|].
    rewrite tell_nil in *. destruct K0 as [Bo Bi Blt Bnd Ben Bze Brt Brn Bwa Bli].
    constructor; cbn [p_po p_pi p_tests p_inb p_listen p_next p_rt p_zero p_alien s_listen before fst k_bo k_bi k_en k_ze k_wa] in *; auto.
    + intros s I. apply Blt. rewrite !in_app_iff, sdel_In in *. tauto.
    + intros s I. apply sdel_In. split; [|auto]. intro; subst s. apply Bwa in I.
      unfold waited in W. rewrite !orb_false_iff in W. destruct W as [[W1 W2] W3].
      assert (N : forall A (f : A -> N) l, existsb (fun x => f x =? sn) l = false -> forall x, In x l -> f x <> sn).
      { intros A f l H x Hx Q. assert (T : existsb (fun x => f x =? sn) l = true) by (apply existsb_exists; exists x; rewrite N.eqb_eq; auto). congruence. }
      destruct I as [(x & Hx & Q & _)|[(x & Hx & Q)|(x & Hx & Q)]];
        [now apply (N _ po_sn _ W1 x) | now apply (N _ pi_sn _ W2 x) | now apply (N _ t_sn _ W3 x)].
  - destruct (smem id (p_rt p)) eqn:G; apply pair_equal_spec in S as [<- <-]; [exact K0|].
    assert (NI : ~ In id (p_rt p)) by (intro I; apply smem_In in I; congruence).
    rewrite tell_nil in *. destruct K0 as [Bo Bi Blt Bnd Ben Bze Brt Brn Bwa Bli].
    constructor; cbn [p_po p_pi p_tests p_inb p_listen p_next p_rt p_zero p_alien s_alien s_rt before fst k_bo k_bi k_en k_ze k_wa] in *; auto.
    + intro s. cbn. rewrite Brt, !in_app_iff. cbn. tauto.
    + rewrite Brt in NI. rewrite !app_assoc in *. now apply NoDup_mid.
  - destruct (smem id (p_alien p)) eqn:G; apply pair_equal_spec in S as [<- <-]; [|exact K0].
    apply smem_In in G. rewrite tell_nil in *. destruct K0 as [Bo Bi Blt Bnd Ben Bze Brt Brn Bwa Bli].
    assert (SP : exists a b, p_alien p = a ++ id :: b) by (now apply in_split). destruct SP as (a & b & SP).
    assert (RD : NoDup (map pi_tid (p_pi p) ++ map in_tid (p_inb p) ++ p_zero p ++ (a ++ b)) /\
               ~ In id (map pi_tid (p_pi p) ++ map in_tid (p_inb p) ++ p_zero p ++ (a ++ b))).
    { rewrite SP in Brn. rewrite !app_assoc in *. now apply NoDup_remove in Brn. }
    assert (SD : sdel id (p_alien p) = a ++ b).
    { rewrite SP. apply sdel_mid. rewrite SP in Brn. rewrite !app_assoc in Brn. rewrite <- app_assoc in Brn.
      apply (Permutation_NoDup (Permutation_app_comm _ _)) in Brn. now apply NoDup_left in Brn. }
    destruct RD as [RN RI].
    constructor; cbn [p_po p_pi p_tests p_inb p_listen p_next p_rt p_zero p_alien s_alien s_rt before fst k_bo k_bi k_en k_ze k_wa] in *;
      rewrite ?SD; auto.
    intro s. rewrite sdel_In, Brt, SP, !in_app_iff in *. cbn. split.
    + intros [NE [H|[H|[H|[H|[H|H]]]]]]; auto 6; congruence.
    + intro H. split; [intro; subst; tauto | tauto].
Qed.

Theorem run_books ni no t0 ops p tr :
  run (p_new ni no t0) ops = (p, tr) -> running tr -> books p (of_history tr).
Proof.
  intros H R. assert (X : running tr -> books p (of_history tr) /\ p_up p = true); [|now apply X].
  revert p tr H R. intros p tr H _. revert p tr H.
  apply (run_ind (fun p tr => running tr -> books p (of_history tr) /\ p_up p = true)).
  - intros _. split; [apply books_new | reflexivity].
  - intros p tr o p' us IH S R. apply running_snoc in R as [R E]. destruct (IH R) as [B U].
    rewrite of_snoc. split; [now apply (books_step p)|].
    assert (A : agree 0 p [] -> True) by auto. clear A.
    destruct o; unfold step in S; rewrite ?U in S; cbn [negb] in S.
    all: try (apply pair_equal_spec in S as [<- <-]; first [exact U | discriminate]).
    + unfold out_done in S. destruct (pull po_sn sn (p_po p)) as [[? ?]|]; [destruct r|]; apply pair_equal_spec in S as [<- _]; exact U.
    + unfold in_done in S. destruct (pull pi_sn sn (p_pi p)) as [[? ?]|]; [destruct r|]; apply pair_equal_spec in S as [<- _]; exact U.
    + unfold in_end in S. destruct (pull in_sn sn (p_inb p)) as [[? ?]|]; [destruct (_ <=? _)|]; apply pair_equal_spec in S as [<- _]; exact U.
    + unfold in_panic in S. destruct (pull in_sn sn (p_inb p)) as [[? ?]|]; apply pair_equal_spec in S as [<- <-]; [discriminate | exact U].
    + unfold test_done in S. destruct (pull t_sn sn (p_tests p)) as [[? ?]|]; [destruct r; [|destruct (_ <=? _)]|]; apply pair_equal_spec in S as [<- _]; exact U.
    + unfold timer in S. destruct (pull_at i (p_timers p)) as [[[d ev] ?]|]; [destruct (_ <? _); [|destruct ev]|];
      apply pair_equal_spec in S as [<- _]; exact U.
    + apply poll_end_core in S as [C _]. pose proof (f_equal (fun c => snd (snd (fst (fst (fst (fst c)))))) C) as X. cbn in X. congruence.
    + destruct (smem g (p_zero p)); apply pair_equal_spec in S as [<- _]; exact U.
    + destruct (waited p sn); apply pair_equal_spec in S as [<- _]; exact U.
    + destruct (smem id (p_rt p)); apply pair_equal_spec in S as [<- _]; exact U.
    + destruct (smem id (p_alien p)); apply pair_equal_spec in S as [<- _]; exact U.
Qed.
