(** Proofs about shutdown handles. *)
From Coq Require Import List NArith Bool Arith Lia.
From Verif Require Import ShutModel ShutSpec.
Import ListNotations.
Open Scope nat_scope.

Lemma later_snoc : forall T (f : list T -> Prop) x tr e,
  later f x (tr ++ [e]) <-> later f x tr \/ (f tr /\ x e).
Proof.
  intros T f x tr e. unfold later. split.
  - intros (a & y & b & E & F & X).
    destruct b as [|z b] using rev_ind.
    + apply app_inj_tail in E as [-> ->]. right. auto.
    + clear IHb. left. exists a, y, b.
      replace (a ++ y :: b ++ [z]) with ((a ++ y :: b) ++ [z]) in E by (rewrite <- app_assoc; reflexivity).
      apply app_inj_tail in E as [-> _]. auto.
  - intros [(a & y & b & -> & F & X) | [F X]].
    + exists a, y, (b ++ [e]). rewrite <- app_assoc. auto.
    + exists tr, e, []. auto.
Qed.

Lemma later_nil : forall T (f : list T -> Prop) x, ~ later f x [].
Proof. intros T f x (a & y & b & E & _). destruct a; discriminate. Qed.

Lemma in_snoc : forall T (x : T) l y, In x (l ++ [y]) <-> In x l \/ x = y.
Proof.
  intros. rewrite in_app_iff. cbn [In]. intuition congruence.
Qed.

Lemma upd_length : forall A i (x : A) l, length (upd i x l) = length l.
Proof. induction i; destruct l; cbn; auto. Qed.

Lemma nth_upd : forall A i j (x d : A) l, j < length l ->
  nth i (upd j x l) d = if i =? j then x else nth i l d.
Proof.
  intros A i j x d l. revert i j.
  induction l as [|y t IH]; intros i j L; [cbn in L; lia|].
  destruct j as [|j]; destruct i as [|i]; cbn; auto.
  apply IH. cbn in L. lia.
Qed.

Lemma upd_over : forall A i (x : A) l, length l <= i -> upd i x l = l.
Proof.
  induction i; destruct l; cbn; intros; auto; try lia. f_equal. apply IHi. lia.
Qed.

Lemma wrun_app : forall a b c,
  wrun c (a ++ b) =
  let (c1, t1) := wrun c a in let (c2, t2) := wrun c1 b in (c2, t1 ++ t2).
Proof.
  induction a as [|o a IH]; intros b c; cbn [wrun app].
  - destruct (wrun c b); reflexivity.
  - destruct (wstep c o) as [c1 r]. rewrite IH.
    destruct (wrun c1 a) as [c2 t1]. destruct (wrun c2 b); reflexivity.
Qed.

(** ** What the state says about the history *)
Record winv (c : ctx) (tr : wtrace) : Prop := {
  i_iss : forall i, issued i tr <-> i < length (c_hs c);
  i_sd : c_sd c = true <-> shut_called tr;
  i_pend : forall i, In i (c_handles c) <-> issued i tr /\ ~ asked i tr;
  i_drop : forall i, i < length (c_hs c) -> (hget i c = HDropped <-> dropped i tr);
  i_told : forall i, i < length (c_hs c) -> hget i c <> HDropped ->
           (told i tr <-> hget i c = HTold \/ hget i c = HAnswered);
  i_ans : forall i, i < length (c_hs c) -> hget i c <> HDropped ->
          (answered i tr <-> hget i c = HAnswered);
  i_idle : forall i, i < length (c_hs c) -> hget i c <> HDropped ->
           (asked i tr <-> hget i c <> HIdle);
  i_fut : forall i, In i (c_futs c) -> i < length (c_hs c) /\ asked i tr;
  i_wait : forall i, hget i c = HSent \/ hget i c = HTold -> In i (c_futs c) }.

Lemma told_issued : forall i tr, told i tr -> told i tr. Proof. auto. Qed.

Lemma hget_default : forall i c, length (c_hs c) <= i -> hget i c = HDropped.
Proof. intros. unfold hget. apply nth_overflow. auto. Qed.

Lemma issued_snoc : forall i tr o r,
  issued i (tr ++ [(o, r)]) <-> issued i tr \/ (o = WHandle /\ r = OHandle i).
Proof. intros. unfold issued. rewrite in_snoc. intuition congruence. Qed.

Lemma told_snoc : forall i tr o r,
  told i (tr ++ [(o, r)]) <-> told i tr \/ (o = WHPoll i /\ r = OReady).
Proof. intros. unfold told. rewrite in_snoc. intuition congruence. Qed.

Lemma shut_snoc : forall tr o r,
  shut_called (tr ++ [(o, r)]) <-> shut_called tr \/ o = WShut.
Proof.
  intros. unfold shut_called. split.
  - intros (x & H). apply in_snoc in H as [H|H]; [left; eauto|right; congruence].
  - intros [(x & H) | ->]; [exists x | exists r]; apply in_snoc; auto.
Qed.

(** ** Notifying *)
Lemma notify_other : forall c w i,
  hget i c <> HIdle -> notify (c, w) i = (c, w).
Proof. intros c w i H. unfold notify. destruct (hget i c); congruence. Qed.

Definition notified (c c' : ctx) (l : list nat) : Prop :=
  length (c_hs c') = length (c_hs c) /\
  c_handles c' = c_handles c /\ c_sd c' = c_sd c /\ c_waker c' = c_waker c /\
  c_fin c' = c_fin c /\ c_jwaker c' = c_jwaker c /\
  (forall j, hget j c' = if existsb (Nat.eqb j) l
                         then match hget j c with HIdle => HSent | h => h end
                         else hget j c) /\
  (forall j, In j (c_futs c') <-> In j (c_futs c) \/ (In j l /\ hget j c = HIdle)).

Lemma notify_all : forall l c w c' w',
  fold_left notify l (c, w) = (c', w') ->
  notified c c' l /\ (w = true -> w' = true).
Proof.
  induction l as [|i l IH]; intros c w c' w' H.
  - apply pair_equal_spec in H as [<- <-]. split; [|auto].
    unfold notified. do 6 (split; [reflexivity|]). split.
    + intros j. reflexivity.
    + intros j. cbn [In]. tauto.
  - cbn [fold_left] in H.
    destruct (hget i c) eqn:Hi.
    2,3,4,5: rewrite notify_other in H by congruence;
      destruct (IH _ _ _ _ H) as ((L & A & B & C & D & E & F & G) & W);
      (split; [|exact W]); unfold notified; do 6 (split; [assumption|]); split;
      [ intros j; rewrite F; cbn [existsb]; destruct (Nat.eqb_spec j i) as [->|];
        cbn [orb]; [destruct (existsb (Nat.eqb i) l); rewrite ?Hi; reflexivity | reflexivity]
      | intros j; rewrite G; cbn [In]; split;
        [intros [X|[X Y]]; auto | intros [X|[[<-|X] Y]]; auto; congruence] ].
    unfold notify in H at 2. rewrite Hi in H.
    assert (Li : i < length (c_hs c)).
    { destruct (Nat.lt_ge_cases i (length (c_hs c))) as [X|X]; [exact X|].
      rewrite hget_default in Hi by exact X. discriminate. }
    destruct (IH _ _ _ _ H) as ((L & A & B & C & D & E & F & G) & W).
    cbn [c_hs c_handles c_sd c_waker c_fin c_jwaker c_futs] in *.
    assert (HG : forall j, hget j (mkCtx (upd i HSent (c_hs c)) (c_handles c) (c_futs c ++ [i]) (c_fin c)
                 (c_sd c) (c_waker c) false (c_jwaker c)) = if j =? i then HSent else hget j c).
    { intros j. unfold hget. cbn [c_hs]. apply nth_upd. exact Li. }
    split.
    + unfold notified. rewrite upd_length in L. do 6 (split; [assumption|]). split.
      * intros j. rewrite F, HG. cbn [existsb].
        destruct (Nat.eqb_spec j i) as [->|]; cbn [orb]; [|reflexivity].
        rewrite Hi. destruct (existsb (Nat.eqb i) l); reflexivity.
      * intros j. rewrite G, HG, in_snoc. cbn [In].
        destruct (Nat.eqb_spec j i) as [->|Nji]; split.
        -- intros _. right. auto.
        -- intros _. left. auto.
        -- intros [[X|X]|[X Y]]; auto; congruence.
        -- intros [X|[[X|X] Y]]; auto; congruence.
    + intros ->. apply W. reflexivity.
Qed.

Lemma existsb_in : forall j l, existsb (Nat.eqb j) l = true <-> In j l.
Proof.
  intros. rewrite existsb_exists. split.
  - intros (x & H & E). apply Nat.eqb_eq in E as ->. exact H.
  - intros H. exists j. split; [exact H|apply Nat.eqb_refl].
Qed.

(** ** The invariant is kept *)
Lemma winv0 : winv ctx0 [].
Proof.
  constructor; cbn.
  - intros. split; [intros []|lia].
  - split; [discriminate|intros (r & [])].
  - intros. split; [intros []|intros [[] _]].
  - intros; lia.
  - intros; lia.
  - intros; lia.
  - intros; lia.
  - intros i [].
  - intros i. unfold hget. cbn. destruct i; intros [|]; discriminate.
Qed.

(** A step that is neither a handle nor a shutdown, drop, answer or telling poll adds
    nothing to what the history says. *)
Lemma quiet : forall tr o r,
  o <> WShut -> (forall i, o <> WDrop i) ->
  (forall i, o = WAnswer i -> ~ told i tr) -> (forall i, o = WHPoll i -> r <> OReady) ->
  o <> WHandle ->
  forall i,
    (issued i (tr ++ [(o, r)]) <-> issued i tr) /\
    (asked i (tr ++ [(o, r)]) <-> asked i tr) /\
    (dropped i (tr ++ [(o, r)]) <-> dropped i tr) /\
    (told i (tr ++ [(o, r)]) <-> told i tr) /\
    (answered i (tr ++ [(o, r)]) <-> answered i tr).
Proof.
  intros tr o r A B C D E i.
  split; [|split; [|split; [|split]]].
  - rewrite issued_snoc. intuition.
  - unfold asked. rewrite later_snoc. cbn [fst]. intuition.
  - unfold dropped. rewrite later_snoc. cbn [fst]. specialize (B i). intuition.
  - rewrite told_snoc. split; [intros [H|[H H']]; [exact H|exfalso; eapply D; eauto]|auto].
  - unfold answered. rewrite later_snoc. cbn [fst].
    split; [intros [H|[H H']]; [exact H|exfalso; eapply C; eauto]|auto].
Qed.

Lemma winv_quiet : forall c c' tr o r,
  winv c tr ->
  (forall i,
    (issued i (tr ++ [(o, r)]) <-> issued i tr) /\
    (asked i (tr ++ [(o, r)]) <-> asked i tr) /\
    (dropped i (tr ++ [(o, r)]) <-> dropped i tr) /\
    (told i (tr ++ [(o, r)]) <-> told i tr) /\
    (answered i (tr ++ [(o, r)]) <-> answered i tr)) ->
  o <> WShut ->
  c_hs c' = c_hs c -> c_handles c' = c_handles c -> c_sd c' = c_sd c ->
  (forall i, In i (c_futs c') -> In i (c_futs c)) ->
  (forall i, hget i c = HSent \/ hget i c = HTold -> In i (c_futs c) -> In i (c_futs c')) ->
  winv c' (tr ++ [(o, r)]).
Proof.
  intros c c' tr o r V Q NS H1 H2 H3 H4 H5.
  assert (HG : forall i, hget i c' = hget i c) by (intros; unfold hget; rewrite H1; reflexivity).
  constructor; intros; try (destruct (Q i) as (Qi & Qa & Qd & Qt & Qn)).
  - rewrite Qi, H1. apply (i_iss _ _ V).
  - rewrite H3, shut_snoc, (i_sd _ _ V). intuition.
  - rewrite H2, Qi, Qa. apply (i_pend _ _ V).
  - rewrite HG, Qd. apply (i_drop _ _ V). rewrite <- H1; auto.
  - rewrite HG, Qt in *. apply (i_told _ _ V); auto. rewrite <- H1; auto.
  - rewrite HG, Qn in *. apply (i_ans _ _ V); auto. rewrite <- H1; auto.
  - rewrite HG, Qa in *. apply (i_idle _ _ V); auto. rewrite <- H1; auto.
  - rewrite H1, Qa. apply (i_fut _ _ V). auto.
  - rewrite HG in *. apply H5; auto. apply (i_wait _ _ V). auto.
Qed.

Lemma told_lt : forall c tr i, winv c tr -> hget i c = HSent \/ hget i c = HTold ->
  i < length (c_hs c).
Proof.
  intros c tr i V H. destruct (Nat.lt_ge_cases i (length (c_hs c))) as [X|X]; [exact X|].
  rewrite hget_default in H by exact X. destruct H; discriminate.
Qed.

Lemma hget_hset : forall i j x c, j < length (c_hs c) ->
  hget i (hset j x c) = if i =? j then x else hget i c.
Proof. intros. unfold hget, hset. cbn [c_hs]. apply nth_upd. auto. Qed.

Definition HGf : ctx -> nat -> hst := fun c i => hget i c.

Lemma winv_step : forall c tr o c' r,
  winv c tr -> (forall i, told i tr -> i < length (c_hs c)) ->
  wstep c o = (c', r) -> winv c' (tr ++ [(o, r)]).
Proof.
  intros c tr o c' r V TL H.
  destruct o as [| | |i|i|i|i]; unfold wstep in H.
  - (* WHandle *)
    unfold new_handle in H. apply pair_equal_spec in H as [<- <-].
    assert (NI : ~ issued (length (c_hs c)) tr) by (rewrite (i_iss _ _ V); lia).
    assert (HG : forall j h p f n s w pw jw, j < length (c_hs c) ->
                 hget j (mkCtx (c_hs c ++ [h]) p f n s w pw jw) = hget j c).
    { intros. unfold hget. cbn [c_hs]. apply app_nth1. auto. }
    assert (HL : forall h p f n s w pw jw,
                 hget (length (c_hs c)) (mkCtx (c_hs c ++ [h]) p f n s w pw jw) = h).
    { intros. unfold hget. cbn [c_hs]. rewrite app_nth2, Nat.sub_diag by lia. reflexivity. }
    assert (Qd : forall j x, dropped j (tr ++ [(WHandle, x)]) <-> dropped j tr).
    { intros. unfold dropped. rewrite later_snoc. cbn [fst]. intuition discriminate. }
    assert (Qn : forall j x, answered j (tr ++ [(WHandle, x)]) <-> answered j tr).
    { intros. unfold answered. rewrite later_snoc. cbn [fst]. intuition discriminate. }
    assert (Qt : forall j x, told j (tr ++ [(WHandle, x)]) <-> told j tr).
    { intros. rewrite told_snoc. intuition discriminate. }
    assert (Qa' : forall j x, asked j (tr ++ [(WHandle, x)]) <-> asked j tr).
    { intros. unfold asked. rewrite later_snoc. cbn [fst]. intuition discriminate. }
    assert (AI : forall j f, later (issued j) f tr -> issued j tr).
    { intros j f (a & e & b & -> & X & _). unfold issued in *. rewrite in_app_iff. auto. }
    constructor; cbn [c_hs c_handles c_sd c_futs]; try (intros j); rewrite ?app_length; cbn [length].
    + rewrite issued_snoc, (i_iss _ _ V). split.
      * intros [X|[_ X]]; [lia|]. assert (length (c_hs c) = j) by congruence. lia.
      * intros X. destruct (Nat.eq_dec j (length (c_hs c))) as [->|]; [right; auto|left; lia].
    + rewrite shut_snoc, (i_sd _ _ V). intuition discriminate.
    + rewrite in_snoc, (i_pend _ _ V), issued_snoc, Qa'. split.
      * intros [[X Y]| ->]; [auto|]. split; [auto|]. intros Z. apply NI. eapply AI; eauto.
      * intros [[X|[_ X]] Y]; [auto|]. right. congruence.
    + intros X. rewrite Qd.
      destruct (Nat.eq_dec j (length (c_hs c))) as [->|].
      * rewrite HL. split; [discriminate|]. intros Z. exfalso. apply NI. eapply AI; eauto.
      * rewrite HG by lia. apply (i_drop _ _ V). lia.
    + intros X Y. rewrite Qt.
      destruct (Nat.eq_dec j (length (c_hs c))) as [->|].
      * rewrite HL. split; [|intros [|]; discriminate]. intros Z. apply TL in Z. lia.
      * rewrite HG in * by lia. apply (i_told _ _ V); auto. lia.
    + intros X Y. rewrite Qn.
      destruct (Nat.eq_dec j (length (c_hs c))) as [->|].
      * rewrite HL. split; [|discriminate]. intros (a & e & b & E & Z & _).
        assert (told (length (c_hs c)) tr) as Z' by (rewrite E; unfold told in *; rewrite in_app_iff; auto).
        apply TL in Z'. lia.
      * rewrite HG in * by lia. apply (i_ans _ _ V); auto. lia.
    + intros X Y. rewrite Qa'.
      destruct (Nat.eq_dec j (length (c_hs c))) as [->|].
      * rewrite HL. split; [|congruence]. intros Z. exfalso. apply NI. eapply AI; eauto.
      * rewrite HG in * by lia. apply (i_idle _ _ V); auto. lia.
    + intros X. rewrite Qa'. destruct (i_fut _ _ V j X). split; [lia|auto].
    + intros X. destruct (Nat.lt_trichotomy j (length (c_hs c))) as [L|[->|L]].
      * rewrite HG in X by auto. apply (i_wait _ _ V). auto.
      * rewrite HL in X. destruct X; discriminate.
      * rewrite hget_default in X by (cbn [c_hs]; rewrite app_length; cbn; lia). destruct X; discriminate.
  - (* WShut *)
    destruct (ctx_shutdown c) as [c1 w] eqn:E. apply pair_equal_spec in H as [<- <-].
    unfold ctx_shutdown in E.
    destruct (fold_left notify (c_handles c) _) as [c2 w2] eqn:F.
    apply pair_equal_spec in E as [<- <-].
    apply notify_all in F as ((L & A & B & C & D & E & F & G) & _).
    cbn [c_hs c_handles c_sd c_waker c_fin c_jwaker c_futs] in *.
    assert (HGG : forall j, hget j (mkCtx (c_hs c) [] (c_futs c) (c_fin c) true (c_waker c)
               (c_pwaker c) (c_jwaker c)) = hget j c) by reflexivity.
    set (c3 := mkCtx (c_hs c2) _ _ _ _ _ _ _).
    assert (HG3 : forall j, hget j c3 = hget j c2) by reflexivity.
    assert (Qi : forall j x, issued j (tr ++ [(WShut, x)]) <-> issued j tr).
    { intros. rewrite issued_snoc. intuition discriminate. }
    assert (Qa : forall j x, asked j (tr ++ [(WShut, x)]) <-> issued j tr).
    { intros. unfold asked. rewrite later_snoc. cbn [fst]. split; [|auto].
      intros [(a & e & b & -> & X & _)|[X _]]; [|auto]. unfold issued in *. rewrite in_app_iff. auto. }
    assert (Qd : forall j x, dropped j (tr ++ [(WShut, x)]) <-> dropped j tr).
    { intros. unfold dropped. rewrite later_snoc. cbn [fst]. intuition discriminate. }
    assert (Qn : forall j x, answered j (tr ++ [(WShut, x)]) <-> answered j tr).
    { intros. unfold answered. rewrite later_snoc. cbn [fst]. intuition discriminate. }
    assert (Qt : forall j x, told j (tr ++ [(WShut, x)]) <-> told j tr).
    { intros. rewrite told_snoc. intuition discriminate. }
    assert (HS : forall j, j < length (c_hs c) ->
      hget j c2 = match hget j c with HIdle => HSent | h => h end).
    { intros j Lj. rewrite F, HGG. destruct (existsb (Nat.eqb j) (c_handles c)) eqn:X; [reflexivity|].
      destruct (hget j c) eqn:Y; try reflexivity. exfalso.
      assert (In j (c_handles c)) as Z; [|apply existsb_in in Z; congruence].
      apply (i_pend _ _ V). split; [apply (i_iss _ _ V); auto|].
      intros Z. apply (i_idle _ _ V) in Z; auto. congruence. }
    constructor; subst c3; cbn [c_hs c_handles c_sd c_futs]; try (intros j); rewrite ?HG3, ?L, ?A.
    + rewrite Qi. apply (i_iss _ _ V).
    + rewrite B, shut_snoc. intuition.
    + rewrite Qi, Qa. cbn [In]. tauto.
    + intros X. rewrite Qd, HS by auto. rewrite <- (i_drop _ _ V j X).
      destruct (hget j c); split; congruence.
    + intros X Y. rewrite Qt. rewrite HS in * by auto.
      destruct (hget j c) eqn:Z; try congruence; rewrite (i_told _ _ V j X) by congruence;
        rewrite Z; intuition discriminate.
    + intros X Y. rewrite Qn. rewrite HS in * by auto.
      destruct (hget j c) eqn:Z; try congruence; rewrite (i_ans _ _ V j X) by congruence;
        rewrite Z; intuition discriminate.
    + intros X Y. rewrite Qa. rewrite HS in * by auto.
      split; [|intros _; apply (i_iss _ _ V); auto]. intros _. destruct (hget j c); congruence.
    + intros X. rewrite Qa. apply G in X as [X|[X Y]].
      * destruct (i_fut _ _ V j X) as [X1 X2]. split; [auto|apply (i_iss _ _ V); auto].
      * apply (i_pend _ _ V) in X as [X _]. split; [apply (i_iss _ _ V)|]; auto.
    + intros X. apply G.
      destruct (Nat.lt_ge_cases j (length (c_hs c))) as [Lj|Lj].
      2:{ rewrite hget_default in X by (rewrite L; auto). destruct X; discriminate. }
      rewrite HS in X by auto. destruct (hget j c) eqn:Z.
      * right. split; [|exact Z]. apply (i_pend _ _ V). split; [apply (i_iss _ _ V); auto|].
        intros Q. apply (i_idle _ _ V) in Q; auto; congruence.
      * left. apply (i_wait _ _ V). auto.
      * left. apply (i_wait _ _ V). auto.
      * destruct X; discriminate.
      * destruct X; discriminate.
  - (* WPoll *)
    destruct (ctx_poll c) as [c1 b] eqn:E. apply pair_equal_spec in H as [<- <-].
    unfold ctx_poll in E. cbv zeta in E.
    assert (X : c_hs c1 = c_hs c /\ c_handles c1 = c_handles c /\ c_sd c1 = c_sd c /\ c_futs c1 = c_futs c).
    { destruct (_ && _); apply pair_equal_spec in E as [<- _]; auto. }
    destruct X as (X1 & X2 & X3 & X4).
    eapply winv_quiet; eauto; try discriminate.
    + apply quiet; discriminate.
    + rewrite X4. auto.
    + rewrite X4. auto.
  - (* WHPoll *)
    destruct (handle_poll i c) as [c1 b] eqn:E. apply pair_equal_spec in H as [<- <-].
    unfold handle_poll in E.
    destruct (hget i c) eqn:Hi; apply pair_equal_spec in E as [<- <-];
      try (eapply winv_quiet; eauto; try discriminate; apply quiet; discriminate).
    assert (Li : i < length (c_hs c)) by (eapply told_lt; eauto).
    assert (Qi : forall j, issued j (tr ++ [(WHPoll i, OReady)]) <-> issued j tr).
    { intros. rewrite issued_snoc. intuition discriminate. }
    assert (Qa : forall j, asked j (tr ++ [(WHPoll i, OReady)]) <-> asked j tr).
    { intros. unfold asked. rewrite later_snoc. cbn [fst]. intuition discriminate. }
    assert (Qd : forall j, dropped j (tr ++ [(WHPoll i, OReady)]) <-> dropped j tr).
    { intros. unfold dropped. rewrite later_snoc. cbn [fst]. intuition discriminate. }
    assert (Qn : forall j, answered j (tr ++ [(WHPoll i, OReady)]) <-> answered j tr).
    { intros. unfold answered. rewrite later_snoc. cbn [fst]. intuition discriminate. }
    constructor; try (intros j);
      rewrite ?Qi, ?Qa, ?Qd, ?Qn;
      rewrite ?hget_hset by auto; change (length (c_hs (hset i HTold c))) with (length (upd i HTold (c_hs c)));
      rewrite ?upd_length.
    + apply (i_iss _ _ V).
    + rewrite shut_snoc. change (c_sd (hset i HTold c)) with (c_sd c). rewrite (i_sd _ _ V). intuition discriminate.
    + apply (i_pend _ _ V).
    + intros X. rewrite <- (i_drop _ _ V j X). destruct (Nat.eqb_spec j i) as [->|]; [|reflexivity].
      rewrite Hi. split; discriminate.
    + intros X Y. rewrite told_snoc. destruct (Nat.eqb_spec j i) as [->|Nij].
      * split; auto.
      * rewrite (i_told _ _ V j X Y). split; [intros [Z|[Z _]]; [auto|congruence]|auto].
    + intros X Y. destruct (Nat.eqb_spec j i) as [->|].
      * rewrite (i_ans _ _ V i X) by congruence. rewrite Hi. split; discriminate.
      * apply (i_ans _ _ V j X Y).
    + intros X Y. destruct (Nat.eqb_spec j i) as [->|].
      * rewrite (i_idle _ _ V i X) by congruence. rewrite Hi. split; discriminate.
      * apply (i_idle _ _ V j X Y).
    + apply (i_fut _ _ V).
    + intros X. change (c_futs (hset i HTold c)) with (c_futs c). apply (i_wait _ _ V).
      revert X. destruct (j =? i) eqn:Q; intros X; [apply Nat.eqb_eq in Q; rewrite Q; auto|auto].
  - (* WAnswer *)
    apply pair_equal_spec in H as [<- <-]. unfold handle_answer.
    destruct (hget i c) eqn:Hi.
    1,2,4,5: idtac.
    1,2: eapply winv_quiet; eauto; try discriminate; apply quiet; try discriminate;
         intros j Hj; injection Hj as <-; intros T;
         assert (L := TL _ T); apply (i_told _ _ V) in T; [rewrite Hi in T; destruct T; discriminate|auto|congruence].
    + (* already answered *)
      assert (Li : i < length (c_hs c)).
      { destruct (Nat.lt_ge_cases i (length (c_hs c))) as [X|X]; [exact X|].
        rewrite hget_default in Hi by exact X. discriminate. }
      eapply winv_quiet; eauto; try discriminate. intros j.
      split; [rewrite issued_snoc; intuition discriminate|].
      split; [unfold asked; rewrite later_snoc; cbn [fst]; intuition discriminate|].
      split; [unfold dropped; rewrite later_snoc; cbn [fst]; intuition discriminate|].
      split; [rewrite told_snoc; intuition discriminate|].
      unfold answered. rewrite later_snoc. cbn [fst]. split; [|auto].
      intros [X|[_ X]]; [exact X|]. injection X as ->.
      apply (i_ans _ _ V); auto; congruence.
    + (* dropped or never issued *)
      assert (Qi : forall j, issued j (tr ++ [(WAnswer i, ONone false)]) <-> issued j tr).
      { intros. rewrite issued_snoc. intuition discriminate. }
      assert (Qa : forall j, asked j (tr ++ [(WAnswer i, ONone false)]) <-> asked j tr).
      { intros. unfold asked. rewrite later_snoc. cbn [fst]. intuition discriminate. }
      assert (Qd : forall j, dropped j (tr ++ [(WAnswer i, ONone false)]) <-> dropped j tr).
      { intros. unfold dropped. rewrite later_snoc. cbn [fst]. intuition discriminate. }
      assert (Qt : forall j, told j (tr ++ [(WAnswer i, ONone false)]) <-> told j tr).
      { intros. rewrite told_snoc. intuition discriminate. }
      constructor; try (intros j); rewrite ?Qi, ?Qa, ?Qd, ?Qt; try apply V.
      * rewrite shut_snoc, (i_sd _ _ V). intuition discriminate.
      * intros X Y. rewrite <- (i_ans _ _ V j X Y). unfold answered. rewrite later_snoc. cbn [fst].
        split; [|auto]. intros [Z|[_ Z]]; [exact Z|]. congruence.
    + (* told *)
      assert (Li : i < length (c_hs c)) by (eapply told_lt; eauto).
      assert (Qi : forall j, issued j (tr ++ [(WAnswer i, ONone false)]) <-> issued j tr).
      { intros. rewrite issued_snoc. intuition discriminate. }
      assert (Qa : forall j, asked j (tr ++ [(WAnswer i, ONone false)]) <-> asked j tr).
      { intros. unfold asked. rewrite later_snoc. cbn [fst]. intuition discriminate. }
      assert (Qd : forall j, dropped j (tr ++ [(WAnswer i, ONone false)]) <-> dropped j tr).
      { intros. unfold dropped. rewrite later_snoc. cbn [fst]. intuition discriminate. }
      assert (Qt : forall j, told j (tr ++ [(WAnswer i, ONone false)]) <-> told j tr).
      { intros. rewrite told_snoc. intuition discriminate. }
      assert (Ti : told i tr) by (apply (i_told _ _ V); auto; congruence).
      constructor; try (intros j); rewrite ?Qi, ?Qa, ?Qd, ?Qt;
        rewrite ?hget_hset by auto;
        change (length (c_hs (hset i HAnswered c))) with (length (upd i HAnswered (c_hs c)));
        rewrite ?upd_length.
      * apply (i_iss _ _ V).
      * rewrite shut_snoc. change (c_sd (hset i HAnswered c)) with (c_sd c). rewrite (i_sd _ _ V). intuition discriminate.
      * apply (i_pend _ _ V).
      * intros X. rewrite <- (i_drop _ _ V j X). destruct (Nat.eqb_spec j i) as [->|]; [|reflexivity].
        rewrite Hi. split; discriminate.
      * intros X Y. destruct (Nat.eqb_spec j i) as [->|]; [split; auto|].
        apply (i_told _ _ V j X Y).
      * intros X Y. unfold answered. rewrite later_snoc. cbn [fst]. fold (answered j tr).
        destruct (Nat.eqb_spec j i) as [->|Nij]; [split; auto|].
        rewrite (i_ans _ _ V j X Y). split; [intros [Z|[_ Z]]; [auto|congruence]|auto].
      * intros X Y. destruct (Nat.eqb_spec j i) as [->|].
        -- rewrite (i_idle _ _ V i X) by congruence. rewrite Hi. split; discriminate.
        -- apply (i_idle _ _ V j X Y).
      * apply (i_fut _ _ V).
      * intros X. change (c_futs (hset i HAnswered c)) with (c_futs c). apply (i_wait _ _ V).
        revert X. destruct (j =? i) eqn:Q; intros X; [apply Nat.eqb_eq in Q; rewrite Q; auto|auto].
  - (* WDrop *)
    apply pair_equal_spec in H as [<- <-]. unfold handle_drop.
    assert (Qi : forall j, issued j (tr ++ [(WDrop i, ONone false)]) <-> issued j tr).
    { intros. rewrite issued_snoc. intuition discriminate. }
    assert (Qa : forall j, asked j (tr ++ [(WDrop i, ONone false)]) <-> asked j tr).
    { intros. unfold asked. rewrite later_snoc. cbn [fst]. intuition discriminate. }
    assert (Qn : forall j, answered j (tr ++ [(WDrop i, ONone false)]) <-> answered j tr).
    { intros. unfold answered. rewrite later_snoc. cbn [fst]. intuition discriminate. }
    assert (Qt : forall j, told j (tr ++ [(WDrop i, ONone false)]) <-> told j tr).
    { intros. rewrite told_snoc. intuition discriminate. }
    assert (HG : forall j, hget j (hset i HDropped c) = if j =? i then HDropped else hget j c).
    { intros j. destruct (Nat.lt_ge_cases i (length (c_hs c))) as [L|L].
      - apply hget_hset. auto.
      - unfold hset, hget. cbn [c_hs]. rewrite upd_over by auto.
        destruct (Nat.eqb_spec j i) as [->|]; [apply hget_default; auto|reflexivity]. }
    constructor; try (intros j); rewrite ?Qi, ?Qa, ?Qn, ?Qt; rewrite ?HG;
        change (length (c_hs (hset i HDropped c))) with (length (upd i HDropped (c_hs c)));
        rewrite ?upd_length.
    + apply (i_iss _ _ V).
    + rewrite shut_snoc. change (c_sd (hset i HDropped c)) with (c_sd c). rewrite (i_sd _ _ V). intuition discriminate.
    + apply (i_pend _ _ V).
    + intros X. unfold dropped. rewrite later_snoc. cbn [fst]. fold (dropped j tr).
      rewrite <- (i_drop _ _ V j X). rewrite (i_iss _ _ V).
      destruct (Nat.eqb_spec j i) as [->|Nij]; [split; auto|].
      split; [auto|intros [Z|[_ Z]]; [auto|congruence]].
    + intros X Y. destruct (Nat.eqb_spec j i) as [->|]; [congruence|]. apply (i_told _ _ V j X Y).
    + intros X Y. destruct (Nat.eqb_spec j i) as [->|]; [congruence|]. apply (i_ans _ _ V j X Y).
    + intros X Y. destruct (Nat.eqb_spec j i) as [->|]; [congruence|]. apply (i_idle _ _ V j X Y).
    + apply (i_fut _ _ V).
    + intros X. change (c_futs (hset i HDropped c)) with (c_futs c). apply (i_wait _ _ V).
      revert X. destruct (j =? i) eqn:Q; intros X; [destruct X; discriminate|auto].
  - (* WFinish *)
    destruct (task_run i c) as [c1 w] eqn:E. apply pair_equal_spec in H as [<- <-].
    unfold task_run in E.
    destruct (existsb (Nat.eqb i) (c_futs c));
      [destruct (hget i c) eqn:Hi|]; apply pair_equal_spec in E as [<- <-];
      try (eapply winv_quiet; eauto; try discriminate; apply quiet; discriminate).
    all: eapply winv_quiet; eauto; try discriminate; [apply quiet; discriminate | |];
      cbn [c_futs]; intros j; rewrite filter_In; [tauto|];
      intros X Y; split; [exact Y|]; destruct (Nat.eqb_spec i j) as [->|]; [|reflexivity];
      rewrite Hi in X; destruct X; discriminate.
Qed.
