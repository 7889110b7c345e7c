(** Proofs about shutdown handles: what histories give. *)
From Coq Require Import List NArith Bool Arith Lia.
From Verif Require Import ShutModel ShutSpec ShutProofs.
Import ListNotations.
Open Scope nat_scope.

Lemma hs_grow : forall c o c' r, wstep c o = (c', r) -> length (c_hs c) <= length (c_hs c').
Proof.
  intros c o c' r H. destruct o; unfold wstep in H.
  - apply pair_equal_spec in H as [<- _]. cbn [c_hs]. rewrite app_length. lia.
  - destruct (ctx_shutdown c) as [c1 w] eqn:E. apply pair_equal_spec in H as [<- _].
    unfold ctx_shutdown in E. destruct (fold_left notify _ _) as [c2 w2] eqn:F.
    apply pair_equal_spec in E as [<- _]. apply notify_all in F as ((L & _) & _).
    cbn [c_hs] in *. lia.
  - unfold ctx_poll in H. destruct (_ && _); apply pair_equal_spec in H as [<- _]; auto.
  - unfold handle_poll in H. destruct (hget i c); apply pair_equal_spec in H as [<- _]; auto.
    cbn [hset c_hs]. rewrite upd_length. auto.
  - apply pair_equal_spec in H as [<- _]. unfold handle_answer. destruct (hget i c); auto.
    cbn [hset c_hs]. rewrite upd_length. auto.
  - apply pair_equal_spec in H as [<- _]. cbn [handle_drop hset c_hs]. rewrite upd_length. auto.
  - unfold task_run in H. destruct (existsb _ _); [destruct (hget i c)|];
      apply pair_equal_spec in H as [<- _]; auto.
Qed.

Lemma winv_run : forall os c tr, wrun ctx0 os = (c, tr) ->
  winv c tr /\ (forall i, told i tr -> i < length (c_hs c)).
Proof.
  induction os as [|o os IH] using rev_ind; intros c tr H.
  - apply pair_equal_spec in H as [<- <-]. split; [apply winv0|]. intros i [].
  - rewrite wrun_app in H. destruct (wrun ctx0 os) as [c1 t1] eqn:E.
    cbn [wrun] in H. destruct (wstep c1 o) as [c2 r] eqn:St.
    apply pair_equal_spec in H as [<- <-].
    destruct (IH _ _ eq_refl) as [V TL]. split.
    + eapply winv_step; eauto.
    + intros i T. apply told_snoc in T as [T|[-> ->]].
      * specialize (TL _ T). apply hs_grow in St. lia.
      * apply hs_grow in St as G. unfold wstep, handle_poll in St.
        destruct (hget i c1) eqn:Hi; try discriminate.
        pose proof (told_lt _ _ _ V (or_introl Hi)). lia.
Qed.

Lemma poll_ready : forall c c', wstep c WPoll = (c', OReady) -> c_futs c = [] /\ c_sd c = true.
Proof.
  intros c c' H. unfold wstep, ctx_poll in H.
  destruct (c_futs c); cbn [negb andb] in H; [destruct (c_sd c); [auto|discriminate]|discriminate].
Qed.

Lemma poll_empty : forall c, c_futs c = [] -> c_sd c = true ->
  exists c', wstep c WPoll = (c', OReady).
Proof.
  intros c F S. unfold wstep, ctx_poll. rewrite F, S. cbn [negb andb]. eexists. reflexivity.
Qed.

Lemma done_only : forall os c tr c',
  wrun ctx0 os = (c, tr) -> wstep c WPoll = (c', OReady) ->
  shut_called tr /\ forall i, asked i tr -> dropped i tr \/ answered i tr.
Proof.
  intros os c tr c' R P. apply winv_run in R as [V TL]. apply poll_ready in P as [F S].
  split; [apply (i_sd _ _ V); exact S|]. intros i A.
  assert (L : i < length (c_hs c)).
  { apply (i_iss _ _ V). destruct A as (a & e & b & -> & X & _). unfold issued in *.
    rewrite in_app_iff. auto. }
  destruct (hget i c) eqn:Hi.
  - apply (i_idle _ _ V) in A; auto; congruence.
  - assert (X := i_wait _ _ V i (or_introl Hi)). rewrite F in X. destruct X.
  - assert (X := i_wait _ _ V i (or_intror Hi)). rewrite F in X. destruct X.
  - right. apply (i_ans _ _ V); auto; congruence.
  - left. apply (i_drop _ _ V); auto.
Qed.

Lemma finish_one : forall i c c' r,
  wstep c (WFinish i) = (c', r) ->
  (forall j, hget j c' = hget j c) /\ c_sd c' = c_sd c /\
  (forall j, In j (c_futs c') -> In j (c_futs c)) /\
  (hget i c = HAnswered \/ hget i c = HDropped -> ~ In i (c_futs c')).
Proof.
  intros i c c' r H. unfold wstep, task_run in H.
  destruct (existsb (Nat.eqb i) (c_futs c)) eqn:X.
  - destruct (hget i c) eqn:Hi; apply pair_equal_spec in H as [<- _];
      (split; [reflexivity|]); (split; [reflexivity|]);
      try (split; [auto|intros [|]; discriminate]).
    all: cbn [c_futs]; split; [intros j Y; apply filter_In in Y; tauto|];
      intros _ Y; apply filter_In in Y as [_ Y]; rewrite Nat.eqb_refl in Y; discriminate.
  - apply pair_equal_spec in H as [<- _].
    split; [reflexivity|]. split; [reflexivity|]. split; [auto|].
    intros _ Y. apply existsb_in in Y. congruence.
Qed.

Lemma finish_all : forall l c c' tr,
  wrun c (map WFinish l) = (c', tr) ->
  (forall j, hget j c' = hget j c) /\ c_sd c' = c_sd c /\
  (forall j, In j (c_futs c') -> In j (c_futs c)) /\
  (forall i, In i l -> hget i c = HAnswered \/ hget i c = HDropped -> ~ In i (c_futs c')).
Proof.
  induction l as [|i l IH]; intros c c' tr H; cbn [map wrun] in H.
  - apply pair_equal_spec in H as [<- _]. split; [reflexivity|]. split; [reflexivity|].
    split; [auto|]. intros i [].
  - destruct (wstep c (WFinish i)) as [c1 r] eqn:E.
    destruct (wrun c1 (map WFinish l)) as [c2 t] eqn:F. apply pair_equal_spec in H as [<- _].
    apply finish_one in E as (A & B & C & D). apply IH in F as (A' & B' & C' & D').
    split; [intros; rewrite A', A; reflexivity|]. split; [congruence|]. split; [auto|].
    intros j [<-|Hj] Hd.
    + intros X. apply (D Hd). auto.
    + apply D'; auto. rewrite A. exact Hd.
Qed.

Lemma done_when : forall os c tr l c1 tr1,
  wrun ctx0 os = (c, tr) -> shut_called tr ->
  (forall i, asked i tr -> dropped i tr \/ answered i tr) ->
  (forall i, issued i tr -> In i l) ->
  wrun c (map WFinish l) = (c1, tr1) ->
  exists c2, wstep c1 WPoll = (c2, OReady).
Proof.
  intros os c tr l c1 tr1 R SC A L F. apply winv_run in R as [V TL].
  apply finish_all in F as (HG & SD & FI & FD).
  apply poll_empty.
  - destruct (c_futs c1) as [|i t] eqn:X; [reflexivity|]. exfalso.
    assert (I1 : In i (c_futs c1)) by (rewrite X; left; reflexivity). rewrite <- X in *.
    destruct (i_fut _ _ V i) as [Li Ai]; [apply FI; rewrite X; left; reflexivity|].
    apply (FD i); [apply L, (i_iss _ _ V); exact Li| |rewrite X; left; reflexivity].
    destruct (A i Ai) as [D|N].
    + right. apply (i_drop _ _ V); auto.
    + destruct (hget i c) eqn:Hi; auto;
        apply (i_ans _ _ V) in N; auto; congruence.
  - rewrite SD. apply (i_sd _ _ V). exact SC.
Qed.

Lemma told_iff : forall os c tr i,
  wrun ctx0 os = (c, tr) -> issued i tr -> ~ dropped i tr ->
  (snd (wstep c (WHPoll i)) = OReady <-> asked i tr /\ ~ told i tr).
Proof.
  intros os c tr i R Is ND. apply winv_run in R as [V TL].
  assert (L : i < length (c_hs c)) by (apply (i_iss _ _ V); exact Is).
  assert (NDr : hget i c <> HDropped) by (intros X; apply ND, (i_drop _ _ V); auto).
  rewrite (i_told _ _ V i L NDr), (i_idle _ _ V i L NDr).
  unfold wstep, handle_poll. destruct (hget i c); cbn [snd]; intuition congruence.
Qed.

(** ** Waking *)
Definition awake (c : ctx) : Prop :=
  c_waker c = true /\ (c_sd c = true -> c_futs c <> [] /\ c_jwaker c = true).

Lemma awake_step : forall c o c' r, o <> WPoll -> awake c -> wstep c o = (c', r) ->
  awake c' \/ r = ONone true.
Proof.
  intros c o c' r NP [W S] H. destruct o; unfold wstep in H; try congruence.
  - apply pair_equal_spec in H as [<- _]. left. split; auto.
  - right. destruct (ctx_shutdown c) as [c1 w] eqn:E. apply pair_equal_spec in H as [_ <-].
    unfold ctx_shutdown in E. destruct (fold_left notify _ _) as [c2 w2] eqn:F.
    apply pair_equal_spec in E as [_ <-].
    apply notify_all in F as ((_ & _ & _ & X & _) & _). rewrite X. cbn [c_waker]. rewrite W.
    rewrite orb_true_r. reflexivity.
  - unfold handle_poll in H. destruct (hget i c); apply pair_equal_spec in H as [<- _];
      left; split; auto.
  - apply pair_equal_spec in H as [<- _]. unfold handle_answer. left.
    destruct (hget i c); split; auto.
  - apply pair_equal_spec in H as [<- _]. left; split; auto.
  - unfold task_run in H.
    destruct (existsb (Nat.eqb i) (c_futs c));
      [destruct (hget i c)|]; apply pair_equal_spec in H as [<- <-]; try (left; split; auto; fail).
    all: destruct (c_jwaker c) eqn:J; [right; reflexivity|left]; split; [exact W|];
      cbn [c_sd]; intros X; destruct (S X); discriminate.
Qed.

Lemma pending_awake : forall c c', wstep c WPoll = (c', OPending) -> awake c'.
Proof.
  intros c c' H. unfold wstep, ctx_poll in H.
  destruct (c_futs c) as [|i t] eqn:F; cbn [negb andb] in H.
  - destruct (c_sd c) eqn:S; [discriminate|]. apply pair_equal_spec in H as [<- _].
    split; [reflexivity|]. cbn [c_sd]. discriminate.
  - apply pair_equal_spec in H as [<- _]. split; [reflexivity|]. intros _.
    cbn [c_futs c_jwaker orb]. split; [discriminate|reflexivity].
Qed.

Lemma woken : forall os c c1 tr c2,
  awake c -> (forall o, In o os -> o <> WPoll) -> wrun c os = (c1, tr) ->
  wstep c1 WPoll = (c2, OReady) -> exists o, In (o, ONone true) tr.
Proof.
  induction os as [|o os IH]; intros c c1 tr c2 A NP R P; cbn [wrun] in R.
  - apply pair_equal_spec in R as [<- _]. apply poll_ready in P as [F S].
    destruct A as [_ A]. destruct (A S). congruence.
  - destruct (wstep c o) as [c' r] eqn:E. destruct (wrun c' os) as [c3 t] eqn:F.
    apply pair_equal_spec in R as [<- <-].
    destruct (awake_step _ _ _ _ (NP o (or_introl eq_refl)) A E) as [A'| ->].
    + destruct (IH c' c3 t c2 A') as (x & X); auto.
      * intros y Y. apply NP. right. exact Y.
      * exists x. right. exact X.
    + exists o. left. reflexivity.
Qed.
