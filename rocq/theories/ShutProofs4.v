(** Proofs about the router shutting down. *)
From Coq Require Import List NArith Bool Arith Lia Permutation.
From Verif Require Import ShutModel ShutSpec ShutProofs ShutProofs2 ShutProofs3.
Import ListNotations.
Open Scope nat_scope.

Lemma del1_perm : forall x l, In x l -> Permutation l (x :: del1 x l).
Proof.
  induction l as [|y l IH]; intros I; [destruct I|]. cbn [del1].
  destruct (N.eqb_spec x y) as [->|N]; [reflexivity|].
  destruct I as [->|I]; [congruence|]. rewrite (IH I) at 1. apply perm_swap.
Qed.

Lemma existsb_N : forall x l, existsb (N.eqb x) l = true -> In x l.
Proof. intros x l H. apply existsb_exists in H as (y & I & E). apply N.eqb_eq in E as ->. exact I. Qed.

Lemma accept_all_spec : forall conf c reqs ts ts' acc,
  accept_all conf c reqs ts = (ts', acc) ->
  ts' = ts ++ acc /\ (is_shutting_down c = true -> acc = []).
Proof.
  induction reqs as [|q reqs IH]; intros ts ts' acc H; cbn [accept_all] in H.
  - apply pair_equal_spec in H as [<- <-]. rewrite app_nil_r. auto.
  - destruct (can_accept conf c ts) eqn:C.
    + destruct (accept_all conf c reqs (ts ++ [q])) as [t a] eqn:E.
      apply pair_equal_spec in H as [<- <-]. apply IH in E as [-> _].
      rewrite <- app_assoc. split; [reflexivity|]. intros X. unfold can_accept in C. rewrite X in C. discriminate.
    + apply IH. exact H.
Qed.

Lemma expire_all_spec : forall sd ends ts res l,
  expire_all sd ends ts = (res, l) ->
  match res with
  | Some ts' => Permutation ts (l ++ ts') /\ (sd = true -> ts <> [] -> ts' <> [])
  | None => Permutation ts l /\ sd = true
  end.
Proof.
  induction ends as [|x ends IH]; intros ts res l H; cbn [expire_all] in H.
  - apply pair_equal_spec in H as [<- <-]. split; [reflexivity|auto].
  - destruct (existsb (N.eqb x) ts) eqn:X; [|apply IH; exact H].
    apply existsb_N, del1_perm in X.
    destruct (del1 x ts) as [|y t] eqn:D.
    + destruct sd.
      * apply pair_equal_spec in H as [<- <-]. split; [exact X|reflexivity].
      * destruct (expire_all false ends []) as [r l'] eqn:E. apply pair_equal_spec in H as [<- <-].
        apply IH in E. destruct r as [ts'|]; [|destruct E; discriminate].
        destruct E as [E _]. split; [|discriminate]. rewrite X. cbn [app]. constructor. exact E.
    + destruct (expire_all sd ends (y :: t)) as [r l'] eqn:E. apply pair_equal_spec in H as [<- <-].
      apply IH in E. destruct r as [ts'|].
      * destruct E as [E F]. split; [rewrite X; cbn [app]; constructor; exact E|].
        intros S _. apply F; [exact S|discriminate].
      * destruct E as [E F]. split; [rewrite X; constructor; exact E|exact F].
Qed.

Section R.
Context {name : Type}.
Implicit Types (r : router name) (tr : rtrace name).

Lemma rrun_app : forall conf (a b : list (rop name)) r,
  rrun conf r (a ++ b) =
  let (r1, t1) := rrun conf r a in let (r2, t2) := rrun conf r1 b in (r2, t1 ++ t2).
Proof.
  induction a as [|o a IH]; intros b r; cbn [rrun app].
  - destruct (rrun conf r b); reflexivity.
  - destruct (rstep conf r o) as [r1 x]. rewrite IH.
    destruct (rrun conf r1 a) as [r2 t1]. destruct (rrun conf r2 b); reflexivity.
Qed.

Record rinv r tr : Prop := {
  v_len : length (c_hs (r_ctx r)) = 1;
  v_cnt : r_count r = shutdowns tr;
  v_sd : c_sd (r_ctx r) = (1 <=? r_count r);
  v_pend : c_handles (r_ctx r) = if r_count r =? 0 then [0] else [];
  v_dead : t_alive (r_tm r) = false -> hget 0 (r_ctx r) = HDropped /\ t_tunnels (r_tm r) = [];
  v_live : t_alive (r_tm r) = true ->
    (hget 0 (r_ctx r) = HIdle /\ r_count r = 0) \/
    (r_count r >= 1 /\ In 0 (c_futs (r_ctx r)) /\
     (hget 0 (r_ctx r) = HSent \/ (hget 0 (r_ctx r) = HTold /\ t_tunnels (r_tm r) <> [])));
  v_futs : forall i, In i (c_futs (r_ctx r)) -> i = 0;
  v_bal : ~ gone tr -> Permutation (accepted tr) (ended tr ++ t_tunnels (r_tm r)) }.

Lemma rinv0 : rinv router0 [].
Proof.
  constructor; cbn; auto; try discriminate.
  intros i [].
Qed.

Lemma shutdowns_snoc : forall tr o x,
  shutdowns (tr ++ [(o, x)]) = shutdowns tr + match o with RShutdown => 1 | _ => 0 end.
Proof.
  intros. unfold shutdowns. rewrite filter_app, app_length. f_equal. destruct o; reflexivity.
Qed.
Lemma accepted_snoc : forall tr o x,
  accepted (tr ++ [(o, x)]) = accepted tr ++ match x with RTunnels a _ => a | _ => [] end.
Proof. intros. unfold accepted. rewrite flat_map_app. cbn [flat_map snd]. rewrite app_nil_r. reflexivity. Qed.
Lemma ended_snoc : forall tr o x,
  ended (tr ++ [(o, x)]) = ended tr ++ match x with RTunnels _ l => l | _ => [] end.
Proof. intros. unfold ended. rewrite flat_map_app. cbn [flat_map snd]. rewrite app_nil_r. reflexivity. Qed.
Lemma gone_snoc : forall tr (o : rop name) x, gone (tr ++ [(o, x)]) <-> gone tr \/ o = RGone.
Proof.
  intros. unfold gone. split.
  - intros (y & H). apply in_snoc in H as [H|H]; [left; eauto|right; congruence].
  - intros [(y & H)| ->]; [exists y|exists x]; apply in_snoc; auto.
Qed.

Lemma hset_fields : forall i x c,
  c_handles (hset i x c) = c_handles c /\ c_futs (hset i x c) = c_futs c /\ c_sd (hset i x c) = c_sd c /\
  length (c_hs (hset i x c)) = length (c_hs c).
Proof. intros. unfold hset. cbn. rewrite upd_length. auto. Qed.

(** A step that leaves the context's handles and the manager alone *)
Lemma rinv_same : forall r r' tr o x,
  rinv r tr -> (o <> RShutdown) -> o <> RGone -> (forall a l, x <> RTunnels a l) ->
  r_count r' = r_count r -> r_tm r' = r_tm r ->
  c_hs (r_ctx r') = c_hs (r_ctx r) -> c_handles (r_ctx r') = c_handles (r_ctx r) ->
  c_sd (r_ctx r') = c_sd (r_ctx r) ->
  (forall i, In i (c_futs (r_ctx r')) -> In i (c_futs (r_ctx r))) ->
  (t_alive (r_tm r) = true -> In 0 (c_futs (r_ctx r)) -> In 0 (c_futs (r_ctx r'))) ->
  rinv r' (tr ++ [(o, x)]).
Proof.
  intros r r' tr o x V NS NG NT C T H P S F K.
  assert (HG : hget 0 (r_ctx r') = hget 0 (r_ctx r)) by (unfold hget; rewrite H; reflexivity).
  constructor.
  - rewrite H. apply V.
  - rewrite C, shutdowns_snoc, (v_cnt _ _ V). destruct o; try congruence; lia.
  - rewrite S, C. apply V.
  - rewrite P, C. apply V.
  - rewrite T, HG. apply V.
  - rewrite T, HG, C. intros A. destruct (v_live _ _ V A) as [X|(X & Y & Z)]; [auto|]. right. auto.
  - intros i I. apply (v_futs _ _ V). auto.
  - intros G. rewrite accepted_snoc, ended_snoc, T.
    destruct x; try (rewrite !app_nil_r; apply V; intros X; apply G, gone_snoc; auto).
    exfalso. eapply NT. reflexivity.
Qed.

Lemma ctx_poll_fields : forall c c' b, ctx_poll c = (c', b) ->
  c_hs c' = c_hs c /\ c_handles c' = c_handles c /\ c_sd c' = c_sd c /\ c_futs c' = c_futs c /\
  (b = true <-> c_futs c = [] /\ c_sd c = true).
Proof.
  intros c c' b H. unfold ctx_poll in H. cbv zeta in H.
  destruct (c_futs c) eqn:F; cbn [negb andb orb] in H.
  - destruct (c_sd c) eqn:S; apply pair_equal_spec in H as [<- <-]; cbn; intuition congruence.
  - apply pair_equal_spec in H as [<- <-]. cbn. intuition congruence.
Qed.

Lemma told_answered : forall c h, length (c_hs c) = 1 -> hget 0 c = h ->
  hget 0 (tm_end (handle_answer 0 c)) = HDropped /\
  c_handles (tm_end (handle_answer 0 c)) = c_handles c /\ c_futs (tm_end (handle_answer 0 c)) = c_futs c /\
  c_sd (tm_end (handle_answer 0 c)) = c_sd c /\ length (c_hs (tm_end (handle_answer 0 c))) = 1.
Proof.
  intros c h L H. unfold tm_end, handle_drop.
  assert (X : length (c_hs (handle_answer 0 c)) = 1 /\ c_handles (handle_answer 0 c) = c_handles c /\
    c_futs (handle_answer 0 c) = c_futs c /\ c_sd (handle_answer 0 c) = c_sd c).
  { unfold handle_answer. destruct (hget 0 c); auto.
    destruct (hset_fields 0 HAnswered c) as (A & B & C & D). rewrite D. auto. }
  destruct X as (L' & A & B & C).
  destruct (hset_fields 0 HDropped (handle_answer 0 c)) as (A' & B' & C' & D').
  rewrite hget_hset by lia. cbn [Nat.eqb]. rewrite A', B', C', D'. auto.
Qed.

Lemma rinv_step : forall conf r tr o r' x,
  rinv r tr -> rstep conf r o = (r', x) -> rinv r' (tr ++ [(o, x)]).
Proof.
  intros conf r tr o r' x V H. destruct o; unfold rstep in H.
  - (* RShutdown *)
    apply pair_equal_spec in H as [<- <-]. unfold r_shutdown.
    destruct (r_count r) as [|n] eqn:Cn; cbn [Nat.eqb].
    + destruct (ctx_shutdown (r_ctx r)) as [c w] eqn:E. unfold ctx_shutdown in E.
      destruct (fold_left notify _ _) as [c2 w2] eqn:F. apply pair_equal_spec in E as [<- _].
      apply notify_all in F as ((L & A & B & C & D & E & F & G) & _).
      cbn [c_hs c_handles c_sd c_waker c_fin c_jwaker c_futs] in *.
      assert (Pn : c_handles (r_ctx r) = [0]) by (rewrite (v_pend _ _ V), Cn; reflexivity).
      rewrite Pn in F, G.
      assert (H0 : hget 0 c2 = match hget 0 (r_ctx r) with HIdle => HSent | h => h end) by apply (F 0).
      cbn [fst]. constructor; cbn [r_ctx r_count r_tm r_em c_hs c_handles c_sd c_futs].
      * rewrite L. apply V.
      * rewrite shutdowns_snoc, <- (v_cnt _ _ V), Cn. reflexivity.
      * rewrite B. reflexivity.
      * rewrite A. reflexivity.
      * intros X. destruct (v_dead _ _ V X) as [X1 X2]. split; [|exact X2].
        change (hget 0 c2 = HDropped). rewrite H0, X1. reflexivity.
      * intros X. right. split; [lia|]. destruct (v_live _ _ V X) as [[X1 _]|[X1 _]]; [|lia].
        split; [apply G; right; split; [left; reflexivity|exact X1]|].
        left. change (hget 0 c2 = HSent). rewrite H0, X1. reflexivity.
      * intros i I. apply G in I as [I|[[I|[]] _]]; [apply (v_futs _ _ V i I)|auto].
      * intros X. rewrite accepted_snoc, ended_snoc, !app_nil_r. apply V. intros Y. apply X, gone_snoc. auto.
    + constructor; cbn [r_ctx r_count r_tm r_em].
      * apply V.
      * rewrite shutdowns_snoc, <- (v_cnt _ _ V), Cn. lia.
      * rewrite (v_sd _ _ V), Cn. reflexivity.
      * rewrite (v_pend _ _ V), Cn. reflexivity.
      * apply V.
      * intros X. destruct (v_live _ _ V X) as [[X1 X2]|(X1 & X2)]; [lia|]. right. split; [lia|exact X2].
      * apply V.
      * intros X. rewrite accepted_snoc, ended_snoc, !app_nil_r. apply V. intros Y. apply X, gone_snoc. auto.
  - (* RPoll *)
    destruct (r_poll fired tdone r) as [r1 b] eqn:E. apply pair_equal_spec in H as [<- <-].
    unfold r_poll in E. destruct (IMMEDIATE <=? r_count r).
    + apply pair_equal_spec in E as [<- <-]. eapply rinv_same; eauto; discriminate.
    + destruct (ctx_poll (r_ctx r)) as [c ready] eqn:P. apply ctx_poll_fields in P as (P1 & P2 & P3 & P4 & _).
      destruct ready; apply pair_equal_spec in E as [<- <-]; eapply rinv_same; cbn [r_ctx r_count r_tm]; eauto;
        try discriminate; rewrite P4; auto.
  - (* RTransit *)
    destruct (tm_poll conf reqs ends r) as [r1 p] eqn:E. apply pair_equal_spec in H as [<- <-].
    unfold tm_poll in E. destruct (t_alive (r_tm r)) eqn:Al; cbn [negb] in E.
    2:{ apply pair_equal_spec in E as [<- <-]. cbn [fst snd]. constructor; try apply V.
        - rewrite shutdowns_snoc, <- (v_cnt _ _ V). lia.
        - intros X. rewrite accepted_snoc, ended_snoc, !app_nil_r. apply V. intros Y. apply X, gone_snoc. auto. }
    destruct (accept_all conf (r_ctx r) reqs (t_tunnels (r_tm r))) as [ts acc] eqn:Ac.
    apply accept_all_spec in Ac as [-> _].
    assert (Len := v_len _ _ V). assert (Lv := v_live _ _ V Al).
    destruct (handle_poll 0 (r_ctx r)) as [c told] eqn:Hp.
    assert (Cf : length (c_hs c) = 1 /\ c_handles c = c_handles (r_ctx r) /\ c_futs c = c_futs (r_ctx r) /\ c_sd c = c_sd (r_ctx r) /\
      ((told = true /\ hget 0 (r_ctx r) = HSent /\ hget 0 c = HTold) \/ (told = false /\ c = r_ctx r /\ hget 0 c <> HSent))).
    { unfold handle_poll in Hp. destruct (hget 0 (r_ctx r)) eqn:H0; apply pair_equal_spec in Hp as [<- <-];
        try (do 4 (split; [auto|]); right; split; [reflexivity|split; [reflexivity|congruence]]).
      destruct (hset_fields 0 HTold (r_ctx r)) as (A & B & C & D). rewrite D. do 4 (split; [auto|]).
      left. rewrite hget_hset by lia. auto. }
    destruct Cf as (C1 & C2 & C3 & C4 & C5).
    assert (Bal : forall l, Permutation (t_tunnels (r_tm r) ++ acc) l -> ~ gone tr -> Permutation (accepted tr ++ acc) (ended tr ++ l)).
    { intros l Pl G. rewrite (v_bal _ _ V G), <- app_assoc. apply Permutation_app_head. exact Pl. }
    assert (GG : forall x, ~ gone (tr ++ [(RTransit reqs ends, x)]) -> ~ gone tr).
    { intros x X Y. apply X, gone_snoc. auto. }
    assert (Lv' : r_count r >= 1 -> In 0 (c_futs (r_ctx r))).
    { intros G. destruct Lv as [[_ X]|(_ & X & _)]; [lia|exact X]. }
    destruct (told_answered c _ C1 eq_refl) as (A1 & A2 & A3 & A4 & A5).
    assert (Ended : forall l, Permutation (t_tunnels (r_tm r) ++ acc) l ->
      rinv (mkR (tm_end (handle_answer 0 c)) (r_em r) (r_count r) (mkTm false [])) (tr ++ [(RTransit reqs ends, RTunnels acc l)])).
    { intros l Pl. constructor; cbn [r_ctx r_count r_tm t_alive t_tunnels].
      - exact A5.
      - rewrite shutdowns_snoc, <- (v_cnt _ _ V). lia.
      - rewrite A4, C4. apply V.
      - rewrite A2, C2. apply V.
      - intros _. split; [exact A1|reflexivity].
      - discriminate.
      - rewrite A3, C3. apply V.
      - intros G. rewrite accepted_snoc, ended_snoc, app_nil_r. apply Bal; [exact Pl|eapply GG; exact G]. }
    assert (Goes : forall ts' l, Permutation (t_tunnels (r_tm r) ++ acc) (l ++ ts') ->
      (hget 0 c = HTold -> ts' <> []) ->
      rinv (mkR c (r_em r) (r_count r) (mkTm true ts')) (tr ++ [(RTransit reqs ends, RTunnels acc l)])).
    { intros ts' l Pl Ne. constructor; cbn [r_ctx r_count r_tm t_alive t_tunnels].
      - exact C1.
      - rewrite shutdowns_snoc, <- (v_cnt _ _ V). lia.
      - rewrite C4. apply V.
      - rewrite C2. apply V.
      - discriminate.
      - intros _. rewrite C3. destruct C5 as [(_ & H1 & H2)|(_ & -> & H2)].
        + right. destruct Lv as [[X _]|(X & Y & _)]; [congruence|]. split; [exact X|]. split; [exact Y|]. right. split; [exact H2|exact (Ne H2)].
        + destruct Lv as [X|(X & Y & Z)]; [auto|]. right. destruct Z as [Z|[Z _]]; [congruence|]. split; [exact X|]. split; [exact Y|]. right. split; [exact Z|exact (Ne Z)].
      - rewrite C3. apply V.
      - intros G. rewrite accepted_snoc, ended_snoc, <- app_assoc. apply Bal; [exact Pl|eapply GG; exact G]. }
    assert (Sd : hget 0 c = HTold -> is_shutting_down c = true) by (unfold is_shutting_down; intros ->; reflexivity).
    assert (Rest : forall res l, expire_all (is_shutting_down c) ends (t_tunnels (r_tm r) ++ acc) = (res, l) ->
      (hget 0 c = HTold -> t_tunnels (r_tm r) ++ acc <> []) ->
      (match res with
       | Some ts' => (mkR c (r_em r) (r_count r) (mkTm true ts'), (acc, l))
       | None => (mkR (tm_end (handle_answer 0 c)) (r_em r) (r_count r) (mkTm false []), (acc, l)) end) = (r1, p) ->
      rinv r1 (tr ++ [(RTransit reqs ends, RTunnels (fst p) (snd p))])).
    { intros res l Ex Ne Q. apply expire_all_spec in Ex. destruct res as [ts'|]; apply pair_equal_spec in Q as [<- <-]; cbn [fst snd].
      - destruct Ex as [Pl K]. apply Goes; [exact Pl|]. intros T. apply K; auto.
      - destruct Ex as [Pl K]. apply Ended. exact Pl. }
    destruct (expire_all (is_shutting_down c) ends (t_tunnels (r_tm r) ++ acc)) as [res l] eqn:Ex.
    destruct told.
    + destruct (t_tunnels (r_tm r) ++ acc) as [|t0 ts0] eqn:Tt.
      * apply pair_equal_spec in E as [<- <-]. cbn [fst snd]. apply Ended. reflexivity.
      * eapply Rest; [reflexivity|discriminate|exact E].
    + eapply Rest; [reflexivity| |exact E]. intros T.
      destruct C5 as [(X & _)|(_ & -> & _)]; [discriminate|].
      destruct Lv as [[X _]|(_ & _ & [X|[_ X]])]; try congruence.
      intros Y. apply app_eq_nil in Y as [Y _]. congruence.
  - (* RGone *)
    apply pair_equal_spec in H as [<- <-].
    destruct (hset_fields 0 HDropped (r_ctx r)) as (A & B & C & D).
    assert (Len := v_len _ _ V).
    constructor; cbn [r_ctx r_count r_tm t_alive t_tunnels]; unfold tm_end, handle_drop; rewrite ?A, ?B, ?C, ?D; try apply V.
    + rewrite shutdowns_snoc, <- (v_cnt _ _ V). lia.
    + intros _. rewrite hget_hset by lia. auto.
    + discriminate.
    + intros G. exfalso. apply G, gone_snoc. auto.
  - (* RFinish *)
    apply pair_equal_spec in H as [<- <-].
    destruct (wstep (r_ctx r) (WFinish 0)) as [c w] eqn:E.
    assert (Ec : c = fst (task_run 0 (r_ctx r))).
    { unfold wstep in E. destruct (task_run 0 (r_ctx r)). apply pair_equal_spec in E as [<- _]. reflexivity. }
    rewrite <- Ec. clear Ec. unfold wstep, task_run in E.
    destruct (existsb (Nat.eqb 0) (c_futs (r_ctx r))).
    2:{ apply pair_equal_spec in E as [<- _]. eapply rinv_same; cbn [r_ctx r_count r_tm]; eauto; discriminate. }
    destruct (hget 0 (r_ctx r)) eqn:H0; apply pair_equal_spec in E as [<- _];
      try (eapply rinv_same; cbn [r_ctx r_count r_tm]; eauto; discriminate).
    all: eapply rinv_same; cbn [r_ctx r_count r_tm c_hs c_handles c_sd c_futs]; eauto; try discriminate;
      [intros i I; apply filter_In in I; tauto|];
      intros Al; destruct (v_live _ _ V Al) as [[X _]|(_ & _ & [X|[X _]])]; congruence.
  - apply pair_equal_spec in H as [<- <-]. eapply rinv_same; eauto; discriminate.
  - destruct (em_recv (r_em r)) as [e y]. apply pair_equal_spec in H as [<- <-]. eapply rinv_same; eauto; discriminate.
Qed.

Lemma rinv_run : forall conf os r tr, rrun conf (router0 : router name) os = (r, tr) -> rinv r tr.
Proof.
  induction os as [|o os IH] using rev_ind; intros r tr H.
  - apply pair_equal_spec in H as [<- <-]. apply rinv0.
  - rewrite rrun_app in H. destruct (rrun conf router0 os) as [r1 t1] eqn:E.
    cbn [rrun] in H. destruct (rstep conf r1 o) as [r2 x] eqn:St. apply pair_equal_spec in H as [<- <-].
    eapply rinv_step; eauto.
Qed.

(** [gone] is a matter of fact. *)
Lemma gone_dec : forall tr : rtrace name, gone tr \/ ~ gone tr.
Proof.
  induction tr as [|[o x] tr IH].
  - right. intros (y & []).
  - destruct IH as [(y & Y)|N]; [left; exists y; right; exact Y|].
    destruct o; try (right; intros (y & [Y|Y]); [discriminate|apply N; exists y; exact Y]).
    left. exists x. left. reflexivity.
Qed.

Lemma router_done_only : forall conf os r tr fired r',
  rrun conf (router0 : router name) os = (r, tr) -> rstep conf r (RPoll fired false) = (r', RReady true) ->
  shutdowns tr >= 2 \/
  (shutdowns tr = 1 /\ (gone tr \/ Permutation (accepted tr) (ended tr))).
Proof.
  intros conf os r tr fired r' R P. apply rinv_run in R as V. rewrite <- (v_cnt _ _ V).
  unfold rstep, r_poll in P. destruct (IMMEDIATE <=? r_count r) eqn:I.
  - apply Nat.leb_le in I. unfold IMMEDIATE in I. left. lia.
  - apply Nat.leb_gt in I. unfold IMMEDIATE in I.
    destruct (ctx_poll (r_ctx r)) as [c ready] eqn:E. apply ctx_poll_fields in E as (_ & _ & _ & _ & E).
    destruct ready; [|discriminate]. destruct (proj1 E eq_refl) as [F S].
    rewrite (v_sd _ _ V) in S. apply Nat.leb_le in S. right. split; [lia|].
    destruct (t_alive (r_tm r)) eqn:Al.
    + exfalso. destruct (v_live _ _ V Al) as [[_ X]|(_ & X & _)]; [lia|]. rewrite F in X. destruct X.
    + destruct (v_dead _ _ V Al) as [_ T]. destruct (gone_dec tr) as [G|G]; [left; exact G|right].
      pose proof (v_bal _ _ V G) as B. rewrite T, app_nil_r in B. exact B.
Qed.

Lemma router_at_once : forall conf os r tr fired tdone,
  rrun conf (router0 : router name) os = (r, tr) -> shutdowns tr >= 2 ->
  exists r', rstep conf r (RPoll fired tdone) = (r', RReady true).
Proof.
  intros conf os r tr fired tdone R S. apply rinv_run in R as V. rewrite <- (v_cnt _ _ V) in S.
  exists r. unfold rstep, r_poll. replace (IMMEDIATE <=? r_count r) with true; [reflexivity|].
  symmetry. apply Nat.leb_le. exact S.
Qed.

(** Once shutdown has been asked for, a poll of the manager leaves it told or ended. *)
Definition nomore r : Prop := t_alive (r_tm r) = false \/ is_shutting_down (r_ctx r) = true.

Lemma transit_told : forall conf r tr q l r' x, rinv r tr -> r_count r >= 1 ->
  rstep conf r (RTransit q l) = (r', x) ->
  t_alive (r_tm r') = false \/ hget 0 (r_ctx r') = HTold.
Proof.
  intros conf r tr q l r' x V C H. unfold rstep in H.
  destruct (tm_poll conf q l r) as [r1 p] eqn:E. apply pair_equal_spec in H as [<- _].
  unfold tm_poll in E. destruct (t_alive (r_tm r)) eqn:Al; cbn [negb] in E.
  2:{ apply pair_equal_spec in E as [<- _]. auto. }
  destruct (v_live _ _ V Al) as [[_ X]|(_ & _ & X)]; [lia|].
  assert (Len := v_len _ _ V).
  destruct (accept_all conf (r_ctx r) q (t_tunnels (r_tm r))) as [ts acc].
  destruct (handle_poll 0 (r_ctx r)) as [c told] eqn:Hp.
  assert (Hc : hget 0 c = HTold).
  { unfold handle_poll in Hp. destruct X as [X|[X _]]; rewrite X in Hp; apply pair_equal_spec in Hp as [<- _]; [|exact X].
    rewrite hget_hset by lia. reflexivity. }
  destruct (expire_all (is_shutting_down c) l ts) as [res l'].
  destruct told, ts, res; apply pair_equal_spec in E as [<- _]; cbn [r_tm t_alive r_ctx]; auto.
Qed.

Lemma nomore_step : forall conf r o r' x, length (c_hs (r_ctx r)) = 1 -> nomore r -> rstep conf r o = (r', x) ->
  nomore r' /\ (forall acc l, x = RTunnels acc l -> acc = []).
Proof.
  intros conf r o r' x Len M H. unfold nomore in *. destruct o; unfold rstep in H.
  - apply pair_equal_spec in H as [<- <-]. split; [|discriminate]. unfold r_shutdown.
    destruct (Nat.eqb _ 1); cbn [r_tm r_ctx]; [|exact M]. destruct M as [M|M]; [auto|right].
    destruct (ctx_shutdown (r_ctx r)) as [c w] eqn:E. unfold ctx_shutdown in E.
    destruct (fold_left notify _ _) as [c2 w2] eqn:F. apply pair_equal_spec in E as [<- _].
    apply notify_all in F as ((_ & _ & _ & _ & _ & _ & F & _) & _). cbn [fst].
    unfold is_shutting_down in *. change (hget 0 (mkCtx (c_hs c2) _ _ _ _ _ _ _)) with (hget 0 c2).
    rewrite F. change (hget 0 (mkCtx (c_hs (r_ctx r)) _ _ _ _ _ _ _)) with (hget 0 (r_ctx r)).
    destruct (hget 0 (r_ctx r)); try discriminate; destruct (existsb _ _); reflexivity.
  - unfold r_poll in H. destruct (IMMEDIATE <=? r_count r).
    + apply pair_equal_spec in H as [<- <-]. split; [exact M|discriminate].
    + destruct (ctx_poll (r_ctx r)) as [c ready] eqn:E. apply ctx_poll_fields in E as (E & _).
      assert (X : is_shutting_down c = is_shutting_down (r_ctx r)) by (unfold is_shutting_down, hget; rewrite E; reflexivity).
      destruct ready; apply pair_equal_spec in H as [<- <-]; cbn [r_tm r_ctx]; rewrite X; (split; [exact M|discriminate]).
  - destruct (tm_poll conf reqs ends r) as [r1 p] eqn:E. apply pair_equal_spec in H as [<- <-].
    unfold tm_poll in E. destruct (t_alive (r_tm r)) eqn:Al; cbn [negb] in E.
    2:{ apply pair_equal_spec in E as [<- <-]. split; [auto|]. cbn [fst snd]. intros acc l [= <- _]. reflexivity. }
    destruct M as [M|M]; [discriminate|].
    destruct (accept_all conf (r_ctx r) reqs (t_tunnels (r_tm r))) as [ts acc] eqn:Ac.
    apply accept_all_spec in Ac as [_ Ac]. specialize (Ac M). subst acc.
    assert (Hp : handle_poll 0 (r_ctx r) = (r_ctx r, false)).
    { unfold handle_poll, is_shutting_down in *. destruct (hget 0 (r_ctx r)); congruence. }
    rewrite Hp in E. destruct (expire_all _ _ _) as [res l'].
    destruct res; apply pair_equal_spec in E as [<- <-]; cbn [r_tm r_ctx t_alive fst snd];
      (split; [auto|intros acc l0 [= <- _]; reflexivity]).
  - apply pair_equal_spec in H as [<- <-]. cbn [r_tm r_ctx t_alive]. split; [auto|discriminate].
  - apply pair_equal_spec in H as [<- <-]. cbn [r_tm r_ctx]. split; [|discriminate].
    destruct M as [M|M]; [auto|right]. unfold is_shutting_down, task_run in *.
    destruct (existsb _ _); [destruct (hget 0 (r_ctx r)) eqn:X; cbn [fst]|cbn [fst]]; rewrite ?X; try exact M;
      unfold hget in *; cbn [c_hs]; rewrite X; exact M.
  - apply pair_equal_spec in H as [<- <-]. split; [exact M|discriminate].
  - destruct (em_recv (r_em r)) as [e y]. apply pair_equal_spec in H as [<- <-]. split; [exact M|discriminate].
Qed.

Lemma nomore_run : forall conf os r tr r' tr', rinv r tr -> nomore r -> rrun conf r os = (r', tr') ->
  accepted tr' = [].
Proof.
  induction os as [|o os IH]; intros r tr r' tr' V M H; cbn [rrun] in H.
  - apply pair_equal_spec in H as [_ <-]. reflexivity.
  - destruct (rstep conf r o) as [r1 x] eqn:S. destruct (rrun conf r1 os) as [r2 t] eqn:R.
    apply pair_equal_spec in H as [_ <-].
    destruct (nomore_step _ _ _ _ _ (v_len _ _ V) M S) as [M' A].
    pose proof (rinv_step _ _ _ _ _ _ V S) as V'. specialize (IH _ _ _ _ V' M' R).
    unfold accepted in *. cbn [flat_map snd]. rewrite IH, app_nil_r.
    destruct x; auto. eapply A. reflexivity.
Qed.

Lemma router_no_more : forall conf os1 os2 q l r tr,
  rrun conf (router0 : router name) (os1 ++ [RTransit q l]) = (r, tr) -> In RShutdown os1 ->
  forall r' tr', rrun conf r os2 = (r', tr') -> accepted tr' = [].
Proof.
  intros conf os1 os2 q l r tr R I r' tr' R2. rewrite rrun_app in R.
  destruct (rrun conf router0 os1) as [r1 t1] eqn:E1. cbn [rrun] in R.
  destruct (rstep conf r1 (RTransit q l)) as [r3 x] eqn:S. apply pair_equal_spec in R as [<- <-].
  pose proof (rinv_run _ _ _ _ E1) as V1.
  assert (C : r_count r1 >= 1).
  { rewrite (v_cnt _ _ V1). clear -E1 I. revert E1. generalize (router0 : router name). revert r1 t1.
    induction os1 as [|o os IH]; [destruct I|]. intros r1 t1 r0 E. cbn [rrun] in E.
    destruct (rstep conf r0 o) as [ra xa]. destruct (rrun conf ra os) as [rb tb] eqn:Eb.
    apply pair_equal_spec in E as [_ <-]. unfold shutdowns. cbn [filter fst].
    destruct I as [->|I]; [cbn [length]; lia|]. specialize (IH I _ _ _ Eb). unfold shutdowns in IH.
    destruct o; cbn [length]; lia. }
  pose proof (rinv_step _ _ _ _ _ _ V1 S) as V3.
  eapply nomore_run; [exact V3| |exact R2].
  destruct (transit_told _ _ _ _ _ _ _ V1 C S) as [X|X]; [left; exact X|right].
  unfold is_shutting_down. rewrite X. reflexivity.
Qed.

Lemma router_done_when : forall conf os r tr q l r1 x1 r2 x2 fired tdone,
  rrun conf (router0 : router name) os = (r, tr) -> shutdowns tr >= 1 ->
  rstep conf r (RTransit q l) = (r1, x1) ->
  gone tr \/ Permutation (accepted (tr ++ [(RTransit q l, x1)])) (ended (tr ++ [(RTransit q l, x1)])) ->
  rstep conf r1 RFinish = (r2, x2) ->
  exists r3, rstep conf r2 (RPoll fired tdone) = (r3, RReady true).
Proof.
  intros conf os r tr q l r1 x1 r2 x2 fired tdone R C S D F.
  pose proof (rinv_run _ _ _ _ R) as V. rewrite <- (v_cnt _ _ V) in C.
  pose proof (rinv_step _ _ _ _ _ _ V S) as V1.
  assert (Al : t_alive (r_tm r1) = false).
  { destruct (gone_dec tr) as [G|G].
    - assert (X : t_alive (r_tm r) = false).
      { clear -R G. revert r tr R G. induction os as [|o os IH] using rev_ind; intros r tr R G.
        - apply pair_equal_spec in R as [<- <-]. destruct G as (y & []).
        - rewrite rrun_app in R. destruct (rrun conf router0 os) as [ra ta] eqn:E. cbn [rrun] in R.
          destruct (rstep conf ra o) as [rb x] eqn:St. apply pair_equal_spec in R as [<- <-].
          assert (K : t_alive (r_tm ra) = false -> t_alive (r_tm rb) = false).
          { intros A. unfold rstep in St. destruct o.
            - apply pair_equal_spec in St as [<- _]. unfold r_shutdown. destruct (Nat.eqb _ 1); exact A.
            - unfold r_poll in St. destruct (IMMEDIATE <=? r_count ra); [apply pair_equal_spec in St as [<- _]; exact A|].
              destruct (ctx_poll (r_ctx ra)) as [c b]. destruct b; apply pair_equal_spec in St as [<- _]; exact A.
            - unfold tm_poll in St. rewrite A in St. apply pair_equal_spec in St as [<- _]. exact A.
            - apply pair_equal_spec in St as [<- _]. reflexivity.
            - apply pair_equal_spec in St as [<- _]. exact A.
            - apply pair_equal_spec in St as [<- _]. exact A.
            - destruct (em_recv (r_em ra)). apply pair_equal_spec in St as [<- _]. exact A. }
          apply gone_snoc in G as [G|G]; [apply K; eapply IH; eauto|]. subst o.
          unfold rstep in St. apply pair_equal_spec in St as [<- _]. reflexivity. }
      unfold rstep, tm_poll in S. rewrite X in S. apply pair_equal_spec in S as [<- _]. exact X.
    - destruct D as [D|D]; [contradiction|].
      destruct (t_alive (r_tm r1)) eqn:A; [exfalso|reflexivity].
      destruct (transit_told _ _ _ _ _ _ _ V C S) as [X|X]; [congruence|].
      destruct (v_live _ _ V1 A) as [[Y _]|(_ & _ & [Y|[_ Y]])]; try congruence.
      assert (G1 : ~ gone (tr ++ [(RTransit q l, x1)])).
      { intros Z. apply gone_snoc in Z as [Z|Z]; [auto|discriminate]. }
      pose proof (v_bal _ _ V1 G1) as B. apply Permutation_length in B, D. rewrite app_length in B.
      destruct (t_tunnels (r_tm r1)); [congruence|]. cbn [length] in B. lia. }
  destruct (v_dead _ _ V1 Al) as [H0 _].
  pose proof (rinv_step _ _ _ _ _ _ V1 F) as V2.
  assert (C2 : r_count r2 >= 1).
  { rewrite (v_cnt _ _ V2), !shutdowns_snoc, <- (v_cnt _ _ V). lia. }
  assert (Fu : c_futs (r_ctx r2) = []).
  { destruct (c_futs (r_ctx r2)) as [|i t] eqn:Q; [reflexivity|exfalso].
    assert (I : In i (c_futs (r_ctx r2))) by (rewrite Q; left; reflexivity).
    pose proof (v_futs _ _ V2 i I) as ->.
    unfold rstep in F. apply pair_equal_spec in F as [<- _]. cbn [r_ctx] in I.
    destruct (wstep (r_ctx r1) (WFinish 0)) as [c w] eqn:E.
    assert (Ec : c = fst (task_run 0 (r_ctx r1))).
    { unfold wstep in E. destruct (task_run 0 (r_ctx r1)). apply pair_equal_spec in E as [<- _]. reflexivity. }
    rewrite <- Ec in I. apply finish_one in E as (_ & _ & _ & E). apply E; auto. }
  unfold rstep, r_poll. destruct (IMMEDIATE <=? r_count r2); [eexists; reflexivity|].
  destruct (ctx_poll (r_ctx r2)) as [c b] eqn:P. apply ctx_poll_fields in P as (_ & _ & _ & _ & P).
  replace b with true; [eexists; reflexivity|]. symmetry. apply P. split; [exact Fu|].
  rewrite (v_sd _ _ V2). apply Nat.leb_le. exact C2.
Qed.

(** ** The last notice *)
Lemma never_shut_down : forall conf os r tr, rrun conf (router0 : router name) os = (r, tr) ->
  (r_count r = 0 -> e_state (r_em r) = Active) /\ (r_count r >= 1 -> e_state (r_em r) = Closing) /\
  ~ In ShutDown (rgot tr ++ e_status (r_em r)).
Proof.
  induction os as [|o os IH] using rev_ind; intros r tr H.
  - apply pair_equal_spec in H as [<- <-]. cbn. split; [auto|]. split; [lia|auto].
  - rewrite rrun_app in H. destruct (rrun conf router0 os) as [r1 t] eqn:E. cbn [rrun] in H.
    destruct (rstep conf r1 o) as [r2 x] eqn:S. apply pair_equal_spec in H as [<- <-].
    destruct (IH _ _ eq_refl) as (A & B & C). unfold rgot. rewrite flat_map_app. fold (rgot t).
    cbn [flat_map snd]. rewrite app_nil_r, <- app_assoc.
    assert (Poll : forall fired, e_state (fst (em_poll fired (r_em r1))) = e_state (r_em r1) /\
       ~ In ShutDown (rgot t ++ e_status (fst (em_poll fired (r_em r1))))).
    { intros fired. unfold em_poll. destruct (drain _ _ _) as [cs ss]. destruct fired; [|split; [reflexivity|exact C]].
      destruct (push _ _) as [q b] eqn:P. cbn [fst e_state e_status]. split; [reflexivity|].
      apply push_cases in P as [(_ & -> & _)|(_ & -> & _)]; [|exact C].
      rewrite app_assoc. intros X. apply in_snoc in X as [X|X]; [auto|discriminate]. }
    destruct o; unfold rstep in S.
    + apply pair_equal_spec in S as [<- <-]. unfold r_shutdown. cbn [app].
      destruct (r_count r1) as [|n] eqn:Cn; cbn [Nat.eqb r_em r_count].
      * unfold em_shutdown. rewrite (A eq_refl). destruct (push _ _) as [q b] eqn:P. cbn [fst e_state e_status].
        split; [lia|]. split; [auto|]. apply push_cases in P as [(_ & -> & _)|(_ & -> & _)]; [|exact C].
        rewrite app_assoc. intros X. apply in_snoc in X as [X|X]; [auto|discriminate].
      * split; [lia|]. split; [intros _; apply B; lia|exact C].
    + unfold r_poll in S. destruct (IMMEDIATE <=? r_count r1).
      { apply pair_equal_spec in S as [<- <-]. auto. }
      destruct (ctx_poll (r_ctx r1)) as [c b]. destruct b; apply pair_equal_spec in S as [<- <-]; cbn [r_em r_count app]; auto.
      destruct (Poll fired) as [P1 P2]. rewrite P1. auto.
    + unfold tm_poll in S. destruct (negb _); [apply pair_equal_spec in S as [<- <-]; auto|].
      destruct (accept_all _ _ _ _) as [ts acc]. destruct (handle_poll 0 (r_ctx r1)) as [c told].
      destruct (expire_all _ _ _) as [res l].
      destruct told, ts, res; apply pair_equal_spec in S as [<- <-]; cbn [r_em r_count app]; auto.
    + apply pair_equal_spec in S as [<- <-]. auto.
    + apply pair_equal_spec in S as [<- <-]. auto.
    + apply pair_equal_spec in S as [<- <-]. cbn [r_em r_count app]. unfold estep. cbv zeta.
      destruct (push _ _) as [q b]. auto.
    + unfold em_recv in S. destruct (e_status (r_em r1)) as [|y q] eqn:Q; apply pair_equal_spec in S as [<- <-]; cbn [r_em r_count app e_state e_status].
      * rewrite Q. auto.
      * auto.
Qed.
End R.
