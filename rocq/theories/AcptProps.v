(** C144, C145: inbound connections are served, and one bad connection does not stop the router. *)
From Coq Require Import List NArith PeanoNat Bool Lia.
From Verif Require Import AcptModel AcptSpec.
Import ListNotations.

Lemma served_app : forall a b, served (a ++ b) = served a ++ served b.
Proof. induction a as [|[] a IH]; intros b; cbn; auto. rewrite IH. reflexivity. Qed.
Lemma wanted_app : forall l a b, wanted l (a ++ b) = wanted l a ++ wanted l b.
Proof. intros l. induction a as [|[] a IH]; intros b; cbn; auto; [rewrite IH; reflexivity | destruct l; [rewrite IH; reflexivity | auto]]. Qed.
Lemma arrivals_app : forall a b, arrivals (a ++ b) = arrivals a ++ arrivals b.
Proof. induction a as [|[] a IH]; intros b; cbn; auto. rewrite IH. reflexivity. Qed.

(** * One poll *)
Lemma handshakes_facts : forall s, let '(s1, e, ready) := handshakes s in
  s_local s1 = s_local s /\ s_queue s1 = s_queue s /\ s_sdone s1 = s_sdone s /\ s_qarmed s1 = s_qarmed s /\
  s_awake s1 = s_awake s /\
  served e = [] /\ filter about_sessions e = [] /\
  (s_over s1 = false ->
   filter about_handshakes e ++ flat_map of_handshake (s_hdone s1) = flat_map of_handshake (s_hdone s)) /\
  (~ In HPanic (s_hdone s) -> s_over s1 = s_over s) /\
  incl (s_hdone s1) (s_hdone s) /\
  (ready = true -> length (s_hdone s) = S (length (s_hdone s1))).
Proof.
  intros s. unfold handshakes. destruct (s_running s) as [|n] eqn:er, (s_hdone s) as [|[i r|r| |] rest] eqn:eh;
    cbn; repeat split; auto; try apply incl_refl; try (intros x hx; right; exact hx);
    try discriminate; try (intros hp; exfalso; apply hp; left; reflexivity).
Qed.
Lemma listen_facts : forall l q, let '(r, q1) := listen l q in
  match r with
  | LPending => wanted l q = [] /\ q1 = []
  | LConn c => wanted l q = c :: wanted l q1 /\ (length q1 < length q)%nat /\ incl q1 q
  | LEnd => In AcceptError q
  end.
Proof.
  intros l. induction q as [|[c|c|] q IH]; cbn.
  - auto.
  - split; [reflexivity|]. split; [lia|]. intros x hx. right. exact hx.
  - destruct l.
    + split; [reflexivity|]. split; [lia|]. intros x hx. right. exact hx.
    + destruct (listen false q) as [[| |c'] q1].
      * exact IH.
      * right. exact IH.
      * destruct IH as (a & b & d). split; [exact a|]. split; [lia|]. intros x hx. right. apply d, hx.
  - left. reflexivity.
Qed.


Lemma poll_next_facts : forall s, let '(s1, e, ready) := poll_next s in
  s_local s1 = s_local s /\
  (s_over s1 = false ->
    served e ++ wanted (s_local s) (s_queue s1) = wanted (s_local s) (s_queue s) /\
    filter about_handshakes e ++ flat_map of_handshake (s_hdone s1) = flat_map of_handshake (s_hdone s) /\
    filter about_sessions e ++ flat_map of_session (s_sdone s1) = flat_map of_session (s_sdone s)) /\
  (good s -> good s1 /\ s_over s1 = s_over s) /\
  (s_over s1 = false -> ready = true -> (enough s1 < enough s)%nat) /\
  (good s -> ready = false -> wanted (s_local s) (s_queue s) <> [] -> served e <> []).
Proof.
  intros s. unfold poll_next. destruct (s_sdone s) as [|[r|] rest] eqn:es.
  - pose proof (listen_facts (s_local s) (s_queue s)) as hl. destruct (listen (s_local s) (s_queue s)) as [[| |c] q] eqn:el.
    + match goal with |- context [handshakes ?x] => pose proof (handshakes_facts x) as h; destruct (handshakes x) as [[s1 e] ready] end.
      cbn in h. destruct h as (h1 & h2 & h3 & h4 & h5 & h6 & h7 & h8 & h9 & h10 & h11). destruct hl as [hw ->].
      rewrite h1, h2, h3. split; [reflexivity|]. split; [|split; [|split]].
      * intros ho. rewrite h6, h7, hw. split; [reflexivity|]. split; [apply h8; exact ho | reflexivity].
      * intros (g1 & g2 & g3). split; [|apply h9; exact g2]. unfold good. rewrite h2, h3.
        split; [intros []|]. split; [intros x; apply g2, h10, x | intros []].
      * intros _ er. specialize (h11 er). unfold enough. rewrite h2, h3, es. cbn [length]. lia.
      * intros _ _ hne. contradiction.
    + cbn. split; [reflexivity|]. split; [|split; [|split]].
      * discriminate.
      * intros (g1 & _). contradiction.
      * discriminate.
      * discriminate.
    + destruct hl as (hw & hlen & hinc).
      match goal with |- context [handshakes ?x] => pose proof (handshakes_facts x) as h; destruct (handshakes x) as [[s1 e] ready] end.
      cbn in h. destruct h as (h1 & h2 & h3 & h4 & h5 & h6 & h7 & h8 & h9 & h10 & h11).
      rewrite h1, h2, h3. split; [reflexivity|]. split; [|split; [|split]].
      * intros ho. cbn. rewrite h6, h7, hw. split; [reflexivity|]. split; [apply h8; exact ho | reflexivity].
      * intros (g1 & g2 & g3). split; [|apply h9; exact g2]. unfold good. rewrite h2, h3.
        split; [intros x; apply g1, hinc, x|]. split; [intros x; apply g2, h10, x | intros []].
      * intros _ er. specialize (h11 er). unfold enough. rewrite h2, h3, es. cbn [length]. lia.
      * intros _ _ _. cbn. discriminate.
  - cbn. split; [reflexivity|]. split; [|split; [|split]].
    + intros _. auto.
    + intros (g1 & g2 & g3). split; [|reflexivity]. unfold good. cbn. split; [exact g1|]. split; [exact g2|].
      intros x. apply g3. rewrite es. right. exact x.
    + intros _ _. unfold enough. cbn. rewrite es. cbn. lia.
    + discriminate.
  - cbn. split; [reflexivity|]. split; [|split; [|split]].
    + discriminate.
    + intros (_ & _ & g3). exfalso. apply g3. rewrite es. left. reflexivity.
    + discriminate.
    + discriminate.
Qed.

(** * Polling until there is nothing *)
Lemma answer_facts : forall s e a, s_local (answer s e a) = s_local s /\ s_queue (answer s e a) = s_queue s /\
  s_hdone (answer s e a) = s_hdone s /\ s_sdone (answer s e a) = s_sdone s /\ s_over (answer s e a) = s_over s.
Proof. intros s e a. unfold answer. destruct (a && _); cbn; auto. Qed.
Lemma poll_facts : forall f a s, let '(s1, e) := poll f a s in
  s_local s1 = s_local s /\
  (s_over s = false -> s_over s1 = false ->
    served e ++ wanted (s_local s) (s_queue s1) = wanted (s_local s) (s_queue s) /\
    filter about_handshakes e ++ flat_map of_handshake (s_hdone s1) = flat_map of_handshake (s_hdone s) /\
    filter about_sessions e ++ flat_map of_session (s_sdone s1) = flat_map of_session (s_sdone s)) /\
  (good s -> good s1 /\ s_over s1 = s_over s) /\
  (good s -> s_over s = false -> (enough s <= f)%nat -> wanted (s_local s) (s_queue s) <> [] -> served e <> []).
Proof.
  induction f as [|f IH]; intros a s.
  - cbn. split; [reflexivity|]. split; [auto|]. split; [auto|]. intros _ _ h. unfold enough in h. lia.
  - cbn [poll]. pose proof (poll_next_facts s) as h. destruct (poll_next s) as [[s1 e] ready].
    destruct h as (h1 & h2 & h3 & h4 & h5).
    destruct (negb ready || s_over s1) eqn:eb.
    + split; [exact h1|]. split; [intros _; exact h2|]. split; [exact h3|].
      intros g ho _ hw. destruct (h3 g) as [_ e1]. rewrite ho in e1. rewrite e1, orb_false_r in eb.
      apply negb_true_iff in eb. exact (h5 g eb hw).
    + apply orb_false_iff in eb as [er eo]. apply negb_false_iff in er. subst ready.
      destruct (answer_facts s1 e a) as (a1 & a2 & a3 & a4 & a5). specialize (IH a (answer s1 e a)).
      destruct (poll f a (answer s1 e a)) as [s2 e2]. destruct IH as (i1 & i2 & i3 & i4).
      rewrite a1, a2, a3, a4, a5 in *. rewrite h1 in *.
      split; [exact i1|]. split; [|split].
      * intros ho ho2. destruct (h2 eo) as (x1 & x2 & x3). destruct (i2 eo ho2) as (y1 & y2 & y3).
        rewrite served_app, !filter_app, <- !app_assoc, y1, y2, y3. auto.
      * intros g. destruct (h3 g) as [g1 e1]. rewrite e1 in *. apply i3. unfold good in *. rewrite a2, a3, a4. exact g1.
      * intros g ho hf hw. rewrite served_app. destruct (h3 g) as [g1 _]. destruct (h2 eo) as (x1 & _).
        destruct (served e) as [|c l] eqn:ese; [|discriminate]. cbn [app] in *.
        apply i4.
        -- unfold good in *. rewrite a2, a3, a4. exact g1.
        -- exact eo.
        -- specialize (h4 eo eq_refl). unfold enough in *. rewrite a2, a3, a4. lia.
        -- rewrite x1. exact hw.
Qed.

(** * C144 *)
Lemma step_over : forall s o, s_over s = true -> step s o = (s, []).
Proof. intros s o h. unfold step. rewrite h. reflexivity. Qed.
Lemma step_served : forall s o, let '(s1, e) := step s o in s_local s1 = s_local s /\
  (s_over s1 = false ->
   served e ++ wanted (s_local s) (s_queue s1) = wanted (s_local s) (s_queue s) ++ wanted (s_local s) (arrivals [o])).
Proof.
  intros s o. unfold step. destruct (s_over s) eqn:eo.
  { split; [reflexivity|]. intros h. congruence. }
  destruct o as [c | h | x | | | a]; cbn [arrivals].
  - cbn. split; [reflexivity|]. intros _. rewrite wanted_app. reflexivity.
  - destruct (s_running s); cbn; (split; [reflexivity|]); intros _; rewrite app_nil_r; reflexivity.
  - cbn. split; [reflexivity|]. intros _. rewrite app_nil_r. reflexivity.
  - cbn. split; [reflexivity|]. intros _. rewrite app_nil_r. reflexivity.
  - cbn. split; [reflexivity|]. intros _. rewrite app_nil_r. reflexivity.
  - destruct (s_awake s); [|cbn; split; [reflexivity|]; intros _; rewrite app_nil_r; reflexivity].
    match goal with |- context [poll ?f a ?x] => pose proof (poll_facts f a x) as h; destruct (poll f a x) as [s1 e] end.
    cbn in h. destruct h as (h1 & h2 & _). split; [exact h1|]. intros ho. cbn. rewrite app_nil_r.
    apply h2; [reflexivity | exact ho].
Qed.
Lemma run_step : forall s o ops, run s (o :: ops) =
  (fst (run (fst (step s o)) ops), snd (step s o) ++ snd (run (fst (step s o)) ops)).
Proof. intros s o ops. cbn [run]. destruct (step s o) as [s1 a]. cbn [fst snd]. destruct (run s1 ops). reflexivity. Qed.
Lemma run_over : forall ops s, s_over s = true -> run s ops = (s, []).
Proof.
  induction ops as [|o ops IH]; intros s h; [reflexivity|]. rewrite run_step, step_over by exact h. cbn [fst snd].
  rewrite IH by exact h. reflexivity.
Qed.

Lemma run_split : forall a b s, run s (a ++ b) =
  (fst (run (fst (run s a)) b), snd (run s a) ++ snd (run (fst (run s a)) b)).
Proof.
  induction a as [|o a IH]; intros b s.
  - cbn [app run fst snd]. destruct (run s b). reflexivity.
  - rewrite <- app_comm_cons, !run_step, IH. cbn [fst snd]. rewrite app_assoc. reflexivity.
Qed.

(** Allowed connections are served in the order they arrived, each once; those not served yet are
    in the queue.  Connections from local addresses are served if and only if that is allowed. *)
Theorem C144_in_order : forall l ops s ev, run (start l) ops = (s, ev) -> s_over s = false ->
  served ev ++ wanted l (s_queue s) = wanted l (arrivals ops).
Proof.
  intros l ops s ev h ho.
  assert (gen : forall ops s0, s_over (fst (run s0 ops)) = false ->
    served (snd (run s0 ops)) ++ wanted (s_local s0) (s_queue (fst (run s0 ops))) =
    wanted (s_local s0) (s_queue s0) ++ wanted (s_local s0) (arrivals ops)).
  { clear. induction ops as [|o ops IH]; intros s0 ho.
    - cbn. rewrite app_nil_r. reflexivity.
    - rewrite run_step in *. cbn [fst snd] in *. pose proof (step_served s0 o) as hs.
      destruct (step s0 o) as [s1 e] eqn:es. cbn [fst snd] in *. destruct hs as [h1 h2].
      assert (o1 : s_over s1 = false).
      { destruct (s_over s1) eqn:e1; [|reflexivity]. rewrite run_over in ho by exact e1. cbn in ho. congruence. }
      specialize (h2 o1). specialize (IH s1 ho). rewrite h1 in IH. rewrite served_app, <- app_assoc, IH, app_assoc, h2.
      rewrite <- app_assoc. f_equal. change (o :: ops) with ([o] ++ ops). rewrite arrivals_app, wanted_app. reflexivity. }
  specialize (gen ops (start l)). rewrite h in gen. apply gen. exact ho.
Qed.
Print Assumptions C144_in_order.

(** When the task is polled, the transport manager hears of ended handshakes and sessions, each
    once and in order. *)
Theorem C144_results_in_order : forall s a s1 ev, step s (ORun a) = (s1, ev) -> s_over s1 = false ->
  filter about_handshakes ev ++ flat_map of_handshake (s_hdone s1) = flat_map of_handshake (s_hdone s) /\
  filter about_sessions ev ++ flat_map of_session (s_sdone s1) = flat_map of_session (s_sdone s).
Proof.
  intros s a s1 ev h ho. unfold step in h. destruct (s_over s) eqn:eo; [injection h as <- <-; auto|].
  destruct (s_awake s); [|injection h as <- <-; auto].
  match type of h with poll ?f a ?x = _ => pose proof (poll_facts f a x) as hp end. rewrite h in hp.
  cbn in hp. destruct hp as (_ & h2 & _). destruct (h2 eq_refl ho) as (_ & x & y). auto.
Qed.
Print Assumptions C144_results_in_order.

(** Whenever the task is polled and an allowed connection is waiting, one is served. *)
Theorem C144_served_when_polled_partial : forall s a, s_over s = false -> s_awake s = true -> good s ->
  wanted (s_local s) (s_queue s) <> [] -> served (snd (step s (ORun a))) <> [].
Proof.
  intros s a ho ha hg hw. unfold step. rewrite ho, ha.
  match goal with |- context [poll ?f a ?x] => pose proof (poll_facts f a x) as h; destruct (poll f a x) as [s1 e] end.
  destruct h as (_ & _ & _ & h4). apply h4; [exact hg | reflexivity | apply Nat.le_refl | exact hw].
Qed.
Print Assumptions C144_served_when_polled_partial.
Example C144_served_example :
  let s := fst (run (start false) [OArrive (FromLocal 1); OArrive (FromGlobal 2); ODial; OHandshake (HDialFailed 4)]) in
  s_over s = false /\ s_awake s = true /\ good s /\ wanted (s_local s) (s_queue s) = [2%N].
Proof.
  cbn. split; [reflexivity|]. split; [reflexivity|]. split; [|reflexivity]. unfold good. cbn.
  split; [intros [h|[h|[]]]; discriminate h|]. split; [intros [h|[]]; discriminate h | intros []].
Qed.
Example C144_example :
  let x := run (start false) [ORun true; OArrive (FromLocal 1); OArrive (FromGlobal 2); OArrive (FromGlobal 3); ORun true;
                     OHandshake (HSession true 9); ORun true] in
  snd x = [EHandshake 2; EHandshake 3; EEstablished true 9] /\ s_over (fst x) = false.
Proof. vm_compute. split; reflexivity. Qed.

(** But the task need not be polled.  After it has served one connection it does not wait for the
    next: connections that arrive then wait until something else happens in the router. *)
Theorem C144_not_woken_refuted : forall l c a b ops, Forall only_arrivals ops ->
  let s := fst (run (start l) [ORun a; OArrive (FromGlobal c); ORun b]) in
  snd (run s ops) = [] /\ s_awake (fst (run s ops)) = false /\
  s_queue (fst (run s ops)) = arrivals ops.
Proof.
  intros l c a b ops h s.
  assert (gen : forall ops s0, Forall only_arrivals ops -> s_awake s0 = false -> s_qarmed s0 = false -> s_over s0 = false ->
    snd (run s0 ops) = [] /\ s_awake (fst (run s0 ops)) = false /\ s_queue (fst (run s0 ops)) = s_queue s0 ++ arrivals ops).
  { clear. induction ops as [|o ops IH]; intros s0 hf ha hq ho.
    - cbn. rewrite app_nil_r. auto.
    - inversion hf as [|x y h1 h2]; subst. rewrite run_step. cbn [fst snd].
      destruct o as [k | | | | | a]; try (destruct h1; fail).
      + unfold step. rewrite ho. cbn [fst snd app]. rewrite ha, hq. cbn [orb].
        match goal with |- context [run ?x ops] => destruct (IH x h2 eq_refl eq_refl eq_refl) as (x1 & x2 & x3) end.
        split; [exact x1|]. split; [exact x2|]. rewrite x3. cbn. rewrite <- app_assoc. reflexivity.
      + unfold step. rewrite ho, ha. cbn [fst snd app arrivals]. apply IH; assumption. }
  destruct (gen ops s h) as (x1 & x2 & x3); [destruct a, b; reflexivity .. |]. split; [exact x1|]. split; [exact x2|].
  rewrite x3. unfold s. destruct a, b; reflexivity.
Qed.
Print Assumptions C144_not_woken_refuted.
Example C144_not_woken_example :
  Forall only_arrivals [OArrive (FromGlobal 2); ORun true; OArrive (FromGlobal 3); ORun true].
Proof. repeat constructor. Qed.

(** So with sessions: if two handshakes end at the same time and the first is an inbound one that
    failed, the task sleeps while the other, which succeeded, is ready. *)
Theorem C144_session_untold_refuted : forall s r d n, s_over s = false -> s_queue s = [] -> s_sdone s = [] ->
  s_hdone s = [HInboundFailed; HSession true r] -> snd (run s (repeat (ORun d) n)) = [].
Proof.
  intros s r d n ho hq hs hh.
  assert (asleep : forall n s, s_over s = false -> s_awake s = false -> snd (run s (repeat (ORun d) n)) = []).
  { clear. induction n as [|n IH]; intros s ho ha; [reflexivity|]. cbn [repeat]. rewrite run_step.
    assert (es : step s (ORun d) = (s, [])) by (unfold step; rewrite ho, ha; reflexivity).
    rewrite es. cbn [fst snd app]. apply IH; assumption. }
  destruct (s_awake s) eqn:ea; [|apply asleep; assumption].
  destruct n as [|n]; [reflexivity|]. cbn [repeat]. rewrite run_step.
  assert (es : exists s1, step s (ORun d) = (s1, []) /\ s_over s1 = false /\ s_awake s1 = false).
  { unfold step. rewrite ho, ea. unfold enough. cbn [poll]. unfold poll_next. cbn [s_sdone s_queue s_local].
    rewrite hs, hq. cbn [listen]. unfold handshakes. cbn [s_running s_hdone]. rewrite hh.
    destruct (s_running s); cbn; eexists; split; [reflexivity | split; reflexivity | reflexivity | split; reflexivity]. }
  destruct es as (s1 & es & e1 & e2). rewrite es. cbn [fst snd app]. apply asleep; assumption.
Qed.
Print Assumptions C144_session_untold_refuted.
Example C144_session_untold_example :
  let s := fst (run (start true) [OArrive (FromGlobal 1); ODial; ORun true; OHandshake HInboundFailed; OHandshake (HSession true 9)]) in
  s_over s = false /\ s_queue s = [] /\ s_sdone s = [] /\ s_hdone s = [HInboundFailed; HSession true 9].
Proof. vm_compute. auto. Qed.

(** * C145 *)
Lemma step_good : forall s o, mild o -> good s -> s_over s = false -> good (fst (step s o)) /\ s_over (fst (step s o)) = false.
Proof.
  intros s o hm hg ho. pose proof hg as (g1 & g2 & g3). unfold step. rewrite ho. destruct o as [c | h | x | | | a].
  - cbn. split; [|reflexivity]. unfold good. cbn. rewrite in_app_iff. split; [|auto].
    intros [h|[h|[]]]; [contradiction | subst c; exact hm].
  - destruct (s_running s); [split; [exact hg | exact ho]|]. cbn. split; [|reflexivity]. unfold good. cbn.
    rewrite in_app_iff. split; [exact g1|]. split; [|exact g3]. intros [k|[k|[]]]; [contradiction | subst h; exact hm].
  - cbn. split; [|reflexivity]. unfold good. cbn. rewrite in_app_iff. split; [exact g1|]. split; [exact g2|].
    intros [k|[k|[]]]; [contradiction | subst x; exact hm].
  - cbn. split; [exact hg | reflexivity].
  - cbn. split; [exact hg | reflexivity].
  - destruct (s_awake s); [|split; [exact hg | exact ho]].
    match goal with |- context [poll ?f a ?x] => pose proof (poll_facts f a x) as h; destruct (poll f a x) as [s1 e] end.
    destruct h as (_ & _ & h3 & _). cbn [fst]. apply h3. exact hg.
Qed.

(** As long as [accept] does not fail and no handshake or session panics, nothing others do ends
    the transport. *)
Theorem C145_goes_on_partial : forall l ops, Forall mild ops -> s_over (fst (run (start l) ops)) = false.
Proof.
  intros l ops h.
  assert (gen : forall ops s, Forall mild ops -> good s -> s_over s = false -> s_over (fst (run s ops)) = false).
  { clear. induction ops as [|o ops IH]; intros s hf hg ho; [exact ho|]. inversion hf as [|x y h1 h2]; subst.
    rewrite run_step. cbn [fst]. destruct (step_good s o h1 hg ho). apply IH; assumption. }
  apply gen; [exact h | | reflexivity]. unfold good. cbn. auto.
Qed.
Print Assumptions C145_goes_on_partial.
Example C145_goes_on_example : Forall mild [OArrive (FromGlobal 1); ODial; OHandshake HInboundFailed; OSession (SClosed 3); ORun true].
Proof. repeat constructor. Qed.

(** One failure of [accept], as when the limit of open files is reached, ends it when the task is
    polled; and so does a panic in one session or one handshake.  Nothing is done after that. *)
Theorem C145_accept_error_refuted : forall s a ops, s_over s = false -> s_queue s = [] -> s_sdone s = [] ->
  let '(s1, ev) := run s (OArrive AcceptError :: OOther :: ORun a :: ops) in s_over s1 = true /\ ev = [EEnd].
Proof.
  intros s a ops ho hq hs.
  assert (e : exists s1, run s [OArrive AcceptError; OOther; ORun a] = (s1, [EEnd]) /\ s_over s1 = true).
  { cbn [run]. unfold step at 1. rewrite ho. unfold step. cbn [s_over s_awake]. unfold enough. cbn [poll].
    unfold poll_next. cbn [s_sdone s_queue s_local]. rewrite hs, hq. cbn. eexists. split; reflexivity. }
  destruct e as (s1 & e & eo). change (OArrive AcceptError :: OOther :: ORun a :: ops) with
    ([OArrive AcceptError; OOther; ORun a] ++ ops).
  rewrite run_split, e. cbn [fst snd]. rewrite run_over by exact eo. cbn. auto.
Qed.
Print Assumptions C145_accept_error_refuted.
Theorem C145_panic_refuted : forall s a ops, s_over s = false -> s_sdone s = [] ->
  let '(s1, ev) := run s (OSession SPanic :: OOther :: ORun a :: ops) in s_over s1 = true /\ ev = [EEnd].
Proof.
  intros s a ops ho hs.
  assert (e : exists s1, run s [OSession SPanic; OOther; ORun a] = (s1, [EEnd]) /\ s_over s1 = true).
  { cbn [run]. unfold step at 1. rewrite ho. unfold step. cbn [s_over s_awake]. unfold enough. cbn [poll].
    unfold poll_next. cbn [s_sdone s_queue s_local]. rewrite hs. cbn. eexists. split; reflexivity. }
  destruct e as (s1 & e & eo). change (OSession SPanic :: OOther :: ORun a :: ops) with
    ([OSession SPanic; OOther; ORun a] ++ ops).
  rewrite run_split, e. cbn [fst snd]. rewrite run_over by exact eo. cbn. auto.
Qed.
Print Assumptions C145_panic_refuted.
Example C145_example : s_over (start true) = false /\ s_queue (start true) = [] /\ s_sdone (start true) = [].
Proof. repeat split. Qed.

(** * What is never slept through *)
Lemma poll_next_rest : forall s, let '(s1, e, ready) := poll_next s in
  (ready = false -> s_sdone s1 = [] /\ s_sarmed s1 = true /\ s_waker s1 = true /\
    (served e = [] -> s_queue s1 = [] /\ s_qarmed s1 = true) /\
    (~ In HInboundFailed (s_hdone s) -> s_hdone s1 = [] /\ (s_running s1 = O \/ s_harmed s1 = true))) /\
  incl (s_hdone s1) (s_hdone s).
Proof.
  intros s. unfold poll_next. destruct (s_sdone s) as [|[r|] rest] eqn:es.
  2,3: cbn; split; [discriminate | apply incl_refl].
  pose proof (listen_facts (s_local s) (s_queue s)) as hl.
  destruct (listen (s_local s) (s_queue s)) as [[| |c] q] eqn:el.
  - destruct hl as [_ ->]. unfold handshakes. cbn [s_running s_hdone].
    destruct (s_running s) as [|n], (s_hdone s) as [|[i r|r| |] rest]; cbn;
      (split; [first [discriminate | intros _; split; [reflexivity|]; split; [reflexivity|]; split; [reflexivity|]; split; [auto|]; intros hn; first [auto; fail | exfalso; apply hn; left; reflexivity]]
              | try apply incl_refl; intros x hx; right; exact hx]).
  - cbn. split; [discriminate | apply incl_refl].
  - unfold handshakes. cbn [s_running s_hdone].
    destruct (s_hdone s) as [|[i r|r| |] rest]; cbn;
      (split; [first [discriminate | intros _; split; [reflexivity|]; split; [reflexivity|]; split; [reflexivity|]; split; [discriminate|]; intros hn; first [auto; fail | exfalso; apply hn; left; reflexivity]]
              | try apply incl_refl; intros x hx; right; exact hx]).
Qed.
Lemma poll_rest : forall f a s, good s -> s_over s = false -> (enough s <= f)%nat -> let '(s1, e) := poll f a s in
  s_sdone s1 = [] /\ s_sarmed s1 = true /\ s_waker s1 = true /\
  (served e = [] -> s_queue s1 = [] /\ s_qarmed s1 = true) /\
  (~ In HInboundFailed (s_hdone s) -> s_hdone s1 = [] /\ (s_running s1 = O \/ s_harmed s1 = true)).
Proof.
  induction f as [|f IH]; intros a s hg ho hf; [unfold enough in hf; lia|].
  cbn [poll]. pose proof (poll_next_facts s) as h. pose proof (poll_next_rest s) as k.
  destruct (poll_next s) as [[s1 e] ready]. destruct h as (_ & _ & h3 & h4 & _). destruct k as [k1 k2].
  destruct (h3 hg) as [g1 o1]. rewrite ho in o1. rewrite o1. destruct ready; cbn [negb orb]; [|auto].
  pose proof (answer_facts s1 e a) as (a1 & a2 & a3 & a4 & a5).
  assert (ga : good (answer s1 e a)) by (unfold good in *; rewrite a2, a3, a4; exact g1).
  assert (ea : enough (answer s1 e a) = enough s1) by (unfold enough; rewrite a2, a3, a4; reflexivity).
  specialize (h4 o1 eq_refl).
  specialize (IH a (answer s1 e a) ga). rewrite a5, ea in IH. specialize (IH o1 ltac:(lia)).
  destruct (poll f a (answer s1 e a)) as [s2 e2]. destruct IH as (i1 & i2 & i3 & i4 & i5).
  split; [exact i1|]. split; [exact i2|]. split; [exact i3|]. split.
  - intros hs. rewrite served_app in hs. apply app_eq_nil in hs as [_ hs]. auto.
  - intros hn. apply i5. rewrite a3. intros hi. apply hn, k2, hi.
Qed.

Lemma step_told : forall s o, match o with OHandshake _ => s_running s <> O | _ => True end ->
  let '(s1, e) := step s o in s_over s1 = false ->
  filter about_handshakes e ++ flat_map of_handshake (s_hdone s1) =
    flat_map of_handshake (s_hdone s) ++ flat_map of_handshake (handshakes_ended [o]) /\
  filter about_sessions e ++ flat_map of_session (s_sdone s1) =
    flat_map of_session (s_sdone s) ++ flat_map of_session (sessions_ended [o]).
Proof.
  intros s o hl. destruct (s_over s) eqn:eo.
  { rewrite step_over by exact eo. intros h. congruence. }
  destruct o as [c | h | x | | | a]; cbn [handshakes_ended sessions_ended flat_map];
    try (unfold step; rewrite eo; cbn; intros _; rewrite !app_nil_r; auto; fail).
  - unfold step. rewrite eo. destruct (s_running s) as [|n]; [congruence|]. cbn. intros _.
    rewrite flat_map_app. cbn. rewrite !app_nil_r. auto.
  - unfold step. rewrite eo. cbn. intros _. rewrite flat_map_app. cbn. rewrite !app_nil_r. auto.
  - pose proof (C144_results_in_order s a) as h. destruct (step s (ORun a)) as [s1 e]. intros ho.
    rewrite !app_nil_r. exact (h s1 e eq_refl ho).
Qed.
Lemma handshakes_ended_cons : forall o ops, handshakes_ended (o :: ops) = handshakes_ended [o] ++ handshakes_ended ops.
Proof. intros [] ops; reflexivity. Qed.
Lemma sessions_ended_cons : forall o ops, sessions_ended (o :: ops) = sessions_ended [o] ++ sessions_ended ops.
Proof. intros [] ops; reflexivity. Qed.

(** The transport manager hears of every session and handshake that ended, once and in the order
    they ended; what it has not heard is waiting. *)
Theorem C144_told_in_order : forall l ops s ev, run (start l) ops = (s, ev) -> s_over s = false -> legal (start l) ops ->
  filter about_handshakes ev ++ flat_map of_handshake (s_hdone s) = flat_map of_handshake (handshakes_ended ops) /\
  filter about_sessions ev ++ flat_map of_session (s_sdone s) = flat_map of_session (sessions_ended ops).
Proof.
  intros l ops s ev h ho hl.
  assert (gen : forall ops s0, s_over (fst (run s0 ops)) = false -> legal s0 ops ->
    filter about_handshakes (snd (run s0 ops)) ++ flat_map of_handshake (s_hdone (fst (run s0 ops))) =
      flat_map of_handshake (s_hdone s0) ++ flat_map of_handshake (handshakes_ended ops) /\
    filter about_sessions (snd (run s0 ops)) ++ flat_map of_session (s_sdone (fst (run s0 ops))) =
      flat_map of_session (s_sdone s0) ++ flat_map of_session (sessions_ended ops)).
  { clear. induction ops as [|o ops IH]; intros s0 ho hl.
    - cbn. rewrite !app_nil_r. auto.
    - rewrite run_step in *. cbn [fst snd] in *. destruct hl as [l1 l2]. pose proof (step_told s0 o l1) as hs.
      destruct (step s0 o) as [s1 e] eqn:es. cbn [fst snd] in *.
      assert (o1 : s_over s1 = false).
      { destruct (s_over s1) eqn:e1; [|reflexivity]. rewrite run_over in ho by exact e1. cbn in ho. congruence. }
      destruct (hs o1) as [x y]. destruct (IH s1 ho l2) as [u v].
      rewrite handshakes_ended_cons, sessions_ended_cons, !flat_map_app, !filter_app, <- !app_assoc, u, v.
      rewrite app_assoc, x, <- app_assoc. split; [reflexivity|]. rewrite app_assoc, y, <- app_assoc. reflexivity. }
  specialize (gen ops (start l)). rewrite h in gen. cbn [fst snd] in gen. exact (gen ho hl).
Qed.
Print Assumptions C144_told_in_order.

(** Sessions that end always wake the task. *)
Definition wakes_for_sessions (s : state) : Prop := s_awake s = true \/ (s_sdone s = [] /\ s_sarmed s = true).
Definition wakes_for_handshakes (s : state) : Prop :=
  s_awake s = true \/ (s_hdone s = [] /\ s_waker s = true /\ (s_running s = O \/ s_harmed s = true)).
Lemma step_wakes : forall s o, mild o -> good s -> s_over s = false -> wakes_for_sessions s ->
  wakes_for_sessions (fst (step s o)).
Proof.
  intros s o hm hg ho hw. unfold wakes_for_sessions in *. unfold step. rewrite ho.
  destruct o as [c | h | x | | | a]; try (cbn; destruct hw as [->|[h1 h2]]; cbn; auto; fail).
  - destruct (s_running s); [exact hw|]. cbn. destruct hw as [->|[h1 h2]]; cbn; auto.
  - cbn. destruct hw as [->|[h1 h2]]; cbn; auto. left. rewrite h2. apply orb_true_r.
  - cbn. auto.
  - destruct (s_awake s) eqn:ea; [|cbn; rewrite ea; exact hw].
    match goal with |- context [poll ?f a ?x] => pose proof (poll_rest f a x hg eq_refl (Nat.le_refl _)) as h; destruct (poll f a x) as [s1 e] end.
    cbn. destruct h as (h1 & h2 & _). auto.
Qed.
Definition no_failed_inbound (o : op) : Prop := o <> OHandshake HInboundFailed.
Lemma step_wakes2 : forall s o, mild o -> no_failed_inbound o -> good s -> ~ In HInboundFailed (s_hdone s) -> s_over s = false ->
  wakes_for_handshakes s -> wakes_for_handshakes (fst (step s o)) /\ ~ In HInboundFailed (s_hdone (fst (step s o))).
Proof.
  intros s o hm hn hg hi ho hw. unfold wakes_for_handshakes in *. unfold step. rewrite ho.
  destruct o as [c | h | x | | | a]; try (cbn; split; [|exact hi]; destruct hw as [->|(h1 & h2 & h3)]; cbn; auto; fail).
  - destruct (s_running s) as [|n] eqn:er; cbn.
    + rewrite er. split; [exact hw | exact hi].
    + split.
      * destruct hw as [->|(h1 & h2 & [h3|h3])]; [auto | discriminate h3 | left; rewrite h3; apply orb_true_r].
      * rewrite in_app_iff. intros [k|[k|[]]]; [contradiction | subst h; apply hn; reflexivity].
  - cbn. split; [|exact hi]. left. destruct hw as [->|(h1 & h2 & h3)]; [reflexivity | rewrite h2; apply orb_true_r].
  - cbn. split; [auto | exact hi].
  - destruct (s_awake s) eqn:ea; [|cbn; rewrite ea; split; [exact hw | exact hi]].
    match goal with |- context [poll ?f a ?x] => pose proof (poll_rest f a x hg eq_refl (Nat.le_refl _)) as h; destruct (poll f a x) as [s1 e] end.
    cbn [fst]. destruct h as (_ & _ & h3 & _ & h5). destruct (h5 hi) as [h6 h7]. split; [auto|]. rewrite h6. intros [].
Qed.
Lemma run_wakes : forall ops s, Forall mild ops -> good s -> s_over s = false -> wakes_for_sessions s ->
  let s1 := fst (run s ops) in good s1 /\ s_over s1 = false /\ wakes_for_sessions s1 /\
  (Forall no_failed_inbound ops -> ~ In HInboundFailed (s_hdone s) -> wakes_for_handshakes s ->
   ~ In HInboundFailed (s_hdone s1) /\ wakes_for_handshakes s1).
Proof.
  induction ops as [|o ops IH]; intros s hm hg ho hw; [cbn; auto|]. inversion hm as [|x y m1 m2]; subst.
  rewrite run_step. cbn [fst]. destruct (step_good s o m1 hg ho) as [g1 o1].
  destruct (IH _ m2 g1 o1 (step_wakes s o m1 hg ho hw)) as (i1 & i2 & i3 & i4).
  split; [exact i1|]. split; [exact i2|]. split; [exact i3|].
  intros hf hi hh. inversion hf as [|x y f1 f2]; subst. destruct (step_wakes2 s o m1 f1 hg hi ho hh) as [w1 w2].
  apply i4; assumption.
Qed.
Lemma legal_run : forall a ops s, legal s ops -> legal s (ops ++ [ORun a]).
Proof.
  intros a. induction ops as [|o ops IH]; intros s h; [cbn; auto|]. destruct h as [h1 h2]. cbn [app legal]. auto.
Qed.
Lemma handshakes_ended_run : forall a ops, handshakes_ended (ops ++ [ORun a]) = handshakes_ended ops.
Proof. intros a. induction ops as [|[] ops IH]; cbn; auto. rewrite IH. reflexivity. Qed.
Lemma sessions_ended_run : forall a ops, sessions_ended (ops ++ [ORun a]) = sessions_ended ops.
Proof. intros a. induction ops as [|[] ops IH]; cbn; auto. rewrite IH. reflexivity. Qed.
Lemma start_rest : forall l, good (start l) /\ s_over (start l) = false /\ wakes_for_sessions (start l) /\
  ~ In HInboundFailed (s_hdone (start l)) /\ wakes_for_handshakes (start l).
Proof. intros l. unfold good, wakes_for_sessions, wakes_for_handshakes. cbn. repeat split; auto. Qed.

(** When the executor has had its turn the transport manager has heard of the end of every session. *)
Theorem C144_sessions_told : forall l ops a, Forall mild ops -> legal (start l) ops ->
  filter about_sessions (snd (run (start l) (ops ++ [ORun a]))) = flat_map of_session (sessions_ended ops).
Proof.
  intros l ops a hm hl. destruct (start_rest l) as (g0 & o0 & w0 & _).
  destruct (run_wakes ops (start l) hm g0 o0 w0) as (g1 & o1 & w1 & _).
  pose proof (C145_goes_on_partial l (ops ++ [ORun a])) as ho.
  assert (hm2 : Forall mild (ops ++ [ORun a])) by (apply Forall_app; split; [exact hm | repeat constructor]).
  specialize (ho hm2). pose proof (C144_told_in_order l (ops ++ [ORun a])) as ht.
  assert (hd : s_sdone (fst (run (start l) (ops ++ [ORun a]))) = []).
  { rewrite run_split. cbn [fst]. rewrite run_step. cbn [fst run]. set (s := fst (run (start l) ops)) in *.
    unfold step. rewrite o1. destruct (s_awake s) eqn:ea.
    - match goal with |- context [poll ?f a ?x] => pose proof (poll_rest f a x g1 eq_refl (Nat.le_refl _)) as h; destruct (poll f a x) as [s1 e] end.
      cbn. destruct h as (h1 & _). exact h1.
    - cbn. destruct w1 as [w1|[w1 _]]; [congruence | exact w1]. }
  destruct (run (start l) (ops ++ [ORun a])) as [s ev]. cbn [fst snd] in *.
  destruct (ht s ev eq_refl ho (legal_run a ops _ hl)) as [_ h2]. rewrite hd in h2. cbn in h2.
  rewrite app_nil_r, sessions_ended_run in h2. exact h2.
Qed.
Print Assumptions C144_sessions_told.
(** And, while no inbound handshake fails, of the end of every handshake. *)
Theorem C144_handshakes_told_partial : forall l ops a, Forall mild ops -> Forall no_failed_inbound ops -> legal (start l) ops ->
  filter about_handshakes (snd (run (start l) (ops ++ [ORun a]))) = flat_map of_handshake (handshakes_ended ops).
Proof.
  intros l ops a hm hf hl. destruct (start_rest l) as (g0 & o0 & w0 & n0 & v0).
  destruct (run_wakes ops (start l) hm g0 o0 w0) as (g1 & o1 & _ & k). destruct (k hf n0 v0) as [n1 v1].
  pose proof (C145_goes_on_partial l (ops ++ [ORun a])) as ho.
  assert (hm2 : Forall mild (ops ++ [ORun a])) by (apply Forall_app; split; [exact hm | repeat constructor]).
  specialize (ho hm2). pose proof (C144_told_in_order l (ops ++ [ORun a])) as ht.
  assert (hd : s_hdone (fst (run (start l) (ops ++ [ORun a]))) = []).
  { rewrite run_split. cbn [fst]. rewrite run_step. cbn [fst run]. set (s := fst (run (start l) ops)) in *.
    unfold step. rewrite o1. destruct (s_awake s) eqn:ea.
    - match goal with |- context [poll ?f a ?x] => pose proof (poll_rest f a x g1 eq_refl (Nat.le_refl _)) as h; destruct (poll f a x) as [s1 e] end.
      cbn. destruct h as (_ & _ & _ & _ & h5). exact (proj1 (h5 n1)).
    - cbn. destruct v1 as [v1|[v1 _]]; [congruence | exact v1]. }
  destruct (run (start l) (ops ++ [ORun a])) as [s ev]. cbn [fst snd] in *.
  destruct (ht s ev eq_refl ho (legal_run a ops _ hl)) as [h2 _]. rewrite hd in h2. cbn in h2.
  rewrite app_nil_r, handshakes_ended_run in h2. exact h2.
Qed.
Print Assumptions C144_handshakes_told_partial.
(** A connection is served at once when the last poll of the task served none. *)
Theorem C144_next_served_partial : forall s a s1 ev c b, s_over s = false -> s_awake s = true -> good s ->
  step s (ORun a) = (s1, ev) -> served ev = [] ->
  served (snd (run s1 [OArrive (FromGlobal c); ORun b])) = [c].
Proof.
  intros s a s1 ev c b ho ha hg h hs. pose proof (step_good s (ORun a) I hg ho) as [g1 o1]. rewrite h in g1, o1. cbn [fst] in g1, o1.
  assert (hq : s_queue s1 = [] /\ s_qarmed s1 = true).
  { unfold step in h. rewrite ho, ha in h.
    match type of h with poll ?f a ?x = _ => pose proof (poll_rest f a x hg eq_refl (Nat.le_refl _)) as k end.
    rewrite h in k. destruct k as (_ & _ & _ & k & _). exact (k hs). }
  destruct hq as [q1 q2].
  pose proof (step_good s1 (OArrive (FromGlobal c)) I g1 o1) as [g2 o2].
  rewrite run_step. cbn [snd]. set (s2 := fst (step s1 (OArrive (FromGlobal c)))) in *.
  assert (e2 : s_queue s2 = [FromGlobal c] /\ s_awake s2 = true /\ snd (step s1 (OArrive (FromGlobal c))) = []).
  { unfold s2, step. rewrite o1. cbn. rewrite q1, q2, orb_true_r. auto. }
  destruct e2 as (e2 & e3 & e4). rewrite e4. cbn [app].
  pose proof (C144_served_when_polled_partial s2 b o2 e3 g2) as hp. rewrite e2 in hp. cbn in hp. specialize (hp ltac:(discriminate)).
  pose proof (step_good s2 (ORun b) I g2 o2) as [_ o3]. pose proof (step_served s2 (ORun b)) as hv.
  rewrite run_step. cbn [run snd]. rewrite app_nil_r. destruct (step s2 (ORun b)) as [s3 e]. cbn [fst snd] in *.
  destruct hv as [_ hv]. specialize (hv o3). rewrite e2 in hv. cbn in hv.
  destruct (served e) as [|x l] eqn:ee; [congruence|]. cbn in hv. injection hv as -> hv. apply app_eq_nil in hv as [-> _]. reflexivity.
Qed.
Print Assumptions C144_next_served_partial.
Example C144_told_example :
  let ops := [ORun true; ODial; ORun true; OHandshake (HSession false 7); ORun true; OSession (SClosed 7); OArrive (FromGlobal 5)] in
  Forall mild ops /\ Forall no_failed_inbound ops /\ legal (start false) ops /\
  flat_map of_session (sessions_ended ops) = [EClosed 7] /\ flat_map of_handshake (handshakes_ended ops) = [EEstablished false 7].
Proof. split; [repeat constructor|]. split; [repeat constructor; discriminate|]. split; [cbn; repeat split; discriminate|]. split; reflexivity. Qed.
Example C144_next_served_example :
  s_over (start false) = false /\ s_awake (start false) = true /\ good (start false) /\ served (snd (step (start false) (ORun true))) = [].
Proof. repeat split; auto. Qed.
