(** Property C08: stream listeners. *)
From Coq Require Import List NArith Bool Lia Arith ZifyBool ZifyNat ZifyN.
From Verif Require Import ListenerModel ListenerSpec.
Import ListNotations.
Open Scope N_scope.

Definition good (l : listener) : Prop := l_state l <> Ephemeral [].

Lemma step_good l o : good l -> good (fst (listener_step l o)) /\ no_panic (snd (listener_step l o)).
Proof.
  unfold good, no_panic. intros H.
  destruct l as [s p]. cbn [l_state] in H.
  destruct o as [k| |x ok]; cbn [listener_step].
  - unfold register_listener. cbn [l_state l_pending].
    destruct s as [| | |q| |], k as [x sl|x po sl]; cbn [validate_listener];
      try destruct sl; cbn [fst snd l_state]; repeat split; try discriminate; try congruence.
    all: destruct q; discriminate.
  - unfold pop_socket. cbn [l_state l_pending].
    destruct s as [| | |[|[x silent] q]| |]; cbn [fst snd l_state]; try congruence;
      repeat split; try discriminate. destruct q; discriminate.
  - unfold status_written. cbn [l_state l_pending].
    destruct (existsb _ _); [|cbn [fst snd l_state]; repeat split; congruence].
    destruct ok; [|cbn [fst snd l_state]; repeat split; congruence].
    destruct s as [| | |q| |]; cbn [fst snd l_state]; repeat split; try discriminate.
    destruct q; discriminate.
Qed.

(** No sequence of registrations, pops and status writes panics ([expect], [todo!]). *)
Theorem C08_never_panics :
  forall ops l outs, listener_run listener_new ops = (l, outs) -> Forall no_panic outs.
Proof.
  assert (forall ops l l' outs, good l -> listener_run l ops = (l', outs) -> Forall no_panic outs) as G.
  { induction ops as [|o ops IH]; intros l l' outs Hg H; cbn [listener_run] in H.
    - apply pair_equal_spec in H as [_ <-]. constructor.
    - pose proof (step_good l o Hg) as [G P]. destruct (listener_step l o) as [l1 out].
      destruct (listener_run l1 ops) as [l2 outs2] eqn:E. apply pair_equal_spec in H as [_ <-].
      constructor; [exact P|]. exact (IH _ _ _ G E). }
  intros ops l outs H. eapply G; [|exact H]. discriminate.
Qed.
Print Assumptions C08_never_panics.

(** ACCEPT sockets are handed out first come, first served, each once: those handed out and
    those still queued are, in order, those that became available.  No registration is refused
    and nothing asserts.  (A client that uses no FORWARD.) *)
Theorem C08_accept_sockets_fifo :
  forall ops l outs, no_forward ops -> listener_run listener_new ops = (l, outs) ->
  handed outs ++ queue (l_state l) = available [] ops /\
  (forall k r, In (ORegister k r) outs -> exists now, r = RegOk now) /\
  Forall no_assert outs.
Proof.
  assert (forall ops l w l' outs, no_forward ops ->
    (l_state l = Uninitialized \/ l_state l = InitEphemeral \/ exists q, l_state l = Ephemeral q) ->
    (forall x, existsb (N.eqb x) (l_pending l) = existsb (N.eqb x) w) ->
    listener_run l ops = (l', outs) ->
    handed outs ++ queue (l_state l') = queue (l_state l) ++ available w ops /\
    (forall k r, In (ORegister k r) outs -> exists now, r = RegOk now) /\ Forall no_assert outs) as G.
  2: { intros ops l outs Hn H. change (available [] ops) with (queue (l_state listener_new) ++ available [] ops).
       apply G with (l := listener_new); auto. }
  induction ops as [|o ops IH]; intros l w l' outs Hn Hs Hw H; cbn [listener_run] in H.
  { apply pair_equal_spec in H as [<- <-]. cbn [handed flat_map app available].
    rewrite app_nil_r. repeat apply conj; auto. intros ? ? []. }
  assert (no_forward ops) as Hn' by (intros s p q Hin; apply (Hn s p q); now right).
  destruct (listener_step l o) as [l1 out] eqn:Es.
  destruct (listener_run l1 ops) as [l2 outs2] eqn:Er. apply pair_equal_spec in H as [<- <-].
  destruct l as [s p]. cbn [l_state l_pending] in *.
  assert (forall w1 a,
    (l_state l1 = Uninitialized \/ l_state l1 = InitEphemeral \/ exists q, l_state l1 = Ephemeral q) ->
    (forall x, existsb (N.eqb x) (l_pending l1) = existsb (N.eqb x) w1) ->
    available w (o :: ops) = a ++ available w1 ops ->
    handed [out] ++ queue (l_state l1) = queue s ++ a ->
    (forall k r, out = ORegister k r -> exists now, r = RegOk now) -> no_assert out ->
    handed (out :: outs2) ++ queue (l_state l2) = queue s ++ available w (o :: ops) /\
    (forall k r, In (ORegister k r) (out :: outs2) -> exists now, r = RegOk now) /\
    Forall no_assert (out :: outs2)) as Step.
  { intros w1 a H1 H2 H3 H4 H5 H6. destruct (IH l1 w1 l2 outs2 Hn' H1 H2 Er) as (Q & R & A).
    repeat apply conj.
    - change (out :: outs2) with ([out] ++ outs2). unfold handed at 1. rewrite flat_map_app.
      fold (handed [out]). fold (handed outs2). rewrite <- app_assoc, Q, app_assoc, H4, H3.
      now rewrite app_assoc.
    - intros k r [->|Hin]; eauto.
    - constructor; auto. }
  clear IH. assert (forall k, o = Register k -> exists x q, k = LEphemeral x q) as Hk.
  { intros [x q|x po q] ->; [eauto|]. exfalso. apply (Hn x po q). now left. }
  destruct o as [k| |x ok]; cbn [listener_step] in Es.
  - destruct (Hk k eq_refl) as (x & q & ->). clear Hk. unfold register_listener in Es. cbn [l_state l_pending] in Es.
    assert (forall y, existsb (N.eqb y) (p ++ [x]) = existsb (N.eqb y) (x :: w)) as Hx.
    { intros y. rewrite existsb_app. cbn [existsb]. rewrite Hw. lia. }
    destruct Hs as [->|[->|[qs ->]]]; cbn [validate_listener] in Es; destruct q;
      apply pair_equal_spec in Es as [<- <-].
    1, 3, 5: apply Step with (w1 := w) (a := [(x, true)]); cbn [l_state l_pending queue handed flat_map app];
      eauto; try discriminate; try (intros ? ? E; injection E as _ <-; eauto); try (intros ? E; discriminate E).
    all: apply Step with (w1 := x :: w) (a := []); cbn [l_state l_pending queue handed flat_map app];
      rewrite ?app_nil_r;
      eauto; try discriminate; try (intros ? ? E; injection E as _ <-; eauto); try (intros ? E; discriminate E).
  - unfold pop_socket in Es. cbn [l_state l_pending] in Es.
    destruct Hs as [->|[->|[qs ->]]]; [| |destruct qs as [|[x q] qs]];
      apply pair_equal_spec in Es as [<- <-];
      apply Step with (w1 := w) (a := []); cbn [l_state l_pending queue handed flat_map app];
      rewrite ?app_nil_r; eauto; try discriminate; try (intros ? ? E; discriminate E); try (intros ? E; discriminate E).
    + destruct qs; eauto.
    + destruct qs; reflexivity.
  - unfold status_written in Es. cbn [l_state l_pending] in Es. rewrite Hw in Es.
    assert (forall y, existsb (N.eqb y) (filter (fun z => negb (z =? x)) p) =
                      existsb (N.eqb y) (filter (fun z => negb (z =? x)) w)) as Hf.
    { assert (forall l0 y, existsb (N.eqb y) (filter (fun z => negb (z =? x)) l0) =
        (existsb (N.eqb y) l0 && negb (y =? x))%bool) as F.
      { intros l0 y. apply eq_true_iff_eq. rewrite andb_true_iff, !existsb_exists. split.
        - intros (z & Hz & E). apply filter_In in Hz as [Hz Hz2]. apply N.eqb_eq in E. subst z.
          split; [exists y; rewrite N.eqb_refl; auto|exact Hz2].
        - intros [(z & Hz & E) Hz2]. apply N.eqb_eq in E. subst z. exists y.
          rewrite filter_In, N.eqb_refl. auto. }
      intros y. rewrite !F, Hw. reflexivity. }
    destruct (existsb (N.eqb x) w) eqn:Ex; [destruct ok|].
    + assert (available w (Written x true :: ops) = [(x, false)] ++ available (filter (fun z => negb (z =? x)) w) ops)
        as Ha by (cbn [available]; now rewrite Ex).
      destruct Hs as [->|[->|[qs ->]]]; apply pair_equal_spec in Es as [<- <-];
      (eapply Step; [right; right; eexists; reflexivity|exact Hf|exact Ha|reflexivity|intros ? ? E; discriminate E|intros ? E; discriminate E]).
    + apply pair_equal_spec in Es as [<- <-]. eapply Step with (a := []).
      * cbn [l_state]. auto.
      * exact Hf.
      * cbn [available]. now rewrite Ex.
      * cbn [l_state handed flat_map app]. now rewrite app_nil_r.
      * intros ? ? E; discriminate E.
      * intros ? E; discriminate E.
    + apply pair_equal_spec in Es as [<- <-]. apply Step with (w1 := w) (a := []).
      * cbn [l_state]. auto.
      * exact Hw.
      * cbn [available]. now rewrite Ex.
      * cbn [l_state handed flat_map app]. now rewrite app_nil_r.
      * intros ? ? E; discriminate E.
      * intros ? E; discriminate E.
Qed.
Print Assumptions C08_accept_sockets_fifo.

(** In general (FORWARD or not): a socket is handed out at most once, and only if it was
    registered with ACCEPT, with the same silence flag. *)
Theorem C08_handed_out_once :
  forall ops l outs, NoDup (map kind_socket (registrations ops)) ->
  listener_run listener_new ops = (l, outs) ->
  NoDup (map fst (handed outs)) /\
  forall s q, In (s, q) (handed outs) -> In (LEphemeral s q) (registrations ops).
Proof.
  set (late := fun st => match st with InitPersistent _ _ | PersistentL _ _ _ | PoisonedL => True | _ => False end).
  set (Inv := fun (R : list listener_kind) (H : list (N * bool)) (l : listener) =>
    NoDup (map fst H ++ map fst (queue (l_state l)) ++ l_pending l) /\
    (forall s q, In (s, q) (H ++ queue (l_state l)) -> In (LEphemeral s q) R) /\
    (forall s, In s (l_pending l) -> In (LEphemeral s false) R \/
       ((exists p q, In (LPersistent s p q) R) /\ late (l_state l)))).
  assert (forall ops R H l l' outs, NoDup (map kind_socket (R ++ registrations ops)) -> Inv R H l ->
    listener_run l ops = (l', outs) -> Inv (R ++ registrations ops) (H ++ handed outs) l') as G.
  2: { intros ops l outs Hnd Hr. assert (Inv [] [] listener_new) as I0.
       { repeat split; cbn; auto. constructor. }
       destruct (G ops [] [] _ _ _ Hnd I0 Hr) as (N1 & N2 & _). cbn [app] in *. split.
       - clear -N1. induction (map fst (handed outs)); [constructor|]. inversion N1. constructor; auto.
         intros Hin. apply H1. apply in_or_app. now left.
       - intros s q Hin. apply N2. apply in_or_app. now left. }
  assert (forall R H l s, Inv R H l -> In s (map fst H ++ map fst (queue (l_state l)) ++ l_pending l) ->
    In s (map kind_socket R)) as Known.
  { intros R H l s (_ & I2 & I3) Hin. rewrite app_assoc, <- map_app in Hin. apply in_app_or in Hin as [Hin|Hin].
    - apply in_map_iff in Hin as ([s' q] & E & Hin). cbn in E. subst s'. apply I2 in Hin.
      apply in_map_iff. exists (LEphemeral s q). auto.
    - apply I3 in Hin as [Hin|[(p & q & Hin) _]]; apply in_map_iff; eexists; (split; [|exact Hin]); reflexivity. }
  induction ops as [|o ops IH]; intros R H l l' outs Hnd Hinv Hr; cbn [listener_run] in Hr.
  { apply pair_equal_spec in Hr as [<- <-]. cbn. rewrite !app_nil_r. exact Hinv. }
  destruct (listener_step l o) as [l1 out] eqn:Es.
  destruct (listener_run l1 ops) as [l2 outs2] eqn:Er. apply pair_equal_spec in Hr as [<- <-].
  assert (registrations (o :: ops) = registrations [o] ++ registrations ops) as E1
    by (unfold registrations; cbn [flat_map]; now rewrite app_nil_r).
  assert (handed (out :: outs2) = handed [out] ++ handed outs2) as E2
    by (unfold handed; cbn [flat_map]; now rewrite app_nil_r).
  rewrite E1, E2, !app_assoc. rewrite E1, app_assoc in Hnd. apply IH with l1; auto.
  assert (NoDup (map kind_socket (R ++ registrations [o]))) as Hnd1.
  { rewrite map_app in Hnd. clear -Hnd. induction (map kind_socket (R ++ registrations [o])); [constructor|].
    inversion Hnd. constructor; auto. intros Hin. apply H1. apply in_or_app. now left. }
  clear IH Er Hnd E1 E2 outs2 l2 ops.
  pose proof (fun s => Known R H l s Hinv) as Kn. clear Known.
  destruct Hinv as (I1 & I2 & I3).
  destruct l as [st p]. cbn [l_state l_pending] in *.
  destruct o as [k| |x ok]; cbn [listener_step] in Es.
  - assert (~ In (kind_socket k) (map kind_socket R)) as Hfresh.
    { rewrite map_app in Hnd1. cbn [registrations flat_map app map] in Hnd1.
      apply NoDup_remove_2 in Hnd1. now rewrite app_nil_r in Hnd1. }
    assert (forall s, In s (map fst H ++ map fst (queue st) ++ p) -> s <> kind_socket k) as Hne
      by (intros s Hs ->; apply Hfresh; now apply Kn).
    assert (out = ORegister k (snd (register_listener (mkListener st p) k)) /\
            l1 = fst (register_listener (mkListener st p) k)) as [-> ->].
    { destruct (register_listener (mkListener st p) k). apply pair_equal_spec in Es as [<- <-]. auto. }
    cbn [registrations handed flat_map app]. rewrite !app_nil_r.
    assert (forall s q, In (s, q) (H ++ queue st) -> In (LEphemeral s q) (R ++ [k])) as I2'
      by (intros; apply in_or_app; auto).
    assert (forall s, In s p -> In (LEphemeral s false) (R ++ [k]) \/
       ((exists p q, In (LPersistent s p q) (R ++ [k])) /\ late st)) as I3'.
    { intros s Hs. destruct (I3 s Hs) as [|[(a & b & Hab) L]]; [left; apply in_or_app; auto|].
      right. split; [|exact L]. exists a, b. apply in_or_app. auto. }
    assert (NoDup (map fst H ++ (map fst (queue st) ++ [kind_socket k]) ++ p)) as N2.
    { rewrite <- app_assoc. rewrite app_assoc in I1 |- *. cbn [app]. apply NoDup_Add with (a := kind_socket k) (l := (map fst H ++ map fst (queue st)) ++ p).
      - apply Add_app.
      - split; [exact I1|]. rewrite <- app_assoc. intros Hin. now apply (Hne _ Hin). }
    assert (NoDup (map fst H ++ map fst (queue st) ++ (p ++ [kind_socket k]))) as N3.
    { rewrite !app_assoc. apply NoDup_Add with (a := kind_socket k) (l := ((map fst H ++ map fst (queue st)) ++ p)).
      - rewrite <- (app_nil_r ((map fst H ++ map fst (queue st)) ++ p)) at 1. apply Add_app.
      - rewrite <- app_assoc. split; [exact I1|]. intros Hin. now apply (Hne _ Hin). }
    assert (forall s, In s (p ++ [kind_socket k]) -> k = LEphemeral (kind_socket k) false ->
      In (LEphemeral s false) (R ++ [k]) \/ ((exists p q, In (LPersistent s p q) (R ++ [k])) /\ late st)) as I3''.
    { intros s Hs Hk. apply in_app_or in Hs as [Hs|[<-|[]]]; [auto|]. left. rewrite Hk at 2. apply in_or_app. right. now left. }
    unfold register_listener. cbn [l_state l_pending].
    destruct (validate_listener st k) eqn:Ev; [|cbn [fst]; exact (conj I1 (conj I2' I3'))].
    assert (forall q, k = LEphemeral (kind_socket k) q -> forall s b,
       In (s, b) (H ++ (queue st ++ [(kind_socket k, q)])) -> In (LEphemeral s b) (R ++ [k])) as I2''.
    { intros q Hk s b Hin. rewrite app_assoc in Hin. apply in_app_or in Hin as [Hin|[Hin|[]]]; [auto|].
      injection Hin as <- <-. rewrite <- Hk. apply in_or_app. right. now left. }
    destruct st as [| | |qs| |], k as [x [|]|x po sl]; cbn [validate_listener] in Ev; try discriminate;
      cbn [fst l_state l_pending queue kind_socket map app] in *; unfold Inv; cbn [l_state l_pending queue map fst].
    all: try (split; [exact N3|split; [exact I2'|intros s Hs; exact (I3'' s Hs eq_refl)]]).
    all: try (rewrite map_app; cbn [map fst app];
              split; [exact N2|split; [exact (I2'' _ eq_refl)|exact I3']]).
    all: try (split; [exact N2|split; [exact (I2'' _ eq_refl)|exact I3']]).
    split; [exact N3|split; [exact I2'|]]. intros s Hs. apply in_app_or in Hs as [Hs|[<-|[]]].
    + destruct (I3' s Hs) as [|[A L]]; [auto|]. right. split; [exact A|exact Logic.I].
    + right. split; [|exact Logic.I]. exists po, sl. apply in_or_app. right. now left.
  - cbn [registrations flat_map app]. rewrite !app_nil_r.
    unfold pop_socket in Es. cbn [l_state l_pending] in Es.
    destruct st as [| | |[|[x q] qs]| |]; apply pair_equal_spec in Es as [<- <-];
      cbn [handed flat_map app]; rewrite ?app_nil_r; try exact (conj I1 (conj I2 I3)).
    unfold Inv. cbn [l_state l_pending].
    assert (queue (match qs with [] => Uninitialized | _ => Ephemeral qs end) = qs) as Eq by (destruct qs; reflexivity).
    rewrite Eq. rewrite map_app, <- !app_assoc. cbn [map app fst queue] in *.
    split; [exact I1|]. split; [exact I2|].
    intros s Hs. destruct (I3 s Hs) as [|[_ L]]; [auto|]. destruct L.
  - cbn [registrations flat_map app]. rewrite !app_nil_r.
    unfold status_written in Es. cbn [l_state l_pending] in Es.
    destruct (existsb (N.eqb x) p) eqn:Ex.
    2: { apply pair_equal_spec in Es as [<- <-]. cbn [handed flat_map app]. rewrite ?app_nil_r. exact (conj I1 (conj I2 I3)). }
    apply existsb_exists in Ex as (y & Hy & Ey). apply N.eqb_eq in Ey. subst y.
    assert (handed [out] = []) as ->.
    { destruct ok; [destruct st|]; apply pair_equal_spec in Es as [_ <-]; reflexivity. }
    rewrite app_nil_r.
    set (p' := filter (fun z => negb (z =? x)) p) in *.
    assert (forall s, In s p' -> In s p) as Hp' by (intros s Hs; now apply filter_In in Hs).
    assert (NoDup (map fst H ++ map fst (queue st) ++ [x] ++ p')) as Np.
    { clear -I1 Hy. rewrite !app_assoc in *. apply in_split in Hy as (a & b & ->).
      assert (p' = a ++ b) as ->.
      { unfold p'. rewrite !app_assoc in I1. 
        assert (NoDup (a ++ x :: b)) as Nab.
        { clear -I1. rewrite <- app_assoc in I1.
          assert (forall (u v : list N), NoDup (u ++ v) -> NoDup v) as W.
          { induction u; intros v Hv; [exact Hv|]. inversion Hv. auto. }
          eapply W, I1. }
        pose proof (NoDup_remove_2 _ _ _ Nab) as Hx.
        assert (forall c, ~ In x c -> filter (fun z => negb (z =? x)) c = c) as Ff.
        { induction c as [|z c IHc]; intros Hc; [reflexivity|]. cbn [filter].
          destruct (N.eqb_spec z x); [subst; exfalso; apply Hc; now left|].
          cbn [negb]. rewrite IHc; [reflexivity|]. intros Hin. apply Hc. now right. }
        rewrite filter_app. cbn [filter]. rewrite N.eqb_refl. cbn [negb].
        rewrite !Ff; [reflexivity| |]; intros Hin; apply Hx; apply in_or_app; auto. }
      rewrite <- !app_assoc in *. cbn [app].
      set (u := map fst H ++ map fst (queue st)) in *. rewrite app_assoc in I1 |- *. fold u in I1 |- *.
      apply NoDup_Add with (a := x) (l := u ++ a ++ b); [apply Add_app|].
      rewrite app_assoc in I1. pose proof (NoDup_remove_2 _ _ _ I1) as B. 
      pose proof (NoDup_remove_1 _ _ _ I1) as C. rewrite <- app_assoc in B, C. auto. }
    assert (NoDup (map fst H ++ map fst (queue st) ++ p')) as Np2.
    { clear -Np. rewrite app_assoc in Np |- *. apply NoDup_remove_1 in Np. exact Np. }
    assert (forall s, In s p' -> In (LEphemeral s false) R \/
       ((exists p0 q, In (LPersistent s p0 q) R) /\ late st)) as I3' by auto.
    destruct ok; [|apply pair_equal_spec in Es as [<- _]; exact (conj Np2 (conj I2 I3'))].
    destruct st as [| |po sl|qs|y po sl|]; apply pair_equal_spec in Es as [<- _]; unfold Inv; cbn [l_state l_pending queue map fst] in *.
    1, 2: (split; [exact Np|]; split;
        [intros s q Hin; apply in_app_or in Hin as [Hin|[Hin|[]]];
           [apply I2; apply in_or_app; auto|injection Hin as <- <-; destruct (I3 x Hy) as [|[_ []]]; assumption]
        |intros s Hs; destruct (I3' s Hs) as [|[_ []]]; auto]).
    + split; [exact Np2|]. split; [exact I2|]. intros s Hs.
      destruct (I3' s Hs) as [Ha|[A _]]; [left; exact Ha|right; split; [exact A|exact Logic.I]].
    + split; [rewrite map_app, <- app_assoc; exact Np|]. split.
      * intros s q Hin. rewrite app_assoc in Hin. apply in_app_or in Hin as [Hin|[Hin|[]]]; [auto|].
        injection Hin as <- <-. destruct (I3 x Hy) as [|[_ []]]; assumption.
      * intros s Hs. destruct (I3' s Hs) as [|[_ []]]; auto.
    + split; [exact Np2|]. split; [exact I2|]. intros s Hs.
      destruct (I3' s Hs) as [Ha|[A _]]; [left; exact Ha|right; split; [exact A|exact Logic.I]].
    + split; [exact Np2|]. split; [exact I2|]. intros s Hs.
      destruct (I3' s Hs) as [Ha|[A _]]; [left; exact Ha|right; split; [exact A|exact Logic.I]].
Qed.
Print Assumptions C08_handed_out_once.

(** ACCEPT and FORWARD exclude each other: while an ACCEPT socket is available a FORWARD is
    refused; once a stream has been forwarded, no stream gets an ACCEPT socket and every
    registration is refused. *)
Theorem C08_accept_and_forward_exclude_each_other :
  forall l,
  (forall s q, snd (pop_socket l) = PopAccept s q ->
     forall s' p q', snd (register_listener l (LPersistent s' p q')) = RegMismatch) /\
  (forall p q, snd (pop_socket l) = PopForward p q ->
     forall ops l' outs, listener_run l ops = (l', outs) ->
     handed outs = [] /\ forall k r, In (ORegister k r) outs -> r = RegMismatch).
Proof.
  intros [st pend]. split.
  - intros s q H s' p q'. unfold pop_socket in H. cbn [l_state] in H.
    destruct st as [| | |[|]| |]; try discriminate. reflexivity.
  - intros p q H. unfold pop_socket in H. cbn [l_state] in H.
    assert (match st with PersistentL _ _ _ | PoisonedL => True | _ => False end) as Hst.
    { destruct st as [| | |[|[]]| |]; try discriminate; exact I. }
    clear H. intros ops. revert st pend Hst. induction ops as [|o ops IH]; intros st pend Hst l' outs Hr; cbn [listener_run] in Hr.
    { apply pair_equal_spec in Hr as [_ <-]. split; [reflexivity|]. intros ? ? []. }
    destruct (listener_step (mkListener st pend) o) as [l1 out] eqn:Es.
    destruct (listener_run l1 ops) as [l2 outs2] eqn:Er. apply pair_equal_spec in Hr as [_ <-].
    destruct l1 as [st1 pend1].
    assert (match st1 with PersistentL _ _ _ | PoisonedL => True | _ => False end /\ handed [out] = [] /\
       forall k r, out = ORegister k r -> r = RegMismatch) as (H1 & H2 & H3).
    { destruct o as [k| |x ok]; cbn [listener_step] in Es.
      - unfold register_listener in Es. cbn [l_state] in Es.
        assert (validate_listener st k = false) as Ev by (destruct st, k; try contradiction; reflexivity).
        rewrite Ev in Es. injection Es as <- <- <-. repeat split; auto. intros ? ? E. now injection E as _ <-.
      - unfold pop_socket in Es. cbn [l_state] in Es. destruct st as [| | |qs| |]; try contradiction;
          injection Es as <- <- <-; repeat split; intros ? ? E; discriminate E.
      - unfold status_written in Es. cbn [l_state l_pending] in Es.
        destruct (existsb _ _); [destruct ok|]; destruct st as [| | |qs| |]; try contradiction;
          injection Es as <- <- <-; repeat split; intros ? ? E; discriminate E. }
    destruct (IH st1 pend1 H1 _ _ Er) as [A B]. split.
    + change (handed (out :: outs2)) with (handed ([out] ++ outs2)). unfold handed. rewrite flat_map_app.
      fold (handed [out]) (handed outs2). now rewrite H2, A.
    + intros k r [->|Hin]; eauto.
Qed.
Print Assumptions C08_accept_and_forward_exclude_each_other.

(** The state is never poisoned if no FORWARD is registered while the status message of an
    ACCEPT is still being written.  (Missing for the full property: that condition, which the
    code does not check; see the refutation.) *)
Theorem C08_never_poisoned_partial :
  forall ops l outs, listener_run listener_new ops = (l, outs) ->
  (forall pre s p q post, ops = pre ++ Register (LPersistent s p q) :: post ->
     l_pending (fst (listener_run listener_new pre)) = []) ->
  Forall no_assert outs.
Proof.
  set (Q := fun l => match l_state l with
    | InitPersistent _ _ => (length (l_pending l) <= 1)%nat
    | PersistentL _ _ _ => l_pending l = []
    | PoisonedL => False
    | _ => True end).
  assert (forall ops l l' outs, Q l -> listener_run l ops = (l', outs) ->
    (forall pre s p q post, ops = pre ++ Register (LPersistent s p q) :: post ->
       l_pending (fst (listener_run l pre)) = []) -> Forall no_assert outs) as G.
  2: { intros ops l outs Hr Hq. apply (G ops listener_new l outs); auto. exact I. }
  induction ops as [|o ops IH]; intros l l' outs Hq Hr Hf; cbn [listener_run] in Hr.
  { apply pair_equal_spec in Hr as [_ <-]. constructor. }
  destruct (listener_step l o) as [l1 out] eqn:Es.
  destruct (listener_run l1 ops) as [l2 outs2] eqn:Er. apply pair_equal_spec in Hr as [_ <-].
  assert (Q l1 /\ no_assert out) as [Hq1 Hn].
  { destruct l as [st p]. destruct o as [k| |x ok]; cbn [listener_step] in Es.
    - unfold register_listener in Es. cbn [l_state l_pending] in Es.
      destruct (validate_listener st k) eqn:Ev.
      2: { apply pair_equal_spec in Es as [<- <-]. split; [exact Hq|]. intros ? E; discriminate E. }
      assert (forall s po q, k = LPersistent s po q -> p = []) as Hp.
      { intros s po q ->. apply (Hf [] s po q ops eq_refl). }
      destruct st, k as [x [|]|x po sl]; try discriminate; apply pair_equal_spec in Es as [<- <-];
        (split; [|intros ? E; discriminate E]); try exact I.
      rewrite (Hp _ _ _ eq_refl). cbn. lia.
    - unfold pop_socket in Es. cbn [l_state l_pending] in Es.
      destruct st as [| | |[|[x q] qs]| |]; apply pair_equal_spec in Es as [<- <-];
        (split; [|intros ? E; discriminate E]); try exact Hq; try exact I. destruct qs; exact I.
    - unfold status_written in Es. cbn [l_state l_pending] in Es.
      destruct (existsb (N.eqb x) p) eqn:Ex.
      2: { apply pair_equal_spec in Es as [<- <-]. split; [exact Hq|]. intros ? E; discriminate E. }
      assert ((length p <= 1)%nat -> filter (fun z => negb (z =? x)) p = []) as Hfil.
      { intros Hl. destruct p as [|y [|]]; [reflexivity| |cbn in Hl; lia]. cbn [existsb] in Ex.
        rewrite orb_false_r in Ex. cbn [filter]. rewrite N.eqb_sym, Ex. reflexivity. }
      assert (forall f : N -> bool, (length (filter f p) <= length p)%nat) as Hfl.
      { intros f. clear. induction p; cbn; [lia|]. destruct (f a); cbn; lia. }
      unfold Q in Hq. cbn [l_state l_pending] in Hq.
      destruct ok; [|apply pair_equal_spec in Es as [<- <-]; split; [|intros ? E; discriminate E]].
      + destruct st; apply pair_equal_spec in Es as [<- <-]; try (subst p; discriminate Ex); try contradiction;
          (split; [|intros ? E; discriminate E]); try exact I. exact (Hfil Hq).
      + unfold Q. cbn [l_state l_pending]. destruct st; try exact I; try contradiction.
        * specialize (Hfl (fun z => negb (z =? x))). lia.
        * subst p. discriminate Ex. }
  constructor; [exact Hn|]. apply (IH l1 l2 outs2 Hq1 Er). intros pre s p q post E.
  specialize (Hf (o :: pre) s p q post). cbn [app listener_run] in Hf. rewrite Es in Hf.
  destruct (listener_run l1 pre) as [lx ox] eqn:Ep. cbn [fst] in Hf |- *. apply Hf. now rewrite E.
Qed.
Print Assumptions C08_never_poisoned_partial.

(** A client that accepts on two sockets, gets a stream on the silent one, then forwards: if
    the status message of the other socket is written first, that ACCEPT socket takes the
    place of the forwarding one, streams are forwarded before the FORWARD was acknowledged,
    and the acknowledgement poisons the listener for good. *)
Definition race : list listener_op :=
  [Register (LEphemeral 1 false); Register (LEphemeral 2 true); Pop;
   Register (LPersistent 3 7000 false); Written 1 true].
Theorem C08_refuted_race_poisons :
  l_state (fst (listener_run listener_new race)) = PersistentL 1 7000 false /\
  (exists o, snd (listener_run listener_new (race ++ [Pop; Written 3 true])) =
     o ++ [OPop (PopForward 7000 false); OPoll 3 PollInvalid]) /\
  l_state (fst (listener_run listener_new (race ++ [Written 3 true]))) = PoisonedL.
Proof.
  repeat apply conj; try (vm_compute; reflexivity).
  exists (snd (listener_run listener_new race)). vm_compute. reflexivity.
Qed.
Print Assumptions C08_refuted_race_poisons.

(** If the status message of a FORWARD cannot be written (its client left), the session never
    accepts a listener nor hands out a socket again. *)
Theorem C08_refuted_failed_forward_blocks_session :
  forall s p q ops l outs,
  listener_run listener_new ([Register (LPersistent s p q); Written s false] ++ ops) = (l, outs) ->
  handed outs = [] /\ (forall port silent, ~ In (OPop (PopForward port silent)) outs) /\
  (forall k r, In (ORegister k r) outs -> r = RegMismatch \/ k = LPersistent s p q).
Proof.
  intros s p q ops l outs H. cbn [app listener_run listener_step] in H.
  unfold register_listener, status_written in H. cbn [l_state l_pending listener_new validate_listener app existsb] in H.
  rewrite N.eqb_refl in H. cbn [orb filter] in H. rewrite N.eqb_refl in H. cbn [negb] in H.
  destruct (listener_run (mkListener (InitPersistent p q) []) ops) as [l2 outs2] eqn:E.
  apply pair_equal_spec in H as [_ <-].
  assert (handed outs2 = [] /\ (forall port silent, ~ In (OPop (PopForward port silent)) outs2) /\
    (forall k r, In (ORegister k r) outs2 -> r = RegMismatch)) as (A & B & C).
  { revert l2 outs2 E. induction ops as [|o ops IH]; intros l2 outs2 E; cbn [listener_run] in E.
    - apply pair_equal_spec in E as [_ <-]. refine (conj eq_refl (conj _ _)); intros ? ? [].
    - assert (exists out, listener_step (mkListener (InitPersistent p q) []) o = (mkListener (InitPersistent p q) [], out) /\
        handed [out] = [] /\ (forall port silent, out <> OPop (PopForward port silent)) /\
        (forall k r, out = ORegister k r -> r = RegMismatch)) as (out & Es & H1 & H2 & H3).
      { destruct o as [k| |x ok]; cbn [listener_step].
        - unfold register_listener. cbn [l_state]. replace (validate_listener (InitPersistent p q) k) with false by (destruct k; reflexivity).
          eexists. repeat split; try discriminate. intros ? ? X. now injection X as _ <-.
        - eexists. repeat split; try discriminate.
        - eexists. repeat split; try discriminate. }
      rewrite Es in E. destruct (listener_run (mkListener (InitPersistent p q) []) ops) as [l3 outs3].
      apply pair_equal_spec in E as [_ <-]. destruct (IH _ _ eq_refl) as (A & B & C).
      repeat apply conj.
      + change (out :: outs3) with ([out] ++ outs3). unfold handed. rewrite flat_map_app.
        fold (handed [out]) (handed outs3). now rewrite H1, A.
      + intros port silent [Hin|Hin]; [exact (H2 _ _ Hin)|exact (B _ _ Hin)].
      + intros k r [Hin|Hin]; [exact (H3 _ _ Hin)|exact (C _ _ Hin)]. }
  repeat apply conj.
  - exact A.
  - intros port silent [Hin|[Hin|Hin]]; try discriminate. exact (B _ _ Hin).
  - intros k r [Hin|[Hin|Hin]]; try discriminate; [|left; eauto]. injection Hin as <- <-. auto.
Qed.
Print Assumptions C08_refuted_failed_forward_blocks_session.

Example C08_ex_fifo :
  let ops := [Register (LEphemeral 1 false); Register (LEphemeral 2 true); Register (LEphemeral 3 false);
              Written 3 true; Pop; Written 1 true; Pop; Pop; Pop] in
  no_forward ops /\ available [] ops = [(2, true); (3, false); (1, false)] /\
  handed (snd (listener_run listener_new ops)) = [(2, true); (3, false); (1, false)].
Proof.
  repeat apply conj; [|reflexivity|reflexivity]. intros s p q H. cbn in H. intuition discriminate.
Qed.
Example C08_ex_forward :
  let ops := [Register (LPersistent 3 7000 false); Written 3 true; Pop; Register (LEphemeral 4 true)] in
  NoDup (map kind_socket (registrations ops)) /\
  snd (listener_run listener_new ops) =
    [ORegister (LPersistent 3 7000 false) (RegOk false); OPoll 3 PollReady; OPop (PopForward 7000 false);
     ORegister (LEphemeral 4 true) RegMismatch].
Proof.
  split; [|reflexivity]. cbn. repeat constructor; cbn; intuition discriminate.
Qed.

(** *** The answer to a registration is truthful: a listener that is said to be usable can be given
    out at once, and one that is not waits for its status message. *)
Theorem C08_usable_at_once : forall l k l' now, register_listener l k = (l', RegOk now) ->
  if now then exists s, k = LEphemeral s true /\ In (s, true) (queue (l_state l')) /\ l_pending l' = l_pending l
  else In (kind_socket k) (l_pending l') /\ queue (l_state l') = queue (l_state l) /\
       (forall s p q, k = LPersistent s p q -> snd (status_written l' s true) = PollReady /\
          l_state (fst (status_written l' s true)) = PersistentL s p q) /\
       (forall s q, k = LEphemeral s q -> snd (status_written l' s true) = PollReady /\
          In (s, false) (queue (l_state (fst (status_written l' s true))))).
Proof.
  intros [st pend] k l' now h. unfold register_listener in h. cbn [l_state l_pending] in h.
  assert (he : forall s, existsb (N.eqb s) (pend ++ [s]) = true).
  { intros s. apply existsb_exists. exists s. split; [apply in_or_app; right; left; reflexivity | apply N.eqb_refl]. }
  destruct st as [| | |socks| |], k as [s0 q0 | s0 p0 q0]; cbn [validate_listener] in h; try discriminate h;
    try (destruct q0); try discriminate h; injection h as <- <-;
    try (eexists; split; [reflexivity|]; split; [cbn; rewrite ?in_app_iff; cbn; auto | reflexivity]);
    (split; [cbn; rewrite in_app_iff; cbn; auto|]); (split; [reflexivity|]); split; intros;
    match goal with E : _ = _ |- _ => try discriminate E; injection E as <-; try subst end;
    unfold status_written; cbn [l_pending l_state]; rewrite he; cbn; rewrite ?in_app_iff; cbn; auto.
Qed.
Print Assumptions C08_usable_at_once.
Example C08_usable_at_once_ex :
  register_listener listener_new (LEphemeral 3 true) = (mkListener (Ephemeral [(3, true)]) [], RegOk true) /\
  register_listener listener_new (LEphemeral 3 false) = (mkListener InitEphemeral [3], RegOk false).
Proof. split; reflexivity. Qed.
