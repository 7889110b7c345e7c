(** Proofs about routing path handles: what the tunnel map and the path are made of. *)
From Coq Require Import List NArith Bool Lia.
From Verif Require Import ListUtil Bytes NMap RouteProofs RpathModel RpathSpec.
Import ListNotations.
Open Scope N_scope.

Lemma in_nput V k (v : V) m e : In e (nput k v m) -> e = (k, v) \/ In e m.
Proof.
  induction m as [|[k' v'] m IH]; cbn; [intuition|].
  destruct (k <? k'); [cbn; intuition|].
  destruct (k =? k'); cbn; intuition.
Qed.
Lemma in_ndel V k (m : nmap V) e : In e (ndel k m) -> fst e <> k /\ In e m.
Proof.
  induction m as [|[k' v'] m IH]; cbn; [intuition|].
  destruct (N.eqb_spec k k'); cbn; intros H.
  - apply IH in H; intuition.
  - destruct H as [<-|H]; [cbn; intuition congruence|]. apply IH in H; intuition.
Qed.
Lemma in_put_all l : forall m e, In e (put_all l m) -> In e l \/ In e m.
Proof.
  induction l as [|a l IH]; cbn; intros m e H; [auto|].
  apply IH in H as [H|H]; [auto|]. apply in_nput in H as [->|H]; [|auto].
  left; left; now destruct a.
Qed.
Lemma choose_in A r (l : list A) x : choose r l = Some x -> In x l.
Proof. destruct l; cbn; [discriminate|]. intros H; apply nth_error_In in H; exact H. Qed.
Lemma choose_some A r (l : list A) : l <> [] -> exists x, choose r l = Some x.
Proof.
  destruct l as [|a l]; [congruence|intros _]. unfold choose.
  destruct (nth_error (a :: l) (N.to_nat (r mod N.of_nat (length (a :: l))))) eqn:E; [eauto|].
  apply nth_error_None in E.
  pose proof (N.mod_lt r (N.of_nat (length (a :: l))) ltac:(cbn; lia)). lia.
Qed.

(** ** What is known about an event list as it grows *)
Lemma out_state_app o a b : out_state o (a ++ b) = fold_left (out_after o) b (out_state o a).
Proof. unfold out_state; now rewrite fold_left_app. Qed.
Lemma lease_state_app o a b : lease_state o (a ++ b) = fold_left (lease_after o) b (lease_state o a).
Proof. unfold lease_state; now rewrite fold_left_app. Qed.
Lemma announced_app i x a b : announced i x a -> announced i x (a ++ b).
Proof. intros (ts & H & H1); exists ts; split; [apply in_or_app; auto|auto]. Qed.

Definition kind_ok (es : list revent) (e : N * tkind) : Prop :=
  match snd e with
  | KOut | KExpiringOut _ | KFailingOut _ => out_state (fst e) es <> None
  | KIn x | KFailingIn x => announced (fst e) x es
  end.
Definition kinds_ok es (m : nmap tkind) := forall e, In e m -> kind_ok es e.
Definition path_ok es (h : handle) :=
  match h_path h with
  | Some (i, o) => (exists x, announced i x es) /\ out_state o es <> None /\
                   (forall t, h_timer h = Some t -> announced i (t + INBOUND_TUNNEL_MIN_AGE) es)
  | None => h_timer h = None
  end.
Definition inv es h := kinds_ok es (h_tunnels h) /\ path_ok es h.

Lemma kinds_nget es m t k : kinds_ok es m -> nget t m = Some k -> kind_ok es (t, k).
Proof. intros H E; apply H; now apply nget_In. Qed.
Lemma kinds_nput es m t k : kinds_ok es m -> kind_ok es (t, k) -> kinds_ok es (nput t k m).
Proof. intros H E e He; apply in_nput in He as [->|He]; auto. Qed.
Lemma kinds_ndel es m t : kinds_ok es m -> kinds_ok es (ndel t m).
Proof. intros H e He; apply in_ndel in He as [_ He]; auto. Qed.

Lemma select_outbound_in now r m o : select_outbound now r m = Some o ->
  exists k, In (o, k) m /\ match k with KOut => True | KExpiringOut x => now + OUTBOUND_TUNNEL_EXPIRATION < x
                            | KFailingOut (Some x) => now + OUTBOUND_TUNNEL_EXPIRATION < x | KFailingOut None => True | _ => False end.
Proof.
  unfold select_outbound, or_else. intros H.
  destruct (choose r (out_available m)) eqn:E1.
  - injection H as <-. apply choose_in in E1. apply in_flat_map in E1 as ([t k] & Hin & Hk); cbn in *.
    destruct k; cbn in Hk; try contradiction. destruct Hk as [<-|[]]. exists KOut; auto.
  - destruct (choose r (out_expiring now m)) eqn:E2.
    + injection H as <-. apply choose_in in E2. apply in_flat_map in E2 as ([t k] & Hin & Hk); cbn in *.
      destruct k; cbn in Hk; try contradiction.
      destruct (N.ltb_spec (now + OUTBOUND_TUNNEL_EXPIRATION) expires); cbn in Hk; [|contradiction].
      destruct Hk as [<-|[]]. exists (KExpiringOut expires); auto.
    + apply choose_in in H. apply in_flat_map in H as ([t k] & Hin & Hk); cbn in *.
      destruct k as [| |[x|]| |]; cbn in Hk; try contradiction.
      * destruct (N.ltb_spec (now + OUTBOUND_TUNNEL_EXPIRATION) x); cbn in Hk; [|contradiction].
        destruct Hk as [<-|[]]. exists (KFailingOut (Some x)); auto.
      * destruct Hk as [<-|[]]. exists (KFailingOut None); auto.
Qed.
Lemma select_inbound_in now r m i x : select_inbound now r m = Some (i, x) ->
  (In (i, KIn x) m \/ In (i, KFailingIn x) m) /\ now + INBOUND_TUNNEL_MIN_AGE < x.
Proof.
  unfold select_inbound, or_else. intros H.
  destruct (choose r (in_available now m)) eqn:E1.
  - injection H as ->. apply choose_in in E1. apply in_flat_map in E1 as ([t k] & Hin & Hk); cbn in *.
    destruct k; cbn in Hk; try contradiction.
    destruct (N.ltb_spec (now + INBOUND_TUNNEL_MIN_AGE) expires); cbn in Hk; [|contradiction].
    destruct Hk as [Hk|[]]. injection Hk as -> ->. auto.
  - apply choose_in in H. apply in_flat_map in H as ([t k] & Hin & Hk); cbn in *.
    destruct k; cbn in Hk; try contradiction.
    destruct (N.ltb_spec (now + INBOUND_TUNNEL_MIN_AGE) expires); cbn in Hk; [|contradiction].
    destruct Hk as [Hk|[]]. injection Hk as -> ->. auto.
Qed.

Lemma inv_ask es room h h' q : inv es h -> ask_lease_set room h = (h', q) -> inv es h' /\ h_events h' = h_events h.
Proof.
  unfold ask_lease_set. intros H E. destruct (h_status h); [destruct room|];
  apply pair_equal_spec in E as [<- <-]; auto.
Qed.

Lemma make_path_inv es d h h' p q : kinds_ok es (h_tunnels h) -> path_ok es h ->
  make_path d h = PRes h' p q ->
  inv es h' /\ h_events h' = h_events h /\
  (forall i o, p = Some (i, o) -> (exists x, announced i x es /\ dr_now2 d + INBOUND_TUNNEL_MIN_AGE < x) /\ out_state o es <> None).
Proof.
  intros Hk Hp. unfold make_path.
  destruct (select_outbound _ _ _) as [o|] eqn:Eo.
  2:{ intros E; injection E as <- <- <-. split; [split; auto|]. split; [auto|discriminate]. }
  destruct (select_inbound _ _ _) as [[i x]|] eqn:Ei.
  2:{ destruct (ask_lease_set (dr_room d) h) as [h1 q1] eqn:Ea.
      intros E; injection E as <- <- <-.
      destruct (inv_ask es _ _ _ _ (conj Hk Hp) Ea). split; [auto|]. split; [auto|discriminate]. }
  destruct (N.ltb_spec x (dr_now3 d + INBOUND_TUNNEL_MIN_AGE)) as [|Hx]; [discriminate|].
  intros E; injection E as <- <- <-.
  apply select_outbound_in in Eo as (k & Hin & Hkk).
  apply select_inbound_in in Ei as (Hi & Hlt).
  assert (Ho : out_state o es <> None).
  { specialize (Hk _ Hin). unfold kind_ok in Hk; cbn [fst snd] in Hk. destruct k; auto; contradiction. }
  assert (Ha : announced i x es).
  { destruct Hi as [Hi|Hi]; apply Hk in Hi; exact Hi. }
  split.
  - split; [exact Hk|]. unfold path_ok; cbn. split; [eauto|]. split; [auto|].
    intros t Ht; injection Ht as <-. unfold INBOUND_TUNNEL_MIN_AGE in *.
    replace (x - 30000 + 30000) with x by lia. auto.
  - split; [reflexivity|]. intros i' o' E'. injection E' as <- <-. split; eauto.
Qed.

Lemma fail_inbound_kinds es i m : kinds_ok es m -> kinds_ok es (fail_inbound i m).
Proof.
  intros H. unfold fail_inbound. destruct (nget i m) as [k|] eqn:E; [|now apply kinds_ndel].
  pose proof (kinds_nget _ _ _ _ H E) as Hk. destruct k; try (now apply kinds_ndel);
  apply kinds_nput; auto.
Qed.
Lemma fail_outbound_kinds es i m : kinds_ok es m -> kinds_ok es (fail_outbound i m).
Proof.
  intros H. unfold fail_outbound. destruct (nget i m) as [k|] eqn:E; [|now apply kinds_ndel].
  pose proof (kinds_nget _ _ _ _ H E) as Hk. destruct k; try (now apply kinds_ndel);
  apply kinds_nput; auto.
Qed.

Lemma inv_no_path es h : inv es h -> inv es (no_path h).
Proof. intros [H _]; split; [exact H|reflexivity]. Qed.

Lemma announced_fold ts m es :
  kinds_ok es m -> kinds_ok (es ++ [InBuilt ts]) m ->
  kinds_ok (es ++ [InBuilt ts]) (put_all (map (fun e => (fst e, KIn (snd e))) ts) m).
Proof.
  intros _ H e He. apply in_put_all in He as [He|He]; [|auto].
  apply in_map_iff in He as ([t x] & <- & He). unfold kind_ok; cbn.
  exists ts; split; [apply in_or_app; cbn; auto|auto].
Qed.

Lemma kinds_in es ts m : kinds_ok es m -> kinds_ok (es ++ [InBuilt ts]) m.
Proof.
  intros H e He. specialize (H e He). unfold kind_ok in *.
  destruct (snd e); rewrite ?out_state_app; auto using announced_app.
Qed.

Lemma on_event_inv now es h e : inv es h -> inv (es ++ [e]) (on_event now h e) /\ h_events (on_event now h e) = h_events h.
Proof.
  intros [Hk Hp]. destruct e as [ts|t|t x|t]; cbn [on_event].
  - (* leases *)
    set (h1 := match h_path h with Some (i, _) => _ | None => h end).
    assert (H1 : inv es h1 /\ h_tunnels h1 = h_tunnels h /\ h_events h1 = h_events h).
    { unfold h1. destruct (h_path h) as [[i o]|] eqn:E; [|split; [split|]; auto].
      destruct (nget i (h_tunnels h)) as [[]|] eqn:En;
      try (split; [split; auto|auto]; fail). split; [apply inv_no_path; split; auto|auto]. }
    destruct H1 as ([Hk1 Hp1] & Ht & He). split; [split|exact He].
    + cbn [h_tunnels w_tunnels]. intros e He'. apply filter_In in He' as [He' _].
      revert e He'. apply announced_fold; [exact Hk1|now apply kinds_in].
    + unfold path_ok in *. cbn [w_tunnels h_path h_timer]. destruct (h_path h1) as [[i o]|]; [|exact Hp1].
      destruct Hp1 as ((x & Hx) & Ho & Htm). rewrite out_state_app; cbn.
      split; [eauto using announced_app|]. split; [exact Ho|]. intros t Et. apply announced_app; auto.
  - set (h1 := match h_path h with Some (_, o) => _ | None => h end).
    assert (H1 : inv es h1 /\ h_tunnels h1 = h_tunnels h /\ h_events h1 = h_events h).
    { unfold h1. destruct (h_path h) as [[i o]|] eqn:E; [|split; [split|]; auto].
      destruct (nget o (h_tunnels h)) as [[]|] eqn:En;
      try (split; [split; auto|auto]; fail); (split; [apply inv_no_path; split; auto|auto]). }
    destruct H1 as ([Hk1 Hp1] & Ht & He). split; [split|exact He].
    + cbn [h_tunnels w_tunnels]. intros [t' k] He'. apply in_nput in He' as [E|He'].
      * injection E as -> ->. unfold kind_ok; cbn. rewrite out_state_app; cbn. rewrite N.eqb_refl. discriminate.
      * specialize (Hk1 _ He'). unfold kind_ok in *; cbn [fst snd] in *.
        destruct k; auto using announced_app; rewrite out_state_app; cbn; destruct (t =? t'); congruence.
    + unfold path_ok in *. cbn [w_tunnels h_path h_timer]. destruct (h_path h1) as [[i o]|]; [|exact Hp1].
      destruct Hp1 as ((x & Hx) & Ho & Htm). rewrite out_state_app; cbn.
      split; [eauto using announced_app|]. split; [destruct (t =? o); congruence|]. intros t' Et. apply announced_app; auto.
  - assert (Hk' : kinds_ok (es ++ [OutExpiring t x]) (nput t (KExpiringOut x) (h_tunnels h))).
    { intros [t' k] He'. apply in_nput in He' as [E|He'].
      * injection E as -> ->. unfold kind_ok; cbn. rewrite out_state_app; cbn. rewrite N.eqb_refl. discriminate.
      * specialize (Hk _ He'). unfold kind_ok in *; cbn [fst snd] in *.
        destruct k; auto using announced_app; rewrite out_state_app; cbn; destruct (t =? t'); congruence. }
    destruct (h_path h) as [[i o]|] eqn:E.
    + destruct (N.eqb_spec o t) as [->|Hne].
      * split; [|reflexivity]. split; [exact Hk'|reflexivity].
      * split; [|reflexivity]. split; [exact Hk'|]. unfold path_ok in *. cbn [w_tunnels h_path h_timer]. rewrite E in *.
        destruct Hp as ((y & Hx) & Ho & Htm). rewrite out_state_app; cbn.
        split; [eauto using announced_app|]. split; [destruct (t =? o); congruence|]. intros t' Et. apply announced_app; auto.
    + split; [|reflexivity]. split; [exact Hk'|]. unfold path_ok in *. cbn [w_tunnels h_path h_timer]. rewrite E in *. exact Hp.
  - assert (Hk' : kinds_ok (es ++ [OutExpired t]) (ndel t (h_tunnels h))).
    { intros [t' k] He'. apply in_ndel in He' as [Hne He']. cbn in Hne.
      specialize (Hk _ He'). unfold kind_ok in *; cbn [fst snd] in *.
      destruct k; auto using announced_app; rewrite out_state_app; cbn; destruct (N.eqb_spec t t'); congruence. }
    destruct (h_path h) as [[i o]|] eqn:E.
    + destruct (N.eqb_spec o t) as [->|Hne].
      * split; [|reflexivity]. split; [exact Hk'|reflexivity].
      * split; [|reflexivity]. split; [exact Hk'|]. unfold path_ok in *. cbn [w_tunnels h_path h_timer]. rewrite E in *.
        destruct Hp as ((y & Hx) & Ho & Htm). rewrite out_state_app; cbn.
        split; [eauto using announced_app|]. split; [destruct (N.eqb_spec t o); congruence|]. intros t' Et. apply announced_app; auto.
    + split; [|reflexivity]. split; [exact Hk'|]. unfold path_ok in *. cbn [w_tunnels h_path h_timer]. rewrite E in *. exact Hp.
Qed.

Lemma events_inv now l : forall es h, inv es h ->
  inv (es ++ l) (fold_left (on_event now) l h) /\ h_events (fold_left (on_event now) l h) = h_events h.
Proof.
  induction l as [|e l IH]; intros es h H; cbn; [rewrite app_nil_r; auto|].
  destruct (on_event_inv now es h e H) as [H1 H2].
  destruct (IH _ _ H1) as [H3 H4]. rewrite <- app_assoc in H3. split; [exact H3|congruence].
Qed.

Lemma on_answer_inv es h h' : inv es h -> on_answer h = Some h' -> inv es h' /\ h_events h' = h_events h.
Proof.
  unfold on_answer. intros H. destruct (h_status h) as [n|n].
  - intros E; injection E as <-; auto.
  - destruct (h_answer h) as [[]|].
    + intros E; injection E as <-; auto.
    + destruct (n =? _); [discriminate|]. intros E; injection E as <-; auto.
    + intros E; injection E as <-; auto.
Qed.
Lemma on_timer_inv es now h : inv es h -> inv es (on_timer now h) /\ h_events (on_timer now h) = h_events h.
Proof.
  intros H. unfold on_timer. destruct (h_timer h) as [t|]; [|auto]. destruct (t <=? now); [|auto].
  split; [now apply inv_no_path|reflexivity].
Qed.
Lemma poll_inv es now h h' : inv es h -> poll now h = Some h' ->
  inv (es ++ h_events h) h' /\ h_events h' = [].
Proof.
  unfold poll. intros H. destruct (on_answer h) as [h1|] eqn:E; [|discriminate].
  destruct (on_answer_inv _ _ _ H E) as [H1 He1].
  destruct (on_timer_inv es now h1 H1) as [H2 He2].
  intros E'; injection E' as <-.
  destruct (events_inv now (h_events (on_timer now h1)) es _ H2) as [H3 _].
  rewrite He2, He1 in *. split; [exact H3|reflexivity].
Qed.

(** The state of a handle that is [told] exactly [seen] and has [waiting] in its channel. *)
Lemma step_inv ops : forall h h' waiting seen outs, inv seen h -> h_events h = waiting ->
  hrun (Some h) ops = (Some h', outs) -> inv (told waiting seen ops) h'.
Proof.
  assert (Hnone : forall ops h' outs, hrun None ops = (Some h', outs) -> False).
  { clear. induction ops as [|op ops IH]; cbn; intros h' outs E; [discriminate|].
    destruct (hrun None ops) as [s2 os] eqn:E2. apply pair_equal_spec in E as [E _]; subst. eauto. }
  induction ops as [|op ops IH]; intros h h' waiting seen outs H Hw; cbn [hrun told].
  - intros E; apply pair_equal_spec in E as [E _]; injection E as <-; exact H.
  - destruct (hstep (Some h) op) as [s1 o] eqn:Es. destruct (hrun s1 ops) as [s2 os] eqn:Er.
    intros E; apply pair_equal_spec in E as [-> _].
    destruct s1 as [h1|]; [|exfalso; eauto].
    destruct op as [d|d|now|e|ok]; cbn [hstep] in Es.
    + unfold routing_path in Es. destruct (h_path h) as [p|] eqn:Ep.
      * apply pair_equal_spec in Es as [Es _]; injection Es as <-. eapply IH; eauto.
      * destruct (make_path d h) as [|h2 p q] eqn:Em; cbn in Es; apply pair_equal_spec in Es as [Es _]; [discriminate|].
        injection Es as <-. destruct H as [Hk Hp].
        destruct (make_path_inv seen d h h2 p q Hk Hp Em) as (H1 & H2 & _). eapply IH; eauto; congruence.
    + unfold recreate_path in Es. destruct (h_path h) as [[i ob]|] eqn:Ep.
      * set (hh := mkH _ _ _ _ _ _) in Es.
        destruct (make_path d hh) as [|h2 p q] eqn:Em; cbn in Es; apply pair_equal_spec in Es as [Es _]; [discriminate|].
        injection Es as <-. destruct H as [Hk Hp].
        assert (Hk2 : kinds_ok seen (h_tunnels hh)) by (apply fail_outbound_kinds, fail_inbound_kinds, Hk).
        assert (Hp2 : path_ok seen hh).
        { unfold path_ok in *. unfold hh; cbn. rewrite Ep in *. destruct Hp as (Ha & Hb & _).
          split; [exact Ha|]. split; [exact Hb|discriminate]. }
        destruct (make_path_inv seen d hh h2 p q Hk2 Hp2 Em) as (H1 & H2 & _). eapply IH; eauto.
        rewrite H2; exact Hw.
      * destruct (make_path d h) as [|h2 p q] eqn:Em; cbn in Es; apply pair_equal_spec in Es as [Es _]; [discriminate|].
        injection Es as <-. destruct H as [Hk Hp].
        destruct (make_path_inv seen d h h2 p q Hk Hp Em) as (H1 & H2 & _). eapply IH; eauto; congruence.
    + destruct (poll now h) as [h2|] eqn:Ep; apply pair_equal_spec in Es as [Es _]; [|discriminate].
      injection Es as <-. destruct (poll_inv seen now h h2 H Ep) as [H1 H2]. rewrite Hw in H1. eapply IH; eauto.
    + apply pair_equal_spec in Es as [Es _]; injection Es as <-. eapply IH; [| |exact Er].
      * unfold push_event. destruct (_ <? _); exact H.
      * unfold push_event, EVENT_CHANNEL. rewrite Hw. destruct (_ <? _); [reflexivity|exact Hw].
    + apply pair_equal_spec in Es as [Es _]; injection Es as <-. eapply IH; [| |exact Er].
      * unfold push_answer. destruct (h_status h); [exact H|]. destruct (h_answer h); exact H.
      * unfold push_answer. destruct (h_status h); [exact Hw|]. destruct (h_answer h); exact Hw.
Qed.

(** ** A new handle *)
Lemma birth_outs o l st : fold_left (out_after o) (map OutBuilt l) st = if existsb (N.eqb o) l then Some None else st.
Proof.
  revert st; induction l as [|a l IH]; cbn; intros st; [reflexivity|].
  rewrite IH, N.eqb_sym. destruct (o =? a); cbn; [destruct (existsb _ l); reflexivity|reflexivity].
Qed.
Lemma birth_mono o l st : st <> None ->
  fold_left (out_after o) (map (fun e : N * N => OutExpiring (fst e) (snd e)) l) st <> None.
Proof.
  revert st; induction l as [|a l IH]; cbn; intros st H; [exact H|].
  apply IH. destruct (fst a =? o); congruence.
Qed.
Lemma birth_exp o x l st : In (o, x) l ->
  fold_left (out_after o) (map (fun e : N * N => OutExpiring (fst e) (snd e)) l) st <> None.
Proof.
  revert st; induction l as [|a l IH]; cbn; intros st H; [contradiction|].
  destruct H as [->|H]; [|auto]. cbn. rewrite N.eqb_refl. now apply birth_mono.
Qed.
Lemma birth_inv inb outb exps : inv (at_birth inb outb exps) (new_handle inb outb exps).
Proof.
  split; [|reflexivity]. intros e He. unfold new_handle in He; cbn [h_tunnels] in He.
  apply in_put_all in He as [He|[]].
  apply in_app_or in He as [He|He]; [|apply in_app_or in He as [He|He]];
  apply in_map_iff in He as (y & <- & Hy); unfold kind_ok; cbn.
  - exists inb; split; [left; reflexivity|]. now destruct y.
  - unfold at_birth. unfold out_state; cbn [fold_left out_after]. rewrite fold_left_app.
    apply birth_mono. rewrite birth_outs.
    assert (existsb (N.eqb y) outb = true) as -> by (apply existsb_exists; exists y; split; [auto|apply N.eqb_refl]).
    discriminate.
  - unfold at_birth, out_state; cbn [fold_left out_after]. rewrite fold_left_app.
    destruct y as [o x]; cbn. now apply birth_exp with x.
Qed.
