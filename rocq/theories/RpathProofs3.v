(** Proofs about routing path handles: a path is found whenever there is one. *)
From Coq Require Import List NArith Bool Lia Sorting.Sorted.
From Verif Require Import ListUtil Bytes NMap RouteProofs Ssu2Proofs3 RpathModel RpathSpec RpathProofs RpathProofs2.
Import ListNotations.
Open Scope N_scope.

Definition asc (m : nmap tkind) : Prop := sorted (nkeys m).
Lemma asc_filter f m : asc m -> asc (filter f m).
Proof.
  unfold asc, sorted. induction m as [|[k v] m IH]; cbn; intros H; [constructor|].
  inversion H as [|? ? Hs Hf]; subst. destruct (f (k, v)); cbn; [|auto].
  constructor; [auto|]. rewrite Forall_forall in *. intros x Hx. apply Hf.
  apply in_map_iff in Hx as (e & <- & He). apply filter_In in He as [He _]. apply in_map; exact He.
Qed.
Lemma asc_put_all l : forall m, asc m -> asc (put_all l m).
Proof. induction l as [|a l IH]; cbn; intros m H; [exact H|]. apply IH. now apply nput_Sorted. Qed.

Definition latest (i : N) (ts : list (N * N)) (st : option N) : option N :=
  fold_left (fun st l => if fst l =? i then Some (snd l) else st) ts st.
Lemma latest_from i ts : forall st, latest i ts st = match latest i ts None with Some x => Some x | None => st end.
Proof.
  unfold latest. induction ts as [|[t x] ts IH]; cbn [fold_left fst snd]; intros st; [reflexivity|].
  destruct (t =? i); [|apply IH]. rewrite (IH (Some x)). destruct (fold_left _ ts None); reflexivity.
Qed.
Lemma nget_put_leases t ts : forall m, nget t (put_all (map (fun e => (fst e, KIn (snd e))) ts) m) =
  match latest t ts None with Some x => Some (KIn x) | None => nget t m end.
Proof.
  induction ts as [|[k x] ts IH]; cbn; intros m; [reflexivity|].
  rewrite IH, nget_nput. change (fold_left _ ts ?s) with (latest t ts s). rewrite N.eqb_sym.
  destruct (k =? t); [|reflexivity]. rewrite (latest_from t ts (Some x)). destruct (latest t ts None); reflexivity.
Qed.
Lemma latest_in i ts x : latest i ts None = Some x -> In (i, x) ts.
Proof.
  assert (H : forall st, latest i ts st = Some x -> In (i, x) ts \/ st = Some x).
  { induction ts as [|[k y] ts IH]; cbn; intros st E; [auto|].
    apply IH in E as [E|E]; [auto|]. destruct (N.eqb_spec k i) as [->|]; [|auto]. injection E as ->. auto. }
  intros E. apply H in E as [E|E]; [exact E|discriminate].
Qed.

Section Apart.
Variable inb : N -> bool.
Variable T : N.

Definition out_ok es (m : nmap tkind) := forall o, inb o = false ->
  match out_state o es with
  | None => nget o m = None
  | Some None => nget o m = Some KOut \/ nget o m = Some (KFailingOut None)
  | Some (Some x) => nget o m = Some (KExpiringOut x) \/ nget o m = Some (KFailingOut (Some x))
  end.
Definition in_ok es (m : nmap tkind) := forall i x, inb i = true -> lease_state i es = Some x -> T < x ->
  nget i m = Some (KIn x) \/ nget i m = Some (KFailingIn x).
Definition avail es m := asc m /\ out_ok es m /\ in_ok es m.

Lemma announced_apart es i x : ids_apart inb es -> announced i x es -> inb i = true.
Proof. intros H (ts & Hin & Hi). exact (H _ Hin _ Hi). Qed.
Lemma out_state_apart es o : ids_apart inb es -> out_state o es <> None -> inb o = false.
Proof.
  intros H Hne.
  assert (Hg : forall l st, fold_left (out_after o) l st <> None -> st <> None \/
     exists e, In e l /\ match e with OutBuilt t | OutExpiring t _ => t = o | _ => False end).
  { clear. induction l as [|e l IH]; cbn; intros st Hn; [auto|].
    apply IH in Hn as [Hn|(e' & Hin & He)]; [|eauto].
    destruct e as [ts|t|t x|t]; cbn in Hn; auto; destruct (N.eqb_spec t o) as [->|]; auto; right.
    - exists (OutBuilt o); auto.
    - exists (OutExpiring o x); auto. }
  destruct (Hg es None Hne) as [|(e & Hin & He)]; [congruence|].
  specialize (H _ Hin). destruct e; subst; auto; contradiction.
Qed.

Lemma avail_fail es i o m : avail es m -> inb i = true -> inb o = false -> avail es (fail_outbound o (fail_inbound i m)).
Proof.
  intros (Ha & Ho & Hi) Hib Hob.
  assert (A1 : avail es (fail_inbound i m)).
  { unfold fail_inbound. split; [|split].
    - unfold asc in *. destruct (nget i m) as [[]|]; auto using nput_Sorted, ndel_Sorted.
    - intros o' Ho'. assert (o' =? i = false) by (destruct (N.eqb_spec o' i); congruence).
      specialize (Ho o' Ho').
      destruct (nget i m) as [[]|]; rewrite ?nget_nput, ?nget_ndel, H; exact Ho.
    - intros i' x Hi' El Hx. specialize (Hi i' x Hi' El Hx).
      destruct (N.eqb_spec i' i) as [->|Hne].
      + destruct Hi as [Hi|Hi]; rewrite Hi; rewrite nget_nput, N.eqb_refl; auto.
      + assert (i' =? i = false) by (destruct (N.eqb_spec i' i); congruence).
        destruct (nget i m) as [[]|]; rewrite ?nget_nput, ?nget_ndel, H; exact Hi. }
  revert A1. generalize (fail_inbound i m). clear - Hob. intros m (Ha & Ho & Hi).
  unfold fail_outbound. split; [|split].
  - unfold asc in *. destruct (nget o m) as [[]|]; auto using nput_Sorted, ndel_Sorted.
  - intros o' Ho'. specialize (Ho o' Ho'). destruct (N.eqb_spec o' o) as [->|Hne].
    + destruct (out_state o es) as [[x|]|].
      * destruct Ho as [Ho|Ho]; rewrite Ho; rewrite nget_nput, N.eqb_refl; auto.
      * destruct Ho as [Ho|Ho]; rewrite Ho; rewrite nget_nput, N.eqb_refl; auto.
      * rewrite Ho. rewrite nget_ndel, N.eqb_refl. reflexivity.
    + assert (o' =? o = false) by (destruct (N.eqb_spec o' o); congruence).
      destruct (nget o m) as [[]|]; rewrite ?nget_nput, ?nget_ndel, H; exact Ho.
  - intros i' x Hi' El Hx. specialize (Hi i' x Hi' El Hx).
    assert (i' =? o = false) by (destruct (N.eqb_spec i' o); congruence).
    destruct (nget o m) as [[]|]; rewrite ?nget_nput, ?nget_ndel, H; exact Hi.
Qed.

Lemma avail_event now es h e : now <= T ->
  match e with
  | InBuilt ts => forall l, In l ts -> inb (fst l) = true
  | OutBuilt t | OutExpiring t _ | OutExpired t => inb t = false
  end ->
  avail es (h_tunnels h) -> avail (es ++ [e]) (h_tunnels (on_event now h e)).
Proof.
  intros Hnow He (Ha & Ho & Hi). destruct e as [ts|t|t y|t].
  - cbn [on_event]. set (h1 := match h_path h with Some (i, _) => _ | None => h end).
    assert (E1 : h_tunnels h1 = h_tunnels h).
    { unfold h1. destruct (h_path h) as [[i o]|]; [|auto]. destruct (nget i (h_tunnels h)) as [[]|]; auto. }
    cbn [w_tunnels h_tunnels]. rewrite E1. generalize (option_map fst (h_path h1)); intros cur.
    assert (Hs : asc (put_all (map (fun e => (fst e, KIn (snd e))) ts) (h_tunnels h))) by now apply asc_put_all.
    split; [now apply asc_filter|]. split.
    + intros o Hob. rewrite out_state_app; cbn [fold_left out_after]. specialize (Ho o Hob).
      assert (El : latest o ts None = None).
      { destruct (latest o ts None) eqn:E; [|auto]. apply latest_in in E. apply He in E. cbn in E. congruence. }
      rewrite nget_filter by now apply sorted_NoDup. rewrite nget_put_leases, El.
      assert (Hk : forall k, match k with KIn _ | KFailingIn _ => False | _ => True end -> keep_tunnel now cur (o, k) = true).
      { intros k Hk. unfold keep_tunnel. destruct cur; cbn; [destruct (_ =? _)|]; destruct k; auto; contradiction. }
      destruct (out_state o es) as [[x|]|].
      * destruct Ho as [-> | ->]; rewrite Hk by exact I; auto.
      * destruct Ho as [-> | ->]; rewrite Hk by exact I; auto.
      * rewrite Ho; reflexivity.
    + intros i x Hib El Hx. rewrite lease_state_app in El; cbn [fold_left lease_after] in El.
      change (fold_left _ ts ?s) with (latest i ts s) in El. rewrite latest_from in El.
      rewrite nget_filter by now apply sorted_NoDup. rewrite nget_put_leases.
      assert (Hk : forall k, match k with KIn y | KFailingIn y => y = x | _ => True end -> keep_tunnel now cur (i, k) = true).
      { intros k Hk. unfold keep_tunnel. destruct cur; cbn; [destruct (_ =? _)|]; destruct k; auto; subst; apply N.ltb_lt; lia. }
      destruct (latest i ts None) as [z|].
      * injection El as ->. rewrite Hk by reflexivity. auto.
      * destruct (Hi i x Hib El Hx) as [-> | ->]; rewrite Hk by reflexivity; auto.
  - cbn [on_event]. set (h1 := match h_path h with Some (_, o) => _ | None => h end).
    assert (E1 : h_tunnels h1 = h_tunnels h).
    { unfold h1. destruct (h_path h) as [[i o]|]; [|auto]. destruct (nget o (h_tunnels h)) as [[]|]; auto. }
    cbn [w_tunnels h_tunnels]. rewrite E1. split; [now apply nput_Sorted|]. split.
    + intros o Hob. rewrite out_state_app; cbn [fold_left out_after]. rewrite nget_nput, (N.eqb_sym o t).
      destruct (t =? o); [auto|]. exact (Ho o Hob).
    + intros i x Hib El Hx. rewrite lease_state_app in El; cbn in El. rewrite nget_nput.
      destruct (N.eqb_spec i t); [congruence|]. auto.
  - assert (E1 : h_tunnels (on_event now h (OutExpiring t y)) = nput t (KExpiringOut y) (h_tunnels h)).
    { cbn [on_event]. destruct (h_path h) as [[i o]|]; [|auto]. destruct (o =? t); auto. }
    rewrite E1. split; [now apply nput_Sorted|]. split.
    + intros o Hob. rewrite out_state_app; cbn [fold_left out_after]. rewrite nget_nput, (N.eqb_sym o t).
      destruct (t =? o); [auto|]. exact (Ho o Hob).
    + intros i x Hib El Hx. rewrite lease_state_app in El; cbn in El. rewrite nget_nput.
      destruct (N.eqb_spec i t); [congruence|]. auto.
  - assert (E1 : h_tunnels (on_event now h (OutExpired t)) = ndel t (h_tunnels h)).
    { cbn [on_event]. destruct (h_path h) as [[i o]|]; [|auto]. destruct (o =? t); auto. }
    rewrite E1. split; [now apply ndel_Sorted|]. split.
    + intros o Hob. rewrite out_state_app; cbn [fold_left out_after]. rewrite nget_ndel, (N.eqb_sym o t).
      destruct (t =? o); [auto|]. exact (Ho o Hob).
    + intros i x Hib El Hx. rewrite lease_state_app in El; cbn in El. rewrite nget_ndel.
      destruct (N.eqb_spec i t); [congruence|]. auto.
Qed.
Lemma avail_events now l : forall es h, now <= T -> ids_apart inb l ->
  avail es (h_tunnels h) -> avail (es ++ l) (h_tunnels (fold_left (on_event now) l h)).
Proof.
  induction l as [|e l IH]; intros es h Hn Hl H; cbn; [rewrite app_nil_r; exact H|].
  replace (es ++ e :: l) with ((es ++ [e]) ++ l) by (rewrite <- app_assoc; reflexivity).
  apply IH; [exact Hn|intros x Hx; apply Hl; right; exact Hx|].
  apply avail_event; [exact Hn|exact (Hl e (or_introl eq_refl))|exact H].
Qed.

Lemma told_mono ops : forall w s e, In e s -> In e (told w s ops).
Proof.
  induction ops as [|op ops IH]; intros w s e H; cbn; [exact H|].
  destruct op; auto. apply IH. apply in_or_app; auto.
Qed.
Lemma make_path_tunnels d h h' p q : make_path d h = PRes h' p q -> h_tunnels h' = h_tunnels h /\ h_events h' = h_events h.
Proof.
  unfold make_path. destruct (select_outbound _ _ _); [|intros E; injection E as <- _ _; auto].
  destruct (select_inbound _ _ _) as [[i x]|].
  - destruct (_ <? _); [discriminate|]. intros E; injection E as <- _ _; auto.
  - unfold ask_lease_set. destruct (h_status h); [destruct (dr_room d)|]; intros E; injection E as <- _ _; auto.
Qed.

Lemma run_avail ops : forall h h' waiting seen outs, inv seen h -> avail seen (h_tunnels h) ->
  h_events h = waiting -> polled_by T ops -> ids_apart inb (told waiting seen ops) ->
  hrun (Some h) ops = (Some h', outs) -> avail (told waiting seen ops) (h_tunnels h').
Proof.
  induction ops as [|op ops IH]; intros h h' waiting seen outs Hinv H Hw Hp Hids; cbn [hrun told].
  - intros E; apply pair_equal_spec in E as [E _]; injection E as <-; exact H.
  - destruct (hstep (Some h) op) as [s1 o] eqn:Es. destruct (hrun s1 ops) as [s2 os] eqn:Er.
    intros E; apply pair_equal_spec in E as [-> _].
    destruct s1 as [h1|]; [|apply hrun_none in Er; discriminate].
    assert (Hp' : polled_by T ops) by (intros t Ht; apply Hp; right; exact Ht).
    assert (Hseen : ids_apart inb seen).
    { intros e He. apply Hids. now apply told_mono. }
    assert (Hone : hrun (Some h) [op] = (Some h1, [o])) by (cbn [hrun]; rewrite Es; reflexivity).
    pose proof (step_inv [op] h h1 waiting seen [o] Hinv Hw Hone) as Hinv1.
    destruct op as [d|d|now|e|ok]; cbn [hstep] in Es; cbn [told] in Hids, Hinv1.
    + unfold routing_path in Es. destruct (h_path h) as [p|] eqn:Ep.
      * apply pair_equal_spec in Es as [Es _]; injection Es as <-. eapply IH; eauto.
      * destruct (make_path d h) as [|h2 p q] eqn:Em; cbn in Es; apply pair_equal_spec in Es as [Es _]; [discriminate|].
        injection Es as <-. apply make_path_tunnels in Em as [E1 E2]. eapply IH; eauto; congruence.
    + unfold recreate_path in Es. destruct (h_path h) as [[i ob]|] eqn:Ep.
      * set (hh := mkH _ _ _ _ _ _) in Es.
        destruct (make_path d hh) as [|h2 p q] eqn:Em; cbn in Es; apply pair_equal_spec in Es as [Es _]; [discriminate|].
        injection Es as <-. apply make_path_tunnels in Em as [E1 E2].
        destruct Hinv as [_ Hpath]. unfold path_ok in Hpath. rewrite Ep in Hpath. destruct Hpath as ((x & Hx) & Hob & _).
        eapply IH; [exact Hinv1| | |exact Hp'|exact Hids|exact Er].
        -- rewrite E1. unfold hh; cbn. apply avail_fail; [exact H|now apply announced_apart with seen x|now apply out_state_apart with seen].
        -- rewrite E2. exact Hw.
      * destruct (make_path d h) as [|h2 p q] eqn:Em; cbn in Es; apply pair_equal_spec in Es as [Es _]; [discriminate|].
        injection Es as <-. apply make_path_tunnels in Em as [E1 E2]. eapply IH; eauto; congruence.
    + destruct (poll now h) as [h2|] eqn:Ep; apply pair_equal_spec in Es as [Es _]; [|discriminate].
      injection Es as <-. unfold poll in Ep. destruct (on_answer h) as [h3|] eqn:Ea; [|discriminate].
      apply on_answer_path in Ea as (_ & _ & Et & Ee). injection Ep as <-.
      eapply IH; [exact Hinv1| |reflexivity|exact Hp'|exact Hids|exact Er].
      cbn [w_events h_tunnels].
      assert (Ev : h_events (on_timer now h3) = waiting).
      { unfold on_timer. destruct (h_timer h3); [destruct (_ <=? _)|]; cbn; congruence. }
      assert (Ev2 : h_tunnels (on_timer now h3) = h_tunnels h).
      { unfold on_timer. destruct (h_timer h3); [destruct (_ <=? _)|]; cbn; congruence. }
      rewrite Ev. apply avail_events.
      * apply Hp; left; reflexivity.
      * intros e He. apply Hids. apply told_mono. apply in_or_app; auto.
      * rewrite Ev2. exact H.
    + apply pair_equal_spec in Es as [Es _]; injection Es as <-.
      eapply IH; [exact Hinv1| | |exact Hp'|exact Hids|exact Er].
      * assert (Ht : h_tunnels (push_event e h) = h_tunnels h) by (unfold push_event; destruct (N.of_nat (length (h_events h)) <? EVENT_CHANNEL); reflexivity).
        rewrite Ht. exact H.
      * unfold push_event, EVENT_CHANNEL. rewrite Hw. destruct (_ <? _); [reflexivity|exact Hw].
    + apply pair_equal_spec in Es as [Es _]; injection Es as <-.
      eapply IH; [exact Hinv1| | |exact Hp'|exact Hids|exact Er].
      * unfold push_answer. destruct (h_status h); [exact H|]. destruct (h_answer h); exact H.
      * unfold push_answer. destruct (h_status h); [exact Hw|]. destruct (h_answer h); exact Hw.
Qed.

(** A new handle is one that has processed [at_birth]. *)
Lemma birth_avail inb0 outb exps : ids_apart inb (at_birth inb0 outb exps) ->
  avail (at_birth inb0 outb exps) (h_tunnels (new_handle inb0 outb exps)).
Proof.
  intros H. unfold new_handle; cbn [h_tunnels]. unfold put_all. rewrite !fold_left_app.
  assert (A0 : avail [InBuilt inb0] (put_all (map (fun e => (fst e, KIn (snd e))) inb0) [])).
  { split; [apply asc_put_all; constructor|]. split.
    - intros o Ho. cbn. rewrite nget_put_leases.
      destruct (latest o inb0 None) eqn:E; [|reflexivity]. apply latest_in in E.
      specialize (H (InBuilt inb0) (or_introl eq_refl) _ E). cbn in H. congruence.
    - intros i x Hi El Hx. cbn in El. change (fold_left _ inb0 None) with (latest i inb0 None) in El.
      rewrite nget_put_leases, El. auto. }
  assert (Hput : forall es m t k e, avail es m -> inb t = false ->
     (e = OutBuilt t /\ k = KOut) \/ (exists y, e = OutExpiring t y /\ k = KExpiringOut y) -> avail (es ++ [e]) (nput t k m)).
  { intros es m t k e (Ha & Ho & Hi) Ht He. split; [now apply nput_Sorted|]. split.
    - intros o Hob. rewrite out_state_app, nget_nput, (N.eqb_sym o t). specialize (Ho o Hob).
      destruct He as [[-> ->]|(y & -> & ->)]; cbn; destruct (t =? o); auto.
    - intros i x Hib El Hx. rewrite lease_state_app in El. rewrite nget_nput.
      destruct (N.eqb_spec i t); [congruence|]. destruct He as [[-> ->]|(y & -> & ->)]; auto. }
  assert (A1 : forall l es m, (forall t, In t l -> inb t = false) -> avail es m ->
     avail (es ++ map OutBuilt l) (fold_left (fun m e => nput (fst e) (snd e) m) (map (fun t => (t, KOut)) l) m)).
  { induction l as [|t l IH]; intros es m Hl Hm; cbn; [rewrite app_nil_r; exact Hm|].
    replace (es ++ OutBuilt t :: map OutBuilt l) with ((es ++ [OutBuilt t]) ++ map OutBuilt l) by (rewrite <- app_assoc; reflexivity).
    apply IH; [intros; apply Hl; right; auto|]. apply Hput; [exact Hm|apply Hl; left; reflexivity|auto]. }
  assert (A2 : forall l es m, (forall t, In t l -> inb (fst t) = false) -> avail es m ->
     avail (es ++ map (fun e => OutExpiring (fst e) (snd e)) l) (fold_left (fun m e => nput (fst e) (snd e) m) (map (fun e => (fst e, KExpiringOut (snd e))) l) m)).
  { induction l as [|t l IH]; intros es m Hl Hm; cbn; [rewrite app_nil_r; exact Hm|].
    match goal with |- avail (es ++ ?a :: ?b) _ => replace (es ++ a :: b) with ((es ++ [a]) ++ b) by (rewrite <- app_assoc; reflexivity) end.
    apply IH; [intros; apply Hl; right; auto|]. apply Hput; [exact Hm|apply Hl; left; reflexivity|eauto]. }
  unfold at_birth. change (InBuilt inb0 :: ?a ++ ?b) with (([InBuilt inb0] ++ a) ++ b).
  apply A2; [|apply A1; [|exact A0]].
  - intros [t y] Ht. apply (H (OutExpiring t y)). right. apply in_or_app; right. apply in_map_iff. exists (t, y); auto.
  - intros t Ht. apply (H (OutBuilt t)). right. apply in_or_app; left. now apply in_map.
Qed.

Lemma select_out_some es now r m o : avail es m -> inb o = false ->
  (out_state o es = Some None \/ exists y, out_state o es = Some (Some y) /\ now + 30000 < y) ->
  exists o', select_outbound now r m = Some o'.
Proof.
  intros (_ & Ho & _) Hob Hs. specialize (Ho o Hob).
  assert (Hin : In o (out_available m) \/ In o (out_expiring now m) \/ In o (out_failing now m)).
  { destruct Hs as [Hs|(y & Hs & Hy)]; rewrite Hs in Ho.
    - destruct Ho as [Ho|Ho]; apply nget_In in Ho.
      + left. apply in_flat_map. exists (o, KOut); cbn; auto.
      + right; right. apply in_flat_map. exists (o, KFailingOut None); cbn; auto.
    - assert (Hl : (now + OUTBOUND_TUNNEL_EXPIRATION <? y) = true) by (apply N.ltb_lt; unfold OUTBOUND_TUNNEL_EXPIRATION; lia).
      destruct Ho as [Ho|Ho]; apply nget_In in Ho.
      + right; left. apply in_flat_map. exists (o, KExpiringOut y); cbn [snd fst]; rewrite Hl; cbn; auto.
      + right; right. apply in_flat_map. exists (o, KFailingOut (Some y)); cbn [snd fst]; rewrite Hl; cbn; auto. }
  unfold select_outbound, or_else.
  destruct (choose r (out_available m)) eqn:E1; [eauto|].
  destruct (choose r (out_expiring now m)) eqn:E2; [eauto|].
  destruct Hin as [Hin|[Hin|Hin]].
  - destruct (choose_some _ r (out_available m)) as [z Hz]; [intros E; rewrite E in Hin; contradiction|congruence].
  - destruct (choose_some _ r (out_expiring now m)) as [z Hz]; [intros E; rewrite E in Hin; contradiction|congruence].
  - apply choose_some. intros E; rewrite E in Hin; contradiction.
Qed.
Lemma select_in_some es r m i x : avail es m -> inb i = true -> lease_state i es = Some x ->
  T + 30000 < x -> exists p, select_inbound T r m = Some p.
Proof.
  intros (_ & _ & Hi) Hib El Hx. specialize (Hi i x Hib El ltac:(lia)).
  assert (Hl : (T + INBOUND_TUNNEL_MIN_AGE <? x) = true) by (apply N.ltb_lt; unfold INBOUND_TUNNEL_MIN_AGE; lia).
  assert (Hin : In (i, x) (in_available T m) \/ In (i, x) (in_failing T m)).
  { destruct Hi as [Hi|Hi]; apply nget_In in Hi; [left|right]; apply in_flat_map.
    - exists (i, KIn x); cbn [snd fst]; rewrite Hl; cbn; auto.
    - exists (i, KFailingIn x); cbn [snd fst]; rewrite Hl; cbn; auto. }
  unfold select_inbound, or_else. destruct (choose r (in_available T m)) eqn:E1; [eauto|].
  destruct Hin as [Hin|Hin].
  - destruct (choose_some _ r (in_available T m)) as [z Hz]; [intros E; rewrite E in Hin; contradiction|congruence].
  - apply choose_some. intros E; rewrite E in Hin; contradiction.
Qed.
End Apart.

Lemma path_available inbp inb outb exps ops h outs now :
  hrun (Some (new_handle inb outb exps)) ops = (Some h, outs) ->
  ids_apart inbp (told [] (at_birth inb outb exps) ops) -> polled_by now ops ->
  (exists o, out_state o (told [] (at_birth inb outb exps) ops) = Some None \/
             exists y, out_state o (told [] (at_birth inb outb exps) ops) = Some (Some y) /\ now + 30000 < y) ->
  (exists i x, lease_state i (told [] (at_birth inb outb exps) ops) = Some x /\ now + 30000 < x) ->
  forall r1 r2 room, exists p,
    snd (hstep (Some h) (HPath (one_reading now r1 r2 room))) = Got (Some p) false /\
    (exists p', snd (hstep (Some h) (HRecreate (one_reading now r1 r2 room))) = Got (Some p') false).
Proof.
  intros Hrun Hids Hpoll (o & Hout) (i & x & El & Hx) r1 r2 room.
  set (es := told [] (at_birth inb outb exps) ops) in *.
  pose proof (step_inv ops _ _ [] _ _ (birth_inv inb outb exps) eq_refl Hrun) as [Hk Hpath]. fold es in Hk, Hpath.
  assert (Hb : ids_apart inbp (at_birth inb outb exps)) by (intros e He; apply Hids; now apply told_mono).
  pose proof (run_avail inbp now ops _ _ [] _ _ (birth_inv inb outb exps) (birth_avail inbp now _ _ _ Hb) eq_refl Hpoll Hids Hrun) as Hav.
  fold es in Hav.
  assert (Hob : inbp o = false).
  { apply out_state_apart with es; [exact Hids|]. destruct Hout as [-> |(y & -> & _)]; discriminate. }
  assert (Hib : inbp i = true).
  { assert (Hg : forall l st, fold_left (lease_after i) l st = Some x -> st = Some x \/ announced i x l).
    { clear. induction l as [|e l IH]; cbn; intros st E; [auto|].
      apply IH in E as [E|(ts & H1 & H2)]; [|right; exists ts; cbn; auto].
      destruct e as [ts|t|t y|t]; cbn in E; auto.
      change (fold_left _ ts st) with (latest i ts st) in E. rewrite latest_from in E.
      destruct (latest i ts None) eqn:E2; [|auto]. injection E as ->. apply latest_in in E2.
      right. exists ts; cbn; auto. }
    destruct (Hg es None El) as [|Ha]; [discriminate|]. now apply announced_apart with es x. }
  assert (Hmake : forall h2, avail inbp now es (h_tunnels h2) -> exists h3 p, make_path (one_reading now r1 r2 room) h2 = PRes h3 (Some p) false).
  { intros h2 H2. unfold make_path; cbn [one_reading dr_now1 dr_now2 dr_now3 dr_r1 dr_r2 dr_room].
    destruct (select_out_some inbp now es now r1 _ o H2 Hob Hout) as [o' ->].
    destruct (select_in_some inbp now es r2 _ i x H2 Hib El Hx) as [[i' x'] Ei]. rewrite Ei.
    apply select_inbound_in in Ei as [_ Hlt].
    destruct (N.ltb_spec x' (now + INBOUND_TUNNEL_MIN_AGE)); [lia|]. eauto. }
  destruct (Hmake h Hav) as (h3 & p3 & Em).
  cbn [hstep]. unfold routing_path, recreate_path.
  destruct (h_path h) as [[i0 o0]|] eqn:Ep.
  - exists (i0, o0). split; [reflexivity|]. unfold path_ok in Hpath. rewrite Ep in Hpath. destruct Hpath as ((y & Hy) & Ho0 & _).
    match goal with |- exists p', snd (of_pres (make_path _ ?hh)) = _ => destruct (Hmake hh) as (h4 & p4 & ->) end.
    + cbn. apply avail_fail; [exact Hav|now apply announced_apart with es y|now apply out_state_apart with es].
    + cbn; eauto.
  - exists p3. rewrite Em. cbn; eauto.
Qed.
