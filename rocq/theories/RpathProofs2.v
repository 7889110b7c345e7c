(** Proofs about routing path handles: freshness, lookups, availability. *)
From Coq Require Import List NArith Bool Lia.
From Verif Require Import ListUtil Bytes NMap RouteProofs RpathModel RpathSpec RpathProofs.
Import ListNotations.
Open Scope N_scope.

Lemma hrun_none ops : forall s outs, hrun None ops = (s, outs) -> s = None.
Proof.
  induction ops as [|op ops IH]; cbn; intros s outs E; [now apply pair_equal_spec in E as [<- _]|].
  destruct (hrun None ops) as [s2 os] eqn:E2. apply pair_equal_spec in E as [E _]; subst. eauto.
Qed.

(** ** Every path has its timer unless a replacement failed *)
Definition timed (h : handle) : Prop := h_path h <> None -> h_timer h <> None.

Lemma ask_path room h h' q : ask_lease_set room h = (h', q) -> h_path h' = h_path h /\ h_timer h' = h_timer h /\ h_tunnels h' = h_tunnels h.
Proof.
  unfold ask_lease_set. intros E. destruct (h_status h); [destruct room|];
  apply pair_equal_spec in E as [<- _]; auto.
Qed.
Lemma make_path_timed d h h' p q : make_path d h = PRes h' p q ->
  (timed h -> timed h') /\ (p <> None -> timed h').
Proof.
  unfold make_path. destruct (select_outbound _ _ _) as [o|].
  2:{ intros E; injection E as <- <- _. split; [auto|congruence]. }
  destruct (select_inbound _ _ _) as [[i x]|].
  2:{ destruct (ask_lease_set (dr_room d) h) as [h1 q1] eqn:Ea.
      intros E; injection E as <- <- _. apply ask_path in Ea as (Ha & Hb & _).
      split; [unfold timed; rewrite Ha, Hb; auto|congruence]. }
  destruct (_ <? _); [discriminate|]. intros E; injection E as <- <- _.
  split; intros _; unfold timed; cbn; congruence.
Qed.
(** An event leaves path and timer alone or resets both. *)
Lemma on_event_path now h e : (h_path (on_event now h e) = h_path h /\ h_timer (on_event now h e) = h_timer h) \/
                              (h_path (on_event now h e) = None /\ h_timer (on_event now h e) = None).
Proof.
  destruct e as [ts|t|t x|t]; cbn [on_event].
  - destruct (h_path h) as [[i o]|] eqn:E; [|left; cbn; auto].
    destruct (nget i (h_tunnels h)) as [[]|]; cbn; auto.
  - destruct (h_path h) as [[i o]|] eqn:E; [|left; cbn; auto].
    destruct (nget o (h_tunnels h)) as [[]|]; cbn; auto.
  - destruct (h_path h) as [[i o]|] eqn:E; [|left; cbn; auto]. destruct (o =? t); cbn; auto.
  - destruct (h_path h) as [[i o]|] eqn:E; [|left; cbn; auto]. destruct (o =? t); cbn; auto.
Qed.
Lemma events_path now l : forall h,
  (h_path (fold_left (on_event now) l h) = h_path h /\ h_timer (fold_left (on_event now) l h) = h_timer h) \/
  (h_path (fold_left (on_event now) l h) = None /\ h_timer (fold_left (on_event now) l h) = None).
Proof.
  induction l as [|e l IH]; intros h; cbn; [auto|].
  destruct (IH (on_event now h e)) as [[-> ->]|H]; [|auto]. apply on_event_path.
Qed.
Lemma on_answer_path h h' : on_answer h = Some h' -> h_path h' = h_path h /\ h_timer h' = h_timer h /\ h_tunnels h' = h_tunnels h /\ h_events h' = h_events h.
Proof.
  unfold on_answer. destruct (h_status h) as [n|n].
  - intros E; injection E as <-; auto.
  - destruct (h_answer h) as [[]|].
    + intros E; injection E as <-; auto.
    + destruct (n =? _); [discriminate|]. intros E; injection E as <-; auto.
    + intros E; injection E as <-; auto.
Qed.
Lemma poll_timed now h h' : timed h -> poll now h = Some h' ->
  timed h' /\ (forall t, h_timer h' = Some t -> now < t).
Proof.
  unfold poll. intros H. destruct (on_answer h) as [h1|] eqn:Ea; [|discriminate].
  intros E; injection E as <-. apply on_answer_path in Ea as (Hp & Ht & _).
  assert (H1 : timed h1) by (unfold timed; rewrite Hp, Ht; exact H).
  assert (H2 : timed (on_timer now h1) /\ (forall t, h_timer (on_timer now h1) = Some t -> now < t)).
  { unfold on_timer. destruct (h_timer h1) as [t|] eqn:Et.
    - destruct (N.leb_spec t now); [split; [unfold timed; cbn; congruence|cbn; discriminate]|].
      split; [exact H1|]. intros t' Et'. rewrite Et in Et'. injection Et' as <-. lia.
    - split; [exact H1|congruence]. }
  destruct H2 as [H2 H3].
  unfold timed. cbn [w_events h_path h_timer].
  destruct (events_path now (h_events (on_timer now h1)) (on_timer now h1)) as [[-> ->]|[-> ->]];
    [split; auto|split; congruence].
Qed.
Lemma run_timed ops : forall h h' outs, timed h -> recreated ops outs ->
  hrun (Some h) ops = (Some h', outs) -> timed h'.
Proof.
  induction ops as [|op ops IH]; intros h h' outs H Hr; cbn [hrun].
  - intros E; apply pair_equal_spec in E as [E _]; injection E as <-; exact H.
  - destruct (hstep (Some h) op) as [s1 o] eqn:Es. destruct (hrun s1 ops) as [s2 os] eqn:Er.
    intros E; apply pair_equal_spec in E as [-> <-].
    destruct s1 as [h1|]; [|apply hrun_none in Er; discriminate].
    destruct op as [d|d|now|e|ok]; cbn [hstep] in Es; cbn [recreated] in Hr.
    + unfold routing_path in Es. destruct (h_path h) as [p|] eqn:Ep.
      * apply pair_equal_spec in Es as [Es _]; injection Es as <-. eauto.
      * destruct (make_path d h) as [|h2 p q] eqn:Em; cbn in Es; apply pair_equal_spec in Es as [Es _]; [discriminate|].
        injection Es as <-. apply make_path_timed in Em as [Em _]. eauto.
    + destruct Hr as [(p0 & q0 & Ho) Hr]. unfold recreate_path in Es.
      destruct (h_path h) as [[i ob]|] eqn:Ep;
      match type of Es with of_pres (make_path d ?x) = _ => destruct (make_path d x) as [|h2 p q] eqn:Em end;
        cbn in Es; apply pair_equal_spec in Es as [Es Eo]; try discriminate;
        injection Es as <-; apply make_path_timed in Em as [_ Em]; (eapply IH; [|exact Hr|exact Er]);
        apply Em; rewrite Ho in Eo; injection Eo as -> _; congruence.
    + destruct (poll now h) as [h2|] eqn:Ep; apply pair_equal_spec in Es as [Es _]; [|discriminate].
      injection Es as <-. apply poll_timed in Ep as [Ep _]; eauto.
    + apply pair_equal_spec in Es as [Es _]; injection Es as <-. eapply IH; [|exact Hr|exact Er].
      unfold push_event. destruct (_ <? _); exact H.
    + apply pair_equal_spec in Es as [Es _]; injection Es as <-. eapply IH; [|exact Hr|exact Er].
      unfold push_answer. destruct (h_status h); [exact H|]. destruct (h_answer h); exact H.
Qed.

Lemma told_snoc_poll ops now : forall w s h h' outs, h_events h = w ->
  hrun (Some h) ops = (Some h', outs) -> told w s (ops ++ [HPoll now]) = told w s ops ++ h_events h'.
Proof.
  induction ops as [|op ops IH]; intros w s h h' outs Hw; cbn [hrun app told].
  - intros E; apply pair_equal_spec in E as [E _]; injection E as <-. now subst.
  - destruct (hstep (Some h) op) as [s1 o] eqn:Es. destruct (hrun s1 ops) as [s2 os] eqn:Er.
    intros E; apply pair_equal_spec in E as [-> _].
    destruct s1 as [h1|]; [|apply hrun_none in Er; discriminate].
    assert (Hm : forall d x h2 p q, make_path d x = PRes h2 p q -> h_events h2 = h_events x).
    { clear. intros d x h2 p q. unfold make_path. destruct (select_outbound _ _ _); [|intros E; injection E as <- _ _; auto].
      destruct (select_inbound _ _ _) as [[i y]|].
      - destruct (_ <? _); [discriminate|]. intros E; injection E as <- _ _; auto.
      - unfold ask_lease_set. destruct (h_status x); [destruct (dr_room d)|]; intros E; injection E as <- _ _; auto. }
    destruct op as [d|d|t|e|ok]; cbn [hstep] in Es.
    + unfold routing_path in Es. destruct (h_path h) as [p|] eqn:Ep.
      * apply pair_equal_spec in Es as [Es _]; injection Es as <-. eapply IH; eauto.
      * destruct (make_path d h) as [|h2 p q] eqn:Em; cbn in Es; apply pair_equal_spec in Es as [Es _]; [discriminate|].
        injection Es as <-. eapply IH; [|exact Er]. apply Hm in Em. congruence.
    + unfold recreate_path in Es.
      destruct (h_path h) as [[i ob]|] eqn:Ep;
      match type of Es with of_pres (make_path d ?x) = _ => destruct (make_path d x) as [|h2 p q] eqn:Em end;
        cbn in Es; apply pair_equal_spec in Es as [Es _]; try discriminate;
        injection Es as <-; (eapply IH; [|exact Er]); apply Hm in Em; cbn in Em; congruence.
    + destruct (poll t h) as [h2|] eqn:Ep; apply pair_equal_spec in Es as [Es _]; [|discriminate].
      injection Es as <-. eapply IH; [|exact Er].
      unfold poll in Ep. destruct (on_answer h); [|discriminate]. injection Ep as <-. reflexivity.
    + apply pair_equal_spec in Es as [Es _]; injection Es as <-. eapply IH; [|exact Er].
      unfold push_event, EVENT_CHANNEL. rewrite Hw. destruct (_ <? _); [reflexivity|exact Hw].
    + apply pair_equal_spec in Es as [Es _]; injection Es as <-. eapply IH; [|exact Er].
      unfold push_answer. destruct (h_status h); [exact Hw|]. destruct (h_answer h); exact Hw.
Qed.

Lemma new_timed inb outb exps : timed (new_handle inb outb exps).
Proof. unfold timed, new_handle; cbn; congruence. Qed.

Lemma fresh_after_poll inb outb exps ops h outs now h' d i o q :
  hrun (Some (new_handle inb outb exps)) ops = (Some h, outs) -> recreated ops outs ->
  hstep (Some h) (HPoll now) = (Some h', Quiet) -> now <= dr_now2 d ->
  snd (hstep (Some h') (HPath d)) = Got (Some (i, o)) q ->
  exists x, announced i x (told [] (at_birth inb outb exps) (ops ++ [HPoll now])) /\ now + 30000 < x.
Proof.
  intros Hrun Hrec Hpoll Hnow Hpath.
  pose proof (step_inv ops _ _ [] _ _ (birth_inv inb outb exps) eq_refl Hrun) as Hi.
  rewrite (told_snoc_poll ops now [] _ (new_handle inb outb exps) h outs eq_refl Hrun).
  cbn [hstep] in Hpoll. destruct (poll now h) as [h2|] eqn:Ep; [|discriminate].
  apply pair_equal_spec in Hpoll as [Hpoll _]; injection Hpoll as <-.
  destruct (poll_inv _ _ _ _ Hi Ep) as [[Hk Hp] _].
  destruct (poll_timed _ _ _ (run_timed _ _ _ _ (new_timed _ _ _) Hrec Hrun) Ep) as [Ht Hlt].
  cbn [hstep] in Hpath. unfold routing_path in Hpath. destruct (h_path h2) as [p|] eqn:E2.
  - cbn in Hpath. injection Hpath as -> _. unfold path_ok in Hp. rewrite E2 in Hp.
    destruct Hp as (_ & _ & Hp). unfold timed in Ht. destruct (h_timer h2) as [t|] eqn:Et; [|exfalso; apply Ht; congruence].
    exists (t + INBOUND_TUNNEL_MIN_AGE). split; [auto|]. specialize (Hlt t eq_refl). unfold INBOUND_TUNNEL_MIN_AGE; lia.
  - destruct (make_path d h2) as [|h3 p q'] eqn:Em; cbn in Hpath; [discriminate|].
    injection Hpath as -> _. destruct (make_path_inv _ _ _ _ _ _ Hk Hp Em) as (_ & _ & H).
    destruct (H _ _ eq_refl) as [(x & Ha & Hx) _]. exists x; split; [auto|]. unfold INBOUND_TUNNEL_MIN_AGE in Hx; lia.
Qed.

(** ** Only announced tunnels *)
Lemma only_announced inb outb exps ops h outs op i o q :
  hrun (Some (new_handle inb outb exps)) ops = (Some h, outs) ->
  snd (hstep (Some h) op) = Got (Some (i, o)) q ->
  (exists x, announced i x (told [] (at_birth inb outb exps) ops)) /\
  out_state o (told [] (at_birth inb outb exps) ops) <> None.
Proof.
  intros Hrun Hs.
  pose proof (step_inv ops _ _ [] _ _ (birth_inv inb outb exps) eq_refl Hrun) as [Hk Hp].
  assert (Hm : forall d x h2 p q', kinds_ok (told [] (at_birth inb outb exps) ops) (h_tunnels x) ->
     path_ok (told [] (at_birth inb outb exps) ops) x -> make_path d x = PRes h2 p q' -> p = Some (i, o) ->
     (exists x, announced i x (told [] (at_birth inb outb exps) ops)) /\
     out_state o (told [] (at_birth inb outb exps) ops) <> None).
  { intros d x h2 p q' Hk' Hp' Em ->. destruct (make_path_inv _ _ _ _ _ _ Hk' Hp' Em) as (_ & _ & H).
    destruct (H _ _ eq_refl) as [(y & Ha & _) Hb]. eauto. }
  destruct op as [d|d|t|e|ok]; cbn [hstep] in Hs.
  - unfold routing_path in Hs. destruct (h_path h) as [p|] eqn:E.
    + cbn in Hs. injection Hs as -> _. unfold path_ok in Hp. rewrite E in Hp. tauto.
    + destruct (make_path d h) as [|h3 p q'] eqn:Em; cbn in Hs; [discriminate|].
      injection Hs as -> _. eapply Hm; eauto.
  - unfold recreate_path in Hs. destruct (h_path h) as [[i0 o0]|] eqn:E.
    + match type of Hs with snd (of_pres (make_path d ?x)) = _ => destruct (make_path d x) as [|h2 p q'] eqn:Em end;
      cbn in Hs; [discriminate|]. injection Hs as -> _. eapply Hm; [| |exact Em|reflexivity].
      * apply fail_outbound_kinds, fail_inbound_kinds, Hk.
      * unfold path_ok in *. cbn. rewrite E in *. destruct Hp as (Ha & Hb & _). split; [exact Ha|]. split; [exact Hb|discriminate].
    + destruct (make_path d h) as [|h3 p q'] eqn:Em; cbn in Hs; [discriminate|].
      injection Hs as -> _. eapply Hm; eauto.
  - destruct (poll t h); discriminate.
  - discriminate.
  - discriminate.
Qed.

(** ** Lookups *)
Definition looked (l : lookups) (h : handle) : Prop :=
  match h_status h with
  | QInactive n => l = mkL n false None /\ n < 3 /\ h_answer h = None
  | QPending n => l = mkL n true (h_answer h) /\ n <= 3
  end.
Lemma make_path_looked d l h h' p q op : looked l h -> make_path d h = PRes h' p q ->
  looked (look l op (Got p q)) h' \/ (exists t, op = HPoll t) \/ (exists b, op = HAnswer b).
Proof.
  intros H. unfold make_path.
  assert (Hsame : forall h2 p2, h_status h2 = h_status h -> h_answer h2 = h_answer h ->
     looked (look l op (Got p2 false)) h2 \/ (exists t, op = HPoll t) \/ (exists b, op = HAnswer b)).
  { intros h2 p2 E1 E2. destruct op; eauto; left; cbn; unfold looked; rewrite E1, E2; exact H. }
  destruct (select_outbound _ _ _) as [o|]; [|intros E; injection E as <- <- <-; auto].
  destruct (select_inbound _ _ _) as [[i x]|].
  - destruct (_ <? _); [discriminate|]. intros E; injection E as <- <- <-. auto.
  - unfold ask_lease_set, looked in *. destruct (h_status h) as [n|n] eqn:Es; [destruct (dr_room d)|].
    + intros E; injection E as <- <- <-. left. destruct H as (-> & Hn & _).
      cbn. destruct op; cbn; split; try reflexivity; lia.
    + intros E; injection E as <- <- <-. auto.
    + intros E; injection E as <- <- <-. auto.
Qed.
Lemma events_status now l : forall h, h_status (fold_left (on_event now) l h) = h_status h /\ h_answer (fold_left (on_event now) l h) = h_answer h.
Proof.
  induction l as [|e l IH]; intros h; cbn; [auto|].
  destruct (IH (on_event now h e)) as [-> ->].
  destruct e as [ts|t|t x|t]; cbn [on_event]; destruct (h_path h) as [[i o]|]; cbn; auto;
  try (destruct (nget _ (h_tunnels h)) as [[]|]; cbn; auto); destruct (o =? t); cbn; auto.
Qed.
Lemma poll_status now h h' : poll now h = Some h' -> exists h1, on_answer h = Some h1 /\ h_status h' = h_status h1 /\ h_answer h' = h_answer h1.
Proof.
  unfold poll. destruct (on_answer h) as [h1|]; [|discriminate]. intros E; injection E as <-. exists h1; split; [auto|].
  cbn. destruct (events_status now (h_events (on_timer now h1)) (on_timer now h1)) as [-> ->].
  unfold on_timer. destruct (h_timer h1); [destruct (_ <=? _)|]; auto.
Qed.
Lemma run_looked ops : forall l h h' outs, looked l h -> hrun (Some h) ops = (Some h', outs) ->
  looked (looks l ops outs) h'.
Proof.
  induction ops as [|op ops IH]; intros l h h' outs H; cbn [hrun].
  - intros E; apply pair_equal_spec in E as [E <-]; injection E as <-; exact H.
  - destruct (hstep (Some h) op) as [s1 o] eqn:Es. destruct (hrun s1 ops) as [s2 os] eqn:Er.
    intros E; apply pair_equal_spec in E as [-> <-]. cbn [looks].
    destruct s1 as [h1|]; [|apply hrun_none in Er; discriminate].
    eapply IH; [|exact Er]. clear IH Er.
    destruct op as [d|d|t|e|ok]; cbn [hstep] in Es.
    + unfold routing_path in Es. destruct (h_path h) as [p|] eqn:Ep.
      * cbn in Es. apply pair_equal_spec in Es as [Es <-]; injection Es as <-. exact H.
      * destruct (make_path d h) as [|h2 p q] eqn:Em; cbn in Es; apply pair_equal_spec in Es as [Es <-]; [discriminate|].
        injection Es as <-. destruct (make_path_looked d l h h2 p q (HPath d) H Em) as [?|[(?&?)|(?&?)]]; [auto|discriminate|discriminate].
    + unfold recreate_path in Es.
      destruct (h_path h) as [[i ob]|] eqn:Ep;
      match type of Es with of_pres (make_path d ?x) = _ => destruct (make_path d x) as [|h2 p q] eqn:Em end;
        cbn in Es; apply pair_equal_spec in Es as [Es <-]; try discriminate; injection Es as <-;
        (eapply (make_path_looked d l _ h2 p q (HRecreate d)) in Em; [|exact H]);
        destruct Em as [?|[(?&?)|(?&?)]]; try discriminate; auto.
    + destruct (poll t h) as [h2|] eqn:Ep; apply pair_equal_spec in Es as [Es <-]; [|discriminate].
      injection Es as <-. apply poll_status in Ep as (h1 & Ea & Hs & Hans).
      unfold looked in *. rewrite Hs, Hans. clear Hs Hans. unfold on_answer in Ea.
      destruct (h_status h) as [n|n] eqn:Eh.
      * injection Ea as <-. rewrite Eh. destruct H as (-> & Hn & Hans). cbn. rewrite Hans. auto.
      * destruct H as (-> & Hn). cbn. destruct (h_answer h) as [[]|] eqn:Eans.
        -- injection Ea as <-. cbn. split; [auto|]. split; [lia|auto].
        -- destruct (N.eqb_spec n MAX_LEASE_SET_QUERIES); [discriminate|]. injection Ea as <-. cbn.
           unfold MAX_LEASE_SET_QUERIES in *. split; [auto|]. split; [lia|auto].
        -- injection Ea as <-. rewrite Eh, Eans. auto.
    + apply pair_equal_spec in Es as [Es <-]; injection Es as <-. cbn.
      unfold push_event. destruct (_ <? _); exact H.
    + apply pair_equal_spec in Es as [Es <-]; injection Es as <-. cbn.
      unfold looked, push_answer in *. destruct (h_status h) as [n|n] eqn:Eh.
      * rewrite Eh. destruct H as (-> & Hn & Ha). cbn. auto.
      * destruct H as (-> & Hn). cbn. destruct (h_answer h) as [b|] eqn:Ea; cbn; rewrite ?Eh, ?Ea; auto.
Qed.
Lemma new_looked inb outb exps : looked (mkL 0 false None) (new_handle inb outb exps).
Proof. unfold looked, new_handle; cbn. split; [reflexivity|]. split; [lia|reflexivity]. Qed.
Lemma three_lookups inb outb exps ops h outs :
  hrun (Some (new_handle inb outb exps)) ops = (Some h, outs) ->
  let l := looks (mkL 0 false None) ops outs in
  asked l <= 3 /\
  (forall op p, snd (hstep (Some h) op) = Got p true -> outstanding l = false /\ asked l < 3) /\
  (forall now, hstep (Some h) (HPoll now) = (None, GaveUp) <-> asked l = 3 /\ answer l = Some false).
Proof.
  intros Hrun l. pose proof (run_looked _ _ _ _ _ (new_looked inb outb exps) Hrun) as H. fold l in H.
  unfold looked in H. split; [|split].
  - destruct (h_status h); [destruct H as (-> & ? & _)|destruct H as (-> & ?)]; cbn; lia.
  - intros op p Hs.
    assert (Hm : forall d x h2 p2, make_path d x = PRes h2 p2 true -> exists n, h_status x = QInactive n).
    { clear. intros d x h2 p2. unfold make_path. destruct (select_outbound _ _ _); [|discriminate].
      destruct (select_inbound _ _ _) as [[i y]|]; [destruct (_ <? _); discriminate|].
      unfold ask_lease_set. destruct (h_status x) as [k|k]; [eauto|discriminate]. }
    assert (exists n, h_status h = QInactive n) as [n En].
    { destruct op as [d|d|t|e|ok]; cbn [hstep] in Hs.
      - unfold routing_path in Hs. destruct (h_path h); [discriminate|].
        destruct (make_path d h) as [|h3 p' q'] eqn:Em; cbn in Hs; [discriminate|]. injection Hs as -> ->. eauto.
      - unfold recreate_path in Hs. destruct (h_path h) as [[i0 o0]|];
        match type of Hs with snd (of_pres (make_path d ?x)) = _ => destruct (make_path d x) as [|h2 p' q'] eqn:Em end;
        cbn in Hs; try discriminate; injection Hs as -> ->; apply Hm in Em; exact Em.
      - destruct (poll t h); discriminate.
      - discriminate.
      - discriminate. }
    rewrite En in H. destruct H as (-> & ? & _). cbn; auto.
  - intros now. cbn [hstep]. unfold poll, on_answer.
    destruct (h_status h) as [n|n].
    + destruct H as (-> & ? & _). split; [discriminate|]. cbn. intros [? ?]; discriminate.
    + destruct H as (-> & ?). cbn [asked answer]. destruct (h_answer h) as [[]|].
      * split; [discriminate|]. intros [_ ?]; discriminate.
      * destruct (N.eqb_spec n MAX_LEASE_SET_QUERIES) as [->|Hne].
        -- split; auto.
        -- split; [discriminate|]. intros [? _]. now unfold MAX_LEASE_SET_QUERIES in Hne.
      * split; [discriminate|]. intros [_ ?]; discriminate.
Qed.
