(** Proofs about lookups: origins of answers, blame. *)
From Coq Require Import List NArith ZArith Bool Arith Lia ZifyBool ZifyNat ZifyN Sorting.Sorted Permutation.
From Verif Require Import ListUtil Bytes NMap KadModel KadSpec KadProofs KadProofs2 KadProofs3 NetdbModel NetdbSpec NetdbProofs NetdbProofs2 NetdbProofs3 NetdbProofs4 NetdbProofs5.
Import ListNotations.
Open Scope N_scope.

Section Run.
Variable t0 : table.
Hypothesis Ht0 : table_ok t0.

Lemma run_event : forall ops s tr t x, wf ops -> nrun (netdb_new t0) ops = (s, tr) -> In (t, x) tr ->
  exists a e o b s1 tr1 s2 evs, ops = a ++ (e, o) :: b /\ nrun (netdb_new t0) a = (s1, tr1) /\ wf a /\
    env_ok e /\ nstep e s1 o = (s2, evs) /\ In x evs /\ t = e_now e.
Proof.
  induction ops as [|[e o] ops IH] using rev_ind; intros s tr t x W H Hin.
  - cbn in H. apply pair_equal_spec in H as [<- <-]. contradiction.
  - apply nrun_snoc_inv in H as [s1 [t1 [ev [E1 [E2 ->]]]]]. apply wf_snoc in W as [W [Wo We]].
    apply in_app_or in Hin as [Hin|Hin].
    + destruct (IH _ _ _ _ W E1 Hin) as [a [e' [o' [b [sa [tra [sb [evs [-> R]]]]]]]]].
      exists a, e', o', (b ++ [(e, o)]), sa, tra, sb, evs. split; [now rewrite <- app_assoc|exact R].
    + apply in_map_iff in Hin as [y [[= <- ->] Hin]]. exists ops, e, o, [], s1, t1, s, ev. now repeat split.
Qed.

Lemma run_answer : forall ops s tr t tx r, wf ops -> nrun (netdb_new t0) ops = (s, tr) -> In (t, EvAnswer tx r) tr ->
  match r with
  | RLeaseSet ls => exists a e key sender b e', ops = a ++ (e, OStore key (PLease ls) sender) :: b /\ In (e', OLease key tx) a
  | ROk => exists a e key id ff v sender b e', ops = a ++ (e, OStore key (PInfo id ff v true) sender) :: b /\ In (e', OInfo key tx) a
  | RErr _ => True
  end.
Proof.
  intros ops s tr t tx r W H Hin.
  destruct (run_event _ _ _ _ _ W H Hin) as [a [e [o [b [s1 [t1 [s2 [evs [-> [R [Wa [We [St [Hx _]]]]]]]]]]]]]].
  pose proof (run_base t0 Ht0 _ _ _ Wa R) as B.
  destruct (step_answer _ _ _ _ _ _ _ B We St Hx) as [l k err Eo|k ls sender q Eo G Hq|k id ff v acc sender q Eo G Hq|d k l q err Eo G Hq].
  - exact I.
  - destruct (run_born t0 Ht0 _ _ _ k true q Wa R G) as [_ C]. destruct (C _ Hq) as [e' [D _]]. subst o.
    now exists a, e, k, sender, b, e'.
  - destruct acc; [|exact I]. destruct (run_born t0 Ht0 _ _ _ k false q Wa R G) as [_ C]. destruct (C _ Hq) as [e' [D _]]. subst o.
    now exists a, e, k, id, ff, v, sender, b, e'.
  - exact I.
Qed.

Lemma run_drop : forall ops s tr t tx, wf ops -> nrun (netdb_new t0) ops = (s, tr) -> In (t, EvDrop tx) tr ->
  exists a e o b, ops = a ++ (e, o) :: b /\ e_now e = t /\ closing (fst (nrun (netdb_new t0) a)) a tx o.
Proof.
  intros ops s tr t tx W H Hin.
  destruct (run_event _ _ _ _ _ W H Hin) as [a [e [o [b [s1 [t1 [s2 [evs [-> [R [Wa [We [St [Hx ->]]]]]]]]]]]]]].
  exists a, e, o, b. split; [reflexivity|]. split; [reflexivity|]. rewrite R. cbn [fst].
  pose proof (run_base t0 Ht0 _ _ _ Wa R) as B.
  destruct (step_drop _ _ _ _ _ _ B We St Hx) as [l k v -> G N|l k q p sender -> G Hq Kp|l k q k' routers from sender -> N Hk G Hq|l k q -> G Hq].
  - eapply closing_other; [exact G|]. intros q X. apply (N q). destruct l; exact X.
  - destruct (run_born t0 Ht0 _ _ _ k l q Wa R G) as [_ C]. destruct (C _ Hq) as [e' [D _]].
    eapply closing_wrong_record; [exact D|]. destruct l, p; try discriminate; eauto 6.
  - destruct (run_born t0 Ht0 _ _ _ k l q Wa R G) as [_ C]. destruct (C _ Hq) as [e' [D _]]. eapply closing_named; eauto.
  - destruct (run_born t0 Ht0 _ _ _ k l q Wa R G) as [_ C]. destruct (C _ Hq) as [e' [D _]]. eapply closing_explored; eauto.
Qed.

(** ** Who owes an answer *)
Lemma history_snoc : forall ops s e o s1 t1 s2 ev, nrun s ops = (s1, t1) -> nstep e s1 o = (s2, ev) ->
  history s (ops ++ [(e, o)]) = history s ops ++ [(o, ev)].
Proof.
  induction ops as [|[e0 o0] ops IH]; intros s e o s1 t1 s2 ev R St.
  - cbn in *. apply pair_equal_spec in R as [<- <-]. now rewrite St.
  - cbn [app history nrun] in *. destruct (nstep e0 s o0) as [sa eva] eqn:E. cbn [fst snd].
    destruct (nrun sa ops) as [sb trb] eqn:Er. apply pair_equal_spec in R as [<- <-]. f_equal. eapply IH; eauto.
Qed.

Lemma genuine_snoc : forall ops s e o s1 t1, nrun s ops = (s1, t1) -> genuine s (ops ++ [(e, o)]) ->
  genuine s ops /\ forall d k, o = OTimer d k -> In (d, k) (n_timers s1) /\ d <= e_now e.
Proof.
  induction ops as [|[e0 o0] ops IH]; intros s e o s1 t1 R G.
  - cbn in *. apply pair_equal_spec in R as [<- <-]. now split.
  - cbn [app genuine nrun] in *. destruct (nstep e0 s o0) as [sa eva] eqn:E. cbn [fst] in *.
    destruct (nrun sa ops) as [sb trb] eqn:Er. apply pair_equal_spec in R as [<- <-]. destruct G as [G1 G2].
    destruct (IH _ _ _ _ _ Er G2) as [G3 G4]. split; [split; [exact G1|exact G3]|exact G4].
Qed.

Definition asks_of (id : N) (evs : list nevent) : list N :=
  flat_map (fun ev => match ev with EvAsk _ i _ f => if i =? id then [f] else [] | _ => [] end) evs.

Lemma asks_of_none : forall id evs, (forall l k f, ~ In (EvAsk l id k f) evs) -> asks_of id evs = [].
Proof.
  intros id evs. unfold asks_of. induction evs as [|x r IH]; intro N; [reflexivity|]. cbn [flat_map].
  rewrite IH by (intros l k f X; apply (N l k f); now right).
  destruct x as [l' i k f| | | |]; try reflexivity. destruct (N.eqb_spec i id) as [->|]; [|reflexivity].
  exfalso. apply (N l' k f). now left.
Qed.

Lemma run_owes : forall ops s tr k l q, wf ops -> NoDup (callers ops) -> genuine (netdb_new t0) ops ->
  nrun (netdb_new t0) ops = (s, tr) -> nget k (n_active s) = Some (mk l q) ->
  q_selected q = owes (q_id q) k (history (netdb_new t0) ops).
Proof.
  induction ops as [|[e o] ops IH] using rev_ind; intros s tr k l q W ND Ge H Hg.
  - cbn in H. apply pair_equal_spec in H as [<- <-]. discriminate.
  - pose proof H as H0. pose proof W as W0. pose proof ND as ND0. pose proof Hg as Hg0.
    apply nrun_snoc_inv in H as [s1 [t1 [ev [E1 [E2 ->]]]]]. apply wf_snoc in W as [W [Wo We]].
    rewrite callers_app in ND. pose proof (nodup_app_l _ _ _ ND) as ND1.
    destruct (genuine_snoc _ _ _ _ _ _ E1 Ge) as [Ge1 Gt].
    pose proof (run_base t0 Ht0 _ _ _ W E1) as B. specialize (IH s1 t1 k l).
    rewrite (history_snoc _ _ _ _ _ _ _ _ E1 E2). unfold owes. rewrite fold_left_app. cbn [fold_left].
    fold (owes (q_id q) k (history (netdb_new t0) ops)).
    set (prev := owes (q_id q) k (history (netdb_new t0) ops)). unfold owes_step. cbn [fst snd]. fold (asks_of (q_id q) ev).
    (* asks of this query concern this key *)
    assert (Key : forall k' f' l', In (EvAsk l' (q_id q) k' f') ev -> k' = k).
    { intros k' f' l' Y. destruct (run_born t0 Ht0 _ _ _ _ _ _ W0 H0 Hg0) as [[e1 [X _]] _].
      destruct (run_ask_id t0 Ht0 _ _ _ (e_now e) l' (q_id q) k' f' W0 H0) as [e2 Z].
      { apply in_or_app. right. apply in_map_iff. now exists (EvAsk l' (q_id q) k' f'). }
      now destruct (one_request _ _ _ _ _ _ _ _ ND0 X Z) as [_ [_ ?]]. }
    assert (None1 : (forall l' f', ~ In (EvAsk l' (q_id q) k f') ev) -> asks_of (q_id q) ev = []).
    { intro N. apply asks_of_none. intros l' k' f' X. pose proof (Key _ _ _ X) as ->. exact (N _ _ X). }
    destruct (step_entry _ _ _ _ _ _ _ _ B We E2 Hg) as
        [q G K N1 N2 N3 N|q tx G' K Eo En|tx f' G' Eo En _|q q' routers from sender u G' _ Eo Eh N|q q' f' d t G' Eo En _ _ Tt Ep|q q' f' d t G' Eo En _ _ Tt El Ep].
    + rewrite (None1 (fun l' f' => N l' (q_id q) f')). specialize (IH _ W ND1 Ge1 E1 G). fold prev in IH.
      destruct o as [ | | |[[[k' rs] from]|] [sd|]|d k'| | ]; try exact IH.
      * destruct (N.eqb_spec k' k) as [->|]; [|exact IH]. exfalso. now apply (N2 rs from sd).
      * destruct (N.eqb_spec k' k) as [->|]; [|exact IH]. exfalso. now apply (N1 rs from).
      * destruct (N.eqb_spec k' k) as [->|]; [|exact IH]. exfalso. apply (N3 d eq_refl). now apply Gt.
    + subst ev o. cbn [asks_of flat_map]. specialize (IH _ W ND1 Ge1 E1 G'). fold prev in IH. destruct l; exact IH.
    + subst ev. cbn. now rewrite N.eqb_refl.
    + subst o. rewrite (None1 (fun l' f' => N l' (q_id q') k f')). rewrite N.eqb_refl.
      now apply search_reply_spec in Eh as [_ [Eh _]].
    + subst o ev. assert (q_id q' = q_id q) as Hid.
      { destruct l; [destruct Ep as [n Ep]; eapply pick_spec in Ep as [[Hid _] _]; eauto|
          eapply next_floodfill_spec in Ep as [[Hid _] _]; eauto]. }
      cbn. rewrite Hid, N.eqb_refl. reflexivity.
    + subst o ev. cbn [asks_of flat_map]. rewrite N.eqb_refl.
      now destruct (next_floodfill_spec _ _ _ _ _ _ Tt (We k) Ep) as [_ [Es _]].
Qed.

(** What a timer does to the scores. *)
Lemma timer_scores : forall e s d k l q, base s -> env_ok e -> In (d, k) (n_timers s) -> d <= e_now e ->
  nget k (n_active s) = Some (mk l q) ->
  n_dht (fst (nstep e s (OTimer d k))) =
    match q_selected q with Some f => adjust_score (n_dht s) f score_no_reply | None => n_dht s end.
Proof.
  intros e s d k l q Hb He Hd Le G. cbn [nstep]. unfold on_timer.
  destruct (N.leb_spec d (e_now e)); [|lia]. destruct (remove_timer_some _ _ _ Hd) as [ts [-> L]].
  cbn [n_active]. rewrite G.
  assert (Bd : n_dht (blame q (del_active k (mkNetdb (n_dht s) (n_active s) ts))) =
     match q_selected q with Some f => adjust_score (n_dht s) f score_no_reply | None => n_dht s end).
  { unfold blame. now destruct (q_selected q). }
  rewrite <- Bd. destruct l; cbn [mk handle_timeout].
  - destruct (blame_parts q (del_active k (mkNetdb (n_dht s) (n_active s) ts))) as [B1 [B2 B3]].
    specialize (B3 (proj2 Hb)). set (s1 := blame q _) in *.
    destruct (pick_ends' e (n_dht s1) k (set_selected None q) B3 He) as [[rr q1] ->].
    destruct rr as [err|f0]; [|destruct (e_tunnels e); [destruct (e_room e k)|]]; reflexivity.
  - set (s1 := blame q _) in *.
    destruct (next_floodfill e (n_dht s1) k (set_selected None q)) as [rr q1].
    destruct rr as [err|f0]; [|destruct (e_tunnels e && e_room e k)]; reflexivity.
Qed.
End Run.
