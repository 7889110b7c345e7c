(** Who holds which id and destination; sockets; the datagram writer. *)
From Coq Require Import List NArith PeanoNat Bool Lia.
From Verif Require Import ListUtil NMap RouteProofs DestProofs SamSrvModel SamSrvSpec SamSrvProofs.
Import ListNotations.
Open Scope N_scope.

Definition taken (v : view) : bool := match v with Nobody => false | _ => true end.

Record keeps (st : srv) (hs : list (N * N)) : Prop := mkKeeps {
  k_wf : wf st;
  k_ids : forall sid, smem sid (ids hs) = taken (vw sid st);
  k_dst : forall d, smem d (sv_dests st) = smem d (dests hs);
  k_get : forall sid d, In (sid, d) hs -> nget sid (sv_ids st) = Some d;
  k_nd1 : NoDup (ids hs);
  k_nd2 : NoDup (dests hs) }.

Lemma keeps_new b : keeps (sv_new b) [].
Proof. split; try (now constructor); try easy. Qed.

Lemma smem_false k s : smem k s = false <-> ~ In k s.
Proof. rewrite <- smem_In. destruct (smem k s); intuition congruence. Qed.

Lemma taken_view s l v op b : creates op = false -> (forall sid, op = Reap sid -> v <> Down) ->
  taken (view_step s l v op b) = taken v.
Proof.
  intros C R. destruct op as [sock sid d ok|sock sid h opts|sock sid opts|sock sid port opts|sid d x|sock d|sid|sid|sid|sid|sid]; try discriminate C; cbn [view_step];
    destruct v as [|k| |k q|]; auto;
    repeat match goal with
           | |- taken (match ?x with _ => _ end) = _ => destruct x; auto
           end.
  exfalso. eapply R; eauto.
Qed.

Lemma same_books st op st' o : wf st -> creates op = false -> (forall sid, op <> Reap sid) -> step st op = (st', o) ->
  sv_dests st' = sv_dests st /\ sv_ids st' = sv_ids st.
Proof.
  intros W C R H.
  destruct op as [sock sid d ok|sock sid h opts|sock sid opts|sock sid port opts|sid d x|sock d|sid|sid|sid|sid|sid]; try discriminate C; cbn [step] in H.
  - destruct h as [d|d|n]; unfold on_connect in H;
      [apply send_facts in H as (_ & _ & _ & A & B & _); auto|apply send_facts in H as (_ & _ & _ & A & B & _); auto|].
    destruct (sv_book st); apply pair_equal_spec in H as [<- _]; auto.
  - apply send_facts in H as (_ & _ & _ & A & B & _); auto.
  - apply send_facts in H as (_ & _ & _ & A & B & _); auto.
  - apply send_facts in H as (_ & _ & _ & A & B & _); auto.
  - unfold on_resolved in H. destruct (nget sock (sv_look st)) as [[sid opts]|]; [|apply pair_equal_spec in H as [<- _]; auto].
    destruct d; [apply send_facts in H as (_ & _ & _ & A & B & _); auto|apply pair_equal_spec in H as [<- _]; auto].
  - unfold on_built in H. destruct (nget sid (sv_building st)) as [k|] eqn:B; [|apply pair_equal_spec in H as [<- _]; auto].
    assert (P : smem sid (sv_psend st) = true) by (apply W; unfold nhas; now rewrite B).
    rewrite P in H. apply pair_equal_spec in H as [<- _]; auto.
  - unfold on_failed in H. destruct (nget sid (sv_building st)) as [k|]; apply pair_equal_spec in H as [<- _]; auto.
  - unfold on_take in H. destruct (nget sid (sv_active st)) as [[k [|] [|c q]]|]; apply pair_equal_spec in H as [<- _]; auto.
  - unfold on_gone in H. destruct (nget sid (sv_active st)) as [[k [|] q]|]; apply pair_equal_spec in H as [<- _]; auto.
  - exfalso. eapply R; eauto.
Qed.

Lemma keeps_other st hs op st' o : keeps st hs -> creates op = false -> (forall sid, op = Reap sid -> False) -> step st op = (st', o) ->
  keeps st' hs.
Proof.
  intros [W K1 K2 K3 K4 K5] C R H.
  destruct (same_books st op st' o W C) as [E1 E2]; [intros s E; exact (R s E)|exact H|].
  destruct (step_facts st op st' o W H) as (W' & _ & _ & V & _).
  split; auto.
  - intros sid. rewrite K1, V, taken_view; auto. intros s E. exfalso. eauto.
  - intros d. rewrite E1. auto.
  - intros sid d. rewrite E2. auto.
Qed.

Lemma NoDup_map_filter {A} (f : A -> N) p (l : list A) : NoDup (map f l) -> NoDup (map f (filter p l)).
Proof.
  induction l as [|a l IH]; cbn; auto. intros H. inversion H as [|? ? Hn Hd]; subst. destruct (p a); cbn; auto.
  constructor; auto. intros X. apply Hn. apply in_map_iff in X as (b & <- & Hb). apply filter_In in Hb as [Hb _]. now apply in_map.
Qed.

Lemma keeps_step st hs op st' o : keeps st hs -> step st op = (st', o) ->
  keeps st' (hold_step hs (op, o))
  /\ (forall sock sid d ok, op = Create sock sid d ok -> o = verdict hs sock sid d ok).
Proof.
  intros K H. pose proof K as [W K1 K2 K3 K4 K5]. destruct op as [sock sid d ok|sock sid h opts|sock sid opts|sock sid port opts|sid d x|sock d|sid|sid|sid|sid|sid];
    try (split; [cbn [hold_step]; refine (keeps_other _ _ _ _ _ K _ _ H); [reflexivity|discriminate]|discriminate]).
  - pose proof (step_facts _ _ _ _ W H) as (W' & _ & _ & V & _).
    cbn [step] in H. unfold on_create in H.
    assert (T : nhas sid (sv_active st) || smem sid (sv_psend st) = smem sid (ids hs)).
    { rewrite K1. unfold vw, nhas. destruct (nget sid (sv_active st)) as [[? [|] ?]|]; auto.
      destruct (smem sid (sv_psend st)); auto. destruct (nget sid (sv_building st)); auto. }
    rewrite T, K2 in H. unfold verdict.
    destruct (smem sid (ids hs)) eqn:S1; [apply pair_equal_spec in H as [<- <-]; split; [exact K|]; intros ? ? ? ? [= -> -> -> ->]; rewrite S1; reflexivity|].
    destruct (smem d (dests hs)) eqn:S2; [apply pair_equal_spec in H as [<- <-]; split; [exact K|]; intros ? ? ? ? [= -> -> -> ->]; rewrite S1, S2; reflexivity|].
    destruct ok; cbn [negb] in H; apply pair_equal_spec in H as [<- <-].
    2: { split; [exact K|]; intros ? ? ? ? [= -> -> -> <-]; rewrite S1, S2; reflexivity. }
    split; [|intros ? ? ? ? [= -> -> -> <-]; rewrite S1, S2; reflexivity].
    cbn [hold_step]. split; auto.
    + intros s. rewrite V. cbn [is_begun view_step ids map fst smem]. rewrite andb_true_r, (N.eqb_sym sid s).
      destruct (N.eqb_spec s sid); cbn [orb]; auto.
    + intros x. cbn [sv_dests dests map snd smem]. rewrite smem_sadd, K2. reflexivity.
    + intros s x Hin. cbn [sv_ids]. rewrite nget_nput. cbn [In] in Hin. destruct Hin as [[= <- <-]|Hin]; [now rewrite N.eqb_refl|].
      destruct (N.eqb_spec s sid) as [->|]; auto. exfalso. apply smem_false in S1. apply S1. change sid with (fst (sid, x)). now apply in_map.
    + cbn [ids map fst]. constructor; auto. now apply smem_false.
    + cbn [dests map snd]. constructor; auto. now apply smem_false.
  - split; [|discriminate]. pose proof (step_facts _ _ _ _ W H) as (W' & _ & _ & V & O). specialize (O eq_refl). cbn [result order] in O.
    cbn [step] in H. unfold on_reap in H. unfold vw in O.
    destruct (nget sid (sv_active st)) as [[k [|] q]|] eqn:A; apply pair_equal_spec in H as [<- <-].
    1,3: exact K.
    cbn [hold_step].
    assert (Tk : taken (vw sid st) = true) by (unfold vw; rewrite A; reflexivity).
    rewrite <- K1 in Tk. apply smem_In, in_map_iff in Tk as ([s0 d0] & E & Hin). cbn [fst] in E. subst s0.
    pose proof (K3 _ _ Hin) as G.
    unfold release in *. cbn [sv_ids] in *. rewrite G in *.
    split; auto.
    + intros s. rewrite V. cbn [view_step is_begun]. destruct (N.eqb_spec sid s) as [<-|Hne].
      * unfold vw. rewrite A. cbn [taken]. apply smem_false. intros X. apply in_map_iff in X as ([a b] & E & X). cbn [fst] in E. subst a.
        apply filter_In in X as [_ X]. cbn [fst] in X. rewrite N.eqb_refl in X. discriminate.
      * replace (taken (match vw s st with Down => vw s st | v => v end)) with (taken (vw s st)) by (destruct (vw s st); reflexivity).
        assert (Z : smem s (ids (filter (fun p => negb (fst p =? sid)) hs)) = smem s (ids hs)).
        { destruct (smem s (ids hs)) eqn:S1.
          - apply smem_In. apply smem_In, in_map_iff in S1 as ([a b] & E & X). cbn [fst] in E. subst a.
            change s with (fst (s, b)). apply in_map, filter_In. split; auto. cbn [fst]. destruct (N.eqb_spec s sid); [congruence|reflexivity].
          - apply smem_false. intros X. apply smem_false in S1. apply S1. apply in_map_iff in X as (p & <- & X). apply filter_In in X as [X _]. now apply in_map. }
        rewrite Z, K1. destruct (vw s st); reflexivity.
    + intros x. cbn [sv_dests]. rewrite smem_sdel, K2. destruct (N.eqb_spec x d0) as [->|Hne]; cbn [negb andb].
      * symmetry. apply smem_false. intros X. apply in_map_iff in X as ([a b] & E & X). cbn [snd] in E. subst b.
        apply filter_In in X as [X F]. cbn [fst] in F. 
        assert (a = sid).
        { clear - K5 X Hin. induction hs as [|[p q] t IH]; [contradiction|]. cbn [dests map snd] in K5. inversion K5 as [|? ? Hn Hd]; subst.
          destruct X as [[= -> ->]|X], Hin as [E|Hin]; try congruence.
          - exfalso. apply Hn. change d0 with (snd (sid, d0)). now apply in_map.
          - injection E as -> ->. exfalso. apply Hn. change d0 with (snd (a, d0)). now apply in_map.
          - now apply IH. }
        subst a. rewrite N.eqb_refl in F. discriminate.
      * destruct (smem x (dests hs)) eqn:S1.
        -- symmetry. apply smem_In. apply smem_In, in_map_iff in S1 as ([a b] & E & X). cbn [snd] in E. subst b.
           change x with (snd (a, x)). apply in_map, filter_In. split; auto. cbn [fst]. destruct (N.eqb_spec a sid) as [->|]; auto.
           exfalso. apply K3 in X. congruence.
        -- symmetry. apply smem_false. intros X. apply smem_false in S1. apply S1. apply in_map_iff in X as (p & <- & X). apply filter_In in X as [X _]. now apply in_map.
    + intros s x X. apply filter_In in X as [X F]. cbn [fst] in F. cbn [sv_ids]. rewrite nget_ndel. destruct (N.eqb_spec s sid) as [->|]; [discriminate F|]. auto.
    + now apply NoDup_map_filter.
    + now apply NoDup_map_filter.
Qed.

Lemma run_step st op ops st' os : run st (op :: ops) = (st', os) ->
  exists st1 o os', step st op = (st1, o) /\ run st1 ops = (st', os') /\ os = o :: os'.
Proof.
  cbn [run]. destruct (step st op) as [st1 o] eqn:S1. destruct (run st1 ops) as [st2 os'] eqn:R.
  intros H. apply pair_equal_spec in H as [<- <-]. eauto 7.
Qed.

Lemma keeps_run ops : forall st hs st' os, keeps st hs -> run st ops = (st', os) ->
  keeps st' (fold_left hold_step (combine ops os) hs).
Proof.
  induction ops as [|op ops IH]; intros st hs st' os K R.
  - cbn [run] in R. apply pair_equal_spec in R as [<- <-]. exact K.
  - apply run_step in R as (st1 & o & os' & S1 & R & ->). cbn [combine fold_left]. eapply IH; [|exact R].
    eapply keeps_step; eauto.
Qed.

(** everything at once, along a run *)
Lemma run_view ops : forall st st' os, wf st -> run st ops = (st', os) ->
  wf st' /\ sv_book st' = sv_book st
  /\ sv_look st' = fold_left (fun l e => look_step (sv_book st) l (fst e)) (combine ops os) (sv_look st)
  /\ (forall s, vw s st' = life (sv_book st) s (sv_look st) (vw s st) (combine ops os)).
Proof.
  induction ops as [|op ops IH]; intros st st' os W R.
  - cbn [run] in R. apply pair_equal_spec in R as [<- <-]. auto.
  - apply run_step in R as (st1 & o & os' & S1 & R & ->). destruct (step_facts _ _ _ _ W S1) as (W1 & B1 & L1 & V1 & _).
    destruct (IH _ _ _ W1 R) as (W2 & B2 & L2 & V2). rewrite B1 in *.
    split; auto. split; auto. cbn [combine fold_left fst life]. rewrite <- L1. split; auto.
    intros s. rewrite V2, V1. reflexivity.
Qed.

Lemma run_app a : forall b st st' os, run st (a ++ b) = (st', os) ->
  exists st1 o1 o2, run st a = (st1, o1) /\ run st1 b = (st', o2) /\ os = o1 ++ o2.
Proof.
  induction a as [|op a IH]; intros b st st' os R; cbn [app] in R.
  - exists st, [], os. cbn. auto.
  - apply run_step in R as (st1 & o & os' & S1 & R & ->). apply IH in R as (st2 & o1 & o2 & R1 & R2 & ->).
    exists st2, (o :: o1), o2. cbn [run]. rewrite S1, R1. auto.
Qed.

Lemma run_length ops : forall st st' os, run st ops = (st', os) -> length os = length ops.
Proof.
  induction ops as [|op ops IH]; intros st st' os R.
  - cbn [run] in R. apply pair_equal_spec in R as [<- <-]. auto.
  - apply run_step in R as (st1 & o & os' & S1 & R & ->). cbn. f_equal. eauto.
Qed.

(** a failed session's id stays taken *)
Lemma stuck_step sid l op b :
  (forall sock d ok, op = Create sock sid d ok -> b = false) -> view_step sid l Stuck op b = Stuck.
Proof.
  intros B. destruct op as [sock s d ok| | | | | | | | | |]; auto. cbn [view_step]. destruct (N.eqb_spec s sid) as [->|]; auto.
  rewrite (B sock d ok eq_refl). reflexivity.
Qed.

Lemma stuck_run ops sid : forall st hs st' os, keeps st hs -> vw sid st = Stuck -> run st ops = (st', os) -> vw sid st' = Stuck.
Proof.
  induction ops as [|op ops IH]; intros st hs st' os K V R.
  - cbn [run] in R. apply pair_equal_spec in R as [<- <-]. auto.
  - apply run_step in R as (st1 & o & os' & S1 & R & ->).
    destruct (keeps_step _ _ _ _ _ K S1) as [K1 C]. eapply IH; [exact K1| |exact R].
    destruct (step_facts _ _ _ _ (k_wf _ _ K) S1) as (_ & _ & _ & V1 & _). rewrite V1, V. apply stuck_step; auto.
    intros sock d ok ->. rewrite (C _ _ _ _ eq_refl). unfold verdict. rewrite (k_ids _ _ K), V. reflexivity.
Qed.

(** ** Sockets *)
Definition cnt (s : N) (l : list N) : nat := count_occ N.eq_dec l s.

Lemma cnt_app s a b : cnt s (a ++ b) = (cnt s a + cnt s b)%nat. Proof. apply count_occ_app. Qed.

Definition old {V} (f : N -> V -> list N) (k : N) (m : nmap V) : list N := match nget k m with Some v => f k v | None => [] end.

Lemma total_put {V} (f : N -> V -> list N) s k v m : sorted (nkeys m) ->
  (cnt s (total f (nput k v m)) + cnt s (old f k m) = cnt s (total f m) + cnt s (f k v))%nat.
Proof.
  unfold old, sorted. induction m as [|[k' v'] t IH]; intros Sd; cbn [nput nget total].
  - rewrite !cnt_app. cbn. lia.
  - cbn [nkeys map fst] in Sd. inversion Sd as [|? ? Sd' Fa]; subst. destruct (N.ltb_spec k k').
    + destruct (N.eqb_spec k k'); [lia|]. cbn [total]. rewrite !cnt_app.
      assert (nget k t = None) as ->; [|cbn; lia]. apply nget_None_nkeys. intros X. rewrite Forall_forall in Fa. apply Fa in X. lia.
    + destruct (N.eqb_spec k k') as [->|]; cbn [total]; rewrite !cnt_app; [lia|]. specialize (IH Sd'). lia.
Qed.

Lemma total_del {V} (f : N -> V -> list N) s k m : sorted (nkeys m) ->
  (cnt s (total f (ndel k m)) + cnt s (old f k m) = cnt s (total f m))%nat.
Proof.
  unfold old, sorted. induction m as [|[k' v'] t IH]; intros Sd; cbn [ndel nget total]; [cbn; lia|].
  cbn [nkeys map fst] in Sd. inversion Sd as [|? ? Sd' Fa]; subst. specialize (IH Sd'). destruct (N.eqb_spec k k') as [->|].
  - assert (nget k' t = None) as E; [|rewrite E in IH; rewrite cnt_app; cbn in IH; lia]. apply nget_None_nkeys. intros X. rewrite Forall_forall in Fa. apply Fa in X. lia.
  - cbn [total]. rewrite !cnt_app. lia.
Qed.

Record tidy (st : srv) : Prop := mkTidy {
  t_wf : wf st;
  t_a : sorted (nkeys (sv_active st)); t_b : sorted (nkeys (sv_building st)); t_l : sorted (nkeys (sv_look st));
  t_q : forall sid k q, nget sid (sv_active st) = Some (mkChan k false q) -> q = [] }.

Lemma nkeys_total {V} (m : nmap V) : nkeys m = total (fun k _ => [k]) m.
Proof. induction m as [|[k v] t IH]; cbn; auto. f_equal. auto. Qed.

Lemma held_cnt s st : cnt s (held st) = (cnt s (total chan_socks (sv_active st)) + cnt s (total (fun _ k => [k]) (sv_building st)) + cnt s (total (fun k _ => [k]) (sv_look st)))%nat.
Proof. unfold held. rewrite !cnt_app, nkeys_total. lia. Qed.

Lemma waste_parted q : flat_map parted (map waste q) = flat_map sock_of q.
Proof. induction q as [|c q IH]; cbn; auto. rewrite IH. destruct c; reflexivity. Qed.

Lemma chan_put s st sid k q q' : tidy st -> nget sid (sv_active st) = Some (mkChan k true q) ->
  (cnt s (total chan_socks (nput sid (mkChan k true q') (sv_active st))) + cnt s (flat_map sock_of q)
   = cnt s (total chan_socks (sv_active st)) + cnt s (flat_map sock_of q'))%nat.
Proof.
  intros T A. pose proof (total_put chan_socks s sid (mkChan k true q') _ (t_a _ T)) as P. unfold old in P. rewrite A in P.
  unfold chan_socks in P at 2 4. cbn [ch_open ch_sock ch_queue] in P. rewrite !cnt_app in P. lia.
Qed.

Lemma send_socks s sid c st st' o : tidy st -> send_command sid c st = (st', o) ->
  tidy st' /\ (cnt s (held st') + cnt s (flat_map parted o) = cnt s (held st) + cnt s (sock_of c))%nat.
Proof.
  intros T H. pose proof (send_facts _ _ _ _ _ (t_wf _ T) H) as (W' & _). unfold send_command in H. rewrite dropped_waste in H.
  assert (D : cnt s (flat_map parted [waste c]) = cnt s (sock_of c)) by (cbn [flat_map]; rewrite app_nil_r; destruct c; reflexivity).
  destruct (nget sid (sv_active st)) as [[k op q]|] eqn:A; [|apply pair_equal_spec in H as [<- <-]; split; auto; lia].
  cbn [ch_open ch_queue ch_sock] in H. destruct op; cbn [andb] in H; [|apply pair_equal_spec in H as [<- <-]; split; auto; lia].
  destruct (_ <? _); apply pair_equal_spec in H as [<- <-]; [|split; auto; lia].
  split.
  - destruct T as [_ TA TB TL TQ]. split; auto; cbn [sv_active sv_building sv_look].
    + now apply nput_Sorted.
    + intros s' k' q'. rewrite nget_nput. destruct (s' =? sid); [discriminate|eauto].
  - rewrite !held_cnt. cbn [sv_active sv_building sv_look]. pose proof (chan_put s st sid k q (q ++ [c]) T A) as P.
    rewrite flat_map_app, cnt_app in P. cbn [flat_map] in *. rewrite app_nil_r in P. cbn [cnt count_occ]. unfold cnt in *. cbn [count_occ]. lia.
Qed.

Lemma step_socks s st op st' o : tidy st -> step st op = (st', o) ->
  (forall x, In x (brought op) -> ~ In x (nkeys (sv_look st))) ->
  tidy st' /\ (cnt s (held st') + cnt s (flat_map parted o) = cnt s (held st) + cnt s (brought op))%nat.
Proof.
  intros T H F. pose proof (step_facts _ _ _ _ (t_wf _ T) H) as (W' & _).
  destruct op as [sock sid d ok|sock sid h opts|sock sid opts|sock sid port opts|sid d x|sock d|sid|sid|sid|sid|sid]; cbn [step brought] in *.
  - unfold on_create in H.
    destruct (nhas sid (sv_active st) || smem sid (sv_psend st)) eqn:D1; [apply pair_equal_spec in H as [<- <-]; split; auto; cbn [flat_map parted app]; lia|].
    destruct (smem d (sv_dests st)); [apply pair_equal_spec in H as [<- <-]; split; auto; cbn [flat_map parted app]; lia|].
    destruct ok; cbn [negb] in H; [|apply pair_equal_spec in H as [<- <-]; split; auto; cbn [flat_map parted app]; lia].
    apply pair_equal_spec in H as [<- <-]. apply orb_false_iff in D1 as [_ D1].
    assert (B : nget sid (sv_building st) = None).
    { destruct (nget sid (sv_building st)) eqn:B; auto. destruct (t_wf _ T sid) as [_ X]. unfold nhas in X. rewrite B in X. rewrite X in D1 by auto. discriminate. }
    split.
    + destruct T as [_ TA TB TL TQ]. split; auto; cbn [sv_active sv_building sv_look]. now apply nput_Sorted.
    + rewrite !held_cnt. cbn [sv_active sv_building sv_look flat_map parted app].
      pose proof (total_put (fun _ k : N => [k]) s sid sock _ (t_b _ T)) as P. unfold old in P. rewrite B in P. cbn [cnt count_occ] in P |- *. unfold cnt in *. cbn [count_occ] in *. lia.
  - destruct h as [d|d|n]; unfold on_connect in H; [eapply send_socks in H; eauto|eapply send_socks in H; eauto|].
    destruct (sv_book st); apply pair_equal_spec in H as [<- <-]; [|split; auto; cbn [flat_map parted app]; lia].
    split.
    + destruct T as [_ TA TB TL TQ]. split; auto; cbn [sv_active sv_building sv_look]. now apply nput_Sorted.
    + rewrite !held_cnt. cbn [sv_active sv_building sv_look flat_map parted app].
      pose proof (total_put (fun (k : N) (_ : N * N) => [k]) s sock (sid, opts) _ (t_l _ T)) as P. unfold old in P.
      assert (nget sock (sv_look st) = None) as E by (apply nget_None_nkeys, F; cbn; auto). rewrite E in P. unfold cnt in *. cbn [count_occ] in *. lia.
  - eapply send_socks in H; eauto.
  - eapply send_socks in H; eauto.
  - eapply send_socks in H; eauto.
  - unfold on_resolved in H. destruct (nget sock (sv_look st)) as [[sid opts]|] eqn:L; [|apply pair_equal_spec in H as [<- <-]; split; auto].
    set (st1 := mkSrv _ _ _ _ _ _ _) in H.
    assert (T1 : tidy st1).
    { destruct T as [TW TA TB TL TQ]. split; auto. unfold st1; cbn [sv_look]. now apply ndel_Sorted. }
    assert (E : (cnt s (held st1) + cnt s [sock] = cnt s (held st))%nat).
    { rewrite !held_cnt. unfold st1. cbn [sv_active sv_building sv_look].
      pose proof (total_del (fun (k : N) (_ : N * N) => [k]) s sock _ (t_l _ T)) as P. unfold old in P. rewrite L in P. lia. }
    destruct d as [d|].
    + eapply send_socks in H as [T2 C]; eauto. split; auto. cbn [sock_of] in C. unfold cnt in *; cbn [count_occ] in *. rewrite C. lia.
    + apply pair_equal_spec in H as [<- <-]. split; auto. cbn [flat_map parted app]. unfold cnt in *; cbn [count_occ] in *. lia.
  - unfold on_built in H. destruct (nget sid (sv_building st)) as [k|] eqn:B; [|apply pair_equal_spec in H as [<- <-]; split; auto].
    assert (P : smem sid (sv_psend st) = true) by (apply (t_wf _ T); unfold nhas; now rewrite B).
    assert (A : nget sid (sv_active st) = None).
    { destruct (nget sid (sv_active st)) eqn:A; auto. destruct (t_wf _ T sid) as [W1 _]. destruct W1 as [X _]; [unfold nhas; now rewrite A|congruence]. }
    rewrite P in H. apply pair_equal_spec in H as [<- <-]. split.
    + destruct T as [_ TA TB TL TQ]. split; auto; cbn [sv_active sv_building sv_look]; [now apply nput_Sorted|now apply ndel_Sorted|].
      intros s' k' q'. rewrite nget_nput. destruct (s' =? sid); [discriminate|eauto].
    + rewrite !held_cnt. cbn [sv_active sv_building sv_look flat_map parted app].
      pose proof (total_put chan_socks s sid (mkChan k true []) _ (t_a _ T)) as P1. pose proof (total_del (fun _ k : N => [k]) s sid _ (t_b _ T)) as P2.
      unfold old in P1, P2. rewrite A in P1. rewrite B in P2. unfold chan_socks in P1 at 3. cbn [ch_open ch_sock ch_queue flat_map app] in P1.
      unfold cnt in *. cbn [count_occ] in *. lia.
  - unfold on_failed in H. destruct (nget sid (sv_building st)) as [k|] eqn:B; [|apply pair_equal_spec in H as [<- <-]; split; auto].
    apply pair_equal_spec in H as [<- <-]. split.
    + destruct T as [_ TA TB TL TQ]. split; auto; cbn [sv_active sv_building sv_look]. now apply ndel_Sorted.
    + rewrite !held_cnt. cbn [sv_active sv_building sv_look flat_map parted app].
      pose proof (total_del (fun _ k : N => [k]) s sid _ (t_b _ T)) as P2. unfold old in P2. rewrite B in P2. unfold cnt in *. cbn [count_occ] in *. lia.
  - unfold on_take in H. destruct (nget sid (sv_active st)) as [[k [|] [|c q]]|] eqn:A; apply pair_equal_spec in H as [<- <-]; try (split; auto; fail).
    split.
    + destruct T as [_ TA TB TL TQ]. split; auto; cbn [sv_active sv_building sv_look]; [now apply nput_Sorted|].
      intros s' k' q'. rewrite nget_nput. destruct (s' =? sid); [discriminate|eauto].
    + rewrite !held_cnt. cbn [sv_active sv_building sv_look]. pose proof (chan_put s st sid k (c :: q) q T A) as P.
      cbn [flat_map parted] in *. rewrite ?app_nil_r in *. rewrite cnt_app in P. unfold cnt in *. cbn [count_occ] in *. lia.
  - unfold on_gone in H. destruct (nget sid (sv_active st)) as [[k [|] q]|] eqn:A; apply pair_equal_spec in H as [<- <-]; try (split; auto; fail).
    split.
    + destruct T as [_ TA TB TL TQ]. split; auto; cbn [sv_active sv_building sv_look]; [now apply nput_Sorted|].
      intros s' k' q'. rewrite nget_nput. destruct (s' =? sid); [intros [= _ <-]; auto|eauto].
    + rewrite !held_cnt. cbn [sv_active sv_building sv_look].
      pose proof (total_put chan_socks s sid (mkChan k false []) _ (t_a _ T)) as P. unfold old in P. rewrite A in P.
      unfold chan_socks in P at 2 4. cbn [ch_open ch_sock ch_queue flat_map app] in P. cbn [flat_map parted].
      rewrite flat_dropped, waste_parted. rewrite ?cnt_app in *. change (k :: flat_map sock_of q) with ([k] ++ flat_map sock_of q) in P. rewrite ?cnt_app in *. unfold cnt in *. cbn [count_occ] in *. lia.
  - unfold on_reap in H. destruct (nget sid (sv_active st)) as [[k [|] q]|] eqn:A; apply pair_equal_spec in H as [<- <-]; try (split; auto; fail).
    set (st1 := mkSrv _ _ _ _ _ _ _) in *. destruct (release_facts sid st1) as (R1 & R2 & R3 & R4 & R5).
    assert (q = []) by (eapply (t_q _ T); eauto). subst q.
    split.
    + destruct T as [_ TA TB TL TQ]. split; auto; rewrite ?R1, ?R3, ?R4; unfold st1; cbn [sv_active sv_building sv_look]; auto; [now apply ndel_Sorted|].
      intros s' k' q'. rewrite nget_ndel. destruct (s' =? sid); [discriminate|eauto].
    + rewrite !held_cnt, R1, R3, R4. unfold st1. cbn [sv_active sv_building sv_look flat_map parted app].
      pose proof (total_del chan_socks s sid _ (t_a _ T)) as P. unfold old in P. rewrite A in P. unfold chan_socks in P at 2.
      cbn [ch_open ch_sock ch_queue flat_map app] in P. unfold cnt in *. cbn [count_occ] in *. lia.
Qed.

Lemma cnt_le1 l : NoDup l -> forall s, (cnt s l <= 1)%nat. Proof. intros H s. now apply NoDup_count_occ. Qed.

Lemma run_socks ops : forall st st' os, tidy st -> run st ops = (st', os) ->
  NoDup (flat_map brought ops) -> (forall x, In x (flat_map brought ops) -> ~ In x (nkeys (sv_look st))) ->
  forall s, (cnt s (held st') + cnt s (flat_map parted (concat os)) = cnt s (held st) + cnt s (flat_map brought ops))%nat.
Proof.
  induction ops as [|op ops IH]; intros st st' os T R ND F s.
  - cbn [run] in R. apply pair_equal_spec in R as [<- <-]. cbn. lia.
  - apply run_step in R as (st1 & o & os' & S1 & R & ->). cbn [flat_map concat] in *.
    destruct (step_socks s st op st1 o T S1) as [T1 C1]; [intros x X; apply F, in_or_app; auto|].
    destruct (step_facts _ _ _ _ (t_wf _ T) S1) as (_ & _ & L1 & _).
    assert (ND2 : NoDup (flat_map brought ops)) by (clear - ND; induction (brought op); cbn in ND; auto; inversion ND; auto).
    assert (Dj : forall x, In x (brought op) -> In x (flat_map brought ops) -> False).
    { clear - ND. intros x. induction (brought op) as [|a l IH]; cbn in *; [tauto|]. inversion ND as [|? ? Hn Hd]; subst.
      intros [->|X] Y; [apply Hn, in_or_app; auto|auto]. }
    assert (Fr : forall x, In x (flat_map brought ops) -> ~ In x (nkeys (sv_look st1))).
    { intros x X; rewrite L1; destruct op as [sock sid d ok|sock sid h opts|sock sid opts|sock sid port opts|sid d y|sock d|sid|sid|sid|sid|sid]; cbn [look_step]; try (apply F, in_or_app; auto; fail).
      - destruct h; try (apply F, in_or_app; auto; fail). destruct (sv_book st); [|apply F, in_or_app; auto].
        rewrite In_nkeys_nput; intros [->|Y]; [apply (Dj sock); cbn; auto|eapply F; [apply in_or_app; right; exact X|exact Y]].
      - rewrite In_nkeys_ndel; intros [_ Y]; eapply F; [apply in_or_app; right; exact X|exact Y]. }
    pose proof (IH _ _ _ T1 R ND2 Fr s) as I2. rewrite flat_map_app, !cnt_app.
    lia.
Qed.

Lemma tidy_new b : tidy (sv_new b).
Proof. split; cbn; try constructor; try discriminate. Qed.

(** ** The writer *)

Lemma w_loop_spec rs : forall cur chan w o, w_loop rs cur chan = (w, o) ->
  map fst o ++ w_waiting w = (match cur with Some m => [m] | None => [] end) ++ chan.
Proof.
  induction rs as [|r rs IH]; intros cur chan w o H.
  - destruct cur as [[p x]|]; [|destruct chan as [|[p x] t]]; cbn in H; apply pair_equal_spec in H as [<- <-]; reflexivity.
  - assert (K : forall p x t, w_loop (r :: rs) (Some (p, x)) t = (w, o) -> map fst o ++ w_waiting w = (p, x) :: t).
    { clear H. intros p x t H. cbn [w_loop] in H. destruct r.
      - apply pair_equal_spec in H as [<- <-]. reflexivity.
      - destruct (w_loop rs None t) as [w1 o1] eqn:E. apply pair_equal_spec in H as [<- <-]. apply IH in E. cbn [map fst app] in *. now rewrite E.
      - destruct (w_loop rs None t) as [w1 o1] eqn:E. apply pair_equal_spec in H as [<- <-]. apply IH in E. cbn [map fst app] in *. now rewrite E. }
    destruct cur as [[p x]|].
    + cbn [app]. auto.
    + destruct chan as [|[p x] t]; [cbn in H; apply pair_equal_spec in H as [<- <-]; reflexivity|]. cbn [app]. apply K. exact H.
Qed.

Lemma w_loop_all rs : forall cur chan w o, w_loop rs cur chan = (w, o) ->
  (forall r, In r rs -> r = Wrote) -> (length (match cur with Some m => [m] | None => [] end ++ chan) <= length rs)%nat ->
  w = mkWrt None [] /\ Forall (fun e => snd e = true) o.
Proof.
  induction rs as [|r rs IH]; intros cur chan w o H A L.
  - destruct cur as [[p x]|]; [cbn in L; lia|]. destruct chan as [|[p x] t]; [|cbn in L; lia]. cbn in H. apply pair_equal_spec in H as [<- <-]. auto.
  - assert (r = Wrote) by (apply A; now left). subst r. cbn [w_loop] in H. destruct cur as [[p x]|].
    + destruct (w_loop rs None chan) as [w1 o1] eqn:E. apply pair_equal_spec in H as [<- <-].
      apply IH in E as [-> F]; [auto|intros r' X; apply A; now right|cbn in *; lia].
    + destruct chan as [|[p x] t]; [apply pair_equal_spec in H as [<- <-]; auto|].
      destruct (w_loop rs None t) as [w1 o1] eqn:E. apply pair_equal_spec in H as [<- <-].
      apply IH in E as [-> F]; [auto|intros r' X; apply A; now right|cbn in *; lia].
Qed.

Lemma w_loop_chan rs : forall cur chan w o, w_loop rs cur chan = (w, o) -> (length (w_chan w) <= length chan)%nat.
Proof.
  induction rs as [|r rs IH]; intros cur chan w o H.
  - destruct cur as [[p x]|]; [|destruct chan as [|[p x] t]]; cbn in H; apply pair_equal_spec in H as [<- <-]; cbn; lia.
  - cbn [w_loop] in H. destruct cur as [[p x]|]; [|destruct chan as [|[p x] t]; [apply pair_equal_spec in H as [<- <-]; cbn; lia|]].
    + destruct r; [apply pair_equal_spec in H as [<- <-]; cbn; lia| |];
        (destruct (w_loop rs None chan) as [w1 o1] eqn:E; apply pair_equal_spec in H as [<- <-]; apply IH in E; lia).
    + destruct r; [apply pair_equal_spec in H as [<- <-]; cbn; lia| |];
        (destruct (w_loop rs None t) as [w1 o1] eqn:E; apply pair_equal_spec in H as [<- <-]; apply IH in E; cbn; lia).
Qed.

Lemma subseq_refl {A} (l : list A) : subseq l l. Proof. induction l; constructor; auto. Qed.
Lemma subseq_nil {A} (l : list A) : subseq [] l. Proof. induction l; constructor; auto. Qed.
Lemma subseq_app {A} (a b c d : list A) : subseq a b -> subseq c d -> subseq (a ++ c) (b ++ d).
Proof. induction 1; intros; cbn; auto; constructor; auto. Qed.

Lemma w_run_spec ops : forall w w' o, w_run w ops = (w', o) ->
  exists took, subseq took (offered ops) /\ map fst o ++ w_waiting w' = w_waiting w ++ took
   /\ ((length (w_chan w) + length (offered ops) <= 1024)%nat -> took = offered ops).
Proof.
  induction ops as [|op ops IH]; intros w w' o H.
  - cbn in H. apply pair_equal_spec in H as [<- <-]. exists []. cbn. split; [constructor|]. split; [now rewrite app_nil_r|auto].
  - cbn [w_run] in H. destruct (w_step w op) as [w1 o1] eqn:S1. destruct (w_run w1 ops) as [w2 o2] eqn:R. apply pair_equal_spec in H as [<- <-].
    apply IH in R as (took & Sb & E & Al). destruct op as [p x|rs]; cbn [w_step offered flat_map] in *.
    + destruct (N.ltb_spec (N.of_nat (length (w_chan w))) datagram_channel_size) as [L|L]; apply pair_equal_spec in S1 as [<- <-].
      * exists ((p, x) :: took). split; [constructor; exact Sb|]. split.
        -- cbn [app]. rewrite E. unfold w_waiting. cbn [w_cur w_chan]. now rewrite <- !app_assoc.
        -- cbn [app length w_chan] in *. intros X. f_equal. apply Al. rewrite app_length. cbn [length]. unfold offered in *. lia.
      * exists took. split; [constructor; exact Sb|]. split; auto. cbn [app length]. unfold datagram_channel_size in L. intros X. lia.
    + exists took. split; auto. pose proof S1 as S2. apply w_loop_spec in S2. fold (w_waiting w) in S2. split.
      * rewrite <- S2, <- app_assoc, <- E, app_assoc, <- map_app. reflexivity.
      * intros X. apply Al. cbn [app] in X. unfold offered in *.
        assert (length (w_chan w1) <= length (w_chan w))%nat; [|lia]. eapply w_loop_chan; eauto.
Qed.
