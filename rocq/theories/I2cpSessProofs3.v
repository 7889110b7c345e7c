(** Answers to lookups, setup, and the server. *)
From Coq Require Import Ascii String.
From Coq Require Import List NArith PeanoNat Bool Lia Permutation.
From Verif Require Import ListUtil Bytes NMap PrimModel PrimSpec PrimProofs EncModel I2cpModel SamModel RouteProofs Ssu2Proofs DestModel DestSpec DestProofs SamSessSpec SamSessProofs3 I2cpSessModel I2cpSessSpec I2cpSessProofs I2cpSessProofs2.
Import ListNotations.
Local Open Scope list_scope.
Open Scope N_scope.

Section S.
Variables (sid : N) (book : bool) (did : bytes -> N) (written : destination -> bytes).
Notation step := (cstep sid book did written).
Notation run := (crun sid book did written).
Notation req := (request_of book did).
Ltac inj H := apply pair_equal_spec in H as [H ?]; injection H as <-; subst.

(** ** Answers to lookups *)
Definition about (d : N) (op : cop) : bool := match op with CFound d' _ | CNotFound d' => d' =? d | _ => false end.
Lemma after_words_app d l1 : forall l2 b, after_words d b (l1 ++ l2) = after_words d (after_words d b l1) l2.
Proof. induction l1; cbn; auto. Qed.
Lemma stays_busy d mid : existsb (about d) mid = false -> after_words d true (flat_map (hears book did) mid) = true.
Proof.
  induction mid as [|op mid IH]; auto. cbn [existsb flat_map]. intros H. apply orb_false_iff in H as [H1 H2]. rewrite after_words_app.
  assert (E : after_words d true (hears book did op) = true); [|now rewrite E, IH].
  unfold hears. destruct (req op) as [d' x st|s r d' st v|s r n|s r|]; cbn [after_words after_word]; auto.
  - destruct (d' =? d); auto. destruct st; auto.
  - destruct (d' =? d); auto. destruct st; auto.
  - destruct op; cbn [after_words after_word about] in *; auto; now rewrite H1.
Qed.
Lemma look_stays d s r mid : forall l, existsb (about d) mid = false -> existsb ends mid = false ->
  after_words d false l = true -> in_order d false (l ++ flat_map (hears book did) mid) = true ->
  forall p, pm p = None -> pl p = Some (s, r) -> pm (fold_left (pend_step book did d) mid p) = None /\ pl (fold_left (pend_step book did d) mid p) = Some (s, r).
Proof.
  induction mid as [|op mid IH]; intros l A En B O p P1 P2; [auto|]. cbn [existsb fold_left flat_map] in *.
  apply orb_false_iff in A as [A1 A2]. apply orb_false_iff in En as [E1 E2].
  assert (O1 := O). rewrite app_assoc, in_order_app in O1. apply andb_true_iff in O1 as [O1 _]. rewrite in_order_app in O1. apply andb_true_iff in O1 as [_ O1]. rewrite B in O1.
  refine (IH (l ++ hears book did op) A2 E2 _ _ _ _ _).
  - rewrite after_words_app, B. assert (S0 := stays_busy d [op]). cbn [existsb flat_map] in S0. rewrite A1, app_nil_r in S0. auto.
  - rewrite <- app_assoc. exact O.
  - unfold pend_step. rewrite E1. unfold hears in O1. destruct (req op) as [d' x st|s' r' d' st v|s' r' n|s' r'|]; auto.
    + cbn [in_order] in O1. destruct (d' =? d); [destruct st; try discriminate|destruct st]; auto. cbn. now rewrite P1.
    + cbn [in_order] in O1. destruct (d' =? d); [destruct st; try discriminate|destruct st]; auto.
    + destruct op; auto; cbn [about] in A1; now rewrite A1.
  - unfold pend_step. rewrite E1. unfold hears in O1. destruct (req op) as [d' x st|s' r' d' st v|s' r' n|s' r'|]; auto.
    + cbn [in_order] in O1. destruct (d' =? d); [destruct st; try discriminate|destruct st]; auto.
    + cbn [in_order] in O1. destruct (d' =? d); [destruct st; try discriminate|destruct st]; auto.
    + destruct op; auto; cbn [about] in A1; now rewrite A1.
Qed.
Lemma active_no_end ops : forall a a' os, run (Active a) ops = (Active a', os) -> existsb ends ops = false.
Proof.
  induction ops as [|op ops IH]; intros a a' os H; auto. apply run_cons in H as (a1 & o & os' & E1 & E2 & ->). cbn [existsb].
  destruct (active_stays _ _ _ _ _ _ _ _ E1) as [(u & _ & ->)|[X _]]; [|discriminate]. cbn [orb]. eapply IH; eauto.
Qed.
Lemma hash_lookup_state ops op mid a os s r d v : run (Active fresh) (ops ++ op :: mid) = (Active a, os) -> req op = ByHash s r d NotFound v ->
  in_order d false (flat_map (hears book did) (ops ++ op :: mid)) = true -> existsb (about d) mid = false ->
  nget d (a_conns a) = None /\ nget d (a_looks a) = Some (s, r).
Proof.
  intros R Q O A. pose proof (active_no_end _ _ _ _ R) as En. rewrite existsb_app in En. apply orb_false_iff in En as [_ En]. cbn [existsb] in En. apply orb_false_iff in En as [Eop En].
  pose proof (active_at _ _ _ _ _ _ _ R d) as At. unfold pend_run in At. rewrite fold_left_app in At. cbn [fold_left] in At. change (fold_left (pend_step book did d) ops no_pend) with (pend_run book did d ops) in At.
  rewrite flat_map_app in O. cbn [flat_map] in O. assert (O1 := O). rewrite in_order_app in O1. apply andb_true_iff in O1 as [O1 O2].
  unfold hears in O2 at 2. rewrite Q in O2. cbn [app in_order] in O2. rewrite N.eqb_refl in O2. apply andb_true_iff in O2 as [O2 O3]. apply negb_true_iff in O2.
  destruct (busy_waits book did d ops O1) as [_ [N1 N2]]; auto.
  assert (P : pend_step book did d (pend_run book did d ops) op = mkPend None (Some (s, r))).
  { unfold pend_step. rewrite Eop, Q, N.eqb_refl. now rewrite N1. }
  rewrite P in At.
  destruct (look_stays d s r mid (flat_map (hears book did) ops ++ hears book did op) A En) with (p := mkPend None (Some (s, r))) as [L1 L2]; auto.
  - rewrite after_words_app. assert (Hh : hears book did op = [Asked d NotFound]) by (unfold hears; now rewrite Q). rewrite Hh. cbn [after_words after_word]. now rewrite N.eqb_refl.
  - now rewrite <- app_assoc.
  - rewrite <- At in L1, L2. auto.
Qed.
Lemma futs_stay key p mid : forall a a' os, run (Active a) mid = (Active a', os) -> wf a -> nget key (a_futs a) = Some p ->
  existsb (fun op => match op with CAnswer k _ => k =? key | _ => false end) mid = false -> nget key (a_futs a') = Some p.
Proof.
  induction mid as [|op mid IH]; intros a a' os H W G A; [cbn in H; injection H as <- <-; auto|].
  apply run_cons in H as (a1 & o & os' & E1 & E2 & ->). cbn [existsb] in A. apply orb_false_iff in A as [A1 A2].
  refine (IH a1 _ _ E2 _ _ A2); [eapply step_wf; eauto|]. destruct W as (_ & _ & _ & W4). clear IH E2.
  cbn [cstep] in E1; unfold active_step in E1. rename E1 into H.
  destruct op as [m now room st value| | |e|l|x value|x|l|key' v|]; try (inj H; assumption); try discriminate.
  - unfold lift in H. destruct (on_active_message sid book did m now st value a) as [a2 o1] eqn:E. injection H as <- <-.
    unfold on_active_message in E. destruct m; cbn [common] in E; try (injection E as <- <-; assumption).
    + destruct book; [|destruct kind; injection E as <- <-; assumption]. destruct kind; [|destruct st; injection E as <- <-; assumption].
      injection E as <- <-. cbn [a_futs u_futs]. rewrite nget_nput. apply W4 in G as L. destruct (N.eqb_spec key (a_next a)); [lia|auto].
    + destruct st; [| |destruct (nget _ _)]; injection E as <- <-; assumption.
  - destruct (payloads sid l (a_mid a)). inj H. assumption.
  - unfold lift in H. destruct (on_found x value a) as [a2 o1] eqn:E. injection H as <- <-. unfold on_found in E.
    destruct (nget x (a_conns a)); [injection E as <- <-; assumption|]. destruct (nget x (a_looks a)) as [[s r]|]; injection E as <- <-; assumption.
  - unfold lift in H. destruct (on_not_found x a) as [a2 o1] eqn:E. injection H as <- <-. unfold on_not_found in E.
    destruct (nget x (a_conns a)); [injection E as <- <-; assumption|]. destruct (nget x (a_looks a)) as [[s r]|]; injection E as <- <-; assumption.
  - destruct l; [discriminate|]. inj H. assumption.
  - unfold lift in H. destruct (on_answer key' v a) as [a2 o1] eqn:E. injection H as <- <-. unfold on_answer in E.
    destruct (nget key' (a_futs a)) as [[s r]|]; injection E as <- <-; [|assumption]. cbn [a_futs u_futs]. rewrite nget_ndel, N.eqb_sym, A1. assumption.
Qed.

(** ** Setup *)
Lemma tunnel_events_app a b : tunnel_events (a ++ b) = tunnel_events a ++ tunnel_events b. Proof. unfold tunnel_events. apply flat_map_app. Qed.
Lemma steppings_app a b : steppings (a ++ b) = steppings a ++ steppings b. Proof. unfold steppings. apply flat_map_app. Qed.
Lemma in_live_snoc t es e : in_live t (es ++ [e]) = in_after t (in_live t es) e. Proof. unfold in_live. now rewrite fold_left_app. Qed.
Lemma out_live_snoc t es e : out_live t (es ++ [e]) = out_after t (out_live t es) e. Proof. unfold out_live. now rewrite fold_left_app. Qed.
Lemma tunnels_same es ins outs ins' outs' : tunnels_are es ins outs -> tunnels_are es ins' outs' -> ins = ins' /\ outs = outs'.
Proof.
  intros (A1 & A2 & A3 & A4) (B1 & B2 & B3 & B4). split.
  - apply nmap_ext; auto. intros k. now rewrite A2, B2.
  - assert (E : map (fun t => (t, tt)) outs = map (fun t => (t, tt)) outs').
    { assert (K : forall l, nkeys (map (fun t => (t, tt)) l) = l) by (intros l; unfold nkeys; rewrite map_map; apply map_id).
      apply nmap_ext; rewrite ?K; auto. intros k.
      assert (Gt : forall l, nget k (map (fun t => (t, tt)) l) = if existsb (N.eqb k) l then Some tt else None).
      { induction l as [|x l IH]; auto. cbn. destruct (k =? x); auto. }
      rewrite !Gt. assert (X : existsb (N.eqb k) outs = existsb (N.eqb k) outs'); [|now rewrite X].
      apply eq_true_iff_eq. rewrite !existsb_exists. split; intros (x & H & E); apply N.eqb_eq in E; subst x; exists k; rewrite N.eqb_refl; split; auto; [apply B4, A4|apply A4, B4]; auto. }
    assert (M : forall l, map fst (map (fun t : N => (t, tt)) l) = l) by (intros l; unfold nkeys; rewrite map_map; apply map_id). rewrite <- (M outs), E. apply M.
Qed.
Lemma tunnels_step es ins outs e : tunnels_are es ins outs ->
  tunnels_are (es ++ [e]) (match e with InBuilt t l => nput t l ins | InGone t => ndel t ins | _ => ins end)
                          (match e with OutBuilt t => sadd t outs | OutGone t => sdel t outs | _ => outs end).
Proof.
  intros (A1 & A2 & A3 & A4). unfold tunnels_are. repeat setoid_rewrite in_live_snoc. repeat setoid_rewrite out_live_snoc.
  destruct e as [t l|t|t|t| |]; cbn [in_after out_after]; (split; [|split; [|split]]); auto using nput_Sorted, ndel_Sorted, sadd_sorted, sdel_sorted.
  - intros t'. rewrite nget_nput, A2, N.eqb_sym. reflexivity.
  - intros t'. rewrite sadd_In, A4. destruct (N.eqb_spec t t') as [->|]; [tauto|]. split; [intros [H|H]; [congruence|auto]|auto].
  - intros t'. rewrite nget_ndel, A2, N.eqb_sym. reflexivity.
  - intros t'. rewrite sdel_In, A4. destruct (N.eqb_spec t t') as [->|]; [split; [intros [H _]; congruence|discriminate]|]. split; [tauto|]. intros H; split; auto.
Qed.

Definition asked (ops : list cop) (opts : list mapping) : Prop :=
  exists pre d date o0 now st v mid, ops = pre ++ CMsg (MCreateSession d date o0) now true st v :: mid /\ opts = with_name (written d) o0.
Lemma asked_snoc ops opts op : asked ops opts -> asked (ops ++ [op]) opts.
Proof. intros (pre & d & date & o0 & now & st & v & mid & -> & ->). exists pre, d, date, o0, now, st, v, (mid ++ [op]). rewrite <- app_assoc. auto. Qed.
Lemma building_snoc ops opts es op : building written ops opts es -> building written (ops ++ [op]) opts (es ++ tunnel_events [op]).
Proof.
  intros (pre & d & date & o0 & now & st & v & mid & post & -> & -> & ->). exists pre, d, date, o0, now, st, v, mid, (post ++ [op]).
  rewrite tunnel_events_app. split; auto. rewrite <- app_assoc. cbn [app]. rewrite <- app_assoc. reflexivity.
Qed.

Definition three : list stepping := [SCreated; SRequested; SBegun].
Definition sinv (c : conn) (ops : list cop) (os : list (list cout)) : Prop :=
  match c with
  | Setup Inactive => steppings (concat os) = []
  | Setup (BuildingPool opts) => steppings (concat os) = [SCreated] /\ asked ops opts
  | Setup (BuildingTunnels opts ins outs) => steppings (concat os) = [SCreated] /\ exists es, building written ops opts es /\ tunnels_are es ins outs
  | Setup (AwaitingLeaseSet opts ins outs) =>
      steppings (concat os) = [SCreated; SRequested] /\ In (Reply (RpRequestVariableLeaseSet sid (map snd ins))) (concat os)
      /\ exists ops1 ops2 es, ops = ops1 ++ ops2 /\ building written ops1 opts es /\ tunnels_are es ins outs /\ complete opts ins outs = true
  | Active _ => exists n, steppings (concat os) = three ++ repeat SRequested n
  | Over => exists k n, steppings (concat os) = firstn k three ++ repeat SRequested n /\ ((k < 3)%nat -> n = 0%nat)
  end.
Lemma concat_snoc {A : Type} (l : list (list A)) x : concat (l ++ [x]) = concat l ++ x.
Proof. rewrite concat_app. cbn. now rewrite app_nil_r. Qed.

Lemma check_out opts ins outs c o : check sid opts ins outs = (c, o) ->
  (complete opts ins outs = true /\ ins = [] /\ c = Over /\ o = [Panic])
  \/ (complete opts ins outs = true /\ ins <> [] /\ c = Setup (AwaitingLeaseSet opts ins outs) /\ o = [Reply (RpRequestVariableLeaseSet sid (map snd ins))])
  \/ (complete opts ins outs = false /\ c = Setup (BuildingTunnels opts ins outs) /\ o = []).
Proof.
  unfold check, complete. destruct (_ && _).
  - destruct ins as [|x ins]; intros H; injection H as <- <-; [left; auto|right; left; repeat split; discriminate].
  - intros H; injection H as <- <-. auto.
Qed.
Lemma common_steppings m now o : common m now = Some o -> steppings o = [].
Proof. destruct m; cbn [common]; intros H; try discriminate; injection H as <-; reflexivity. Qed.

Lemma firstn_two : firstn 1 three = [SCreated] /\ firstn 2 three = [SCreated; SRequested] /\ firstn 3 three = three. Proof. repeat split. Qed.

Lemma setup_sinv p op c o ops os : sinv (Setup p) ops os -> step (Setup p) op = (c, o) -> sinv c (ops ++ [op]) (os ++ [o]).
Proof.
  intros I E.
  assert (Same : steppings o = [] -> sinv (Setup p) (ops ++ [op]) (os ++ [o]) \/ (exists e, op = CTunnel e /\ exists opts ins outs, p = BuildingTunnels opts ins outs)).
  { intros So. destruct p as [|opts|opts ins outs|opts ins outs]; cbn [sinv] in *; rewrite ?concat_snoc, ?steppings_app, ?So, ?app_nil_r.
    - auto.
    - left. destruct I as [-> I]. split; auto. now apply asked_snoc.
    - destruct I as [-> (es & B & T)].
      destruct op as [m now room st value| | |e|l|x value|x|l|key v|]; [| | |right; exists e; eauto|..]; left; (split; [reflexivity|]); exists es; split; auto;
        match goal with |- building _ (_ ++ [?q]) _ _ => pose proof (building_snoc ops opts es q B) as B'; cbn [tunnel_events flat_map app] in B'; rewrite app_nil_r in B'; exact B' end.
    - left. destruct I as [-> (I1 & ops1 & ops2 & es & -> & B)]. split; auto. split; [apply in_or_app; auto|]. exists ops1, (ops2 ++ [op]), es. rewrite app_assoc. auto. }
  assert (Gone : o = [] \/ o = [Panic] -> sinv Over (ops ++ [op]) (os ++ [o])).
  { intros Ho. assert (So : steppings o = []) by (destruct Ho as [-> | ->]; reflexivity). cbn [sinv]. rewrite concat_snoc, steppings_app, So, app_nil_r.
    destruct p; cbn [sinv] in I.
    - rewrite I. exists 0%nat, 0%nat. auto.
    - destruct I as [-> _]. exists 1%nat, 0%nat. auto.
    - destruct I as [-> _]. exists 1%nat, 0%nat. auto.
    - destruct I as [-> _]. exists 2%nat, 0%nat. auto. }
  cbn [cstep] in E. unfold setup_step in E. destruct op as [m now room st value| | |e|l|x value|x|l|key v|].
  - unfold on_setup_message in E. destruct (common m now) as [oc|] eqn:Ec.
    + injection E as <- <-. destruct Same as [Y|(e & X & _)]; [now apply common_steppings in Ec|exact Y|discriminate].
    + assert (Default : forall q, (q, o) = (Setup p, @nil cout) -> q = c -> sinv c (ops ++ [CMsg m now room st value]) (os ++ [o])).
      { intros q Hq Hc. apply pair_equal_spec in Hq as [-> ->]. subst c. destruct Same as [Y|(e & X & _)]; [reflexivity|exact Y|discriminate]. }
      destruct m; try (apply (Default c); [rewrite <- E; reflexivity|reflexivity]).
      * destruct p; try (apply (Default c); [rewrite <- E; reflexivity|reflexivity]).
        destruct room; [|apply (Default c); [rewrite <- E; reflexivity|reflexivity]].
        cbv zeta in E. apply pair_equal_spec in E as [<- <-]. cbn [sinv] in *. rewrite concat_snoc, steppings_app, I. split; [reflexivity|].
        exists ops, dest, date, options, now, st, value, []. auto.
      * destruct p as [|opts|opts ins outs|opts ins outs]; try (apply (Default c); [rewrite <- E; reflexivity|reflexivity]).
        unfold begin in E. destruct private_keys as [|k ks]; [apply pair_equal_spec in E as [<- <-]; apply Gone; auto|].
        apply pair_equal_spec in E as [<- <-]. cbn [sinv] in *. destruct I as [I _]. exists 0%nat. rewrite concat_snoc, steppings_app, I. reflexivity.
  - injection E as <- <-. apply Gone; auto.
  - destruct p as [|opts|opts ins outs|opts ins outs]; try (injection E as <- <-; destruct Same as [Y|(e & X & _)]; [reflexivity|exact Y|discriminate]).
    injection E as <- <-. cbn [sinv] in *. rewrite concat_snoc, app_nil_r. destruct I as [I1 (pre & d & date & o0 & now & st & v & mid & -> & ->)]. split; auto.
    exists []. split.
    + exists pre, d, date, o0, now, st, v, mid, []. split; [|auto]. rewrite <- app_assoc. reflexivity.
    + split; [constructor|]. split; [reflexivity|]. split; [constructor|]. intros t. cbn. split; [intros []|discriminate].
  - destruct p as [|opts|opts ins outs|opts ins outs]; try (injection E as <- <-; destruct Same as [Y|(e' & X & ? & ? & ? & ?)]; [reflexivity|exact Y|discriminate]).
    destruct I as [I (es & B & T)]. pose proof (building_snoc ops opts es (CTunnel e) B) as B'. cbn [tunnel_events flat_map app] in B'.
    pose proof (tunnels_step es ins outs e T) as T'.
    assert (K : forall i u, tunnels_are (es ++ [e]) i u -> (c, o) = check sid opts i u -> sinv c (ops ++ [CTunnel e]) (os ++ [o])).
    { intros i u Ti Ei. symmetry in Ei. apply check_out in Ei as [(C1 & C2 & -> & ->)|[(C1 & C2 & -> & ->)|(C1 & -> & ->)]].
      - apply Gone; auto.
      - cbn [sinv]. rewrite concat_snoc, steppings_app, I. split; [reflexivity|]. split; [apply in_or_app; right; left; reflexivity|].
        exists (ops ++ [CTunnel e]), [], (es ++ [e]). rewrite app_nil_r. auto.
      - cbn [sinv]. rewrite concat_snoc, app_nil_r, I. split; eauto. }
    unfold on_tunnel in E. destruct e as [t l|t|t|t| |].
    + eapply K; eauto.
    + eapply K; eauto.
    + injection E as <- <-. cbn [sinv]. rewrite concat_snoc, app_nil_r, I. eauto.
    + injection E as <- <-. cbn [sinv]. rewrite concat_snoc, app_nil_r, I. eauto.
    + injection E as <- <-. cbn [sinv]. rewrite concat_snoc, app_nil_r, I. eauto.
    + injection E as <- <-. apply Gone; auto.
  - injection E as <- <-; destruct Same as [Y|(e & X & _)]; [reflexivity|exact Y|discriminate].
  - injection E as <- <-; destruct Same as [Y|(e & X & _)]; [reflexivity|exact Y|discriminate].
  - injection E as <- <-; destruct Same as [Y|(e & X & _)]; [reflexivity|exact Y|discriminate].
  - injection E as <- <-; destruct Same as [Y|(e & X & _)]; [reflexivity|exact Y|discriminate].
  - injection E as <- <-; destruct Same as [Y|(e & X & _)]; [reflexivity|exact Y|discriminate].
  - injection E as <- <-; destruct Same as [Y|(e & X & _)]; [reflexivity|exact Y|discriminate].
Qed.

Lemma steppings_map {A : Type} (f : A -> cout) l : (forall x, steppings [f x] = []) -> steppings (map f l) = [].
Proof. intros H. induction l as [|x l IH]; auto. cbn [map]. change (f x :: map f l) with ([f x] ++ map f l). now rewrite steppings_app, H, IH. Qed.
Lemma steppings_payloads l : forall mid, steppings (snd (payloads sid l mid)) = [].
Proof.
  induction l as [|x l IH]; intros mid; auto. cbn [payloads]. specialize (IH ((mid + 1) mod 2 ^ 32)). destruct (payloads sid l _) as [m o].
  cbn [snd] in *. change (steppings ([Reply (RpMessagePayload sid mid x)] ++ o) = []). now rewrite steppings_app, IH.
Qed.
Lemma steppings_leave a : steppings (leave a) = [].
Proof.
  unfold leave. rewrite !steppings_app, !steppings_map by reflexivity. rewrite !app_nil_r. induction (a_conns a) as [|[k l] m IH]; auto.
  cbn [flat_map]. now rewrite steppings_app, IH, steppings_map.
Qed.
Lemma active_steppings a op c o : step (Active a) op = (c, o) -> exists n, steppings o = repeat SRequested n.
Proof.
  intros H. cbn [cstep] in H; unfold active_step in H. assert (Z : steppings o = [] -> exists n, steppings o = repeat SRequested n) by (intros ->; now exists 0%nat).
  destruct op as [m now room st value| | |e|l|x value|x|l|key v|]; try (injection H as <- <-; apply Z; reflexivity).
  - apply Z. unfold lift in H. destruct (on_active_message sid book did m now st value a) as [a1 o1] eqn:E. injection H as <- <-.
    unfold on_active_message in E. destruct (common m now) eqn:Ec; [injection E as <- <-; eapply common_steppings; eauto|].
    destruct m; try (injection E as <- <-; reflexivity).
    + destruct book; [|destruct kind; injection E as <- <-; reflexivity].
      destruct kind; [injection E as <- <-; reflexivity|]. destruct st; injection E as <- <-; try reflexivity.
      unfold forgot_of. destruct (nget _ _) as [[s r]|]; reflexivity.
    + destruct st.
      * injection E as <- <-; reflexivity.
      * injection E as <- <-. unfold lost_of. destruct (nget _ _); [now apply steppings_map|reflexivity].
      * destruct (nget _ _); injection E as <- <-; reflexivity.
  - injection H as <- <-. apply Z, steppings_leave.
  - apply Z. destruct (payloads sid l (a_mid a)) as [mid o1] eqn:E. injection H as _ <-. replace o1 with (snd (payloads sid l (a_mid a))) by now rewrite E. apply steppings_payloads.
  - apply Z. unfold lift in H. destruct (on_found x value a) as [a1 o1] eqn:E. injection H as <- <-. unfold on_found in E.
    destruct (nget x (a_conns a)) as [l|]; [injection E as <- <-; now apply steppings_map|].
    destruct (nget x (a_looks a)) as [[s r]|]; injection E as <- <-; reflexivity.
  - apply Z. unfold lift in H. destruct (on_not_found x a) as [a1 o1] eqn:E. injection H as <- <-. unfold on_not_found in E.
    destruct (nget x (a_conns a)) as [l|]; [injection E as <- <-; now apply steppings_map|].
    destruct (nget x (a_looks a)) as [[s r]|]; injection E as <- <-; reflexivity.
  - destruct l; injection H as <- <-; [apply Z; change (steppings ([Panic] ++ leave a) = []); rewrite steppings_app, steppings_leave; reflexivity|now exists 1%nat].
  - apply Z. unfold lift in H. destruct (on_answer key v a) as [a1 o1] eqn:E. injection H as <- <-. unfold on_answer in E.
    destruct (nget key (a_futs a)) as [[s r]|]; injection E as <- <-; reflexivity.
  - injection H as <- <-. apply Z, steppings_leave.
Qed.

Lemma setup_inv ops : forall c os, run (Setup Inactive) ops = (c, os) -> sinv c ops os.
Proof.
  induction ops as [|op ops IH] using rev_ind; intros c os H.
  - cbn in H. injection H as <- <-. reflexivity.
  - rewrite crun_app in H. destruct (run (Setup Inactive) ops) as [c1 os1] eqn:E. cbn [fst snd crun] in H.
    destruct (step c1 op) as [c2 o] eqn:E1. injection H as <- <-. specialize (IH _ _ eq_refl). destruct c1 as [p|a|].
    + eapply setup_sinv; eauto.
    + destruct IH as [n IH]. destruct (active_steppings _ _ _ _ E1) as [k Hk].
      assert (X : steppings (concat (os1 ++ [o])) = three ++ repeat SRequested (n + k)) by (rewrite concat_snoc, steppings_app, IH, Hk, repeat_app, app_assoc; reflexivity).
      destruct (active_stays _ _ _ _ _ _ _ _ E1) as [(a' & -> & _)|[-> _]]; cbn [sinv]; [exists (n + k)%nat; exact X|].
      exists 3%nat, (n + k)%nat. split; [exact X|lia].
    + cbn [cstep] in E1. injection E1 as <- <-. cbn [sinv] in *. now rewrite concat_snoc, app_nil_r.
Qed.
End S.
