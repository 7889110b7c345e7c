(** Proofs about client destinations: lookups that end, cloves, whole histories. *)
From Coq Require Import List NArith Bool Lia.
From Verif Require Import ListUtil Bytes NMap RouteProofs PrimModel RpathModel RpathProofs DestModel DestSpec DestProofs.
Import ListNotations.
Open Scope N_scope.

Definition after_flush (now x : N) (msgs : list bytes) (r : N) (s : remote) : remote :=
  if (x =? r) && stale now s then mkR (in_use s) (put_off s ++ msgs) (looking s) (taken s) else s.

Lemma flush_rel now x msgs : forall rs d d' o r s, rel r d s -> flush now x msgs rs d = Some (d', o) ->
  let s1 := after_flush now x msgs r s in
  rel r d' (mkR (in_use s1) (put_off s1) (looking s1 || looks_up r o) (taken s1)) /\ adds r d d' o.
Proof.
  induction msgs as [|m msgs IH]; intros rs d d' o r s H; cbn [flush].
  - intros E; injection E as <- <-. cbn zeta. split; [|now apply adds_refl].
    unfold after_flush. rewrite app_nil_r, orb_false_r. destruct s; destruct ((x =? r) && _); exact H.
  - destruct (send_inner now x Unspecified m (hd 0 rs) d) as [[d1 o1]|] eqn:E1; [|discriminate].
    destruct (flush now x msgs (tl rs) d1) as [[d2 o2]|] eqn:E2; [|discriminate].
    intros E; injection E as <- <-. apply (send_inner_rel _ _ _ _ _ _ _ _ _ _ H) in E1 as [R1 A1].
    apply (IH _ _ _ _ _ _ R1) in E2 as [R2 A2]. cbn zeta in *. split; [|eapply adds_trans; eauto].
    revert R2. rewrite looks_up_app. unfold after_flush, after_send.
    destruct (x =? r) eqn:Ex; cbn [andb]; [|cbn [in_use put_off looking taken]; now rewrite orb_assoc].
    destruct (stale now s) eqn:Es.
    + unfold stale in *; cbn [in_use] in *. rewrite Es. cbn [in_use put_off looking taken].
      rewrite <- app_assoc, orb_assoc. auto.
    + unfold stale in *; cbn [in_use] in *. rewrite Es. cbn [in_use put_off looking taken]. now rewrite orb_assoc.
Qed.

Lemma flush_fresh now x c : forall msgs rs d d' o, nget x (d_remote d) = Some c -> ls_expired now (c_ls c) = false ->
  flush now x msgs rs d = Some (d', o) -> d' = d /\ Forall2 (to_lease (ls_leases (c_ls c)) None) msgs o.
Proof.
  induction msgs as [|m msgs IH]; intros rs d d' o Hc He; cbn [flush].
  - intros E; injection E as <- <-. auto.
  - unfold send_inner at 1. rewrite Hc, He. destruct (choose (hd 0 rs) (ls_leases (c_ls c))) as [l|] eqn:Ec; [|discriminate].
    destruct (flush now x msgs (tl rs) d) as [[d2 o2]|] eqn:E2; [|discriminate].
    intros E; injection E as <- <-. apply (IH _ _ _ _ Hc He) in E2 as [-> F]. split; [auto|].
    cbn. constructor; [|exact F]. apply choose_in in Ec. exists l; auto.
Qed.
Lemma flush_stale_looking now x : forall msgs rs d d' o c, nget x (d_remote d) = Some c -> ls_expired now (c_ls c) = true ->
  smem x (d_inflight d) = true -> flush now x msgs rs d = Some (d', o) -> o = [].
Proof.
  induction msgs as [|m msgs IH]; intros rs d d' o c Hc He Hf; cbn [flush].
  - intros E; injection E as <- <-. reflexivity.
  - unfold send_inner at 1. rewrite Hc, He. unfold query_lease_set at 1. cbn [d_inflight w_remote]. rewrite Hf.
    match goal with |- match flush _ _ _ _ ?dd with _ => _ end = _ -> _ => destruct (flush now x msgs (tl rs) dd) as [[d2 o2]|] eqn:E2 end; [|discriminate].
    intros E; injection E as <- <-. cbn.
    eapply (IH _ _ _ _ (mkCtx (c_ls c) (c_pending c ++ [m]) (c_expiring c))); [| | |exact E2].
    + cbn. now rewrite nget_nput, N.eqb_refl.
    + exact He.
    + exact Hf.
Qed.
Lemma flush_stale now x msgs rs d d' o c : nget x (d_remote d) = Some c -> ls_expired now (c_ls c) = true ->
  smem x (d_inflight d) = false -> flush now x msgs rs d = Some (d', o) ->
  o = if N.of_nat (length msgs) =? 0 then [] else [Lookup x].
Proof.
  intros Hc He Hf. destruct msgs as [|m msgs]; cbn [flush].
  - intros E; injection E as <- <-. reflexivity.
  - unfold send_inner at 1. rewrite Hc, He. unfold query_lease_set at 1. cbn [d_inflight w_remote d_remote]. rewrite Hf.
    rewrite nget_nput, N.eqb_refl. cbn [c_ls]. rewrite He. cbn [negb].
    match goal with |- match flush _ _ _ _ ?dd with _ => _ end = _ -> _ => destruct (flush now x msgs (tl rs) dd) as [[d2 o2]|] eqn:E2 end; [|discriminate].
    intros E; injection E as <- <-.
    eapply (flush_stale_looking _ _ _ _ _ _ _ (mkCtx (c_ls c) (c_pending c ++ [m]) (c_expiring c))) in E2.
    + rewrite E2. destruct (N.eqb_spec (N.of_nat (length (m :: msgs))) 0); [cbn in *; lia|reflexivity].
    + cbn. now rewrite nget_nput, N.eqb_refl.
    + exact He.
    + cbn. rewrite smem_sadd, N.eqb_refl. reflexivity.
Qed.

(** ** Lookups that end *)
Lemma no_event_lookup r x : looks_up r [LeaseSetFound x] = false /\ looks_up r [LeaseSetNotFound x] = false.
Proof. split; reflexivity. Qed.

Section WithDid.
Variable did : destination -> N.

Lemma kept_more s ls m : kept_ok s m -> kept_ok (mkR (Some ls) (put_off s) (looking s) (taken s ++ [ls])) m.
Proof.
  intros H t l Hin. destruct (H t l Hin) as (E & old & H1 & H2). split; [exact E|]. exists old; cbn. split; [apply in_or_app; auto|auto].
Qed.

Lemma on_result_rel now x res rs d d' o r s : rel r d s -> on_result now x res rs d = Some (d', o) ->
  rel r d' (learn did r s (Result now x res rs) o).
Proof.
  intros H. unfold on_result. destruct (smem x (d_inflight d)) eqn:Ef; cbn [negb].
  2:{ intros E; injection E as <- <-.
      assert (E0 : learn did r s (Result now x res rs) [] = s).
      { unfold learn. assert (Ez : (x =? r) && looking s = false).
        { destruct (N.eqb_spec x r) as [->|]; [|reflexivity]. destruct H as [_ H]. cbn; congruence. }
        destruct res; rewrite Ez; cbn; rewrite orb_false_r; destruct s; reflexivity. }
      rewrite E0. exact H. }
  set (d1 := register_leases now x _ d).
  destruct (register_same now x (option_map ls_leases res) d) as [S1 S2]. fold d1 in S1, S2.
  set (d2 := w_inflight d1 (sdel x (d_inflight d1))).
  assert (R2 : d_remote d2 = d_remote d) by exact S1.
  assert (I2 : forall k, smem k (d_inflight d2) = negb (k =? x) && smem k (d_inflight d)).
  { intros k. unfold d2; cbn. rewrite smem_sdel, S2. reflexivity. }
  destruct H as [H1 H2].
  destruct res as [ls|].
  2:{ intros E; injection E as <- <-. split.
      - rewrite R2. unfold learn. destruct ((x =? r) && looking s); cbn; exact H1.
      - rewrite I2. unfold learn. rewrite (N.eqb_sym r x), H2.
        destruct (x =? r); cbn; destruct (looking s) eqn:El; cbn; rewrite ?El; reflexivity. }
  destruct (ls_keys ls) as [|k0 ks]; [discriminate|].
  destruct (nget x (d_remote d2)) as [c|] eqn:Ec.
  - set (d3 := w_remote d2 _). destruct (flush now x (c_pending c) rs d3) as [[d4 o4]|] eqn:Ef4; [|discriminate].
    intros E; injection E as <- <-.
    set (s3 := if x =? r then mkR (Some ls) [] false (taken s ++ [ls]) else s).
    assert (R3 : rel r d3 s3).
    { unfold rel, d3, s3; cbn [d_remote w_remote d_inflight]. rewrite nget_nput, I2, (N.eqb_sym r x).
      rewrite R2 in *. destruct (N.eqb_spec x r) as [->|Hne]; cbn [negb andb].
      - rewrite Ec in H1. destruct H1 as (A1 & A2 & A3 & A4). cbn. split; [|reflexivity].
        split; [reflexivity|]. split; [reflexivity|]. split; [|apply in_or_app; cbn; auto].
        intros t l Hin. destruct (A3 t l Hin) as (E0 & old & E1 & E2). split; [exact E0|]. exists old; cbn. split; [apply in_or_app; auto|auto].
      - split; [exact H1|exact H2]. }
    destruct (flush_rel _ _ _ _ _ _ _ _ _ R3 Ef4) as [R4 A4]. cbn zeta in R4.
    assert (El : learn did r s (Result now x (Some ls) rs) (o4 ++ [LeaseSetFound x]) =
      (let s1 := after_flush now x (c_pending c) r s3 in
       mkR (in_use s1) (put_off s1) (looking s1 || looks_up r o4) (taken s1))).
    { clear R4 A4 R3 Ef4. unfold learn, after_flush. subst s3. fold (looks_up r (o4 ++ [LeaseSetFound x])). rewrite looks_up_app. cbn [looks_up existsb is_lookup].
      rewrite !orb_false_r. rewrite R2 in *. destruct (N.eqb_spec x r) as [->|Hne]; cbn [andb].
      - rewrite <- H2, Ef. rewrite Ec in H1. destruct H1 as (A1 & A2 & A3 & A5). cbn [stale in_use].
        unfold stale; cbn [in_use]. destruct (ls_expired now ls); cbn; rewrite ?A2; reflexivity.
      - reflexivity. }
    rewrite El. exact R4.
  - intros E; injection E as <- <-. split.
    + cbn [d_remote w_remote]. rewrite nget_nput, (N.eqb_sym r x). rewrite R2 in *. unfold learn.
      destruct (N.eqb_spec x r) as [->|Hne]; cbn [andb].
      * rewrite <- H2, Ef. rewrite Ec in H1. destruct H1 as [A1 A2]. rewrite A2. cbn.
        split; [reflexivity|]. split; [destruct (ls_expired now ls); reflexivity|].
        split; [intros t l []|apply in_or_app; cbn; auto].
      * cbn. exact H1.
    + cbn [d_inflight w_remote]. rewrite I2, (N.eqb_sym r x). unfold learn.
      destruct (N.eqb_spec x r) as [->|Hne]; cbn [andb negb].
      * rewrite <- H2, Ef. reflexivity.
      * cbn. rewrite orb_false_r. exact H2.
Qed.

Lemma on_result_out now x res rs d d' o s : rel x d s -> on_result now x res rs d = Some (d', o) ->
  result_spec now x res s o.
Proof.
  intros [H1 H2]. unfold on_result, result_spec. rewrite H2. destruct (looking s); cbn [negb].
  2:{ intros E; injection E as <- <-. reflexivity. }
  set (d1 := register_leases now x _ d).
  destruct (register_same now x (option_map ls_leases res) d) as [S1 S2]. fold d1 in S1, S2.
  destruct res as [ls|]; [|intros E; injection E as <- <-; reflexivity].
  destruct (ls_keys ls) as [|k0 ks]; [discriminate|].
  cbn [w_inflight d_remote]. rewrite S1.
  destruct (nget x (d_remote d)) as [c|] eqn:Ec.
  - destruct H1 as (A1 & A2 & A3 & A4). rewrite <- A2.
    match goal with |- match flush _ _ _ _ ?dd with _ => _ end = _ -> _ => set (d3 := dd) end.
    assert (E3 : nget x (d_remote d3) = Some (mkCtx ls [] (c_expiring c))).
    { unfold d3; cbn. now rewrite nget_nput, N.eqb_refl. }
    destruct (flush now x (c_pending c) rs d3) as [[d4 o4]|] eqn:Ef; [|discriminate].
    intros E; injection E as <- <-. destruct (ls_expired now ls) eqn:Ee.
    + assert (Hs : smem x (d_inflight d3) = false) by (unfold d3; cbn; rewrite smem_sdel, N.eqb_refl; reflexivity).
      rewrite (flush_stale _ _ _ _ _ _ _ _ E3 Ee Hs Ef). reflexivity.
    + apply (flush_fresh _ _ _ _ _ _ _ _ E3 Ee) in Ef as [_ F]. exists o4; auto.
  - destruct H1 as [A1 A2]. rewrite A2. intros E; injection E as <- <-. cbn.
    destruct (ls_expired now ls); [reflexivity|]. exists []; auto.
Qed.

(** ** Cloves, pruning *)
Lemma keep_leases_in ls : forall m t l, In (t, l) (keep_leases ls m) -> In (t, l) m \/ (In l ls /\ l_tunnel l = t).
Proof.
  induction ls as [|a ls IH]; cbn; intros m t l H; [auto|].
  apply IH in H as [H|[H1 H2]]; [|auto]. apply in_nput in H as [H|H]; [|auto].
  injection H as -> ->. auto.
Qed.
Lemma on_clove_rel now ls d r s : rel r d s -> rel r (on_clove did now ls d) (learn did r s (Clove now ls) []).
Proof.
  intros [H1 H2]. unfold on_clove, learn, ls_id. destruct (ls_leases ls) as [|l0 rest] eqn:El.
  { rewrite andb_false_r. cbn. rewrite orb_false_r. split; [exact H1|exact H2]. }
  assert (Hl : (N.of_nat (length (l0 :: rest)) =? 0) = false) by (apply N.eqb_neq; cbn; lia).
  rewrite Hl, andb_true_r. clear Hl.
  set (x := did (h_dest (ls_header' ls))).
  destruct (register_same now x (Some (l0 :: rest)) d) as [S1 S2].
  set (d1 := register_leases now x (Some (l0 :: rest)) d) in *.
  cbn [existsb]. rewrite orb_false_r. rewrite S1.
  destruct (nget x (d_remote d)) as [c|] eqn:Ec; split; cbn [d_remote w_remote d_inflight];
    rewrite ?nget_nput, ?(N.eqb_sym r x), ?S2;
    destruct (N.eqb_spec x r) as [->|Hne]; cbn; try exact H1; try exact H2.
  - rewrite Ec in H1. destruct H1 as (A1 & A2 & A3 & A4). split; [reflexivity|]. split; [exact A2|].
    split; [|apply in_or_app; cbn; auto].
    intros t l Hin. apply keep_leases_in in Hin as [Hin|[Hin Ht]].
    + destruct (A3 t l Hin) as (E0 & old & E1 & E2). split; [exact E0|]. exists old; cbn. split; [apply in_or_app; auto|auto].
    + split; [exact Ht|]. exists (c_ls c); cbn. split; [apply in_or_app; auto|exact Hin].
  - rewrite Ec in H1. destruct H1 as [A1 A2]. rewrite A2. split; [reflexivity|]. split; [reflexivity|].
    split; [intros t l []|apply in_or_app; cbn; auto].
Qed.
Lemma prune_rel now d r s : rel r d s -> rel r (prune now d) s.
Proof.
  intros [H1 H2]. split; [|exact H2]. unfold prune; cbn [d_remote w_remote].
  rewrite (nget_mapv (fun c => mkCtx (c_ls c) (c_pending c) (filter (fun y => now <? l_expires_ms (snd y)) (c_expiring c)))).
  destruct (nget r (d_remote d)) as [c|]; cbn; [|exact H1].
  destruct H1 as (A1 & A2 & A3 & A4). split; [exact A1|]. split; [exact A2|]. split; [|exact A4].
  intros t l Hin. apply filter_In in Hin as [Hin _]. auto.
Qed.

Lemma use_handle_same h op d d' o : use_handle h op d = (d', o) ->
  d_remote d' = d_remote d /\ d_inflight d' = d_inflight d /\ forall r, looks_up r o = false.
Proof.
  unfold use_handle. destruct (nget h (d_handles d)) as [[x hd]|]; [|intros E; apply pair_equal_spec in E as [<- <-]; auto].
  destruct (owner_op op); [|intros E; apply pair_equal_spec in E as [<- <-]; auto].
  destruct (hstep (Some hd) _) as [hd' o'].
  intros E; apply pair_equal_spec in E as [<- <-].
  destruct hd'; destruct o' as [|p []| |]; cbn; auto.
Qed.

Lemma learn_plain r s op o : match op with SendMessage _ _ _ _ _ | Clove _ _ | Result _ _ _ _ => False | _ => True end ->
  learn did r s op o = mkR (in_use s) (put_off s) (looking s || looks_up r o) (taken s).
Proof. destruct op; try contradiction; reflexivity. Qed.
Lemma learn_quiet r s op o : match op with SendMessage _ _ _ _ _ | Clove _ _ | Result _ _ _ _ => False | _ => True end ->
  looks_up r o = false -> learn did r s op o = s.
Proof. intros H Ho. rewrite learn_plain by exact H. rewrite Ho, orb_false_r. destruct s; reflexivity. Qed.

Lemma step_rel d op d' o r s : rel r d s -> dstep did d op = Some (d', o) -> rel r d' (learn did r s op o).
Proof.
  intros H. destruct op; cbn [dstep].
  - destruct (query_lease_set now remote d) as [[d1 st] o1] eqn:E. intros E'; injection E' as <- <-.
    apply query_facts in E as (E1 & E2 & _). rewrite learn_plain by exact I. rewrite looks_up_app. cbn [looks_up existsb is_lookup].
    rewrite !orb_false_r. destruct H as [H1 H2]. split; [rewrite E1; exact H1|]. rewrite E2, H2. reflexivity.
  - intros E. apply (send_inner_rel _ _ _ _ _ _ _ _ _ _ H) in E as [E _]. exact E.
  - intros E; injection E as <- <-. now apply on_clove_rel.
  - intros E. now apply on_result_rel with (1 := H) in E.
  - intros E; injection E as <- <-. rewrite learn_quiet by (exact I || reflexivity). exact H.
  - intros E; injection E as <- <-. rewrite learn_quiet by (exact I || reflexivity). exact H.
  - intros E; injection E as <- <-. rewrite learn_quiet by (exact I || reflexivity). exact H.
  - intros E. injection E as E. apply on_commands_facts with (r := r) in E as (E1 & E2 & _).
    rewrite learn_plain by exact I. destruct H as [H1 H2]. split; [rewrite E1; exact H1|].
    destruct E2 as [E2 _]. rewrite E2. cbn [w_cmds d_inflight]. rewrite H2. reflexivity.
  - intros E; injection E as <- <-. rewrite learn_quiet by (exact I || reflexivity). exact H.
  - intros E. injection E as E. apply use_handle_same in E as (E1 & E2 & E3).
    rewrite learn_quiet by (exact I || apply E3). eapply rel_same; eauto.
  - intros E; injection E as <- <-. rewrite learn_quiet by (exact I || reflexivity). exact H.
  - intros E; injection E as <- <-. rewrite learn_quiet by (exact I || reflexivity). now apply prune_rel.
Qed.
Lemma run_rel ops : forall d d' outs r s, rel r d s -> drun did d ops = Some (d', outs) -> rel r d' (history did r s ops outs).
Proof.
  induction ops as [|op ops IH]; intros d d' outs r s H; cbn [drun].
  - intros E; injection E as <- <-. exact H.
  - destruct (dstep did d op) as [[d1 o]|] eqn:E1; [|discriminate].
    destruct (drun did d1 ops) as [[d2 os]|] eqn:E2; [|discriminate].
    intros E; injection E as <- <-. cbn [history]. eapply IH; [|exact E2]. eapply step_rel; eauto.
Qed.

(** ** The statements over histories *)
Lemma query_out now r d d' o s : rel r d s -> dstep did d (Query now r) = Some (d', o) -> query_spec now r s o.
Proof.
  intros [H1 H2]. cbn [dstep]. unfold query_lease_set, query_spec. rewrite H2.
  destruct (looking s); [intros E; injection E as <- <-; reflexivity|].
  destruct (nget r (d_remote d)) as [c|].
  - destruct H1 as (-> & _). destruct (ls_expired now (c_ls c)); cbn [negb]; intros E; injection E as <- <-; reflexivity.
  - destruct H1 as [-> _]. intros E; injection E as <- <-; reflexivity.
Qed.

(** Lookups of [r] that [op] starts. *)
Lemma one_lookup d op d' o r s : rel r d s -> dstep did d op = Some (d', o) ->
  (lookups_in r o <= 1)%nat /\
  (looking s = true -> (forall now res rs, op <> Result now r res rs) -> lookups_in r o = O).
Proof.
  intros H E.
  assert (A : (exists d1, adds r d1 d' o /\ smem r (d_inflight d1) = looking s) \/ lookups_in r o = O \/
              (exists now res rs, op = Result now r res rs /\ (lookups_in r o <= 1)%nat)).
  { destruct op; cbn [dstep] in E.
    - destruct (query_lease_set now remote d) as [[d1 st] o1] eqn:Eq. injection E as <- <-.
      left. exists d. split; [|apply H]. eapply adds_trans; [eapply query_adds; eauto|]. now apply adds_refl.
    - left. exists d. split; [|apply H]. apply (send_inner_rel _ _ _ _ _ _ _ _ _ _ H) in E as [_ E]. exact E.
    - injection E as <- <-. auto.
    - unfold on_result in E. destruct (negb (smem remote (d_inflight d))); [injection E as <- <-; auto|].
      set (d1 := register_leases now remote (option_map ls_leases res) d) in E.
      destruct (register_same now remote (option_map ls_leases res) d) as [S1 S2]. fold d1 in S1, S2.
      destruct res as [ls|]; [|injection E as <- <-; auto].
      destruct (ls_keys ls) as [|k0 ks]; [discriminate|].
      match type of E with match ?n with _ => _ end = _ => destruct n as [c|] eqn:Ec end; [|injection E as <- <-; auto].
      match type of E with match flush _ _ _ _ ?dd with _ => _ end = _ => set (d3 := dd) in E end.
      destruct (flush now remote (c_pending c) rs d3) as [[d4 o4]|] eqn:Ef; [|discriminate]. injection E as <- <-.
      assert (R3 : exists s3, rel r d3 s3 /\ (remote <> r -> looking s3 = looking s)).
      { exists (mkR (match nget r (d_remote d3) with Some c' => Some (c_ls c') | None => None end)
                  (match nget r (d_remote d3) with Some c' => c_pending c' | None => [] end)
                  (smem r (d_inflight d3))
                  (match nget r (d_remote d3) with Some c' => c_ls c' :: (ls :: taken s) | None => [] end)).
        split.
        - split; [|reflexivity]. destruct (nget r (d_remote d3)) as [c'|] eqn:E3; [|auto]. cbn.
          split; [auto|]. split; [auto|]. split; [|auto]. intros t l Hin.
          unfold d3 in E3; cbn [w_remote w_inflight d_remote] in E3. rewrite nget_nput in E3. destruct H as [H1 _].
          destruct (N.eqb_spec r remote) as [->|].
          + injection E3 as <-. cbn in Hin. cbn [w_inflight d_remote] in Ec. rewrite S1 in Ec. rewrite Ec in H1.
            destruct H1 as (_ & _ & A3 & _). destruct (A3 t l Hin) as (X & old & Y & Z). split; [exact X|]. exists old; cbn; auto.
          + rewrite S1 in E3. rewrite E3 in H1. destruct H1 as (_ & _ & A3 & _). destruct (A3 t l Hin) as (X & old & Y & Z). split; [exact X|]. exists old; cbn; auto.
        - intros Hne. cbn [looking]. unfold d3. cbn [w_remote w_inflight d_inflight]. rewrite smem_sdel, S2. destruct (N.eqb_spec r remote); [congruence|]. cbn. apply H. }
      destruct R3 as (s3 & R3 & L3).
      apply (flush_rel _ _ _ _ _ _ _ _ _ R3) in Ef as [_ A4].
      assert (A5 : adds r d3 d4 (o4 ++ [LeaseSetFound remote])) by (eapply adds_trans; [exact A4|now apply adds_refl]).
      destruct (N.eq_dec remote r) as [->|Hne].
      + right; right. exists now, (Some ls), rs. split; [auto|]. apply A5.
      + left. exists d3. split; [exact A5|]. rewrite <- (L3 Hne). apply R3.
    - injection E as <- <-; auto.
    - injection E as <- <-; auto.
    - injection E as <- <-; auto.
    - injection E as E. left. apply on_commands_facts with (r := r) in E as (_ & E2 & _).
      exists (w_cmds d []). split; [exact E2|]. apply H.
    - injection E as <- <-; auto.
    - injection E as E. right; left. apply use_handle_same in E as (_ & _ & E3). specialize (E3 r).
      unfold looks_up, lookups_in in *. clear -E3. induction o as [|a o IH]; cbn in *; [auto|]. apply orb_false_iff in E3 as [-> E3]. auto.
    - injection E as <- <-; auto.
    - injection E as <- <-; auto. }
  destruct A as [(d1 & (A1 & A2 & A3) & A4)|[A|(now & res & rs & -> & A)]].
  - split; [exact A3|]. intros Hl _. apply A2. congruence.
  - rewrite A. split; [lia|auto].
  - split; [exact A|]. intros _ Hne. exfalso. eapply Hne; reflexivity.
Qed.

(** Sends come only from sending a message and from a lookup that ends. *)
Lemma only_sends d op d' o : dstep did d op = Some (d', o) ->
  match op with SendMessage _ _ _ _ _ | Result _ _ _ _ => True | _ => forallb (fun x => negb (is_send x)) o = true end.
Proof.
  destruct op; cbn [dstep]; auto.
  - destruct (query_lease_set now remote d) as [[d1 st] o1] eqn:E. intros E'; injection E' as <- <-.
    apply query_facts in E as (_ & _ & [-> |[-> _]]); reflexivity.
  - intros E; injection E as <- <-; reflexivity.
  - intros E; injection E as <- <-; reflexivity.
  - intros E; injection E as <- <-; reflexivity.
  - intros E; injection E as <- <-; reflexivity.
  - intros E; injection E as E. apply on_commands_facts with (r := 0) in E as (_ & _ & E). exact E.
  - intros E; injection E as <- <-; reflexivity.
  - intros E; injection E as E. unfold use_handle in E.
    destruct (nget h (d_handles d)) as [[x hd]|]; [|apply pair_equal_spec in E as [<- <-]; auto].
    destruct (owner_op op); [|apply pair_equal_spec in E as [<- <-]; auto].
    destruct (hstep (Some hd) _) as [hd' o']. apply pair_equal_spec in E as [_ <-]. reflexivity.
  - intros E; injection E as <- <-; reflexivity.
  - intros E; injection E as <- <-; reflexivity.
Qed.

(** No panic as long as lease sets carry a key. *)
Lemma send_total now x st msg k d : send_inner now x st msg k d <> None.
Proof.
  unfold send_inner. destruct (nget x (d_remote d)) as [c|]; [|discriminate].
  destruct (ls_expired now (c_ls c)) eqn:E.
  - destruct (query_lease_set now x _) as [[? ?] ?]; discriminate.
  - destruct st.
    + destruct (find_lease _ _); [discriminate|]. destruct (nget _ (c_expiring c)); discriminate.
    + destruct (choose_some _ k _ (expired_nonempty _ _ E)) as [l ->]. discriminate.
Qed.
Lemma flush_total now x msgs : forall rs d, flush now x msgs rs d <> None.
Proof.
  induction msgs as [|m msgs IH]; intros rs d; cbn [flush]; [discriminate|].
  destruct (send_inner now x Unspecified m (hd 0 rs) d) as [[d1 o1]|] eqn:E; [|now apply send_total in E].
  specialize (IH (tl rs) d1). destruct (flush now x msgs (tl rs) d1) as [[d2 o2]|]; [discriminate|congruence].
Qed.
Lemma step_total d op : (forall now r ls rs, op = Result now r (Some ls) rs -> ls_keys ls <> []) -> dstep did d op <> None.
Proof.
  intros H. destruct op; cbn [dstep]; try discriminate.
  - destruct (query_lease_set now remote d) as [[? ?] ?]; discriminate.
  - apply send_total.
  - unfold on_result. destruct (negb _); [discriminate|]. destruct res as [ls|]; [|discriminate].
    destruct (ls_keys ls) eqn:E; [exfalso; eapply H; eauto|].
    match goal with |- match ?n with _ => _ end <> _ => destruct n as [c|] end; [|discriminate].
    match goal with |- match flush ?a ?b ?c ?dd ?e with _ => _ end <> _ => pose proof (flush_total a b c dd e) as F; destruct (flush a b c dd e) as [[? ?]|] end; [discriminate|congruence].
Qed.
End WithDid.
