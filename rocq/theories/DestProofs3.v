(** Proofs about client destinations: routes that stay usable, lookups that never start. *)
From Coq Require Import List NArith Bool Lia.
From Verif Require Import ListUtil Bytes NMap RouteProofs PrimModel RpathModel RpathProofs DestModel DestSpec DestProofs DestProofs2.
Import ListNotations.
Open Scope N_scope.

(** ** Routes *)
Definition route_ok (i e : N) (c : ctx) : Prop :=
  (forall l, In l (ls_leases (c_ls c)) -> l_tunnel l = i -> e <= l_expires_ms l) /\
  ((exists l, In l (ls_leases (c_ls c)) /\ l_tunnel l = i) \/
   (exists l, nget i (c_expiring c) = Some l /\ e <= l_expires_ms l)).
Definition routed (r i e : N) (d : dest) : Prop := exists c, nget r (d_remote d) = Some c /\ route_ok i e c.

(** The remote's entry is the same up to the messages put off. *)
Definition alike (r : N) (d d' : dest) : Prop :=
  forall c, nget r (d_remote d) = Some c ->
    exists c', nget r (d_remote d') = Some c' /\ c_ls c' = c_ls c /\ c_expiring c' = c_expiring c.
Lemma alike_refl r d d' : d_remote d' = d_remote d -> alike r d d'.
Proof. intros E c H. exists c. rewrite E. auto. Qed.
Lemma alike_trans r a b c : alike r a b -> alike r b c -> alike r a c.
Proof.
  intros H1 H2 x Hx. destruct (H1 x Hx) as (y & Hy & A & B). destruct (H2 y Hy) as (z & Hz & C & D).
  exists z. split; [exact Hz|]. split; congruence.
Qed.
Lemma alike_routed r i e d d' : alike r d d' -> routed r i e d -> routed r i e d'.
Proof.
  intros H (c & Hc & Hr). destruct (H c Hc) as (c' & Hc' & A & B). exists c'. split; [exact Hc'|].
  unfold route_ok in *. rewrite A, B. exact Hr.
Qed.
Lemma send_alike now x st msg k d d' o r : send_inner now x st msg k d = Some (d', o) -> alike r d d'.
Proof.
  unfold send_inner. destruct (nget x (d_remote d)) as [c|] eqn:Ec; [|intros E; injection E as <- <-; now apply alike_refl].
  destruct (ls_expired now (c_ls c)).
  - set (d1 := w_remote d _). destruct (query_lease_set now x d1) as [[d2 s] o2] eqn:Eq.
    intros E; injection E as <- <-. apply query_facts in Eq as (E1 & _).
    intros c0 H0. rewrite E1. unfold d1; cbn [w_remote d_remote]. rewrite nget_nput.
    destruct (N.eqb_spec r x) as [->|]; [|exists c0; auto].
    eexists. split; [reflexivity|]. cbn. rewrite Ec in H0. injection H0 as <-. auto.
  - destruct st; [destruct (find_lease _ _); [|destruct (nget _ (c_expiring c))]|destruct (choose _ _); [|discriminate]];
      intros E; injection E as <- <-; now apply alike_refl.
Qed.
Lemma flush_alike now x r : forall msgs rs d d' o, flush now x msgs rs d = Some (d', o) -> alike r d d'.
Proof.
  induction msgs as [|m msgs IH]; intros rs d d' o; cbn [flush]; [intros E; injection E as <- <-; now apply alike_refl|].
  destruct (send_inner now x Unspecified m (hd 0 rs) d) as [[d1 o1]|] eqn:E1; [|discriminate].
  destruct (flush now x msgs (tl rs) d1) as [[d2 o2]|] eqn:E2; [|discriminate].
  intros E; injection E as <- <-. eapply alike_trans; [eapply send_alike; eauto|eapply IH; eauto].
Qed.

Lemma keep_leases_get i ls : forall m,
  (exists l, In l ls /\ l_tunnel l = i /\ nget i (keep_leases ls m) = Some l) \/
  ((forall l, In l ls -> l_tunnel l <> i) /\ nget i (keep_leases ls m) = nget i m).
Proof.
  unfold keep_leases. induction ls as [|a ls IH]; intros m; cbn [fold_left]; [right; split; [intros l []|reflexivity]|].
  destruct (IH (nput (l_tunnel a) a m)) as [(l & H1 & H2 & H3)|[H1 H2]].
  - left. exists l. split; [now right|auto].
  - destruct (N.eq_dec (l_tunnel a) i) as [<-|Hne].
    + left. exists a. split; [now left|]. split; [reflexivity|]. rewrite H2, nget_nput, N.eqb_refl. reflexivity.
    + right. split; [intros l [<-|Hl]; auto|]. rewrite H2, nget_nput. destruct (N.eqb_spec i (l_tunnel a)); congruence.
Qed.

Section WithDid.
Variable did : destination -> N.

(** Every tunnel id of the map is its lease's. *)
Lemma step_routed d op d' o r i e s : rel r d s -> dstep did d op = Some (d', o) -> calm did r i e op ->
  routed r i e d -> routed r i e d'.
Proof.
  intros Hrel E Hc Hr. destruct op; cbn [dstep] in E; cbn [calm] in Hc.
  - destruct (query_lease_set now remote d) as [[d1 st] o1] eqn:Eq. injection E as <- <-.
    apply query_facts in Eq as (E1 & _). eapply alike_routed; [|exact Hr]. now apply alike_refl.
  - eapply alike_routed; [eapply send_alike; eauto|exact Hr].
  - injection E as <- <-. unfold on_clove, ls_id. destruct (ls_leases ls) as [|l0 rest] eqn:El; [exact Hr|].
    set (x := did (h_dest (ls_header' ls))) in *.
    destruct (register_same now x (Some (l0 :: rest)) d) as [S1 S2].
    set (d1 := register_leases now x (Some (l0 :: rest)) d) in *. rewrite S1.
    destruct Hr as (c & Hc1 & H1 & H2). destruct (N.eq_dec x r) as [Ex|Hne].
    + rewrite Ex, Hc1. eexists. cbn [d_remote w_remote]. rewrite nget_nput, N.eqb_refl. split; [reflexivity|].
      split; cbn [c_ls c_expiring].
      * intros l Hl Ht. apply (Hc Ex); [|exact Ht]. now rewrite <- El.
      * right. destruct (keep_leases_get i (ls_leases (c_ls c)) (c_expiring c)) as [(l & A & B & C)|[A B]].
        -- exists l. split; [exact C|]. now apply H1.
        -- destruct H2 as [(l & A1 & A2)|H2]; [exfalso; eapply A; eauto|]. rewrite B. exact H2.
    + exists c. destruct (nget x (d_remote d)); cbn [d_remote w_remote]; rewrite nget_nput;
        destruct (N.eqb_spec r x); try congruence; split; [exact Hc1| |exact Hc1|]; split; auto.
  - unfold on_result in E. destruct (negb (smem remote (d_inflight d))); [injection E as <- <-; exact Hr|].
    set (d1 := register_leases now remote (option_map ls_leases res) d) in E.
    destruct (register_same now remote (option_map ls_leases res) d) as [S1 S2]. fold d1 in S1, S2.
    destruct res as [ls|]; [|injection E as <- <-; eapply alike_routed; [|exact Hr]; now apply alike_refl].
    destruct (ls_keys ls) as [|k0 ks]; [discriminate|].
    assert (A : forall v, alike r d (w_remote (w_inflight d1 (sdel remote (d_inflight d1)))
                (nput remote v (d_remote (w_inflight d1 (sdel remote (d_inflight d1))))))).
    { intros v c0 H0. exists c0. cbn [d_remote w_remote w_inflight]. rewrite nget_nput, S1.
      destruct (N.eqb_spec r remote); [congruence|auto]. }
    match type of E with match ?n with _ => _ end = _ => destruct n as [c|] eqn:Ec end.
    + match type of E with match flush ?a ?b ?c ?dd ?e with _ => _ end = _ => destruct (flush a b c dd e) as [[d4 o4]|] eqn:Ef end; [|discriminate].
      injection E as <- <-. eapply alike_routed; [|exact Hr]. eapply alike_trans; [apply A|]. eapply flush_alike; eauto.
    + injection E as <- <-. eapply alike_routed; [apply A|exact Hr].
  - injection E as <- <-. eapply alike_routed; [|exact Hr]. now apply alike_refl.
  - injection E as <- <-. eapply alike_routed; [|exact Hr]. now apply alike_refl.
  - injection E as <- <-. eapply alike_routed; [|exact Hr]. now apply alike_refl.
  - injection E as E. apply on_commands_facts with (r := r) in E as (E1 & _). eapply alike_routed; [|exact Hr]. apply alike_refl. rewrite E1. reflexivity.
  - injection E as <- <-. eapply alike_routed; [|exact Hr]. now apply alike_refl.
  - injection E as E. apply use_handle_same in E as (E1 & _). eapply alike_routed; [|exact Hr]. now apply alike_refl.
  - injection E as <- <-. eapply alike_routed; [|exact Hr]. now apply alike_refl.
  - injection E as <- <-. destruct Hr as (c & Hc1 & H1 & H2). unfold prune, routed; cbn [d_remote w_remote].
    rewrite (nget_mapv (fun c => mkCtx (c_ls c) (c_pending c) (filter (fun y => now <? l_expires_ms (snd y)) (c_expiring c)))), Hc1.
    cbn [option_map]. eexists. split; [reflexivity|]. split; cbn [c_ls c_expiring]; [exact H1|].
    destruct H2 as [H2|(l & A & B)]; [now left|right]. exists l. split; [|exact B].
    clear -A B Hc. induction (c_expiring c) as [|[k v] m IH]; cbn in *; [discriminate|].
    destruct (N.eqb_spec i k) as [->|Hne].
    + injection A as ->. destruct (N.ltb_spec now (l_expires_ms l)); [|lia]. cbn. now rewrite N.eqb_refl.
    + destruct (now <? l_expires_ms v); cbn; [destruct (N.eqb_spec i k); [congruence|]|]; auto.
Qed.
Lemma run_routed r i e : forall ops d d' outs s, rel r d s -> drun did d ops = Some (d', outs) ->
  Forall (calm did r i e) ops -> routed r i e d -> routed r i e d'.
Proof.
  induction ops as [|op ops IH]; intros d d' outs s Hrel; cbn [drun].
  - intros E _ H. injection E as <- <-. exact H.
  - destruct (dstep did d op) as [[d1 o]|] eqn:E1; [|discriminate].
    destruct (drun did d1 ops) as [[d2 os]|] eqn:E2; [|discriminate].
    intros E Hc Hr. injection E as <- <-. inversion Hc; subst.
    eapply (IH d1); [eapply step_rel; eauto|eauto|assumption|]. eapply step_routed; eauto.
Qed.

Lemma routes_kept outs0 ops1 d1 os1 r ls l :
  drun did (d_new outs0) ops1 = Some (d1, os1) ->
  in_use (history did r unknown ops1 os1) = Some ls -> In l (ls_leases ls) ->
  (forall l', In l' (ls_leases ls) -> l_tunnel l' = l_tunnel l -> l_expires_ms l <= l_expires_ms l') ->
  forall ops2 d2 os2, drun did d1 ops2 = Some (d2, os2) -> Forall (calm did r (l_tunnel l) (l_expires_ms l)) ops2 ->
  forall now ob msg k d3 o, dstep did d2 (SendMessage now r (ViaRoute (l_tunnel l) ob) msg k) = Some (d3, o) ->
  stale now (history did r (history did r unknown ops1 os1) ops2 os2) = false ->
  exists router, o = [Send router (l_tunnel l) (Some ob) msg].
Proof.
  intros H1 Hu Hl Hmin ops2 d2 os2 H2 Hcalm now ob msg k d3 o Hs Hst.
  pose proof (run_rel did _ _ _ _ r unknown (rel_unknown r outs0) H1) as R1.
  pose proof (run_rel did _ _ _ _ r _ R1 H2) as R2.
  assert (Hr : routed r (l_tunnel l) (l_expires_ms l) d1).
  { destruct R1 as [R1 _]. destruct (nget r (d_remote d1)) as [c|] eqn:Ec; [|destruct R1; congruence].
    destruct R1 as (A1 & _). rewrite Hu in A1. injection A1 as ->. exists c. split; [exact Ec|]. split; [exact Hmin|].
    left. exists l. auto. }
  apply (run_routed _ _ _ _ _ _ _ _ R1 H2 Hcalm) in Hr. destruct Hr as (c & Hc & Hmin' & Hr).
  destruct R2 as [R2 _]. rewrite Hc in R2. destruct R2 as (A1 & _).
  unfold stale in Hst. rewrite A1 in Hst. cbn [dstep] in Hs. unfold send_inner in Hs. rewrite Hc, Hst in Hs.
  destruct (find_lease (l_tunnel l) (ls_leases (c_ls c))) as [l2|] eqn:Ef.
  - injection Hs as _ <-. eauto.
  - destruct Hr as [(l2 & B1 & B2)|(l2 & B1 & _)].
    + exfalso. apply (find_none _ _ Ef) in B1. rewrite B2, N.eqb_refl in B1. discriminate.
    + rewrite B1 in Hs. injection Hs as _ <-. eauto.
Qed.

(** ** Lookups that never start *)
Definition blocked (r : N) (d : dest) : Prop := nget r (d_wait d) <> None /\ smem r (d_inflight d) = false.

Lemma query_other now x r d d' st o : x <> r -> query_lease_set now x d = (d', st, o) ->
  d_wait d' = d_wait d /\ smem r (d_inflight d') = smem r (d_inflight d) /\ lookups_in r o = O.
Proof.
  intros Hne. unfold query_lease_set. destruct (smem x (d_inflight d)); [|destruct (match nget x (d_remote d) with Some c => negb (ls_expired now (c_ls c)) | None => false end)];
    intros H; apply pair_equal_spec in H as [H <-]; apply pair_equal_spec in H as [<- _]; auto.
  split; [reflexivity|]. split.
  - cbn [w_inflight d_inflight]. rewrite smem_sadd. destruct (N.eqb_spec r x); [congruence|reflexivity].
  - unfold lookups_in; cbn. destruct (N.eqb_spec x r); [congruence|reflexivity].
Qed.
Lemma send_other now x st msg k d d' o r : x <> r -> send_inner now x st msg k d = Some (d', o) ->
  d_wait d' = d_wait d /\ smem r (d_inflight d') = smem r (d_inflight d) /\ lookups_in r o = O.
Proof.
  intros Hne. unfold send_inner. destruct (nget x (d_remote d)) as [c|]; [|intros E; injection E as <- <-; auto].
  destruct (ls_expired now (c_ls c)).
  - destruct (query_lease_set now x _) as [[d2 s] o2] eqn:Eq. intros E; injection E as <- <-.
    apply (query_other _ _ r) in Eq; auto.
  - destruct st; [destruct (find_lease _ _); [|destruct (nget _ (c_expiring c))]|destruct (choose _ _); [|discriminate]];
      intros E; injection E as <- <-; auto.
Qed.
Lemma flush_other now x r : x <> r -> forall msgs rs d d' o, flush now x msgs rs d = Some (d', o) ->
  d_wait d' = d_wait d /\ smem r (d_inflight d') = smem r (d_inflight d) /\ lookups_in r o = O.
Proof.
  intros Hne. induction msgs as [|m msgs IH]; intros rs d d' o; cbn [flush]; [intros E; injection E as <- <-; auto|].
  destruct (send_inner now x Unspecified m (hd 0 rs) d) as [[d1 o1]|] eqn:E1; [|discriminate].
  destruct (flush now x msgs (tl rs) d1) as [[d2 o2]|] eqn:E2; [|discriminate].
  intros E; injection E as <- <-. apply (send_other _ _ _ _ _ _ _ _ r Hne) in E1 as (A1 & A2 & A3).
  apply IH in E2 as (B1 & B2 & B3). rewrite lookups_app. split; [congruence|]. split; [congruence|]. rewrite A3, B3. reflexivity.
Qed.
Lemma command_blocked now c d d' o r : blocked r d -> on_command now c d = (d', o) -> blocked r d' /\ lookups_in r o = O.
Proof.
  intros [H1 H2]. unfold on_command. destruct (nget (fst c) (d_wait d)) as [ids|] eqn:E.
  - intros E'; apply pair_equal_spec in E' as [<- <-]. split; [split|reflexivity]; [|exact H2].
    cbn [w_wait d_wait]. rewrite nget_nput. destruct (r =? fst c); [discriminate|exact H1].
  - destruct (query_lease_set now (fst c) _) as [[d2 s] o2] eqn:Eq. intros E'; apply pair_equal_spec in E' as [<- <-].
    assert (Hne : fst c <> r) by (intros <-; congruence).
    apply (query_other _ _ r) in Eq as (A1 & A2 & A3); [|exact Hne]. split; [split|exact A3].
    + rewrite A1. cbn [w_wait d_wait]. rewrite nget_nput. destruct (r =? fst c); [discriminate|exact H1].
    + rewrite A2. exact H2.
Qed.
Lemma commands_blocked now r : forall cs d d' o, blocked r d -> on_commands now cs d = (d', o) -> blocked r d' /\ lookups_in r o = O.
Proof.
  induction cs as [|c cs IH]; intros d d' o H; cbn [on_commands]; [intros E; apply pair_equal_spec in E as [<- <-]; auto|].
  destruct (on_command now c d) as [d1 o1] eqn:E1. destruct (on_commands now cs d1) as [d2 o2] eqn:E2.
  intros E; apply pair_equal_spec in E as [<- <-]. apply (command_blocked _ _ _ _ _ _ H) in E1 as [A1 A2].
  apply (IH _ _ _ A1) in E2 as [B1 B2]. rewrite lookups_app, A2, B2. auto.
Qed.
Lemma register_wait now x res d : d_wait (register_leases now x res d) = ndel x (d_wait d).
Proof. unfold register_leases. destruct res; reflexivity. Qed.

Lemma step_blocked d op d' o r : blocked r d -> dstep did d op = Some (d', o) -> hands_off did r op ->
  blocked r d' /\ lookups_in r o = O.
Proof.
  intros [H1 H2] E Hop. destruct op; cbn [dstep] in E; cbn [hands_off] in Hop.
  - destruct (query_lease_set now remote d) as [[d1 st] o1] eqn:Eq. injection E as <- <-.
    apply (query_other _ _ r) in Eq as (A1 & A2 & A3); [|exact Hop]. rewrite lookups_app, A3. split; [|reflexivity].
    split; [rewrite A1; exact H1|rewrite A2; exact H2].
  - apply (send_other _ _ _ _ _ _ _ _ r Hop) in E as (A1 & A2 & A3). split; [|exact A3].
    split; [rewrite A1; exact H1|rewrite A2; exact H2].
  - injection E as <- <-. split; [|reflexivity]. unfold on_clove, ls_id. destruct (ls_leases ls) as [|l0 rest]; [split; auto|].
    set (x := did (h_dest (ls_header' ls))) in *.
    destruct (register_same now x (Some (l0 :: rest)) d) as [S1 S2]. pose proof (register_wait now x (Some (l0 :: rest)) d) as S3.
    assert (A : nget r (ndel x (d_wait d)) <> None).
    { rewrite nget_ndel. destruct (N.eqb_spec r x); [congruence|exact H1]. }
    destruct (nget x (d_remote (register_leases now x (Some (l0 :: rest)) d))); split; cbn [w_remote d_wait d_inflight]; rewrite ?S3, ?S2; auto.
  - unfold on_result in E. destruct (smem remote (d_inflight d)) eqn:Ef; cbn [negb] in E; [|injection E as <- <-; split; [split|]; auto].
    assert (Hne : remote <> r) by (intros ->; congruence).
    set (d1 := register_leases now remote (option_map ls_leases res) d) in E.
    destruct (register_same now remote (option_map ls_leases res) d) as [S1 S2]. fold d1 in S1, S2.
    pose proof (register_wait now remote (option_map ls_leases res) d) as S3. fold d1 in S3.
    assert (A : nget r (d_wait d1) <> None /\ smem r (sdel remote (d_inflight d1)) = false).
    { rewrite S3, nget_ndel, smem_sdel, S2, H2, andb_false_r. destruct (N.eqb_spec r remote); [congruence|auto]. }
    destruct res as [ls|]; [|injection E as <- <-; split; [exact A|reflexivity]].
    destruct (ls_keys ls) as [|k0 ks]; [discriminate|].
    match type of E with match ?n with _ => _ end = _ => destruct n as [c|] eqn:Ec end.
    + match type of E with match flush ?a ?b ?c ?dd ?e with _ => _ end = _ => destruct (flush a b c dd e) as [[d4 o4]|] eqn:Ef4 end; [|discriminate].
      injection E as <- <-. apply (flush_other _ _ r Hne) in Ef4 as (B1 & B2 & B3). rewrite lookups_app, B3. split; [|reflexivity].
      split; [rewrite B1; apply A|rewrite B2; apply A].
    + injection E as <- <-. split; [exact A|reflexivity].
  - injection E as <- <-. split; [split|]; auto.
  - injection E as <- <-. split; [split|]; auto.
  - injection E as <- <-. split; [split|]; auto.
  - injection E as E. apply (commands_blocked now r) in E; [exact E|]. split; auto.
  - injection E as <- <-. split; [split|]; auto.
  - injection E as E.
    assert (A : d_wait d' = d_wait d /\ d_inflight d' = d_inflight d /\ lookups_in r o = O).
    { unfold use_handle in E. destruct (nget h (d_handles d)) as [[x hd]|]; [|apply pair_equal_spec in E as [<- <-]; auto].
      destruct (owner_op op); [|apply pair_equal_spec in E as [<- <-]; auto].
      destruct (hstep (Some hd) _) as [hd' o']. apply pair_equal_spec in E as [<- <-].
      destruct hd'; destruct o' as [|p []| |]; cbn; auto. }
    destruct A as (A1 & A2 & A3). split; [|exact A3]. split; [rewrite A1; exact H1|rewrite A2; exact H2].
  - injection E as <- <-. split; [split|]; auto.
  - injection E as <- <-. split; [split|]; auto.
Qed.
Lemma run_blocked r : forall ops d d' outs, blocked r d -> drun did d ops = Some (d', outs) ->
  Forall (hands_off did r) ops -> Forall (fun o => ~ In (Lookup r) o) outs.
Proof.
  induction ops as [|op ops IH]; intros d d' outs H; cbn [drun].
  - intros E _. injection E as <- <-. constructor.
  - destruct (dstep did d op) as [[d1 o]|] eqn:E1; [|discriminate].
    destruct (drun did d1 ops) as [[d2 os]|] eqn:E2; [|discriminate].
    intros E Hc. injection E as <- <-. inversion Hc; subst.
    destruct (step_blocked _ _ _ _ _ H E1) as [A B]; [assumption|]. constructor; [|eapply IH; eauto].
    intros Hin. unfold lookups_in in B. clear -Hin B. induction o as [|a o IHo]; [contradiction|]. cbn in B.
    destruct Hin as [->|Hin]; [cbn in B; rewrite N.eqb_refl in B; discriminate|]. destruct (is_lookup r a); [discriminate|auto].
Qed.
End WithDid.
