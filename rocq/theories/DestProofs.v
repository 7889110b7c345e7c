(** Proofs about client destinations: the destination's state is what the history says. *)
From Coq Require Import List NArith Bool Lia.
From Verif Require Import ListUtil Bytes NMap RouteProofs PrimModel RpathModel RpathProofs DestModel DestSpec.
Import ListNotations.
Open Scope N_scope.

Lemma smem_sadd k j s : smem k (sadd j s) = (k =? j) || smem k s.
Proof. apply eq_true_iff_eq. rewrite orb_true_iff, !smem_In, sadd_In, N.eqb_eq. tauto. Qed.
Lemma smem_sdel k j s : smem k (sdel j s) = negb (k =? j) && smem k s.
Proof. apply eq_true_iff_eq. rewrite andb_true_iff, negb_true_iff, !smem_In, sdel_In, N.eqb_neq. tauto. Qed.
Lemma nget_mapv {A B} (f : A -> B) k (m : nmap A) :
  nget k (map (fun x => (fst x, f (snd x))) m) = option_map f (nget k m).
Proof. induction m as [|[k' v] m IH]; cbn; [reflexivity|]. destruct (k =? k'); auto. Qed.

Definition looks_up (r : N) (o : list dout) : bool := existsb (is_lookup r) o.
Definition lookups_in (r : N) (o : list dout) : nat := length (filter (is_lookup r) o).
Lemma looks_up_app r a b : looks_up r (a ++ b) = looks_up r a || looks_up r b.
Proof. apply existsb_app. Qed.
Lemma lookups_app r a b : lookups_in r (a ++ b) = (lookups_in r a + lookups_in r b)%nat.
Proof. unfold lookups_in. now rewrite filter_app, app_length. Qed.

(** ** Expiring leases come from lease sets taken *)
Definition kept_ok (s : remote) (m : nmap lease) : Prop :=
  forall t l, In (t, l) m -> l_tunnel l = t /\ exists old, In old (taken s) /\ In l (ls_leases old).
Definition rel (r : N) (d : dest) (s : remote) : Prop :=
  match nget r (d_remote d) with
  | Some c => in_use s = Some (c_ls c) /\ c_pending c = put_off s /\ kept_ok s (c_expiring c) /\ In (c_ls c) (taken s)
  | None => in_use s = None /\ put_off s = []
  end /\ smem r (d_inflight d) = looking s.

Lemma rel_unknown r outs : rel r (d_new outs) unknown.
Proof. split; cbn; auto. Qed.

(** Two destinations that agree on remotes and lookups. *)
Lemma rel_same r d d' s : d_remote d' = d_remote d -> d_inflight d' = d_inflight d -> rel r d s -> rel r d' s.
Proof. unfold rel. now intros -> ->. Qed.

Lemma register_same now r res d : d_remote (register_leases now r res d) = d_remote d /\
  d_inflight (register_leases now r res d) = d_inflight d.
Proof. unfold register_leases. destruct res; cbn; auto. Qed.

(** ** Lookups *)
Lemma query_facts now x d d' st o : query_lease_set now x d = (d', st, o) ->
  d_remote d' = d_remote d /\
  (forall r, smem r (d_inflight d') = smem r (d_inflight d) || looks_up r o) /\
  (o = [] \/ (o = [Lookup x] /\ smem x (d_inflight d) = false)).
Proof.
  unfold query_lease_set. destruct (smem x (d_inflight d)) eqn:E.
  - intros H; apply pair_equal_spec in H as [H <-]; apply pair_equal_spec in H as [<- _].
    split; [auto|]. split; [intros r; cbn; now rewrite orb_false_r|auto].
  - destruct (match nget x (d_remote d) with Some c => negb (ls_expired now (c_ls c)) | None => false end).
    + intros H; apply pair_equal_spec in H as [H <-]; apply pair_equal_spec in H as [<- _].
      split; [auto|]. split; [intros r; cbn; now rewrite orb_false_r|auto].
    + intros H; apply pair_equal_spec in H as [H <-]; apply pair_equal_spec in H as [<- _].
      split; [auto|]. split; [|auto]. intros r; cbn. rewrite smem_sadd, orb_false_r, (N.eqb_sym r x). apply orb_comm.
Qed.

(** What a piece of work does to the lookups of [r]. *)
Definition adds (r : N) (d d' : dest) (o : list dout) : Prop :=
  smem r (d_inflight d') = smem r (d_inflight d) || looks_up r o /\
  (smem r (d_inflight d) = true -> lookups_in r o = O) /\ (lookups_in r o <= 1)%nat.
Lemma adds_refl r d o : looks_up r o = false -> adds r d d o.
Proof.
  intros H. assert (lookups_in r o = O).
  { unfold lookups_in, looks_up in *. induction o as [|a o IH]; cbn in *; [auto|]. apply orb_false_iff in H as [-> H]. auto. }
  repeat split; auto; [now rewrite H, orb_false_r|lia].
Qed.
Lemma adds_trans r d1 d2 d3 a b : adds r d1 d2 a -> adds r d2 d3 b -> adds r d1 d3 (a ++ b).
Proof.
  intros (A1 & A2 & A3) (B1 & B2 & B3). unfold adds.
  rewrite looks_up_app, lookups_app, B1, A1, orb_assoc. split; [reflexivity|].
  assert (L : forall o, looks_up r o = true -> (1 <= lookups_in r o)%nat).
  { unfold looks_up, lookups_in. induction o as [|x o IH]; cbn; [discriminate|]. destruct (is_lookup r x); cbn; [lia|auto]. }
  assert (L0 : forall o, looks_up r o = false -> lookups_in r o = O).
  { unfold looks_up, lookups_in. induction o as [|x o IH]; cbn; [auto|]. destruct (is_lookup r x); cbn; [discriminate|auto]. }
  split.
  - intros H. rewrite (A2 H). cbn. apply B2. rewrite A1, H. reflexivity.
  - destruct (looks_up r a) eqn:E.
    + rewrite B2; [lia|]. rewrite A1, orb_true_r. reflexivity.
    + rewrite (L0 a E). lia.
Qed.
Lemma query_adds now x d d' st o r : query_lease_set now x d = (d', st, o) -> adds r d d' o.
Proof.
  intros H. apply query_facts in H as (_ & H1 & H2). split; [apply H1|].
  destruct H2 as [-> |[-> H2]]; cbn; [split; [auto|lia]|]. unfold lookups_in; cbn.
  destruct (N.eqb_spec x r) as [->|]; cbn; split; try lia; congruence.
Qed.

Lemma on_command_facts now c d d' o r : on_command now c d = (d', o) ->
  d_remote d' = d_remote d /\ adds r d d' o /\ forallb (fun x => negb (is_send x)) o = true.
Proof.
  unfold on_command. destruct (nget (fst c) (d_wait d)).
  - intros H; apply pair_equal_spec in H as [<- <-]. split; [reflexivity|].
    split; [split; [cbn; now rewrite orb_false_r|cbn; split; [auto|lia]]|reflexivity].
  - destruct (query_lease_set now (fst c) _) as [[d2 st] o2] eqn:Eq.
    intros H; apply pair_equal_spec in H as [<- <-].
    pose proof (query_facts _ _ _ _ _ _ Eq) as (H1 & _ & H3). split; [exact H1|].
    apply query_adds with (r := r) in Eq. split; [exact Eq|]. destruct H3 as [-> |[-> _]]; reflexivity.
Qed.
Lemma on_commands_facts now r cs : forall d d' o, on_commands now cs d = (d', o) ->
  d_remote d' = d_remote d /\ adds r d d' o /\ forallb (fun x => negb (is_send x)) o = true.
Proof.
  induction cs as [|c cs IH]; intros d d' o; cbn.
  - intros H; apply pair_equal_spec in H as [<- <-]. split; [auto|]. split; [now apply adds_refl|auto].
  - destruct (on_command now c d) as [d1 o1] eqn:E1. destruct (on_commands now cs d1) as [d2 o2] eqn:E2.
    intros H; apply pair_equal_spec in H as [<- <-].
    apply on_command_facts with (r := r) in E1 as (A1 & A2 & A3). apply IH in E2 as (B1 & B2 & B3).
    split; [congruence|]. split; [eapply adds_trans; eauto|]. rewrite forallb_app, A3, B3; reflexivity.
Qed.

(** ** Sending *)
Lemma find_lease_some i ls l : find_lease i ls = Some l -> In l ls /\ l_tunnel l = i.
Proof. intros H. apply find_some in H as [H1 H2]. apply N.eqb_eq in H2. auto. Qed.
Lemma find_lease_none i ls : find_lease i ls = None -> forall l, In l ls -> l_tunnel l <> i.
Proof. intros H l Hl E. apply (find_none _ _ H) in Hl. apply N.eqb_neq in Hl. contradiction. Qed.

Lemma expired_nonempty now ls : ls_expired now ls = false -> ls_leases ls <> [].
Proof. unfold ls_expired. intros H E. rewrite E in H. cbn in H. rewrite orb_true_r in H. discriminate. Qed.

(** The state kept for [r] after a message to [x], without the lookup. *)
Definition after_send (now x : N) (msg : bytes) (r : N) (s : remote) : remote :=
  if (x =? r) && stale now s then mkR (in_use s) (put_off s ++ [msg]) (looking s) (taken s) else s.

Lemma send_inner_rel now x st msg k d d' o r s : rel r d s -> send_inner now x st msg k d = Some (d', o) ->
  let s1 := after_send now x msg r s in
  rel r d' (mkR (in_use s1) (put_off s1) (looking s1 || looks_up r o) (taken s1)) /\ adds r d d' o.
Proof.
  intros H. unfold send_inner. destruct (nget x (d_remote d)) as [c|] eqn:Ex.
  2:{ intros E; injection E as <- <-. cbn zeta. split; [|now apply adds_refl].
      unfold after_send, stale. destruct H as [H1 H2].
      destruct (N.eqb_spec x r) as [->|]; cbn [andb].
      - rewrite Ex in H1. destruct H1 as [H1 H3]. rewrite H1. split; [rewrite Ex; cbn; auto|cbn; now rewrite orb_false_r].
      - split; [destruct (nget r (d_remote d)); exact H1|cbn; now rewrite orb_false_r]. }
  destruct (ls_expired now (c_ls c)) eqn:Ee.
  - set (d1 := w_remote d _). destruct (query_lease_set now x d1) as [[d2 s2] o2] eqn:Eq.
    intros E; injection E as <- <-.
    pose proof (query_facts _ _ _ _ _ _ Eq) as (Q1 & Q2 & _). pose proof (query_adds _ _ _ _ _ _ r Eq) as QA.
    cbn zeta. split; [|exact QA].
    destruct H as [H1 H2]. split.
    + rewrite Q1. unfold d1; cbn [d_remote w_remote]. rewrite nget_nput. unfold after_send, stale.
      destruct (N.eqb_spec r x) as [->|Hne].
      * rewrite Ex in H1. destruct H1 as (A1 & A2 & A3 & A4). rewrite A1, N.eqb_refl, Ee. cbn.
        rewrite A2. auto.
      * destruct (N.eqb_spec x r); [congruence|]. cbn. exact H1.
    + rewrite Q2. unfold d1; cbn [d_inflight w_remote looking]. rewrite H2. f_equal.
      unfold after_send. destruct ((x =? r) && stale now s); reflexivity.
  - assert (Hs : after_send now x msg r s = s).
    { unfold after_send, stale. destruct (N.eqb_spec x r) as [->|]; [|reflexivity].
      destruct H as [H1 _]. rewrite Ex in H1. destruct H1 as (-> & _). rewrite Ee. reflexivity. }
    rewrite Hs. cbn zeta.
    assert (Hfin : forall o', looks_up r o' = false ->
        rel r d (mkR (in_use s) (put_off s) (looking s || looks_up r o') (taken s)) /\ adds r d d o').
    { intros o' Ho. split; [|now apply adds_refl]. rewrite Ho, orb_false_r. destruct s; exact H. }
    destruct st as [i ob|].
    + destruct (find_lease i (ls_leases (c_ls c))); [intros E; injection E as <- <-; apply Hfin; reflexivity|].
      destruct (nget i (c_expiring c)); intros E; injection E as <- <-; apply Hfin; reflexivity.
    + destruct (choose k (ls_leases (c_ls c))); [|discriminate].
      intros E; injection E as <- <-; apply Hfin; reflexivity.
Qed.

Lemma send_inner_out now x st msg k d d' o s : rel x d s -> send_inner now x st msg k d = Some (d', o) ->
  send_spec now x st msg s o.
Proof.
  intros H. unfold send_inner, send_spec. destruct H as [H1 H2].
  destruct (nget x (d_remote d)) as [c|] eqn:Ex.
  2:{ destruct H1 as [-> _]. intros E; injection E as <- <-. reflexivity. }
  destruct H1 as (-> & A2 & A3 & A4). destruct (ls_expired now (c_ls c)) eqn:Ee.
  - unfold query_lease_set. cbn [d_inflight w_remote d_remote]. rewrite H2, nget_nput, N.eqb_refl. cbn [c_ls].
    rewrite Ee. cbn [negb]. destruct (looking s); intros E; injection E as <- <-; reflexivity.
  - destruct st as [i ob|].
    + destruct (find_lease i (ls_leases (c_ls c))) as [l|] eqn:Ef.
      * apply find_lease_some in Ef as [F1 F2]. intros E; injection E as <- <-. left; eauto.
      * pose proof (find_lease_none _ _ Ef) as F. destruct (nget i (c_expiring c)) as [l|] eqn:En.
        -- intros E; injection E as <- <-. right; split; [exact F|]. right.
           apply nget_In in En. apply A3 in En as (E1 & old & E2 & E3). exists old, l. auto.
        -- intros E; injection E as <- <-. right; auto.
    + destruct (choose k (ls_leases (c_ls c))) as [l|] eqn:Ec; [|discriminate].
      intros E; injection E as <- <-. apply choose_in in Ec. eexists; split; [reflexivity|].
      exists l; auto.
Qed.
