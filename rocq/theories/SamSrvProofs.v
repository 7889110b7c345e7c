(** Proofs about the SAMv3 server. *)
From Coq Require Import List NArith PeanoNat Bool Lia.
From Verif Require Import ListUtil NMap RouteProofs DestProofs SamSrvModel SamSrvSpec.
Import ListNotations.
Open Scope N_scope.

Definition vw (sid : N) (st : srv) : view :=
  match nget sid (sv_active st) with
  | Some (mkChan k true q) => Up k q
  | Some (mkChan _ false _) => Down
  | None => if smem sid (sv_psend st) then match nget sid (sv_building st) with Some k => Waiting k | None => Stuck end else Nobody
  end.

Definition wf1 (sid : N) (st : srv) : Prop :=
  (nhas sid (sv_active st) = true -> smem sid (sv_psend st) = false /\ nget sid (sv_building st) = None)
  /\ (nhas sid (sv_building st) = true -> smem sid (sv_psend st) = true).
Definition wf (st : srv) : Prop := forall sid, wf1 sid st.

Lemma small q : (N.of_nat (length q) <? command_channel_size) = Nat.ltb (length (q : list scmd)) 256.
Proof.
  unfold command_channel_size. destruct (Nat.ltb_spec (length q) 256); destruct (N.ltb_spec (N.of_nat (length q)) 256); auto; lia.
Qed.

Lemma dropped_waste c : dropped c = [waste c]. Proof. destruct c; reflexivity. Qed.
Lemma flat_dropped q : flat_map dropped q = map waste q.
Proof. induction q as [|c q IH]; cbn [flat_map map]; auto. rewrite dropped_waste, IH. reflexivity. Qed.

(** what sending a command does *)
Lemma send_facts sid c st st' o : wf st -> send_command sid c st = (st', o) ->
  wf st' /\ sv_look st' = sv_look st /\ sv_book st' = sv_book st /\ sv_dests st' = sv_dests st /\ sv_ids st' = sv_ids st
  /\ (forall s, vw s st' = match vw s st with
                           | Up k q => if (sid =? s) && Nat.ltb (length q) 256 then Up k (q ++ [c]) else Up k q
                           | v => v end)
  /\ o = match vw sid st with Up _ q => if Nat.ltb (length q) 256 then [] else [waste c] | _ => [waste c] end.
Proof.
  intros W. unfold send_command. rewrite dropped_waste.
  assert (T : forall s, vw s st = match vw s st with Up k q => if (sid =? s) && false then Up k (q ++ [c]) else Up k q | v => v end)
    by (intros s; rewrite andb_false_r; now destruct (vw s st)).
  destruct (nget sid (sv_active st)) as [[k op q]|] eqn:A.
  - cbn [ch_open ch_queue ch_sock]. rewrite small. destruct op; cbn [andb].
    + destruct (Nat.ltb (length q) 256) eqn:Q; intros H; apply pair_equal_spec in H as [<- <-];
        repeat match goal with |- _ /\ _ => split end; auto.
      * intros s. destruct (W s) as [W1 W2]. split; unfold nhas in *; cbn [sv_active sv_psend sv_building] in *; auto.
        rewrite nget_nput. destruct (N.eqb_spec s sid) as [->|]; auto. intros _. apply W1. now rewrite A.
      * intros s. unfold vw. cbn [sv_active sv_psend sv_building]. rewrite nget_nput, (N.eqb_sym sid s).
        destruct (N.eqb_spec s sid) as [->|].
        -- rewrite A. cbn [andb]. now rewrite Q.
        -- cbn [andb]. destruct (nget s (sv_active st)) as [[k' [|] q']|]; auto.
           destruct (smem s (sv_psend st)); auto. destruct (nget s (sv_building st)); auto.
      * unfold vw. rewrite A, Q. reflexivity.
      * intros s. destruct (N.eqb_spec sid s) as [<-|]; cbn [andb].
        -- unfold vw. rewrite A, Q. reflexivity.
        -- destruct (vw s st); auto.
      * unfold vw. rewrite A, Q. reflexivity.
    + intros H; apply pair_equal_spec in H as [<- <-]; repeat match goal with |- _ /\ _ => split end; auto.
      * intros s. destruct (N.eqb_spec sid s) as [<-|]; cbn [andb].
        -- unfold vw. rewrite A. reflexivity.
        -- destruct (vw s st); auto.
      * unfold vw. rewrite A. reflexivity.
  - intros H; apply pair_equal_spec in H as [<- <-]; repeat match goal with |- _ /\ _ => split end; auto.
    + intros s. destruct (N.eqb_spec sid s) as [<-|]; cbn [andb].
      * unfold vw. rewrite A. destruct (smem sid (sv_psend st)); auto. destruct (nget sid (sv_building st)); auto.
      * destruct (vw s st); auto.
    + unfold vw. rewrite A. destruct (smem sid (sv_psend st)); auto. destruct (nget sid (sv_building st)); auto.
Qed.

Lemma release_facts sid st : sv_active (release sid st) = sv_active st /\ sv_psend (release sid st) = sv_psend st
  /\ sv_building (release sid st) = sv_building st /\ sv_look (release sid st) = sv_look st /\ sv_book (release sid st) = sv_book st.
Proof. unfold release. destruct (nget sid (sv_ids st)); auto. Qed.

Definition creates (op : sop) : bool := match op with Create _ _ _ _ => true | _ => false end.

Ltac same_view s st := unfold vw; cbn [sv_active sv_psend sv_building]; destruct (nget s (sv_active st)) as [[? [|] ?]|]; auto;
  destruct (smem s (sv_psend st)); auto; destruct (nget s (sv_building st)); auto.

Lemma step_facts st op st' o : wf st -> step st op = (st', o) ->
  wf st' /\ sv_book st' = sv_book st /\ sv_look st' = look_step (sv_book st) (sv_look st) op
  /\ (forall s, vw s st' = view_step s (sv_look st) (vw s st) op (is_begun o))
  /\ (creates op = false -> o = result (sv_book st) (sv_look st) (fun s => vw s st) op).
Proof.
  intros W H. destruct op as [sock sid d ok|sock sid h opts|sock sid opts|sock sid port opts|sid d x|sock d|sid|sid|sid|sid|sid];
    cbn [step creates] in *.
  - (* Create *)
    unfold on_create in H. cbn [look_step].
    assert (K : forall b, is_begun b = false -> forall s, vw s st = view_step s (sv_look st) (vw s st) (Create sock sid d ok) (is_begun b))
      by (intros b B s; rewrite B; cbn [view_step]; rewrite andb_false_r; reflexivity).
    destruct (nhas sid (sv_active st) || smem sid (sv_psend st)) eqn:D1;
      [apply pair_equal_spec in H as [<- <-]; repeat match goal with |- _ /\ _ => split end; auto; discriminate|].
    destruct (smem d (sv_dests st)) eqn:D2;
      [apply pair_equal_spec in H as [<- <-]; repeat match goal with |- _ /\ _ => split end; auto; discriminate|].
    destruct ok; cbn [negb] in H;
      [|apply pair_equal_spec in H as [<- <-]; repeat match goal with |- _ /\ _ => split end; auto; discriminate].
    apply orb_false_iff in D1 as [D1 D3].
    apply pair_equal_spec in H as [<- <-]. repeat match goal with |- _ /\ _ => split end; auto; [| |discriminate].
    + intros s. destruct (W s) as [W1 W2]. unfold wf1, nhas in *. cbn [sv_active sv_psend sv_building] in *.
      rewrite nget_nput, smem_sadd. destruct (N.eqb_spec s sid) as [->|]; cbn [orb]; split; auto.
      intros E. destruct (nget sid (sv_active st)); discriminate.
    + intros s. cbn [is_begun view_step]. rewrite andb_true_r. unfold vw. cbn [sv_active sv_psend sv_building].
      rewrite nget_nput, smem_sadd, (N.eqb_sym sid s). unfold nhas in D1. destruct (N.eqb_spec s sid) as [->|]; cbn [orb]; auto.
      destruct (nget sid (sv_active st)); [discriminate|reflexivity].
  - (* Connect *)
    destruct h as [d|d|n]; cbn [on_connect] in H; unfold on_connect in H.
    1,2: apply send_facts in H as (A & B & C & _ & _ & D & E); auto; repeat match goal with |- _ /\ _ => split end; auto;
      intros s; rewrite D; cbn [view_step order]; destruct (vw s st); auto.
    cbn [look_step]. destruct (sv_book st) eqn:B.
    + apply pair_equal_spec in H as [<- <-]. repeat match goal with |- _ /\ _ => split end; auto.
      * intros s. cbn [view_step order]. same_view s st.
    + apply pair_equal_spec in H as [<- <-]. repeat match goal with |- _ /\ _ => split end; auto.
      intros s. cbn [view_step order]. same_view s st.
  - apply send_facts in H as (A & B & C & _ & _ & D & E); auto; repeat match goal with |- _ /\ _ => split end; auto;
      intros s; rewrite D; cbn [view_step order]; destruct (vw s st); auto.
  - apply send_facts in H as (A & B & C & _ & _ & D & E); auto; repeat match goal with |- _ /\ _ => split end; auto;
      intros s; rewrite D; cbn [view_step order]; destruct (vw s st); auto.
  - apply send_facts in H as (A & B & C & _ & _ & D & E); auto; repeat match goal with |- _ /\ _ => split end; auto;
      intros s; rewrite D; cbn [view_step order]; destruct (vw s st); auto.
  - (* Resolved *)
    unfold on_resolved in H. cbn [look_step]. destruct (nget sock (sv_look st)) as [[sid opts]|] eqn:L.
    + destruct d as [d|].
      * apply send_facts in H as (A & B & C & _ & _ & D & E); [|exact W]. cbn [sv_look sv_book] in *.
        repeat match goal with |- _ /\ _ => split end; auto.
        -- intros s. rewrite D. change (vw s (mkSrv _ _ _ _ _ _ _)) with (vw s st). cbn [view_step order]. destruct (vw s st); rewrite ?L; auto.
        -- intros _. unfold result, order. rewrite L. exact E.
      * apply pair_equal_spec in H as [<- <-]. repeat match goal with |- _ /\ _ => split end; auto.
        -- intros s. cbn [view_step order]. same_view s st.
        -- intros _. unfold result, order. rewrite L. reflexivity.
    + apply pair_equal_spec in H as [<- <-]. repeat match goal with |- _ /\ _ => split end; auto.
      * symmetry. clear - L. induction (sv_look st) as [|[a b] t IH]; auto. cbn in *. destruct (sock =? a); [discriminate|]. now rewrite IH.
      * intros s. cbn [view_step order]. destruct (vw s st); destruct d; rewrite ?L; auto.
      * intros _. unfold result, order. destruct d; rewrite L; reflexivity.
  - (* Built *)
    unfold on_built in H. cbn [look_step result order]. destruct (nget sid (sv_building st)) as [k|] eqn:B.
    + assert (P : smem sid (sv_psend st) = true) by (apply W; unfold nhas; now rewrite B).
      assert (A : nget sid (sv_active st) = None).
      { destruct (nget sid (sv_active st)) eqn:A; auto. destruct (W sid) as [W1 _]. destruct W1 as [X _]; [unfold nhas; now rewrite A|congruence]. }
      rewrite P in H. apply pair_equal_spec in H as [<- <-]. repeat match goal with |- _ /\ _ => split end; auto.
      * intros s. destruct (W s) as [W1 W2]. unfold wf1, nhas in *. cbn [sv_active sv_psend sv_building] in *.
        rewrite nget_nput, nget_ndel, smem_sdel. destruct (N.eqb_spec s sid) as [->|]; cbn [negb andb]; split; auto; discriminate.
      * intros s. cbn [is_begun view_step]. unfold vw at 1. cbn [sv_active sv_psend sv_building].
        rewrite nget_nput, nget_ndel, smem_sdel. destruct (N.eqb_spec s sid) as [->|]; cbn [negb andb].
        -- unfold vw. rewrite A, P, B, N.eqb_refl. reflexivity.
        -- destruct (N.eqb_spec sid s); [congruence|]. same_view s st.
      * intros _. unfold vw. rewrite A, P, B. reflexivity.
    + apply pair_equal_spec in H as [<- <-]. repeat match goal with |- _ /\ _ => split end; auto.
      * intros s. cbn [is_begun view_step]. destruct (N.eqb_spec sid s) as [<-|]; [|same_view s st].
        unfold vw. rewrite B. destruct (nget sid (sv_active st)) as [[? [|] ?]|]; auto. destruct (smem sid (sv_psend st)); auto.
      * intros _. unfold vw. rewrite B. destruct (nget sid (sv_active st)) as [[? [|] ?]|]; auto. destruct (smem sid (sv_psend st)); auto.
  - (* Failed *)
    unfold on_failed in H. cbn [look_step result order]. destruct (nget sid (sv_building st)) as [k|] eqn:B.
    + assert (P : smem sid (sv_psend st) = true) by (apply W; unfold nhas; now rewrite B).
      assert (A : nget sid (sv_active st) = None).
      { destruct (nget sid (sv_active st)) eqn:A; auto. destruct (W sid) as [W1 _]. destruct W1 as [X _]; [unfold nhas; now rewrite A|congruence]. }
      apply pair_equal_spec in H as [<- <-]. repeat match goal with |- _ /\ _ => split end; auto.
      * intros s. destruct (W s) as [W1 W2]. unfold wf1, nhas in *. cbn [sv_active sv_psend sv_building] in *.
        rewrite nget_ndel. destruct (N.eqb_spec s sid) as [->|]; split; auto; try discriminate.
        intros X. apply W1 in X as [X _]. congruence.
      * intros s. cbn [is_begun view_step]. unfold vw at 1. cbn [sv_active sv_psend sv_building].
        rewrite nget_ndel. destruct (N.eqb_spec s sid) as [->|]; cbn [negb andb].
        -- unfold vw. rewrite A, P, B, N.eqb_refl. reflexivity.
        -- destruct (N.eqb_spec sid s); [congruence|]. same_view s st.
      * intros _. unfold vw. rewrite A, P, B. reflexivity.
    + apply pair_equal_spec in H as [<- <-]. repeat match goal with |- _ /\ _ => split end; auto.
      * intros s. cbn [is_begun view_step]. destruct (N.eqb_spec sid s) as [<-|]; [|same_view s st].
        unfold vw. rewrite B. destruct (nget sid (sv_active st)) as [[? [|] ?]|]; auto. destruct (smem sid (sv_psend st)); auto.
      * intros _. unfold vw. rewrite B. destruct (nget sid (sv_active st)) as [[? [|] ?]|]; auto. destruct (smem sid (sv_psend st)); auto.
  - (* Take *)
    unfold on_take in H. cbn [look_step result order].
    destruct (nget sid (sv_active st)) as [[k [|] [|c q]]|] eqn:A; apply pair_equal_spec in H as [<- <-].
    2: { repeat match goal with |- _ /\ _ => split end; auto.
      - intros s. destruct (W s) as [W1 W2]. unfold wf1, nhas in *. cbn [sv_active sv_psend sv_building] in *.
        rewrite nget_nput. destruct (N.eqb_spec s sid) as [->|]; split; auto. intros _. apply W1. now rewrite A.
      - intros s. cbn [is_begun view_step]. unfold vw at 1. cbn [sv_active sv_psend sv_building].
        rewrite nget_nput. destruct (N.eqb_spec s sid) as [->|].
        + unfold vw. rewrite A, N.eqb_refl. reflexivity.
        + destruct (N.eqb_spec sid s); [congruence|]. unfold vw.
          destruct (nget s (sv_active st)) as [[? [|] [|? ?]]|]; auto; destruct (smem s (sv_psend st)); auto; destruct (nget s (sv_building st)); auto.
      - intros _. unfold vw. rewrite A. reflexivity. }
    1-3: repeat match goal with |- _ /\ _ => split end; auto;
      [intros s; cbn [is_begun view_step order]; destruct (N.eqb_spec sid s) as [<-|]; [unfold vw; rewrite A; reflexivity|
         unfold vw; destruct (nget s (sv_active st)) as [[? [|] [|? ?]]|]; auto; destruct (smem s (sv_psend st)); auto; destruct (nget s (sv_building st)); auto]
      |intros _; unfold vw; rewrite A; reflexivity].
    repeat match goal with |- _ /\ _ => split end; auto.
    + intros s. cbn [is_begun view_step order]. destruct (N.eqb_spec sid s) as [<-|].
      * unfold vw. rewrite A. destruct (smem sid (sv_psend st)); auto. destruct (nget sid (sv_building st)); auto.
      * unfold vw; destruct (nget s (sv_active st)) as [[? [|] [|? ?]]|]; auto; destruct (smem s (sv_psend st)); auto; destruct (nget s (sv_building st)); auto.
    + intros _. unfold vw. rewrite A. destruct (smem sid (sv_psend st)); auto. destruct (nget sid (sv_building st)); auto.
  - (* Gone *)
    unfold on_gone in H. cbn [look_step result order].
    destruct (nget sid (sv_active st)) as [[k [|] q]|] eqn:A; apply pair_equal_spec in H as [<- <-].
    + repeat match goal with |- _ /\ _ => split end; auto.
      * intros s. destruct (W s) as [W1 W2]. unfold wf1, nhas in *. cbn [sv_active sv_psend sv_building] in *.
        rewrite nget_nput. destruct (N.eqb_spec s sid) as [->|]; split; auto. intros _. apply W1. now rewrite A.
      * intros s. cbn [view_step]. unfold vw at 1. cbn [sv_active sv_psend sv_building].
        rewrite nget_nput. destruct (N.eqb_spec s sid) as [->|].
        -- unfold vw. rewrite A, N.eqb_refl. reflexivity.
        -- destruct (N.eqb_spec sid s); [congruence|]. same_view s st.
      * intros _. unfold vw. rewrite A, flat_dropped. reflexivity.
    + repeat match goal with |- _ /\ _ => split end; auto;
      [intros s; cbn [is_begun view_step order]; destruct (N.eqb_spec sid s) as [<-|]; [unfold vw; rewrite A; reflexivity|same_view s st]
      |intros _; unfold vw; rewrite A; reflexivity].
    + repeat match goal with |- _ /\ _ => split end; auto.
      * intros s; cbn [is_begun view_step order]; destruct (N.eqb_spec sid s) as [<-|]; [|same_view s st].
        unfold vw. rewrite A. destruct (smem sid (sv_psend st)); auto. destruct (nget sid (sv_building st)); auto.
      * intros _. unfold vw. rewrite A. destruct (smem sid (sv_psend st)); auto. destruct (nget sid (sv_building st)); auto.
  - (* Reap *)
    unfold on_reap in H. cbn [look_step result order].
    destruct (nget sid (sv_active st)) as [[k [|] q]|] eqn:A; apply pair_equal_spec in H as [<- <-].
    + repeat match goal with |- _ /\ _ => split end; auto;
      [intros s; cbn [is_begun view_step order]; destruct (N.eqb_spec sid s) as [<-|]; [unfold vw; rewrite A; reflexivity|same_view s st]
      |intros _; unfold vw; rewrite A; reflexivity].
    + set (st1 := mkSrv _ _ _ _ _ _ _). destruct (release_facts sid st1) as (R1 & R2 & R3 & R4 & R5).
      repeat match goal with |- _ /\ _ => split end; auto.
      * intros s. unfold wf1. rewrite R1, R2, R3. destruct (W s) as [W1 W2]. unfold nhas in *. cbn [sv_active sv_psend sv_building st1] in *.
        rewrite nget_ndel. destruct (N.eqb_spec s sid) as [->|]; split; auto; discriminate.
      * intros s. cbn [is_begun view_step order]. unfold vw at 1. rewrite R1, R2, R3. cbn [sv_active sv_psend sv_building st1].
        rewrite nget_ndel. destruct (W sid) as [W1 _]. unfold nhas in W1. rewrite A in W1. destruct W1 as [P _]; auto.
        destruct (N.eqb_spec s sid) as [->|].
        -- unfold vw. rewrite A, P, N.eqb_refl. reflexivity.
        -- destruct (N.eqb_spec sid s); [congruence|]. same_view s st.
      * intros _. unfold vw. rewrite A. reflexivity.
    + repeat match goal with |- _ /\ _ => split end; auto.
      * intros s; cbn [is_begun view_step order]; destruct (N.eqb_spec sid s) as [<-|]; [|same_view s st].
        unfold vw. rewrite A. destruct (smem sid (sv_psend st)); auto. destruct (nget sid (sv_building st)); auto.
      * intros _. unfold vw. rewrite A. destruct (smem sid (sv_psend st)); auto. destruct (nget sid (sv_building st)); auto.
Qed.
