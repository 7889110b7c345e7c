(** A session and its destination; names. *)
From Coq Require Import Ascii String.
From Coq Require Import List NArith PeanoNat Bool Lia.
From Verif Require Import ListUtil Bytes NMap EncModel PrimModel I2cpModel SamModel RouteProofs RpathModel DestModel DestSpec DestProofs DestProofs2 SamSessModel SamSessSpec SamSessProofs SamSessProofs2.
Import ListNotations.
Local Open Scope list_scope.
Open Scope N_scope.

(** ** What a destination says is in order *)
Definition ok_word (d : N) (busy : bool) (w : word) : bool := match w with Asked d' (Found | NotFound) => negb ((d' =? d) && busy) | _ => true end.
Definition after_word (d : N) (busy : bool) (w : word) : bool :=
  match w with
  | Asked d' st => if d' =? d then match st with Found => busy | _ => true end else busy
  | Came d' | Failed d' => busy && negb (d' =? d)
  end.
Fixpoint ok_words (d : N) (busy : bool) (l : list word) : bool :=
  match l with [] => true | w :: t => ok_word d busy w && ok_words d (after_word d busy w) t end.
Fixpoint after_words (d : N) (busy : bool) (l : list word) : bool :=
  match l with [] => busy | w :: t => after_words d (after_word d busy w) t end.
Lemma ok_words_app d a b : forall busy, ok_words d busy (a ++ b) = ok_words d busy a && ok_words d (after_words d busy a) b.
Proof. induction a as [|w a IH]; intros busy; cbn; auto. rewrite IH. apply andb_assoc. Qed.

Definition mute (o : dout) : bool := match o with Status _ | LeaseSetFound _ | LeaseSetNotFound _ => false | _ => true end.
Lemma said_mute op o : forallb mute o = true -> said (op, o) = [].
Proof.
  unfold said; cbn [fst snd]. induction o as [|a o IH]; auto. cbn [forallb flat_map]. intros H. apply andb_true_iff in H as [H1 H2].
  rewrite (IH H2). destruct a; try reflexivity; discriminate.
Qed.
Lemma said_app op a b : said (op, a ++ b) = said (op, a) ++ said (op, b). Proof. apply flat_map_app. Qed.

Lemma query_mute now x d d' st o : query_lease_set now x d = (d', st, o) -> forallb mute o = true.
Proof. intros H. apply query_facts in H as (_ & _ & [-> |[-> _]]); reflexivity. Qed.
Lemma send_mute now x st m r d d' o : send_inner now x st m r d = Some (d', o) -> forallb mute o = true.
Proof.
  unfold send_inner. destruct (nget x (d_remote d)) as [c|]; [|intros H; injection H as <- <-; reflexivity].
  destruct (ls_expired now (c_ls c)).
  - destruct (query_lease_set now x _) as [[d2 s2] o2] eqn:E. intros H; injection H as <- <-. eapply query_mute; eauto.
  - destruct st as [i o0|].
    + destruct (find_lease i (ls_leases (c_ls c))); [intros H; injection H as <- <-; reflexivity|].
      destruct (nget i (c_expiring c)); intros H; injection H as <- <-; reflexivity.
    + destruct (choose r (ls_leases (c_ls c))); [intros H; injection H as <- <-; reflexivity|discriminate].
Qed.
Lemma commands_mute now cs : forall d d' o, on_commands now cs d = (d', o) -> forallb mute o = true.
Proof.
  induction cs as [|c cs IH]; intros d d' o; cbn [on_commands]; [intros H; injection H as <- <-; reflexivity|].
  destruct (on_command now c d) as [d1 o1] eqn:E1. destruct (on_commands now cs d1) as [d2 o2] eqn:E2.
  intros H; apply pair_equal_spec in H as [<- <-]. rewrite forallb_app, (IH _ _ _ E2), andb_true_r.
  unfold on_command in E1. repeat match type of E1 with match ?x with _ => _ end = _ => destruct x eqn:? end;
    apply pair_equal_spec in E1 as [<- <-]; try reflexivity; eapply query_mute; eauto.
Qed.

Section WithDid.
Variable did : destination -> N.

Definition all_rel (d : dest) : Prop := forall r, exists s, rel r d s.
Lemma said_step d op d' o r busy : all_rel d -> dstep did d op = Some (d', o) -> (busy = true -> smem r (d_inflight d) = true) ->
  ok_words r busy (said (op, o)) = true /\ (after_words r busy (said (op, o)) = true -> smem r (d_inflight d') = true).
Proof.
  intros AR E B. destruct (AR r) as [s R]. pose proof (step_rel did d op d' o r s R E) as [_ R'].
  assert (Q : forallb mute o = true -> (looking s = true -> looking (learn did r s op o) = true) ->
    ok_words r busy (said (op, o)) = true /\ (after_words r busy (said (op, o)) = true -> smem r (d_inflight d') = true)).
  { intros M L. rewrite said_mute by auto. split; auto. cbn [after_words]. intros Hb. rewrite R'. apply L. rewrite <- (proj2 R). auto. }
  assert (P : match op with SendMessage _ _ _ _ _ | Clove _ _ | Result _ _ _ _ => False | _ => True end ->
    looking s = true -> looking (learn did r s op o) = true) by (intros X L; rewrite learn_plain by exact X; cbn; now rewrite L).
  destruct op; cbn [dstep] in E; try (apply Q; [injection E as <- <-; reflexivity|now apply P]).
  - unfold query_lease_set in E. destruct (smem remote (d_inflight d)) eqn:Ef.
    + injection E as <- <-. cbn. split; auto. destruct (N.eqb_spec remote r) as [->|]; auto.
    + destruct (match nget remote (d_remote d) with Some c => _ | None => _ end).
      * injection E as <- <-. cbn. destruct (N.eqb_spec remote r) as [->|]; cbn; [|auto].
        split; auto. destruct busy; auto. rewrite B in Ef; [discriminate|auto].
      * injection E as <- <-. cbn. rewrite smem_sadd. destruct (N.eqb_spec remote r) as [->|Hne]; cbn.
        -- rewrite N.eqb_refl. split; auto. destruct busy; auto. rewrite B in Ef; [discriminate|auto].
        -- split; auto. intros Hb. rewrite B by auto. apply orb_true_r.
  - apply Q; [eapply send_mute; eauto|]. intros L. unfold learn. destruct (_ && _); cbn; now rewrite L.
  - apply Q; [injection E as <- <-; reflexivity|]. intros L. unfold learn. destruct (_ && _); cbn; now rewrite L.
  - destruct (AR remote) as [sx Rx]. pose proof (on_result_out now remote res rs d d' o sx Rx E) as O. unfold result_spec in O.
    destruct (looking sx) eqn:Lx.
    + assert (H : said (Result now remote res rs, o) = [Came remote] \/ said (Result now remote res rs, o) = [Failed remote]).
      { destruct res as [ls|]; [|subst o; auto]. destruct (ls_expired now ls).
        - subst o. left. rewrite said_app. destruct (_ =? 0); reflexivity.
        - destruct O as (sent & -> & F). left. rewrite said_app, said_mute; [reflexivity|].
          clear - F. induction F as [|m o l l' (x & _ & ->)]; auto. }
      assert (G : busy && negb (remote =? r) = true -> smem r (d_inflight d') = true).
      { intros Hb. apply andb_true_iff in Hb as [Hb Hr]. apply negb_true_iff, N.eqb_neq in Hr. rewrite R'.
        assert (L : looking s = true) by (rewrite <- (proj2 R); auto). unfold learn.
        destruct (N.eqb_spec remote r); [congruence|]. destruct res; cbn; now rewrite L. }
      destruct H as [-> | ->]; cbn; split; auto.
    + subst o. apply Q; [reflexivity|]. intros L. unfold learn. destruct (N.eqb_spec remote r) as [->|]; cbn [andb].
      * rewrite <- (proj2 R), (proj2 Rx), Lx in L. discriminate.
      * destruct res; cbn; now rewrite L.
  - apply Q; [|now apply P]. injection E as E. eapply commands_mute; eauto.
  - apply Q; [|now apply P]. injection E as E. unfold use_handle in E.
    destruct (nget h (d_handles d)) as [[x hd]|]; [|apply pair_equal_spec in E as [<- <-]; auto].
    destruct (owner_op op); [|apply pair_equal_spec in E as [<- <-]; auto].
    destruct (hstep (Some hd) _) as [hd' o']. apply pair_equal_spec in E as [_ <-]. reflexivity.
Qed.

Lemma said_run r ops : forall d d' outs busy, all_rel d -> drun did d ops = Some (d', outs) -> (busy = true -> smem r (d_inflight d) = true) ->
  ok_words r busy (flat_map said (combine ops outs)) = true.
Proof.
  induction ops as [|op ops IH]; intros d d' outs busy AR E B; cbn [drun] in E; auto.
  destruct (dstep did d op) as [[d1 o]|] eqn:E1; [|discriminate]. destruct (drun did d1 ops) as [[d2 os]|] eqn:E2; [|discriminate].
  injection E as <- <-. cbn [combine flat_map]. rewrite ok_words_app. destruct (said_step d op d1 o r busy AR E1 B) as [-> B1]. cbn [andb].
  refine (IH d1 _ _ _ _ E2 B1). intros k. destruct (AR k) as [s R]. eexists. eapply step_rel; eauto.
Qed.
End WithDid.

(** ** ... and so is what its session hears *)
Lemma heard did d ops : forall busy b', ok_words d busy (flat_map (told did) ops) = true -> (b' = true -> busy = true) -> orderly d b' ops = true.
Proof.
  induction ops as [|op ops IH]; intros busy b' H B; auto.
  cbn [flat_map] in H. rewrite ok_words_app in H. apply andb_true_iff in H as [H1 H2].
  destruct op as [k d' o st|k|k|d' x st|name st value|d' value|d'|d' ob|d'|key v| |]; cbn [orderly told ok_words after_words ok_word after_word] in *;
    try (eapply IH; eassumption).
  - destruct (N.eqb_spec d' d) as [->|Hne]; cbn [andb] in *.
    + destruct st.
      * rewrite andb_true_r in H1. destruct b'; [rewrite B in H1 by auto; discriminate|]. cbn [negb andb]. eapply IH; eauto; discriminate.
      * eapply IH; eauto.
      * eapply IH; eauto.
    + eapply IH; eauto.
  - assert (exists b, ok_words d b (flat_map (told did) ops) = true /\ (busy = true -> b = true)) as (b & Hb & Hi); [|eapply IH; eauto].
    destruct (kind_of did name) as [|d'| |]; try (exists busy; split; [exact H2|auto]; fail). cbn [after_words after_word] in H2. eexists; split; [exact H2|].
    intros Hb. destruct (d' =? d); auto. destruct st; auto.
  - eapply IH; eauto. intros Hb. apply andb_true_iff in Hb as [Hb ->]. rewrite (B Hb). reflexivity.
  - eapply IH; eauto. intros Hb. apply andb_true_iff in Hb as [Hb ->]. rewrite (B Hb). reflexivity.
  - eapply IH; eauto. discriminate.
Qed.

(** ** Waiting sockets *)
Lemma waits_where s k : sorted (nkeys (x_out s)) -> (In k (waiting_socks s) <-> exists d, In k (map fst (ws (at_ s d)))).
Proof.
  intros Sd. unfold waiting_socks. rewrite in_flat_map. split.
  - intros ([d p] & H1 & H2). exists d. cbn [at_ ws]. rewrite waits_socks. cbn [snd] in H2.
    assert (E : entry d (x_out s) = p); [|now rewrite E]. unfold entry. rewrite (In_nget_nodup _ d p); auto. now apply sorted_NoDup.
  - intros (d & H). cbn [at_ ws] in H. rewrite waits_socks in H. unfold entry in H.
    destruct (nget d (x_out s)) as [p|] eqn:E; [|destruct H]. apply nget_In in E. exists (d, p). auto.
Qed.

(** ** Questions to the address book *)
Lemma futs_keep book did key n : forall ops c f next, nget key f = Some n -> key < next ->
  forallb (fun op => match op with XAnswer k _ => negb (k =? key) | XEnd => false | _ => true end) ops = true ->
  nget key (fst (futs_run book did c (f, next) ops)) = Some n.
Proof.
  induction ops as [|op ops IH]; intros c f next H L G; auto. cbn [forallb futs_run] in *. apply andb_true_iff in G as [G1 G2].
  destruct op; cbn [futs_step fst snd]; try (apply IH; auto; fail); try discriminate.
  - destruct (kind_of did name); try (apply IH; auto; fail). destruct (_ && _); [|apply IH; auto].
    apply IH; auto; [|lia]. rewrite nget_nput. destruct (N.eqb_spec key next); [lia|auto].
  - apply IH; auto. rewrite nget_ndel. rewrite N.eqb_sym. apply negb_true_iff in G1. now rewrite G1.
Qed.
