(** Proofs about dialing and waiting messages. *)
From Coq Require Import List NArith Bool Lia.
From Verif Require Import NMap Bytes RouteProofs DialModel DialSpec.
Import ListNotations.
Open Scope N_scope.

Lemma smem_in r l : smem r l = true <-> In r l.
Proof.
  induction l as [|x t IH]; cbn; [split; [discriminate | contradiction]|].
  rewrite orb_true_iff, IH, N.eqb_eq. split; intros [H|H]; auto.
Qed.
Lemma smem_not r l : smem r l = false <-> ~ In r l.
Proof. rewrite <- smem_in. destruct (smem r l); split; congruence. Qed.
Lemma sadd_in x r l : In x (sadd r l) <-> x = r \/ In x l.
Proof.
  induction l as [|y t IH]; cbn [sadd].
  - cbn. split; intros [H|H]; auto; contradiction.
  - destruct (r <? y); [cbn; split; intros [H|H]; auto|].
    destruct (N.eqb_spec r y); [subst; cbn; split; [auto | intros [->|H]; auto]|].
    cbn [In]. rewrite IH. tauto.
Qed.
Lemma sdel_in x r l : In x (sdel r l) <-> x <> r /\ In x l.
Proof.
  induction l as [|y t IH]; cbn [sdel]; [cbn; tauto|].
  destruct (N.eqb_spec r y) as [->|H]; cbn [In]; rewrite IH; [|split; intros; intuition congruence].
  split; [tauto|]. intros [H1 [H2|H2]]; [congruence | auto].
Qed.
Lemma remove_one_in x r l : NoDup l -> (In x (remove_one r l) <-> x <> r /\ In x l).
Proof.
  induction l as [|y t IH]; intro H; cbn [remove_one]; [cbn; tauto|].
  inversion H as [|? ? H1 H2]; subst. destruct (N.eqb_spec r y) as [->|E].
  - cbn [In]. split; [intro G; split; [intros ->; contradiction | auto] | intros [G1 [G2|G2]]; [congruence | auto]].
  - cbn [In]. rewrite IH by exact H2. split; intros; intuition congruence.
Qed.
Lemma remove_one_nodup r l : NoDup l -> NoDup (remove_one r l).
Proof.
  induction l as [|y t IH]; intro H; cbn [remove_one]; [constructor|].
  inversion H as [|? ? H1 H2]; subst. destruct (N.eqb_spec r y); [exact H2|].
  constructor; [|now apply IH]. intro G. apply remove_one_in in G; [|exact H2]. tauto.
Qed.

Ltac sets := rewrite ?sadd_in, ?sdel_in in *.
Ltac cases_smem := repeat match goal with
  | |- context [smem ?r ?l] => let H := fresh "M" in destruct (smem r l) eqn:H; [apply smem_in in H | apply smem_not in H]
  end.

(** ** The transport manager *)
Record inv (s : tman) : Prop := {
  i_dials : NoDup (t_dials s);
  i_open : NoDup (t_open s);
  i_same : forall r, In r (t_routers s) <-> In r (t_open s);
  i_cover : forall r, In r (t_dials s) \/ In r (t_queries s) -> In r (t_pending s);
  i_apart : forall r, In r (t_dials s) -> ~ In r (t_queries s);
  i_known : forall r, In r (t_dials s) -> In r (t_known s) }.

Lemma inv_new : inv t_new.
Proof. split; cbn; try constructor; tauto. Qed.

Lemma inv_dial s room r : inv s -> inv (fst (on_dial s room r)).
Proof.
  intros [A B C D E F]. unfold on_dial. cases_smem; cbn [fst]; try (split; assumption).
  - assert (~ In r (t_dials s)) by (intro; apply M0; apply D; auto).
    assert (~ In r (t_queries s)) by (intro; apply M0; apply D; auto).
    split; cbn [t_dials t_open t_routers t_pending t_queries t_known]; try assumption.
    + constructor; assumption.
    + intros x [[->|H1]|H1]; apply sadd_in; auto.
    + intros x [->|H1]; [assumption | now apply E].
    + intros x [->|H1]; [assumption | now apply F].
  - destruct room; cbn [fst]; [|split; assumption].
    split; cbn [t_dials t_open t_routers t_pending t_queries t_known]; try assumption.
    + intros x [H1|H1]; apply sadd_in; [right; auto|]. apply sadd_in in H1 as [->|H1]; auto.
    + intros x H1 H2. apply sadd_in in H2 as [->|H2]; [apply M; now apply F | now apply (E x)].
Qed.

Lemma inv_end s r : inv s -> inv (end_dial s r).
Proof.
  intros [A B C D E F]. unfold end_dial. split; cbn [t_dials t_open t_routers t_pending t_queries t_known]; try assumption.
  - now apply remove_one_nodup.
  - intros x [H|H]; apply D; [left; apply remove_one_in in H; tauto | auto].
  - intros x H. apply E. apply remove_one_in in H; tauto.
  - intros x H. apply F. apply remove_one_in in H; tauto.
Qed.

Lemma accept_inv s r : inv s -> ~ In r (t_dials s) -> ~ In r (t_queries s) -> ~ In r (t_routers s) ->
  inv (mkTman (t_known s) (sdel r (t_pending s)) (t_queries s) (sadd r (t_routers s)) (t_dials s) (r :: t_open s)).
Proof.
  intros [A B C D E F] H1 H2 H3. split; cbn [t_dials t_open t_routers t_pending t_queries t_known]; try assumption.
  - constructor; [now rewrite <- C | assumption].
  - intro x. rewrite sadd_in. cbn [In]. rewrite C. split; intros [->|G]; auto.
  - intros x H. apply sdel_in. split; [|now apply D]. intros ->. tauto.
Qed.

Lemma inv_tstep s o : inv s -> inv (fst (tstep s o)).
Proof.
  intro I. pose proof I as [A B C D E F].
  destruct o as [r|room r|[|] r|r|r|room r|r]; cbn [tstep].
  - cbn [fst]. split; cbn [t_dials t_open t_routers t_pending t_queries t_known]; try assumption.
    intros x H. apply sadd_in. auto.
  - apply inv_dial, I.
  - unfold on_established. cases_smem; cbn [fst]; try exact I.
    apply accept_inv; auto.
  - cases_smem; cbn [fst]; [|exact I]. unfold on_established. pose proof (inv_end s r I) as I'.
    cases_smem; cbn [fst]; try exact I'. apply accept_inv; auto; cbn [end_dial t_dials t_queries].
    rewrite remove_one_in by assumption. tauto.
  - cases_smem; cbn [fst]; [|exact I]. pose proof (inv_end s r I) as [A' B' C' D' E' F'].
    split; cbn [t_dials t_open t_routers t_pending t_queries t_known]; try assumption.
    intros x H. apply sdel_in. split; [|now apply D']. intros ->. destruct H as [H|H].
    + cbn [end_dial t_dials] in H. apply remove_one_in in H; tauto.
    + cbn [end_dial t_queries] in H. now apply (E r).
  - cases_smem; cbn [fst]; [|exact I].
    split; cbn [t_dials t_open t_routers t_pending t_queries t_known]; try assumption.
    + now apply remove_one_nodup.
    + intro x. rewrite sdel_in, remove_one_in, C by assumption. tauto.
  - cases_smem; cbn [fst]; [|exact I]. apply inv_dial.
    split; cbn [t_dials t_open t_routers t_pending t_queries t_known]; try assumption.
    + intros x H. sets. assert (x <> r) by (intros ->; destruct H as [H|H]; [now apply (E r) | tauto]).
      split; [assumption|]. apply D. tauto.
    + intros x H1 H2. sets. apply (E x); tauto.
  - cases_smem; cbn [fst]; [|exact I].
    split; cbn [t_dials t_open t_routers t_pending t_queries t_known]; try assumption.
    + intros x H. sets. assert (x <> r) by (intros ->; destruct H as [H|H]; [now apply (E r) | tauto]).
      split; [assumption|]. apply D. tauto.
    + intros x H1 H2. sets. apply (E x); tauto.
Qed.

Lemma inv_trun l : forall s, inv s -> inv (fst (trun s l)).
Proof.
  induction l as [|o l IH]; intros s I; cbn [trun]; [exact I|].
  pose proof (inv_tstep s o I) as I1. destruct (tstep s o) as [s1 u]. cbn [fst] in I1.
  specialize (IH s1 I1). destruct (trun s1 l). exact IH.
Qed.

(** Without crossing connections a pending entry always has a reason. *)
Definition tight (s : tman) : Prop := forall r, In r (t_pending s) -> In r (t_dials s) \/ In r (t_queries s).

Lemma tight_dial s room r : tight s -> tight (fst (on_dial s room r)).
Proof.
  intros T. unfold on_dial. cases_smem; cbn [fst]; try exact T.
  - intros x H. cbn [t_pending t_dials t_queries] in *. apply sadd_in in H as [->|H]; [left; now left|].
    destruct (T x H); [left; now right | auto].
  - destruct room; cbn [fst]; [|exact T]. intros x H. cbn [t_pending t_dials t_queries] in *.
    rewrite sadd_in. apply sadd_in in H as [->|H]; [auto|]. destruct (T x H); auto.
Qed.

Lemma tight_tstep s o : inv s -> tight s ->
  match o with DEstablished DirOut r => ~ (In r (t_dials s) /\ In r (t_open s)) | _ => True end ->
  tight (fst (tstep s o)).
Proof.
  intros I T N. pose proof I as [A B C D E F].
  destruct o as [r|room r|[|] r|r|r|room r|r]; cbn [tstep].
  - exact T.
  - apply tight_dial, T.
  - unfold on_established. cases_smem; cbn [fst]; try exact T.
    intros x H. cbn [t_pending t_dials t_queries] in *. apply sdel_in in H. apply T. tauto.
  - cases_smem; cbn [fst]; [|exact T]. unfold on_established. cbn [end_dial t_pending t_routers].
    assert (P : In r (t_pending s)) by (apply D; auto).
    assert (Q : ~ In r (t_routers s)) by (rewrite C; tauto).
    cases_smem; try contradiction. cbn [fst].
    intros x H. cbn [end_dial t_pending t_dials t_queries] in *. apply sdel_in in H as [H1 H2].
    rewrite remove_one_in by assumption. destruct (T x H2); auto.
  - cases_smem; cbn [fst]; [|exact T]. intros x H. cbn [end_dial t_pending t_dials t_queries] in *.
    apply sdel_in in H as [H1 H2]. rewrite remove_one_in by assumption. destruct (T x H2); auto.
  - cases_smem; exact T.
  - cases_smem; cbn [fst]; [|exact T]. apply tight_dial. intros x H. cbn [t_pending t_dials t_queries] in *.
    rewrite sdel_in. apply sdel_in in H as [H1 H2]. destruct (T x H2); auto.
  - cases_smem; cbn [fst]; [|exact T]. intros x H. cbn [t_pending t_dials t_queries] in *.
    rewrite sdel_in. apply sdel_in in H as [H1 H2]. destruct (T x H2); auto.
Qed.

Lemma tight_trun l : forall s, inv s -> tight s -> no_crossing s l -> tight (fst (trun s l)).
Proof.
  induction l as [|o l IH]; intros s I T N; cbn [trun]; [exact T|]. cbn [no_crossing] in N. destruct N as [N1 N2].
  pose proof (inv_tstep s o I) as I1. pose proof (tight_tstep s o I T N1) as T1.
  destruct (tstep s o) as [s1 u]. cbn [fst] in *. specialize (IH s1 I1 T1 N2). destruct (trun s1 l). exact IH.
Qed.

(** A pending entry without a reason stays, and nothing is ever done about that router again. *)
Definition stuck (s : tman) (r : N) : Prop :=
  In r (t_known s) /\ In r (t_pending s) /\ ~ In r (t_dials s) /\ ~ In r (t_queries s).
Definition about (r : N) (o : tout) : bool :=
  match o with TConnect r' | TQuery r' | TAccept _ r' => r' =? r | _ => false end.

Lemma stuck_dial s room x r : stuck s r -> stuck (fst (on_dial s room x)) r /\ existsb (about r) (snd (on_dial s room x)) = false.
Proof.
  intros (K & P & D & Q). unfold on_dial. cases_smem; cbn [fst snd existsb about orb];
    try (split; [unfold stuck; tauto | reflexivity]).
  - assert (x <> r) by (intros ->; contradiction). split; [|apply N.eqb_neq in H; now rewrite H].
    unfold stuck. cbn [t_known t_pending t_dials t_queries In]. rewrite sadd_in. intuition congruence.
  - destruct room; cbn [fst snd existsb about orb]; [|split; [unfold stuck; tauto | reflexivity]].
    assert (x <> r) by (intros ->; contradiction). split; [|apply N.eqb_neq in H; now rewrite H].
    unfold stuck. cbn [t_known t_pending t_dials t_queries In]. rewrite !sadd_in. intuition congruence.
Qed.
Lemma in_remove_one x r l : In x (remove_one r l) -> In x l.
Proof.
  induction l as [|y t IH]; cbn [remove_one]; [auto|]. destruct (r =? y); cbn [In]; [auto|]. intros [H|H]; auto.
Qed.
Lemma stuck_tstep s o r : stuck s r -> stuck (fst (tstep s o)) r /\ existsb (about r) (snd (tstep s o)) = false.
Proof.
  intros S. pose proof S as (K & P & D & Q).
  destruct o as [x|room x|[|] x|x|x|room x|x]; cbn [tstep].
  - split; [|reflexivity]. unfold stuck. cbn [fst t_known t_pending t_dials t_queries]. rewrite sadd_in. tauto.
  - apply stuck_dial, S.
  - unfold on_established. cases_smem; cbn [fst snd existsb about orb]; try (split; [exact S | reflexivity]).
    assert (x <> r) by (intros ->; contradiction). split; [|apply N.eqb_neq in H; now rewrite H].
    unfold stuck. cbn [t_known t_pending t_dials t_queries]. rewrite sdel_in. intuition congruence.
  - cases_smem; cbn [fst snd existsb about orb]; [|split; [exact S | reflexivity]].
    assert (N : x <> r) by (intros ->; contradiction).
    assert (S' : stuck (end_dial s x) r).
    { unfold stuck, end_dial. cbn [t_known t_pending t_dials t_queries].
      split; [exact K|]. split; [exact P|]. split; [|exact Q]. intro H. apply in_remove_one in H. contradiction. }
    unfold on_established. cases_smem; cbn [fst snd existsb about orb]; try (split; [exact S' | reflexivity]).
    split; [|apply N.eqb_neq in N; now rewrite N]. destruct S' as (K' & P' & D' & Q').
    unfold stuck. cbn [t_known t_pending t_dials t_queries]. rewrite sdel_in. intuition congruence.
  - cases_smem; cbn [fst snd existsb]; [|split; [exact S | reflexivity]]. split; [|reflexivity].
    assert (N : x <> r) by (intros ->; contradiction).
    unfold stuck, end_dial. cbn [t_known t_pending t_dials t_queries]. rewrite sdel_in.
    split; [exact K|]. split; [auto|]. split; [|exact Q]. intro H. apply in_remove_one in H. contradiction.
  - cases_smem; cbn [fst snd existsb]; split; try reflexivity; exact S.
  - cases_smem; cbn [fst snd existsb]; [|split; [exact S | reflexivity]]. apply stuck_dial.
    assert (N : x <> r) by (intros ->; contradiction).
    unfold stuck. cbn [t_known t_pending t_dials t_queries]. rewrite !sdel_in. intuition congruence.
  - cases_smem; cbn [fst snd existsb about orb]; [|split; [exact S | reflexivity]]. split; [|reflexivity].
    assert (N : x <> r) by (intros ->; contradiction).
    unfold stuck. cbn [t_known t_pending t_dials t_queries]. rewrite !sdel_in. intuition congruence.
Qed.
Lemma stuck_trun l : forall s r, stuck s r -> existsb (about r) (snd (trun s l)) = false.
Proof.
  induction l as [|o l IH]; intros s r S; cbn [trun]; [reflexivity|].
  destruct (stuck_tstep s o r S) as [S1 E1]. destruct (tstep s o) as [s1 u]. cbn [fst snd] in *.
  specialize (IH s1 r S1). destruct (trun s1 l) as [s2 v]. cbn [snd] in *. now rewrite existsb_app, E1, IH.
Qed.

(** ** The tunnel manager *)
Lemma settled_app r a b : settled r (a ++ b) = settled r a ++ settled r b.
Proof. apply flat_map_app. Qed.
Lemma settled_send r s room x l : settled r [service_send s room x l] = if x =? r then [l] else [].
Proof. unfold service_send. destruct (smem x (u_service s) && room); cbn; now rewrite app_nil_r. Qed.
Lemma settled_flush r s room x p : forall i, settled r (flush s room i x p) = if x =? r then p else [].
Proof.
  induction p as [|l t IH]; intro i; cbn [flush]; [now destruct (x =? r)|].
  change (service_send s (room i) x l :: flush s room (i + 1) x t) with ([service_send s (room i) x l] ++ flush s room (i + 1) x t).
  rewrite settled_app, settled_send, IH. destruct (x =? r); reflexivity.
Qed.
Lemma settled_lost r x p : settled r (map (ULost x) p) = if x =? r then p else [].
Proof.
  induction p as [|l t IH]; [now destruct (x =? r)|]. cbn [map]. unfold settled in *. cbn [flat_map].
  rewrite IH. destruct (x =? r); reflexivity.
Qed.

Lemma ustep_settles s o r :
  settled r (snd (ustep s o)) ++ waiting r (fst (ustep s o)) = waiting r s ++ given r [o].
Proof.
  destruct o as [room cmd x l|room x|x|x]; cbn [ustep].
  - unfold send_to, given. cbn [flat_map]. rewrite app_nil_r. destruct (nget x (u_routers s)) as [[|p]|] eqn:E.
    + cbn [fst snd]. rewrite settled_send. unfold waiting. destruct (N.eqb_spec x r) as [->|N].
      * rewrite E. reflexivity.
      * cbn [app]. now rewrite app_nil_r.
    + cbn [fst snd settled flat_map app]. unfold waiting. cbn [u_routers]. rewrite nget_nput, (N.eqb_sym r x).
      destruct (N.eqb_spec x r) as [->|N]; [now rewrite E | now rewrite app_nil_r].
    + destruct (x =? u_self s).
      * cbn [fst snd settled flat_map]. rewrite app_nil_r. unfold waiting. destruct (N.eqb_spec x r) as [->|N].
        -- rewrite E. reflexivity.
        -- cbn [app]. now rewrite app_nil_r.
      * cbn [fst snd]. assert (Z : settled r (service_connect s cmd x) = []).
        { unfold service_connect. destruct (smem x (u_service s)); [reflexivity|]. destruct cmd; reflexivity. }
        rewrite Z. cbn [app]. unfold waiting. cbn [u_routers]. rewrite nget_nput, (N.eqb_sym r x).
        destruct (N.eqb_spec x r) as [->|N]; [now rewrite E | now rewrite app_nil_r].
  - cbn [fst snd given flat_map]. rewrite app_nil_r. unfold waiting at 1. cbn [u_routers]. rewrite nget_nput, (N.eqb_sym r x).
    destruct (N.eqb_spec x r) as [->|N].
    + rewrite app_nil_r. unfold waiting. destruct (nget r (u_routers s)) as [[|p]|]; try reflexivity.
      rewrite settled_flush, N.eqb_refl. reflexivity.
    + assert (Z : settled r match nget x (u_routers s) with
        | Some (Dialing p) => flush (mkTunm (u_self s) (nput x Connected (u_routers s)) (sadd x (u_service s))) room 0 x p
        | _ => [] end = []).
      { destruct (nget x (u_routers s)) as [[|p]|]; try reflexivity. rewrite settled_flush.
        apply N.eqb_neq in N. now rewrite N. }
      rewrite Z. reflexivity.
  - cbn [fst snd given flat_map]. rewrite app_nil_r. unfold waiting at 1. cbn [u_routers]. rewrite nget_ndel, (N.eqb_sym r x).
    unfold drop_pending, waiting. destruct (N.eqb_spec x r) as [->|N].
    + rewrite app_nil_r. destruct (nget r (u_routers s)) as [[|p]|]; try reflexivity.
      now rewrite settled_lost, N.eqb_refl.
    + apply N.eqb_neq in N. destruct (nget x (u_routers s)) as [[|p]|]; try reflexivity. now rewrite settled_lost, N.
  - cbn [fst snd given flat_map]. rewrite app_nil_r. unfold waiting at 1. cbn [u_routers]. rewrite nget_ndel, (N.eqb_sym r x).
    unfold drop_pending, waiting. destruct (N.eqb_spec x r) as [->|N].
    + rewrite app_nil_r. destruct (nget r (u_routers s)) as [[|p]|]; try reflexivity.
      now rewrite settled_lost, N.eqb_refl.
    + apply N.eqb_neq in N. destruct (nget x (u_routers s)) as [[|p]|]; try reflexivity. now rewrite settled_lost, N.
Qed.

Lemma urun_settles l : forall s r,
  settled r (snd (urun s l)) ++ waiting r (fst (urun s l)) = waiting r s ++ given r l.
Proof.
  induction l as [|o l IH]; intros s r; cbn [urun]; [cbn; now rewrite app_nil_r|].
  pose proof (ustep_settles s o r) as E. destruct (ustep s o) as [s1 u]. cbn [fst snd] in E.
  specialize (IH s1 r). destruct (urun s1 l) as [s2 v]. cbn [fst snd] in *.
  rewrite settled_app, <- app_assoc, IH, app_assoc, E, <- app_assoc. f_equal.
  change (o :: l) with ([o] ++ l). unfold given. now rewrite flat_map_app.
Qed.

(** The service knows exactly the sessions that exist. *)
Lemma service_session l : forall s r, smem r (u_service (fst (urun s l))) = has_session r (smem r (u_service s)) l.
Proof.
  assert (add : forall x r l, smem r (sadd x l) = if x =? r then true else smem r l).
  { clear l. intros x r l. destruct (N.eqb_spec x r) as [->|N].
    - apply smem_in, sadd_in. auto.
    - destruct (smem r l) eqn:E; [apply smem_in, sadd_in; right; now apply smem_in|].
      apply smem_not. rewrite sadd_in. apply smem_not in E. intuition congruence. }
  assert (del : forall x r l, smem r (sdel x l) = if x =? r then false else smem r l).
  { clear l. intros x r l. destruct (N.eqb_spec x r) as [->|N].
    - apply smem_not. rewrite sdel_in. tauto.
    - destruct (smem r l) eqn:E; [apply smem_in, sdel_in; split; [congruence | now apply smem_in]|].
      apply smem_not. rewrite sdel_in. apply smem_not in E. tauto. }
  induction l as [|o l IH]; intros s r; cbn [urun]; [reflexivity|].
  assert (E : smem r (u_service (fst (ustep s o))) =
    match o with UEstablished _ x => if x =? r then true else smem r (u_service s)
               | UClosed x => if x =? r then false else smem r (u_service s) | _ => smem r (u_service s) end).
  { destruct o as [room cmd x m|room x|x|x]; cbn [ustep fst u_service]; [| apply add | apply del | reflexivity].
    unfold send_to. destruct (nget x (u_routers s)) as [[|p]|]; try reflexivity. destruct (x =? u_self s); reflexivity. }
  destruct (ustep s o) as [s1 u]. cbn [fst] in E. specialize (IH s1 r). destruct (urun s1 l) as [s2 v]. cbn [fst] in *.
  rewrite IH, E. destruct o; reflexivity.
Qed.

Lemma handed_needs_session s o r x : In (UHanded r x) (snd (ustep s o)) ->
  smem r (u_service s) = true \/ exists room, o = UEstablished room r.
Proof.
  intro H. destruct o as [room cmd y m|room y|y|y]; cbn [ustep] in H.
  - unfold send_to in H. destruct (nget y (u_routers s)) as [[|p]|].
    + cbn [snd] in H. unfold service_send in H. destruct (smem y (u_service s)) eqn:E; cbn [andb] in H.
      * destruct room; destruct H as [H|[]]; [injection H as -> ->; auto | discriminate H].
      * destruct H as [H|[]]; discriminate H.
    + destruct H.
    + destruct (y =? u_self s); cbn [snd] in H; [destruct H as [H|[]]; discriminate H|].
      unfold service_connect in H. destruct (smem y (u_service s)); [destruct H|]. destruct cmd; [destruct H as [H|[]]; discriminate H | destruct H].
  - right. exists room. cbn [snd] in H. destruct (nget y (u_routers s)) as [[|p]|]; try destruct H.
    f_equal. revert H. generalize 0. induction p as [|l0 t IH]; intros i H; [destruct H|]. cbn [flush] in H.
    destruct H as [H|H]; [|eapply IH; exact H]. unfold service_send in H. destruct (_ && _); [|discriminate H].
    now injection H as -> ->.
  - cbn [snd drop_pending] in H. unfold drop_pending in H. destruct (nget y (u_routers s)) as [[|p]|]; try destruct H.
    apply in_map_iff in H as (l & H & _). discriminate H.
  - cbn [snd drop_pending] in H. unfold drop_pending in H. destruct (nget y (u_routers s)) as [[|p]|]; try destruct H.
    apply in_map_iff in H as (l & H & _). discriminate H.
Qed.
