(** C39: a router can always be dialed again.  C54: messages of the tunnel subsystem wait for a
    connection, in order.  Statements use DialSpec.v and the state and events of DialModel.v. *)
From Coq Require Import List NArith Bool Lia.
From Verif Require Import NMap Bytes RouteProofs DialModel DialSpec DialProofs.
Import ListNotations.
Open Scope N_scope.

(** ** C39 *)
(** Whatever happens, there is never more than one session with a router, nor more than one
    handshake of ours, and the manager's list of connected routers is exactly the sessions. *)
Theorem C39_one_connection : forall ops s outs, trun t_new ops = (s, outs) ->
  NoDup (t_open s) /\ NoDup (t_dials s) /\ (forall r, In r (t_routers s) <-> In r (t_open s)).
Proof.
  intros ops s outs H. pose proof (inv_trun ops t_new inv_new) as I. rewrite H in I. destruct I; auto.
Qed.
Print Assumptions C39_one_connection.

(** While a router is connected, no other connection with it is accepted. *)
Theorem C39_second_connection_rejected : forall ops s outs d r, trun t_new ops = (s, outs) ->
  In r (t_open s) -> ~ In (TAccept d r) (snd (tstep s (DEstablished d r))).
Proof.
  intros ops s outs d r H O. pose proof (inv_trun ops t_new inv_new) as I. rewrite H in I. cbn [fst] in I.
  apply (i_same s I) in O. apply smem_in in O. destruct d; cbn [tstep]; [|destruct (smem r (t_dials s)); [|intros []]];
    unfold on_established; cbn [end_dial t_pending t_routers]; rewrite O; destruct (smem r (t_pending s)); intros [G|[]]; discriminate G.
Qed.
Print Assumptions C39_second_connection_rejected.

(** As long as no handshake of ours succeeds with a router that is connected already: whenever
    nothing is going on with a router, a request to connect to it starts a handshake, or the
    query for its router info; and a connection it makes is accepted.
    Missing from the full property: the runs with such a crossing, see below. *)
Theorem C39_redial_partial : forall ops s outs r, trun t_new ops = (s, outs) -> no_crossing t_new ops -> idle s r ->
  (forall room, In r (t_known s) -> snd (tstep s (DDial room r)) = [TConnect r]) /\
  (~ In r (t_known s) -> snd (tstep s (DDial true r)) = [TQuery r]) /\
  snd (tstep s (DEstablished DirIn r)) = [TAccept DirIn r].
Proof.
  intros ops s outs r H N (O & D & Q).
  pose proof (inv_trun ops t_new inv_new) as I.
  assert (T : tight t_new) by (intros x []).
  pose proof (tight_trun ops t_new inv_new T N) as T'. rewrite H in I, T'. cbn [fst] in I, T'.
  assert (P : smem r (t_pending s) = false) by (apply smem_not; intro X; destruct (T' r X); contradiction).
  assert (R : smem r (t_routers s) = false) by (apply smem_not; rewrite (i_same s I); exact O).
  cbn [tstep]. unfold on_dial, on_established. rewrite P, R.
  split; [|split; [|reflexivity]].
  - intros room K. apply smem_in in K. rewrite K. reflexivity.
  - intro K. apply smem_not in K, Q. rewrite K, Q. reflexivity.
Qed.
Print Assumptions C39_redial_partial.

(** Handshakes and queries that end leave nothing behind: in every state, after the failure of a
    handshake or of a query no handshake or query with the router is running; after the success
    of a query, a handshake is. *)
Theorem C39_attempts_end : forall ops s outs r, trun t_new ops = (s, outs) ->
  (In r (t_dials s) ->
     let s' := fst (tstep s (DFailure r)) in ~ In r (t_dials s') /\ ~ In r (t_queries s') /\ ~ In r (t_pending s')) /\
  (In r (t_queries s) ->
     let s' := fst (tstep s (DNotFound r)) in ~ In r (t_dials s') /\ ~ In r (t_queries s') /\ ~ In r (t_pending s')) /\
  (In r (t_queries s) -> In r (t_known s) -> forall room,
     snd (tstep s (DFound room r)) = [TConnect r]).
Proof.
  intros ops s outs r H. pose proof (inv_trun ops t_new inv_new) as I. rewrite H in I. cbn [fst] in I.
  pose proof I as [A B C D E F]. split; [|split].
  - intro X. pose proof X as X'. apply smem_in in X'. cbn [tstep]. rewrite X'.
    cbn [fst end_dial t_dials t_queries t_pending]. rewrite remove_one_in, sdel_in by assumption.
    split; [tauto|]. split; [now apply E | tauto].
  - intro X. pose proof X as X'. apply smem_in in X'. cbn [tstep]. rewrite X'.
    cbn [fst t_dials t_queries t_pending]. rewrite !sdel_in.
    split; [intro Y; now apply (E r) | tauto].
  - intros X K room. apply smem_in in X, K. cbn [tstep]. rewrite X. unfold on_dial. cbn [t_known t_pending]. rewrite K.
    destruct (smem r (sdel r (t_pending s))) eqn:Y; [apply smem_in, sdel_in in Y; tauto | reflexivity].
Qed.
Print Assumptions C39_attempts_end.

(** The full property is false.  A router connects to us,
    then we dial it (nothing checks that it is connected), the handshake succeeds, the second
    connection is closed, and the entry that says "being dialed" stays.  When the first
    connection ends the router can never be dialed again, and its own connections are rejected,
    in every continuation. *)
Theorem C39_redial_refuted : exists ops r, let s := fst (trun t_new ops) in
  idle s r /\ In r (t_known s) /\
  forall more, let outs := snd (trun s more) in
    ~ In (TConnect r) outs /\ ~ In (TQuery r) outs /\ ~ In (TAccept DirIn r) outs /\ ~ In (TAccept DirOut r) outs.
Proof.
  exists [DLearn 7; DEstablished DirIn 7; DDial true 7; DEstablished DirOut 7; DClosed 7], 7.
  cbn -[In trun]. split; [|split; [vm_compute; auto|]].
  - unfold idle. vm_compute. tauto.
  - intro more. set (s := fst _).
    assert (S : stuck s 7) by (unfold stuck; vm_compute; intuition discriminate).
    pose proof (stuck_trun more s 7 S) as E.
    assert (G : forall o, about 7 o = true -> ~ In o (snd (trun s more))).
    { intros o A X. assert (existsb (about 7) (snd (trun s more)) = true) by (apply existsb_exists; exists o; auto). congruence. }
    split; [|split; [|split]]; apply G; reflexivity.
Qed.
Print Assumptions C39_redial_refuted.

(** The same crossing when both sides dial at once is harmless: the router's connection is
    rejected because ours is in progress. *)
Example C39_hypotheses :
  let ops := [DLearn 7; DDial true 7; DEstablished DirIn 7; DFailure 7; DDial true 9; DLearn 9; DFound true 9;
              DEstablished DirOut 9; DClosed 9] in
  no_crossing t_new ops /\ idle (fst (trun t_new ops)) 7 /\ idle (fst (trun t_new ops)) 9 /\
  snd (trun t_new ops) = [TConnect 7; TReject DirIn 7; TQuery 9; TConnect 9; TAccept DirOut 9] /\
  snd (tstep (fst (trun t_new ops)) (DDial true 7)) = [TConnect 7].
Proof. vm_compute. intuition discriminate. Qed.

(** ** C54 *)
(** For every history and every router: what was handed over or dropped, followed by what waits,
    is exactly the letters given for that router, in order.  So none is duplicated, reordered,
    forgotten or sent to another router. *)
Theorem C54_in_order_and_accounted_for : forall self ops s outs r, urun (u_new self) ops = (s, outs) ->
  settled r outs ++ waiting r s = given r ops.
Proof.
  intros self ops s outs r H. pose proof (urun_settles ops (u_new self) r) as E. rewrite H in E. exact E.
Qed.
Print Assumptions C54_in_order_and_accounted_for.

(** A letter is handed over only to a session that exists. *)
Theorem C54_only_to_sessions : forall self ops o r x,
  In (UHanded r x) (snd (ustep (fst (urun (u_new self) ops)) o)) -> has_session r false (ops ++ [o]) = true.
Proof.
  intros self ops o r x H.
  assert (A : forall a b now, has_session r now (a ++ b) = has_session r (has_session r now a) b).
  { induction a as [|[| | |] a IH]; intros b now; cbn [app has_session]; auto. }
  rewrite A. pose proof (service_session ops (u_new self) r) as SS. cbn [u_new u_service] in SS. change (smem r []) with false in SS. rewrite <- SS.
  destruct (handed_needs_session _ _ _ _ H) as [E|[room ->]]; [|cbn [has_session]; now rewrite N.eqb_refl].
  rewrite E. destruct o as [room cmd y m|room y|y|y]; cbn [has_session]; try reflexivity.
  - destruct (y =? r); reflexivity.
  - exfalso. cbn [ustep snd] in H. unfold drop_pending in H. destruct (nget y _) as [[|p]|]; try destruct H.
    apply in_map_iff in H as (l & H & _). discriminate H.
Qed.
Print Assumptions C54_only_to_sessions.

Lemma flush_all s r p : forall room i, smem r (u_service s) = true -> (forall k, room k = true) ->
  flush s room i r p = map (UHanded r) p.
Proof.
  induction p as [|l t IH]; intros room i S R; [reflexivity|]. cbn [flush map]. unfold service_send.
  rewrite S, R. cbn [andb]. f_equal. now apply IH.
Qed.
(** When the router gets connected everything that waits is handed over, in order (as long as
    the session's channel takes it), and later letters are handed over at once until the next
    disconnection or dial failure. *)
Theorem C54_sent_when_connected : forall self ops s outs room r, urun (u_new self) ops = (s, outs) ->
  (forall k, room k = true) ->
  let '(s', u) := ustep s (UEstablished room r) in
  u = map (UHanded r) (waiting r s) /\ waiting r s' = [] /\
  forall more, (forall o, In o more -> o <> UClosed r /\ o <> UFailure r) ->
    forall l cmd, snd (ustep (fst (urun s' more)) (USend true cmd r l)) = [UHanded r l].
Proof.
  intros self ops s outs room r _ R. cbn [ustep]. split; [|split].
  - unfold waiting. destruct (nget r (u_routers s)) as [[|p]|]; try reflexivity.
    apply flush_all; [|exact R]. cbn [u_service]. apply smem_in, sadd_in. auto.
  - unfold waiting. cbn [u_routers]. now rewrite nget_nput, N.eqb_refl.
  - intros more M l cmd. set (s' := mkTunm _ _ _).
    assert (G : nget r (u_routers (fst (urun s' more))) = Some Connected /\ smem r (u_service (fst (urun s' more))) = true).
    { assert (P0 : nget r (u_routers s') = Some Connected /\ smem r (u_service s') = true).
      { split; [subst s'; cbn [u_routers]; now rewrite nget_nput, N.eqb_refl | apply smem_in, sadd_in; auto]. }
      clearbody s'. revert s' P0. induction more as [|o more IH]; intros s' [P0 P1]; cbn [urun]; [auto|].
      assert (P : nget r (u_routers (fst (ustep s' o))) = Some Connected /\ smem r (u_service (fst (ustep s' o))) = true).
      { destruct (M o (or_introl eq_refl)) as [M1 M2].
        destruct o as [rm cm y m|rm y|y|y]; cbn [ustep fst u_routers u_service].
        - unfold send_to. destruct (N.eqb_spec r y) as [->|NE].
          + rewrite P0. cbn [fst]. auto.
          + apply N.eqb_neq in NE. destruct (nget y (u_routers s')) as [[|p]|]; cbn [fst]; auto.
            * cbn [u_routers u_service]. rewrite nget_nput, NE. auto.
            * destruct (y =? u_self s'); cbn [fst u_routers u_service]; auto. rewrite nget_nput, NE. auto.
        - rewrite nget_nput. destruct (r =? y); (split; [auto|]); apply smem_in, sadd_in; right; now apply smem_in.
        - assert (NE : r <> y) by congruence. rewrite nget_ndel.
          split; [apply N.eqb_neq in NE; now rewrite NE|]. apply smem_in, sdel_in. split; [exact NE | now apply smem_in].
        - assert (NE : r <> y) by congruence. rewrite nget_ndel. apply N.eqb_neq in NE. rewrite NE. auto. }
      assert (M' : forall o0, In o0 more -> o0 <> UClosed r /\ o0 <> UFailure r) by (intros; apply M; now right).
      specialize (IH M'). destruct (ustep s' o) as [s1 u]. cbn [fst] in P. specialize (IH s1 P).
      destruct (urun s1 more). exact IH. }
    destruct G as [G1 G2]. cbn [ustep]. unfold send_to. rewrite G1. cbn [snd]. unfold service_send. now rewrite G2.
Qed.
Print Assumptions C54_sent_when_connected.

(** A dial failure or a disconnection settles all that waits: every sender's feedback channel is
    closed, and the next letter makes a new dial request. *)
Theorem C54_told_when_unreachable : forall self ops s outs r o, urun (u_new self) ops = (s, outs) ->
  o = UFailure r \/ o = UClosed r ->
  let '(s', u) := ustep s o in
  u = map (ULost r) (waiting r s) /\ waiting r s' = [] /\
  (r <> self -> has_session r false (ops ++ [o]) = false ->
   forall room l, snd (ustep s' (USend room true r l)) = [UDial r]).
Proof.
  intros self ops s outs r o H O.
  assert (A : forall a b now, has_session r now (a ++ b) = has_session r (has_session r now a) b).
  { induction a as [|[| | |] a IH]; intros b now; cbn [app has_session]; auto. }
  assert (SELF : u_self s = self).
  { assert (X : forall l s, u_self (fst (urun s l)) = u_self s).
    { clear. induction l as [|o l IH]; intro s; cbn [urun]; [reflexivity|].
      assert (u_self (fst (ustep s o)) = u_self s).
      { destruct o; try reflexivity. cbn [ustep]. unfold send_to.
        destruct (nget r (u_routers s)) as [[|]|]; try reflexivity. destruct (r =? u_self s); reflexivity. }
      destruct (ustep s o) as [s1 u]. cbn [fst] in H. specialize (IH s1). destruct (urun s1 l). cbn [fst] in *. congruence. }
    specialize (X ops (u_new self)). rewrite H in X. exact X. }
  pose proof (service_session (ops ++ [o]) (u_new self) r) as SS.
  assert (SV : u_service (fst (urun (u_new self) (ops ++ [o]))) = u_service (fst (ustep s o))).
  { assert (X : forall l t, fst (urun t (l ++ [o])) = fst (ustep (fst (urun t l)) o)).
    { clear. induction l as [|p l IH]; intro t; cbn [app urun].
      - cbn [fst]. destruct (ustep t o). reflexivity.
      - destruct (ustep t p) as [s1 u]. specialize (IH s1). destruct (urun s1 (l ++ [o])), (urun s1 l). exact IH. }
    rewrite X, H. reflexivity. }
  rewrite SV in SS.
  assert (MAIN : u_routers (fst (ustep s o)) = ndel r (u_routers s) /\ snd (ustep s o) = drop_pending r (nget r (u_routers s))
    /\ u_self (fst (ustep s o)) = u_self s) by (destruct O as [->| ->]; auto).
  destruct (ustep s o) as [s' u]. cbn [fst snd] in *. destruct MAIN as (M1 & -> & M2).
  assert (Z : nget r (u_routers s') = None) by (rewrite M1, nget_ndel, N.eqb_refl; reflexivity).
  split; [|split].
  - unfold waiting, drop_pending. destruct (nget r (u_routers s)) as [[|p]|]; reflexivity.
  - unfold waiting. now rewrite Z.
  - intros NS HS room l. cbn [ustep]. unfold send_to. rewrite Z.
    assert (E : (r =? u_self s') = false) by (apply N.eqb_neq; congruence). rewrite E. cbn [snd].
    unfold service_connect. cbn [u_service u_new] in SS. change (smem r []) with false in SS.
    rewrite SS, HS. reflexivity.
Qed.
Print Assumptions C54_told_when_unreachable.

(** In such histories, whenever the router has a session the letter is handed over at once.
    Missing: histories with late failures, see below. *)
Theorem C54_at_once_partial : forall self ops s outs r, urun (u_new self) ops = (s, outs) ->
  no_late_failure r false ops -> has_session r false ops = true ->
  forall cmd l, snd (ustep s (USend true cmd r l)) = [UHanded r l].
Proof.
  intros self ops s outs r H N S cmd l.
  pose proof (service_session ops (u_new self) r) as SS. rewrite H in SS. cbn [fst u_new u_service] in SS.
  change (smem r []) with false in SS. rewrite S in SS.
  assert (G : forall ops s, (smem r (u_service s) = true -> nget r (u_routers s) = Some Connected) ->
    no_late_failure r (smem r (u_service s)) ops ->
    smem r (u_service (fst (urun s ops))) = true -> nget r (u_routers (fst (urun s ops))) = Some Connected).
  { clear. induction ops as [|o ops IH]; intros s J N; cbn [urun]; [exact J|].
    destruct N as [N1 N2].
    pose proof (service_session [o] s r) as SV. cbn [urun] in SV.
    assert (J1 : smem r (u_service (fst (ustep s o))) = true -> nget r (u_routers (fst (ustep s o))) = Some Connected).
    { destruct o as [rm cm y m|rm y|y|y]; cbn [ustep fst u_routers u_service].
      - unfold send_to. destruct (N.eqb_spec r y) as [->|NE].
        + destruct (nget y (u_routers s)) as [[|p]|] eqn:E; cbn [fst u_service u_routers]; auto.
          * intro X. specialize (J X). discriminate J.
          * destruct (y =? u_self s); cbn [fst u_service u_routers]; intro X; specialize (J X); discriminate J.
        + apply N.eqb_neq in NE. destruct (nget y (u_routers s)) as [[|p]|]; cbn [fst]; auto.
          * cbn [u_routers u_service]. rewrite nget_nput, NE. auto.
          * destruct (y =? u_self s); cbn [fst u_routers u_service]; auto. rewrite nget_nput, NE. auto.
      - rewrite nget_nput. intro X. destruct (N.eqb_spec r y); [reflexivity|]. apply J.
        apply smem_in. apply smem_in, sadd_in in X as [X|X]; [contradiction | exact X].
      - intro X. apply smem_in, sdel_in in X as [X1 X2]. rewrite nget_ndel. apply N.eqb_neq in X1. rewrite X1.
        apply J. now apply smem_in.
      - intro X. rewrite nget_ndel. destruct (N.eqb_spec r y) as [->|NE]; [|now apply J]. exfalso. now apply N1. }
    destruct (ustep s o) as [s1 u]. cbn [fst] in *. rewrite <- SV in N2.
    specialize (IH s1 J1 N2). destruct (urun s1 ops). exact IH. }
  specialize (G ops (u_new self)). rewrite H in G. cbn [fst u_new u_service] in G. change (smem r []) with false in G.
  specialize (G ltac:(discriminate) N SS). cbn [ustep]. unfold send_to. rewrite G. cbn [snd]. unfold service_send. now rewrite SS.
Qed.
Print Assumptions C54_at_once_partial.

(** A dial failure that is reported after the router has connected (it connected to us meanwhile,
    or a crossing dial was rejected) makes the subsystem forget the connection: the next letter
    is not handed over although the session exists, no dial is requested, and however many more
    are sent, all of them wait. *)
Theorem C54_at_once_refuted : exists ops r l, let s := fst (urun (u_new 1) ops) in
  has_session r false ops = true /\
  snd (ustep s (USend true true r l)) = [] /\
  forall more, (forall o, In o more -> exists x, o = USend true true r x) ->
    snd (urun (fst (ustep s (USend true true r l))) more) = [].
Proof.
  exists [UEstablished (fun _ => true) 7; UFailure 7], 7, ([1; 2; 3], None).
  cbn -[urun ustep]. split; [reflexivity|]. split; [reflexivity|].
  intros more M. set (s := fst (ustep _ _)).
  assert (P : exists p, nget 7 (u_routers s) = Some (Dialing p)) by (eexists; vm_compute; reflexivity).
  clearbody s. revert s P. induction more as [|o more IH]; intros s [p P]; cbn [urun]; [reflexivity|].
  destruct (M o (or_introl eq_refl)) as [x ->]. cbn [ustep]. unfold send_to. rewrite P.
  specialize (IH ltac:(intros; apply M; now right) (mkTunm (u_self s) (nput 7 (Dialing (p ++ [x])) (u_routers s)) (u_service s))).
  destruct (urun _ more). cbn [snd app] in *. apply IH. cbn [u_routers]. rewrite nget_nput. exists (p ++ [x]). reflexivity.
Qed.
Print Assumptions C54_at_once_refuted.

(** And if the command channel of the transport manager is full at the first letter, the router
    counts as being dialed although nothing was requested: no later letter requests it either, so
    all wait until somebody else connects the router. *)
Theorem C54_waits_for_a_dial_refuted : exists s, exists l r,
  s = fst (urun (u_new 1) [USend true false r l]) /\ waiting r s = [l] /\
  forall more, (forall o, In o more -> exists x, o = USend true true r x) -> snd (urun s more) = [].
Proof.
  eexists _, ([1; 2; 3], None), 7. split; [reflexivity|]. split; [reflexivity|].
  intros more M. set (s := fst _).
  assert (P : exists p, nget 7 (u_routers s) = Some (Dialing p)) by (eexists; vm_compute; reflexivity).
  clearbody s. revert s P. induction more as [|o more IH]; intros s [p P]; cbn [urun]; [reflexivity|].
  destruct (M o (or_introl eq_refl)) as [x ->]. cbn [ustep]. unfold send_to. rewrite P.
  specialize (IH ltac:(intros; apply M; now right) (mkTunm (u_self s) (nput 7 (Dialing (p ++ [x])) (u_routers s)) (u_service s))).
  destruct (urun _ more). cbn [snd app] in *. apply IH. cbn [u_routers]. rewrite nget_nput. exists (p ++ [x]). reflexivity.
Qed.
Print Assumptions C54_waits_for_a_dial_refuted.

Example C54_hypotheses :
  let ops := [USend true true 7 ([1], Some 4); USend true true 9 ([2], None); USend true true 7 ([3], None);
              UEstablished (fun _ => true) 7; USend true true 7 ([5], Some 6); UFailure 9] in
  no_late_failure 7 false ops /\ has_session 7 false ops = true /\
  snd (urun (u_new 1) ops) =
    [UDial 7; UDial 9; UHanded 7 ([1], Some 4); UHanded 7 ([3], None); UHanded 7 ([5], Some 6); ULost 9 ([2], None)].
Proof. cbn -[urun]. split; [intuition discriminate|]. split; reflexivity. Qed.
