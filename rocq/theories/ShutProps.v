(** * C121-C124: shutting down, what the user is told, and which subsystem gets a message. *)
From Coq Require Import List NArith Bool Arith Lia Permutation.
From Verif Require Import ShutModel ShutSpec ShutProofs ShutProofs2 ShutProofs3 ShutProofs4.
Import ListNotations.
Open Scope nat_scope.

(** ** C121: a graceful shutdown waits for the transit tunnels *)

(** The router's future is ready, with its transports still running, only if shutdown was asked for
    at least twice, or once and every transit tunnel taken on has ended (or the task that keeps them
    has ended by itself). *)
Theorem C121_done_only : forall (name : Type) conf os (r : router name) tr fired r',
  rrun conf router0 os = (r, tr) -> rstep conf r (RPoll fired false) = (r', RReady true) ->
  shutdowns tr >= 2 \/
  (shutdowns tr = 1 /\ (gone tr \/ Permutation (accepted tr) (ended tr))).
Proof. intros name. exact router_done_only. Qed.
Print Assumptions C121_done_only.

(** It is ready once shutdown was asked for, the manager was polled with every tunnel it took on
    having ended, and the task waiting for its answer ran. *)
Theorem C121_done_when : forall (name : Type) conf os (r : router name) tr q l r1 x1 r2 x2 fired tdone,
  rrun conf router0 os = (r, tr) -> shutdowns tr >= 1 ->
  rstep conf r (RTransit q l) = (r1, x1) ->
  gone tr \/ Permutation (accepted (tr ++ [(RTransit q l, x1)])) (ended (tr ++ [(RTransit q l, x1)])) ->
  rstep conf r1 RFinish = (r2, x2) ->
  exists r3, rstep conf r2 (RPoll fired tdone) = (r3, RReady true).
Proof. intros name. exact router_done_when. Qed.
Print Assumptions C121_done_when.

(** Asked twice, it is ready at once, whatever the tunnels do. *)
Theorem C121_at_once : forall (name : Type) conf os (r : router name) tr fired tdone,
  rrun conf router0 os = (r, tr) -> shutdowns tr >= 2 ->
  exists r', rstep conf r (RPoll fired tdone) = (r', RReady true).
Proof. intros name. exact router_at_once. Qed.
Print Assumptions C121_at_once.

(** Once the manager was polled after shutdown was asked for, no transit tunnel is taken on. *)
Theorem C121_no_more : forall (name : Type) conf os1 os2 q l (r : router name) tr,
  rrun conf router0 (os1 ++ [RTransit q l]) = (r, tr) -> In RShutdown os1 ->
  forall r' tr', rrun conf r os2 = (r', tr') -> accepted tr' = [].
Proof. intros name. exact router_no_more. Qed.
Print Assumptions C121_no_more.

(** Before that, a request is taken on unless transit tunnels are off or at their maximum. *)
Theorem C121_taken_on : forall (name : Type) conf os (r : router name) tr id r' x,
  rrun conf router0 os = (r, tr) -> shutdowns tr = 0 -> ~ gone tr ->
  rstep conf r (RTransit [id] []) = (r', x) ->
  x = RTunnels (match conf with
                | None => []
                | Some None => [id]
                | Some (Some m) => if m <=? length (accepted tr) - length (ended tr) then [] else [id]
                end) [].
Proof.
  intros name conf os r tr id r' x R S G H. pose proof (rinv_run _ _ _ _ R) as V.
  rewrite <- (v_cnt _ _ V) in S. unfold rstep, tm_poll in H.
  pose proof (v_bal _ _ V G) as B. apply Permutation_length in B. rewrite app_length in B.
  assert (Al : t_alive (r_tm r) = true).
  { clear -R G S. destruct (t_alive (r_tm r)) eqn:A; [reflexivity|exfalso].
    revert r tr R G S A. induction os as [|o os IH] using rev_ind; intros r tr R G S A.
    - apply pair_equal_spec in R as [<- _]. discriminate.
    - rewrite rrun_app in R. destruct (rrun conf router0 os) as [ra ta] eqn:E. cbn [rrun] in R.
      destruct (rstep conf ra o) as [rb x] eqn:St. apply pair_equal_spec in R as [<- <-].
      pose proof (rinv_run _ _ _ _ E) as V. pose proof (rinv_step _ _ _ _ _ _ V St) as Vb.
      assert (Sa : r_count ra = 0).
      { rewrite (v_cnt _ _ Vb), shutdowns_snoc in S. rewrite (v_cnt _ _ V). lia. }
      assert (Ga : ~ gone ta) by (intros X; apply G, gone_snoc; auto).
      destruct (t_alive (r_tm ra)) eqn:Aa; [|apply (IH _ _ eq_refl Ga Sa Aa)].
      destruct (v_live _ _ V Aa) as [[H0 _]|[X _]]; [|lia].
      destruct o; unfold rstep in St.
      + apply pair_equal_spec in St as [<- _]. unfold r_shutdown in A. destruct (Nat.eqb _ 1); cbn [r_tm] in A; congruence.
      + unfold r_poll in St. destruct (IMMEDIATE <=? r_count ra); [apply pair_equal_spec in St as [<- _]; congruence|].
        destruct (ctx_poll (r_ctx ra)) as [c b]. destruct b; apply pair_equal_spec in St as [<- _]; cbn [r_tm] in A; congruence.
      + unfold tm_poll in St. rewrite Aa in St. cbn [negb] in St.
        destruct (accept_all _ _ _ _) as [ts acc]. unfold handle_poll in St. rewrite H0 in St.
        assert (X : is_shutting_down (r_ctx ra) = false) by (unfold is_shutting_down; rewrite H0; reflexivity).
        rewrite X in St. destruct (expire_all false ends ts) as [res l] eqn:Ex. apply expire_all_spec in Ex.
        destruct res; [|destruct Ex; discriminate]. apply pair_equal_spec in St as [<- _]. discriminate.
      + apply G, gone_snoc. auto.
      + apply pair_equal_spec in St as [<- _]. cbn [r_tm] in A. congruence.
      + apply pair_equal_spec in St as [<- _]. cbn [r_tm] in A. congruence.
      + destruct (em_recv (r_em ra)). apply pair_equal_spec in St as [<- _]. cbn [r_tm] in A. congruence. }
  rewrite Al in H. cbn [negb] in H.
  destruct (v_live _ _ V Al) as [[H0 _]|[X _]]; [|lia].
  assert (Sd : is_shutting_down (r_ctx r) = false) by (unfold is_shutting_down; rewrite H0; reflexivity).
  unfold handle_poll in H. rewrite H0 in H. cbn [accept_all] in H. unfold can_accept in H. rewrite Sd in H.
  replace (length (accepted tr) - length (ended tr)) with (length (t_tunnels (r_tm r))) by lia.
  destruct conf as [[m|]|].
  - destruct (m <=? length (t_tunnels (r_tm r))); cbn [negb expire_all] in H; apply pair_equal_spec in H as [_ <-]; reflexivity.
  - cbn [expire_all] in H. apply pair_equal_spec in H as [_ <-]. reflexivity.
  - cbn [expire_all] in H. apply pair_equal_spec in H as [_ <-]. reflexivity.
Qed.
Print Assumptions C121_taken_on.

(** Two tunnels are taken on, a third is over the maximum; shutdown is asked for; a fourth comes
    just before the manager is told, a fifth is refused; the router is ready when the last has
    ended. *)
Example C121_case :
  let os := [RTransit [1; 2; 3]%N []; RShutdown; RPoll false false; RTransit [4]%N [1]%N; RTransit [5]%N [2; 7]%N;
             RFinish; RPoll false false] in
  snd (rrun (Some (Some 2)) (router0 : router nat) (os ++ [RTransit [] []; RFinish; RPoll true false])) =
  combine (os ++ [RTransit [] []; RFinish; RPoll true false])
    [RTunnels [1; 2]%N []; RNone; RReady false; RTunnels [] [1]%N; RTunnels [] [2]%N; RNone; RReady true;
     RTunnels [] []; RNone; RReady true].
Proof. vm_compute. reflexivity. Qed.

(** ** C122: shutting down asks every holder of a handle, and waits for all of them *)

(** The context is ready only if shutdown was called and every handle given out before it was called
    has been dropped, or its holder, once told, has said it is ready. *)
Theorem C122_done_only : forall os c tr c',
  wrun ctx0 os = (c, tr) -> wstep c WPoll = (c', OReady) ->
  shut_called tr /\ forall i, asked i tr -> dropped i tr \/ answered i tr.
Proof. exact done_only. Qed.
Print Assumptions C122_done_only.

(** And then it is ready, once the tasks that wait for the answers ran. *)
Theorem C122_done_when : forall os c tr l c1 tr1,
  wrun ctx0 os = (c, tr) -> shut_called tr ->
  (forall i, asked i tr -> dropped i tr \/ answered i tr) ->
  (forall i, issued i tr -> In i l) -> wrun c (map WFinish l) = (c1, tr1) ->
  exists c2, wstep c1 WPoll = (c2, OReady).
Proof. exact done_when. Qed.
Print Assumptions C122_done_when.

(** A holder is told when it polls its handle after shutdown was called, once. *)
Theorem C122_told : forall os c tr i,
  wrun ctx0 os = (c, tr) -> issued i tr -> ~ dropped i tr ->
  (snd (wstep c (WHPoll i)) = OReady <-> asked i tr /\ ~ told i tr).
Proof. exact told_iff. Qed.
Print Assumptions C122_told.

(** No wake-up is lost: if the context was pending and would now be ready, whoever polled it has
    been woken since. *)
Theorem C122_woken : forall c c1 os c2 tr c3,
  wstep c WPoll = (c1, OPending) -> (forall o, In o os -> o <> WPoll) -> wrun c1 os = (c2, tr) ->
  wstep c2 WPoll = (c3, OReady) -> exists o, In (o, ONone true) tr.
Proof. intros c c1 os c2 tr c3 P NP R F. eapply woken; eauto. eapply pending_awake. exact P. Qed.
Print Assumptions C122_woken.

(** Three handles; one is dropped before the call, one after it, one answers; a fourth comes too
    late to be asked. *)
Definition ex_w : list wop :=
  [WHandle; WHandle; WHandle; WPoll; WDrop 0; WShut; WHandle; WPoll; WHPoll 3; WAnswer 1; WHPoll 1; WHPoll 1; WDrop 2;
   WFinish 1; WFinish 2; WPoll; WAnswer 1; WFinish 1; WPoll].
Example C122_case :
  map snd (snd (wrun ctx0 ex_w)) =
  [OHandle 0; OHandle 1; OHandle 2; OPending; ONone false; ONone true; OHandle 3; OPending; OPending; ONone false; OReady; OPending;
   ONone false; ONone false; ONone true; OPending; ONone false; ONone true; OReady].
Proof. vm_compute. reflexivity. Qed.

(** ** C123: what the subscriber is told *)

(** The destinations named in the statuses the subscriber gets are destinations that were started,
    in the order they were started, each no more often than it was started. *)
Theorem C123_in_order : forall (name : Type) os (e : em name) tr, erun em0 os = (e, tr) ->
  subseq (clients_in (got tr)) (clients_started tr) /\ subseq (servers_in (got tr)) (servers_started tr).
Proof. intros name. exact in_order. Qed.
Print Assumptions C123_in_order.

(** If no channel was full, all of them are told by the next status. *)
Theorem C123_all_told : forall (name : Type) os (e : em name) tr k e1 e2 t2,
  erun em0 os = (e, tr) -> nothing_lost tr ->
  estep e (EPoll true) = (e1, Kept true) -> 64 <= k -> erun e1 (repeat ERecv k) = (e2, t2) ->
  clients_in (got (tr ++ (EPoll true, Kept true) :: t2)) = clients_started tr /\
  servers_in (got (tr ++ (EPoll true, Kept true) :: t2)) = servers_started tr.
Proof.
  intros name os e tr k e1 e2 t2 R NL P K R2.
  exact (all_told os e tr k e1 [(EPoll true, Kept true)] (Kept true) e2 t2 R NL P eq_refl eq_refl K R2).
Qed.
Print Assumptions C123_all_told.

(** And a channel is full only with 64 destinations started since the manager was last polled, or
    64 events the subscriber has not read. *)
Theorem C123_room : forall (name : Type) os (e : em name) tr o e',
  erun em0 os = (e, tr) -> estep e o = (e', Kept false) ->
  (exists x, o = EStart x /\ 64 <= backlog tr) \/
  ((o = EPoll true \/ o = EShut) /\ length (got tr) + 64 <= puts tr).
Proof.
  intros name os e tr o e' R S. destruct (status_cap _ _ _ R) as (_ & B & C).
  assert (P : forall A (x : A) q q', push x q = (q', false) -> 64 <= length q).
  { intros A x q q' H. apply push_cases in H as [(X & _)|(_ & _ & X)]; [discriminate|exact X]. }
  destruct o; unfold estep in S; cbv zeta in S; try (apply pair_equal_spec in S as [_ S]; discriminate).
  - left. exists x. split; [reflexivity|]. destruct (push x (e_rx e)) as [q b] eqn:Q.
    apply pair_equal_spec in S as [_ S]. assert (b = false) as -> by congruence. apply P in Q. lia.
  - right. unfold em_poll in S. destruct (drain _ _ _) as [cs ss]. destruct fired.
    + split; [auto|]. destruct (push _ (e_status e)) as [q b] eqn:Q.
      apply pair_equal_spec in S as [_ S]. assert (b = false) as -> by congruence. apply P in Q. lia.
    + apply pair_equal_spec in S as [_ S]. discriminate.
  - right. split; [auto|]. unfold em_shutdown in S. destruct (e_state e).
    + destruct (push _ (e_status e)) as [q b] eqn:Q.
      apply pair_equal_spec in S as [_ S]. assert (b = false) as -> by congruence. apply P in Q. lia.
    + destruct (push _ (e_status e)) as [q b] eqn:Q.
      apply pair_equal_spec in S as [_ S]. assert (b = false) as -> by congruence. apply P in Q. lia.
    + apply pair_equal_spec in S as [_ S]. discriminate.
  - destruct (em_recv e). apply pair_equal_spec in S as [_ S]. discriminate.
Qed.
Print Assumptions C123_room.

(** The figures of a status are those of the moment the manager made it. *)
Theorem C123_figures : forall (name : Type) os (e : em name) tr cs ss k,
  erun em0 os = (e, tr) -> In (RouterStatus cs ss k) (got tr) ->
  exists a b, tr = a ++ (EPoll true, Kept true) :: b /\ k = totals a /\
    subseq cs (clients_started a) /\ subseq ss (servers_started a).
Proof.
  intros name os e tr cs ss k R I. eapply status_from; [exact R|]. apply in_app_iff. left. exact I.
Qed.
Print Assumptions C123_figures.

(** The two notices come at most once each, and in this order. *)
Theorem C123_notices : forall (name : Type) os (e : em name) tr, erun em0 os = (e, tr) ->
  subseq (filter is_shut (got tr)) [ShuttingDown; ShutDown].
Proof.
  intros name os e tr R. apply notices in R. rewrite filter_app in R. apply subseq_prefix in R.
  destruct (e_state e); cbn [said] in R.
  - apply (subseq_app_l _ _ []). exact R.
  - apply (subseq_app_l _ [ShutDown] [ShuttingDown]). exact R.
  - exact R.
Qed.
Print Assumptions C123_notices.

(** Calling shutdown on the manager for the first time, with room in the queue, tells the
    subscriber it is shutting down, and for the second time that it has. *)
Theorem C123_notice_given : forall (name : Type) os (e : em name) tr k e1 e2 t2,
  erun em0 os = (e, tr) -> estep e EShut = (e1, Kept true) -> 64 <= k -> erun e1 (repeat ERecv k) = (e2, t2) ->
  let n := length (filter (fun o => match o with EShut => true | _ => false end) os) in
  n < 2 -> exists before, got t2 = before ++ [nth n [ShuttingDown; ShutDown] ShutDown].
Proof.
  intros name os e tr k e1 e2 t2 R S K R2 n Hn.
  assert (St : e_state e = match n with 0 => Active | 1 => Closing | _ => Closed end).
  { clear S R2 Hn. subst n. revert e tr R. induction os as [|o os IH] using rev_ind; intros e tr R.
    - apply pair_equal_spec in R as [<- _]. reflexivity.
    - rewrite erun_app in R. destruct (erun em0 os) as [ea ta] eqn:E. cbn [erun] in R.
      destruct (estep ea o) as [eb x] eqn:St. apply pair_equal_spec in R as [<- _].
      specialize (IH _ _ eq_refl). rewrite filter_app, app_length. set (m := length (filter _ os)) in *.
      destruct o; unfold estep in St; cbv zeta in St; cbn [filter length]; rewrite ?Nat.add_0_r.
      + destruct (push _ _). apply pair_equal_spec in St as [<- _]. exact IH.
      + apply pair_equal_spec in St as [<- _]. exact IH.
      + apply pair_equal_spec in St as [<- _]. exact IH.
      + apply pair_equal_spec in St as [<- _]. exact IH.
      + apply pair_equal_spec in St as [<- _]. exact IH.
      + apply pair_equal_spec in St as [<- _]. exact IH.
      + unfold em_poll in St. destruct (drain _ _ _). destruct fired; [destruct (push _ _)|]; apply pair_equal_spec in St as [<- _]; exact IH.
      + unfold em_shutdown in St. rewrite IH in St. destruct m as [|[|m]]; cbn [Nat.add].
        * destruct (push _ _). apply pair_equal_spec in St as [<- _]. reflexivity.
        * destruct (push _ _). apply pair_equal_spec in St as [<- _]. reflexivity.
        * apply pair_equal_spec in St as [<- _]. exact IH.
      + unfold em_recv in St. destruct (e_status ea); apply pair_equal_spec in St as [<- _]; exact IH. }
  assert (L : length (e_status e1) <= 64).
  { assert (R1 : erun em0 (os ++ [EShut]) = (e1, tr ++ [(EShut, Kept true)])).
    { rewrite erun_app, R. cbn [erun]. rewrite S. reflexivity. }
    apply status_cap in R1 as [R1 _]. exact R1. }
  apply read_all in R2 as (G & _); [|lia]. rewrite G.
  unfold estep, em_shutdown in S. rewrite St in S.
  destruct n as [|[|n]]; [| |lia].
  - destruct (push _ _) as [q b] eqn:P. apply pair_equal_spec in S as [<- S].
    assert (b = true) as -> by congruence. apply push_cases in P as [(_ & -> & _)|(X & _)]; [|discriminate].
    exists (e_status e). reflexivity.
  - destruct (push _ _) as [q b] eqn:P. apply pair_equal_spec in S as [<- S].
    assert (b = true) as -> by congruence. apply push_cases in P as [(_ & -> & _)|(X & _)]; [|discriminate].
    exists (e_status e). reflexivity.
Qed.
Print Assumptions C123_notice_given.

(** Finding: the router calls shutdown on the manager once only, so that a subscriber is never told
    that the router has shut down, whatever happens. *)
Theorem C123_shut_down_refuted : forall (name : Type) conf os (r : router name) tr,
  rrun conf router0 os = (r, tr) -> ~ In ShutDown (rgot tr).
Proof.
  intros name conf os r tr R I. apply never_shut_down in R as (_ & _ & N). apply N, in_app_iff. left. exact I.
Qed.
Print Assumptions C123_shut_down_refuted.

(** Finding: a status that finds the queue full takes the destinations it names with it; they are
    not told later, although the channel had taken them. *)
Theorem C123_lost_refuted : exists (os : list (eop nat)) e tr,
  erun em0 os = (e, tr) /\ In (EStart (SClient 7), Kept true) tr /\ ~ In 7 (clients_in (got tr)) /\
  forall os' e' tr', erun e os' = (e', tr') -> ~ In 7 (clients_started tr') -> ~ In 7 (clients_in (got tr')).
Proof.
  exists (repeat (EPoll true) 64 ++ [EStart (SClient 7); EPoll true]).
  destruct (erun em0 (repeat (EPoll true) 64 ++ [EStart (SClient 7); EPoll true])) as [e tr] eqn:R.
  exists e, tr. split; [reflexivity|].
  assert (X : fl_clients e = [] /\ tr = repeat (EPoll true, Kept true) 64 ++ [(EStart (SClient 7), Kept true); (EPoll true, Kept false)]).
  { assert (Y : fl_clients (fst (erun em0 (repeat (EPoll true) 64 ++ [EStart (SClient 7); EPoll true]))) = [] /\
      snd (erun em0 (repeat (EPoll true) 64 ++ [EStart (SClient 7); EPoll true])) =
      repeat (EPoll true, Kept true) 64 ++ [(EStart (SClient 7), Kept true); (EPoll true, Kept false)]) by (split; vm_compute; reflexivity).
    rewrite R in Y. exact Y. }
  destruct X as [F T]. split; [rewrite T; apply in_app_iff; right; left; reflexivity|].
  split; [rewrite T; vm_compute; auto|].
  intros os' e' tr' R' N I. apply run_flow in R' as (_ & S & _). apply subseq_prefix in S.
  apply (subseq_in _ _ _ S) in I. rewrite F in I. exact (N I).
Qed.
Print Assumptions C123_lost_refuted.

Example C123_case :
  let os := [EStart (SClient 1); EBw 5; EStart (SServer 2 3); EPoll false; EConn 4; EStart (SClient 6); ETunnels 1 2; EPoll true;
             EBw (2 ^ 64 - 1); EShut; EPoll true; ERecv; ERecv; ERecv; ERecv]%N in
  got (snd (erun (em0 : em N) os)) =
  [RouterStatus [1; 6] [(2, 3)] (mkCnt 0 0 4 5 1 2); ShuttingDown; RouterStatus [] [] (mkCnt 0 0 4 4 1 2)]%N.
Proof. vm_compute. reflexivity. Qed.

(** ** C124: every message goes to the subsystem that deals with it *)

(** With the two subsystems registered, nothing is changed but that the tunnel subsystem and the
    netdb each get, as one event after those they have, exactly the messages of the batch that are
    meant for it, in order and marked with their sender; nothing if there are none, or if it is not
    listening or has no room. *)
Theorem C124_dispatch : forall (rid body : Type) (r : rid) (ms : list (mtype * body)) subs,
  2 <= length subs ->
  exists subs', dispatch r ms subs = Some subs' /\ length subs' = length subs /\
    forall i s, nth_error subs i = Some s ->
      exists s', nth_error subs' i = Some s' /\ s_cap s' = s_cap s /\ s_open s' = s_open s /\
        s_q s' = s_q s ++
          (if (i <? 2) && negb (length (meant_for i r ms) =? 0) && s_open s && (length (s_q s) <? s_cap s)
           then [Messages (meant_for i r ms)] else []).
Proof.
  intros rid body r ms subs L.
  assert (U : forall A (l : list A) i j x, i < length l ->
    nth_error (upd i x l) j = if j =? i then Some x else nth_error l j).
  { induction l as [|y l IH]; intros i j x H; [cbn in H; lia|].
    destruct i, j; cbn; auto. apply IH. cbn in H. lia. }
  assert (M : forall i, meant_for i r ms = map (pair r) (filter (fun m => subsystem_of (fst m) =? i) ms)) by reflexivity.
  assert (M0 : map (pair r) (filter (fun m : mtype * body => negb (to_netdb (fst m))) ms) = meant_for 0 r ms).
  { rewrite M. f_equal. apply filter_ext. intros [t b]. destruct t; reflexivity. }
  assert (M1 : map (pair r) (filter (fun m : mtype * body => to_netdb (fst m)) ms) = meant_for 1 r ms).
  { rewrite M. f_equal. apply filter_ext. intros [t b]. destruct t; reflexivity. }
  assert (Hd : forall i (l : list (rid * (mtype * body))) subs0, i < length subs0 ->
    exists subs', hand i l subs0 = Some subs' /\ length subs' = length subs0 /\
    forall j s, nth_error subs0 j = Some s ->
      nth_error subs' j = Some (if (j =? i) && negb (length l =? 0) then try_send (Messages l) s else s)).
  { intros i l subs0 Li. unfold hand. destruct l as [|m l].
    - exists subs0. split; [reflexivity|]. split; [reflexivity|]. intros j s Hj. cbn. rewrite andb_false_r. exact Hj.
    - destruct (nth_error subs0 i) as [s0|] eqn:E; [|apply nth_error_None in E; lia].
      eexists. split; [reflexivity|]. split; [apply upd_length|].
      intros j s Hj. rewrite U by exact Li. cbn [length Nat.eqb negb]. rewrite andb_true_r.
      destruct (Nat.eqb_spec j i) as [->|]; [congruence|exact Hj]. }
  unfold dispatch. cbv zeta. rewrite M0, M1.
  destruct (Hd 0 (meant_for 0 r ms) subs) as (s1 & E1 & L1 & H1); [lia|]. rewrite E1.
  destruct (Hd 1 (meant_for 1 r ms) s1) as (s2 & E2 & L2 & H2); [lia|]. exists s2.
  split; [exact E2|]. split; [congruence|]. intros i s Hs.
  specialize (H1 i s Hs). specialize (H2 i _ H1). eexists. split; [exact H2|].
  assert (T : forall l (s : sub rid body), s_cap (try_send (Messages l) s) = s_cap s /\ s_open (try_send (Messages l) s) = s_open s /\
    s_q (try_send (Messages l) s) = s_q s ++ if s_open s && (length (s_q s) <? s_cap s) then [Messages l] else []).
  { intros l s0. unfold try_send. destruct (s_open s0 && (length (s_q s0) <? s_cap s0)) eqn:E; cbn [s_cap s_open s_q];
      rewrite ?E, ?app_nil_r; auto. }
  assert (Nn : s_q s = s_q s ++ []) by (rewrite app_nil_r; reflexivity).
  destruct i as [|[|i]]; cbn [Nat.eqb Nat.ltb Nat.leb andb].
  - destruct (negb (length (meant_for 0 r ms) =? 0)); [|auto]. apply T.
  - destruct (negb (length (meant_for 1 r ms) =? 0)); [|auto]. apply T.
  - auto.
Qed.
Print Assumptions C124_dispatch.

(** Every message of a batch is meant for exactly one of the two. *)
Theorem C124_one_each : forall (rid body : Type) (r : rid) (ms : list (mtype * body)),
  Permutation (meant_for 0 r ms ++ meant_for 1 r ms) (map (fun m => (r, m)) ms).
Proof.
  intros rid body r ms. unfold meant_for. rewrite <- map_app. apply Permutation_map.
  induction ms as [|[t b] ms IH]; [reflexivity|]. cbn [filter fst].
  destruct (subsystem_of t) as [|[|n]] eqn:S; cbn [Nat.eqb].
  - cbn [app]. constructor. exact IH.
  - rewrite <- Permutation_middle. constructor. exact IH.
  - unfold subsystem_of in S. destruct (_ <=? _)%N; discriminate.
Qed.
Print Assumptions C124_one_each.

(** With fewer than two registered, a message meant for a missing one brings the task down. *)
Theorem C124_unregistered : forall (rid body : Type) (r : rid) (ms : list (mtype * body)) subs,
  dispatch r ms subs = None <->
  (length subs = 0 /\ meant_for 0 r ms <> []) \/ (length subs < 2 /\ meant_for 1 r ms <> []).
Proof.
  intros rid body r ms subs. unfold dispatch. cbv zeta.
  assert (M0 : map (pair r) (filter (fun m : mtype * body => negb (to_netdb (fst m))) ms) = meant_for 0 r ms).
  { unfold meant_for. f_equal. apply filter_ext. intros [t b]. destruct t; reflexivity. }
  assert (M1 : map (pair r) (filter (fun m : mtype * body => to_netdb (fst m)) ms) = meant_for 1 r ms).
  { unfold meant_for. f_equal. apply filter_ext. intros [t b]. destruct t; reflexivity. }
  rewrite M0, M1.
  assert (Hn : forall i l (s : list (sub rid body)), hand i l s = None <-> length s <= i /\ l <> []).
  { intros i l s. unfold hand. destruct l; [split; [discriminate|intros [_ X]; congruence]|].
    destruct (nth_error s i) eqn:E.
    - split; [discriminate|]. intros [X _]. apply nth_error_None in X. congruence.
    - apply nth_error_None in E. split; [intros _; split; [exact E|discriminate]|reflexivity]. }
  assert (Hl : forall i l (s s' : list (sub rid body)), hand i l s = Some s' -> length s' = length s).
  { intros i l s s' H. unfold hand in H. destruct l; [congruence|]. destruct (nth_error s i); [|discriminate].
    injection H as <-. apply upd_length. }
  destruct (hand 0 (meant_for 0 r ms) subs) as [s1|] eqn:E.
  - assert (NE : ~ (length subs <= 0 /\ meant_for 0 r ms <> [])) by (intros X; apply Hn in X; congruence).
    rewrite Hn, (Hl _ _ _ _ E). split; [intros [X Y]; right; split; [lia|exact Y]|].
    intros [[X Y]|[X Y]]; [exfalso; apply NE; split; [lia|exact Y]|split; [lia|exact Y]].
  - apply Hn in E as [X Y]. split; [intros _; left; split; [lia|exact Y]|reflexivity].
Qed.
Print Assumptions C124_unregistered.

(** A connection made, lost or failed is told to every subsystem that listens. *)
Theorem C124_report : forall (rid body : Type) (x : sevent rid body) subs i s,
  nth_error subs i = Some s ->
  exists s', nth_error (report x subs) i = Some s' /\ s_q s' = s_q s ++ (if s_open s then [x] else []).
Proof.
  intros rid body x subs i s H. exists (send x s). split.
  - unfold report. rewrite nth_error_map, H. reflexivity.
  - unfold send. destruct (s_open s); cbn; rewrite ?app_nil_r; reflexivity.
Qed.
Print Assumptions C124_report.

Example C124_case :
  let subs := [mkSub [Established 9] 4 true; mkSub [] 1 true; mkSub [] 4 true] in
  dispatch 5 [(TunnelData, 1); (DatabaseStore, 2); (Garlic, 3); (DatabaseLookup, 4)] subs =
  Some [mkSub [Established 9; Messages [(5, (TunnelData, 1)); (5, (Garlic, 3))]] 4 true;
        mkSub [Messages [(5, (DatabaseStore, 2)); (5, (DatabaseLookup, 4))]] 1 true; mkSub [] 4 true].
Proof. vm_compute. reflexivity. Qed.
