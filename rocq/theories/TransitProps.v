(** C35: transit tunnel limits. *)
From Coq Require Import List NArith Bool Arith Lia.
From Verif Require Import ListUtil Bytes NMap PrimModel I2npModel GarlicModel TunnelModel NoiseModel
  RouteModel RouteSpec RouteProofs TransitModel TransitSpec TransitProofs TransitProofs2 TransitProofs3 NoiseToy.
Import ListNotations.
Open Scope N_scope.

Section Any.
Variable c : ops.
Variables (config : option (option N)) (n : noise) (transit_cap manager_cap : N).
Let start := tm_new config n transit_cap manager_cap.

(** Whatever requests arrive, in whatever order and interleaved with whatever else the router
    does, there are never more transit tunnels than configured, and none if they are disabled. *)
Theorem C35_limit ops :
  within config (length (tm_tasks (fst (mrun c start ops)))).
Proof.
  pose proof (iv_limit _ (inv_mrun c ops start (inv_new config n transit_cap manager_cap))) as H.
  destruct (mrun_config c ops start) as (E & _). rewrite E in H. exact H.
Qed.

(** From the moment shutdown was requested no request is accepted and no tunnel is added. *)
Theorem C35_none_while_shutting_down before after :
  let m := fst (mrun c start (before ++ [MShutdown])) in
  tm_done (fst (mrun c start before)) = false ->
  (forall k', In k' (tm_tasks (fst (mrun c m after))) -> exists k, In k (tm_tasks m) /\ same_task k' k) /\
  (forall o msg router out h s, ~ In (o, OAnswer msg (AReply router out (Some h) s)) (snd (mrun c m after))).
Proof.
  cbv zeta. intro D.
  apply shutting_run. rewrite mrun_app. destruct (mrun c start before) as [m1 u]. cbn [fst] in D.
  cbn [mrun mstep]. rewrite D. cbn. destruct (tm_tasks m1); reflexivity.
Qed.

(** The manager ends exactly when it was asked to shut down and has no tunnels left. *)
Theorem C35_shutdown_completes ops :
  let m := fst (mrun c start ops) in
  tm_shutting m = true -> (tm_done m = true <-> tm_tasks m = []).
Proof.
  cbv zeta. intro S. split; intro H.
  - apply (iv_done _ (inv_mrun c ops start (inv_new config n transit_cap manager_cap)) H).
  - apply (ending_run c ops start); [|exact S | exact H]. intro X. discriminate X.
Qed.

(** No two tunnels share an id, and no tunnel of the router itself has the id of a transit
    tunnel. *)
Theorem C35_ids_not_shared ops :
  let m := fst (mrun c start ops) in
  NoDup (map tk_id (tm_tasks m)) /\
  (forall id, In id (tm_others m) -> ~ In id (map tk_id (tm_tasks m))).
Proof.
  cbv zeta. pose proof (inv_mrun c ops start (inv_new config n transit_cap manager_cap)) as I. split.
  - apply I.
  - intros id H. now apply (iv_others _ I).
Qed.

(** A tunnel that was accepted keeps its id until it has ended and was collected: until then it is
    there, unchanged but for its phase, and every message for the id goes to it and to nobody
    else, or is refused; while the tunnel runs a message is refused only if 64 are waiting. *)
Theorem C35_keeps_its_id before after k msg :
  let m1 := fst (mrun c start before) in
  let m2 := fst (mrun c m1 after) in
  In k (tm_tasks m1) ->
  ~ In (MCollect (tk_rx k)) after ->
  is_tunnel_type (m_type msg) = true -> tunnel_of msg = Some (tk_id k) ->
  exists k', In k' (tm_tasks m2) /\ same_task k k' /\
  let '(t, r) := route_message (tm_table m2) msg in
  (r = ROk /\ waiting (PTunnel (tk_rx k)) t = waiting (PTunnel (tk_rx k)) (tm_table m2) ++ [msg] /\
   (forall h, h <> tk_rx k -> waiting (PTunnel h) t = waiting (PTunnel h) (tm_table m2))) \/
  (t = tm_table m2 /\ exists e, r = RErr e msg /\
     (tk_phase k' <> Finished ->
      e = ChannelFull /\ 64 <= N.of_nat (length (waiting (PTunnel (tk_rx k)) (tm_table m2))))).
Proof.
  cbv zeta. intros Ik No Ty Tn.
  pose proof (inv_mrun c before start (inv_new config n transit_cap manager_cap)) as I1.
  pose proof (inv_mrun c after _ I1) as I2.
  destruct (mrun_keeps c after _ k Ik No) as (k' & Ik' & S). exists k'. split; [exact Ik'|]. split; [exact S|].
  destruct S as (S1 & S2 & _). rewrite S1. apply (route_to_task _ k' msg I2 Ik' Ty). now rewrite <- S2.
Qed.

(** A tunnel is only ever added because a build request was read while there was room, under an
    id nobody used, and the answer says so. *)
Theorem C35_added_only_by_request before o k' :
  let m := fst (mrun c start before) in
  In k' (tm_tasks (fst (mstep c m o))) ->
  (exists k, In k (tm_tasks m) /\ same_task k k') \/
  (tm_shutting m = false /\ within (tm_config m) (S (length (tm_tasks m))) /\
   nget (tk_id k') (rt_tunnels (tm_table m)) = None /\
   exists now msg, o = MPoll now /\
     (snd (mstep c m o) = OAnswer msg APanic \/
      exists out s, snd (mstep c m o) = OAnswer msg (AReply (tk_next k') out (Some (tk_rx k')) s))).
Proof.
  cbv zeta. intro H. apply mstep_new in H as [H|(C & N & _ & X)]; [left; exact H|]. right.
  split; [|split; [|split; [exact N | exact X]]].
  - unfold can_accept in C. destruct (tm_shutting _); [discriminate | reflexivity].
  - eapply within_snoc; [exact C | reflexivity].
Qed.

(** When a tunnel's time is over and the manager has noticed, its slot and its id are free, and no
    other tunnel is touched. *)
Theorem C35_slot_freed ops k :
  let m := fst (mrun c start ops) in
  tm_done m = false -> In k (tm_tasks m) ->
  let m' := fst (mrun c m [MTimeout (tk_rx k); MExpire (tk_rx k); MCollect (tk_rx k)]) in
  S (length (tm_tasks m')) = length (tm_tasks m) /\
  nget (tk_id k) (rt_tunnels (tm_table m')) = None /\
  (forall x, In x (tm_tasks m') <-> In x (tm_tasks m) /\ x <> k).
Proof.
  cbv zeta. intros D Ik. pose proof (inv_mrun c ops start (inv_new config n transit_cap manager_cap)) as I.
  destruct (end_run c _ k I D Ik) as (E1 & E2 & _). rewrite E1, E2.
  set (m := fst (mrun c start ops)) in *.
  assert (Q : forall x, In x (tm_tasks m) -> (tk_rx x = tk_rx k <-> x = k)).
  { intros x Ix. split; [intro; now apply (rx_inj m) | now intros ->]. }
  split; [|split].
  - clear E1 E2. pose proof (iv_rx m I) as ND. revert Ik ND. generalize (tm_tasks m). clear.
    induction l as [|x l IH]; cbn; intros Ik ND; [contradiction|]. inversion ND as [|? ? Nx ND']; subst.
    destruct (N.eqb_spec (tk_rx x) (tk_rx k)) as [E|E]; cbn.
    + rewrite filter_notin; [reflexivity|]. intros y Iy Ey. apply Nx. rewrite E, <- Ey. now apply in_map.
    + f_equal. apply IH; [|exact ND']. destruct Ik as [->|Ik]; [congruence | exact Ik].
  - apply nget_ndel_same.
  - intro x. rewrite filter_In, negb_true_iff, N.eqb_neq. split; intros [Ix Nx]; split; try exact Ix; intro X; apply Nx; now apply Q.
Qed.

(** No build request makes the manager panic: an answer always fits. *)
Theorem C35_no_panic ops :
  crypto_sizes c -> Forall sane_op ops ->
  forall o msg, ~ In (o, OAnswer msg APanic) (snd (mrun c start ops)).
Proof. intros Z S. apply mrun_fine; [exact Z | constructor | exact S]. Qed.
End Any.
Print Assumptions C35_limit.
Print Assumptions C35_none_while_shutting_down.
Print Assumptions C35_shutdown_completes.
Print Assumptions C35_ids_not_shared.
Print Assumptions C35_keeps_its_id.
Print Assumptions C35_added_only_by_request.
Print Assumptions C35_slot_freed.
Print Assumptions C35_no_panic.

(** A router with room for one tunnel: the first request is accepted, a request for another
    tunnel is answered with a refusal, and so is one for the same id; when the first tunnel has
    ended the id can be used again. *)
Definition ex_hash : bytes := repeat 9 32.
Definition ex_noise : noise := mkNoise (repeat 3 32) ex_hash.
Definition ex_request (id : N) : message :=
  let o := create_outbound noise_toy (x_pub noise_toy (repeat 3 32)) (repeat 5 32) Participant in
  let plain := ser_short_record (mkBr id 77 (repeat 8 32) Participant 1234) 0 0 (repeat 0 96) in
  mkMsg ShortTunnelBuild 1 (10 * 1000000000)
    (1 :: firstn 16 ex_hash ++ o_eph o ++ x_seal noise_toy (o_aead o) 0 (o_state o) plain).
Definition ex_ops : list mop :=
  [MOther (ORoute (ex_request 50)); MPoll 0; MFeedback 0 true;
   MOther (ORoute (ex_request 51)); MPoll 0; MOther (ORoute (ex_request 50)); MPoll 0;
   MExpire 0; MCollect 0; MOther (ORoute (ex_request 50)); MPoll 0].
Definition ex_accepted (e : mop * mout) : list (option bool) :=
  match snd e with OAnswer _ (AReply _ _ h _) => [Some (match h with Some _ => true | None => false end)]
                 | OAnswer _ _ => [None] | _ => [] end.
Example C35_history :
  let '(m, tr) := mrun noise_toy (tm_new (Some (Some 1)) ex_noise 64 64) ex_ops in
  flat_map ex_accepted tr = [Some true; Some false; Some false; Some true] /\
  map (fun k => (tk_id k, tk_next_id k)) (tm_tasks m) = [(50, 77)] /\
  length (ch_q (rt_manager (tm_table m))) = 4%nat.
Proof. vm_compute. split; [reflexivity|]. split; reflexivity. Qed.
Example C35_history_sane : Forall sane_op ex_ops.
Proof.
  unfold ex_ops. repeat (apply Forall_cons; [cbn [sane_op]; try exact I|]); try apply Forall_nil;
    (split; [discriminate | vm_compute; discriminate]).
Qed.
