(** Proofs about the transit tunnel manager. *)
From Coq Require Import List NArith Bool Arith Lia ZifyBool ZifyNat ZifyN.
From Verif Require Import ListUtil Bytes NMap PrimModel I2npModel GarlicModel TunnelModel NoiseModel
  RouteModel RouteSpec RouteProofs RouteProofs2 TransitModel TransitSpec.
Import ListNotations.
Open Scope N_scope.

Record inv (m : manager) : Prop := mkInv {
  iv_agree : exists T L, agree (tm_table m) T L;
  iv_ids : NoDup (map tk_id (tm_tasks m));
  iv_rx : NoDup (map tk_rx (tm_tasks m));
  iv_reg : forall k, In k (tm_tasks m) ->
    nget (tk_id k) (rt_tunnels (tm_table m)) = Some (tk_rx k) /\ tk_rx k < rt_next (tm_table m) /\
    exists ch, nget (tk_rx k) (rt_rx (tm_table m)) = Some ch /\ ch_cap ch = CHANNEL_SIZE /\
               (tk_phase k <> Finished -> ch_open ch = true);
  iv_others : forall id, In id (tm_others m) ->
    nget id (rt_tunnels (tm_table m)) <> None /\ ~ In id (map tk_id (tm_tasks m));
  iv_limit : within (tm_config m) (length (tm_tasks m));
  iv_self : rt_self (tm_table m) = no_hash (tm_noise m);
  iv_done : tm_done m = true -> tm_tasks m = [] /\ tm_shutting m = true
}.

Lemma inv_new config n a b : inv (tm_new config n a b).
Proof.
  constructor; cbn.
  - exists [], []. apply agree_new.
  - constructor.
  - constructor.
  - intros k [].
  - intros id [].
  - destruct config as [[x|]|]; cbn; [lia | exact I | reflexivity].
  - reflexivity.
  - discriminate.
Qed.

(** ** Calls on the table *)
Definition safe_op (m : manager) (o : op) : Prop :=
  match o with
  | ORemoveTunnel id => ~ In id (map tk_id (tm_tasks m)) /\ ~ In id (tm_others m)
  | ODropTunnel h => forall k, In k (tm_tasks m) -> tk_rx k = h -> tk_phase k = Finished
  | _ => True
  end.

Lemma route_tunnels t m : rt_tunnels (fst (route_message t m)) = rt_tunnels t.
Proof.
  unfold route_message, route_tunnel_message, route_listener_message.
  repeat match goal with |- context [match ?x with _ => _ end] => destruct x end; reflexivity.
Qed.

Lemma step_keeps_tunnel t o id h :
  nget id (rt_tunnels t) = Some h -> o <> ORemoveTunnel id ->
  nget id (rt_tunnels (fst (step t o))) = Some h.
Proof.
  intros H No.
  destruct o; cbn [step]; try exact H.
  - unfold try_add_tunnel. rewrite nhas_spec. destruct (nget id0 (rt_tunnels t)) eqn:E; [exact H|].
    cbn. rewrite nget_nput. destruct (N.eqb_spec id id0) as [->|]; [congruence | exact H].
  - unfold insert_tunnel. destruct (draw_free draws (rt_tunnels t)) as [i|] eqn:E; [|exact H].
    apply draw_free_spec in E as [E _]. cbn. rewrite nget_nput.
    destruct (N.eqb_spec id i) as [->|]; [congruence | exact H].
  - cbn. rewrite nget_ndel. destruct (N.eqb_spec id id0) as [->|]; [congruence | exact H].
  - unfold insert_listener. destruct (draw_free draws (rt_listeners t)); exact H.
  - pose proof (route_tunnels t m) as X. destruct (route_message t m). cbn in *. now rewrite X.
  - unfold send_message. destruct (beq router (rt_self t)).
    + destruct (parse_short msg) as [[m rest]|]; [|exact H]. destruct (routed_type (m_type m)).
      * pose proof (route_tunnels t m) as X. destruct (route_message t m). cbn in *. now rewrite X.
      * destruct (try_send (rt_manager t) (Internal m)); exact H.
    + destruct (try_send (rt_manager t) _); [exact H|].
      destruct (parse_short msg) as [[m rest]|]; exact H.
  - unfold recv_tunnel. destruct (nget h0 (rt_rx t)) as [c0|]; [|exact H]. destruct (ch_q c0); exact H.
  - cbn. unfold drop_tunnel. destruct (nget h0 (rt_rx t)); exact H.
  - unfold recv_listener. destruct (nget h0 (rt_one t)) as [[]|]; exact H.
  - cbn. unfold drop_listener. destruct (nget h0 (rt_one t)) as [[]|]; exact H.
  - unfold recv_transit. destruct (ch_q (rt_transit t)); exact H.
  - unfold recv_manager. destruct (ch_q (rt_manager t)); exact H.
Qed.

Lemma inv_step m o : inv m -> safe_op m o -> inv (m_table m (fst (step (tm_table m) o))).
Proof.
  intros I S. destruct (iv_agree m I) as (T & L & Ag).
  destruct (step (tm_table m) o) as [t' u] eqn:E.
  destruct (step_fine _ _ _ _ _ _ Ag E) as (Ag' & Sf & _).
  assert (Et : t' = fst (step (tm_table m) o)) by now rewrite E.
  constructor; cbn [tm_table tm_tasks tm_others tm_config tm_noise tm_done tm_shutting m_table fst].
  - eexists _, _. exact Ag'.
  - apply I.
  - apply I.
  - intros k Ik. destruct (iv_reg m I k Ik) as (R1 & R2 & ch & R3 & R4 & R5).
    split; [|split].
    + rewrite Et. apply step_keeps_tunnel; [exact R1|]. intros ->. destruct S as [S _]. apply S. now apply in_map.
    + rewrite Et. pose proof (step_next (tm_table m) o). lia.
    + destruct (rx_step (tm_table m) o _ _ (ag_rx _ _ _ Ag) R3) as (ch' & A & B & C).
      exists ch'. rewrite Et. split; [exact A|]. split; [congruence|].
      intro P. apply C; [|now apply R5].
      destruct o; try reflexivity. cbn. rewrite orb_false_r. destruct (N.eqb_spec (tk_rx k) h) as [X|]; [|reflexivity].
      destruct P. exact (S k Ik X).
  - intros id Ii. destruct (iv_others m I id Ii) as [O1 O2]. split; [|exact O2].
    destruct (nget id (rt_tunnels (tm_table m))) as [h|] eqn:Eh; [|congruence].
    rewrite Et, (step_keeps_tunnel _ _ _ _ Eh); [discriminate|]. intros ->. destruct S as [_ S]. now apply S.
  - apply I.
  - rewrite Sf. apply I.
  - apply I.
Qed.

(** ** Tasks *)
Lemma set_phase_ids h p l : map tk_id (set_phase h p l) = map tk_id l.
Proof. unfold set_phase. rewrite map_map. apply map_ext. intro k. destruct (tk_rx k =? h); reflexivity. Qed.
Lemma set_phase_rxs h p l : map tk_rx (set_phase h p l) = map tk_rx l.
Proof. unfold set_phase. rewrite map_map. apply map_ext. intro k. destruct (tk_rx k =? h); reflexivity. Qed.
Lemma set_phase_len h p l : length (set_phase h p l) = length l.
Proof. apply map_length. Qed.
Lemma set_phase_in h p l k : In k (set_phase h p l) ->
  exists k0, In k0 l /\ tk_rx k0 = tk_rx k /\ tk_id k0 = tk_id k /\
             (tk_rx k = h -> tk_phase k = p) /\ (tk_rx k <> h -> k0 = k).
Proof.
  intro H. apply in_map_iff in H as (k0 & <- & H). exists k0. split; [exact H|].
  destruct (N.eqb_spec (tk_rx k0) h); cbn; split; try reflexivity; split; try reflexivity; split; congruence.
Qed.

Lemma inv_phase m h p :
  inv m -> (p <> Finished -> forall k, In k (tm_tasks m) -> tk_rx k = h -> tk_phase k <> Finished) ->
  inv (m_tasks m (set_phase h p (tm_tasks m))).
Proof.
  intros I P. constructor; cbn [tm_table tm_tasks tm_others tm_config tm_noise tm_done tm_shutting m_tasks].
  - apply I.
  - rewrite set_phase_ids. apply I.
  - rewrite set_phase_rxs. apply I.
  - intros k Ik. apply set_phase_in in Ik as (k0 & I0 & E1 & E2 & E3 & E4).
    destruct (iv_reg m I k0 I0) as (R1 & R2 & ch & R3 & R4 & R5).
    rewrite E2, E1 in R1. rewrite E1 in R2, R3. split; [exact R1|]. split; [exact R2|]. exists ch.
    split; [exact R3|]. split; [exact R4|]. intro X. apply R5.
    destruct (N.eq_dec (tk_rx k) h) as [Eq|Ne].
    + apply (P (fun Q => X (eq_trans (E3 Eq) Q)) k0 I0). congruence.
    + now rewrite (E4 Ne).
  - intros id Ii. rewrite set_phase_ids. now apply I.
  - rewrite set_phase_len. apply I.
  - apply I.
  - intro D. destruct (iv_done m I D) as [E S]. rewrite E. split; [reflexivity | exact S].
Qed.

Lemma finish_op m h :
  finish m h = m_table (m_tasks m (set_phase h Finished (tm_tasks m)))
                       (fst (step (tm_table (m_tasks m (set_phase h Finished (tm_tasks m)))) (ODropTunnel h))).
Proof. reflexivity. Qed.

Lemma inv_finish m h : inv m -> inv (finish m h).
Proof.
  intro I. rewrite finish_op. apply inv_step.
  - apply inv_phase; [exact I | congruence].
  - cbn. intros k Ik E. apply set_phase_in in Ik as (k0 & _ & _ & _ & X & _). now apply X.
Qed.

Lemma find_task_spec h l k : find_task h l = Some k -> In k l /\ tk_rx k = h.
Proof. intro H. apply find_some in H as [A B]. apply N.eqb_eq in B. auto. Qed.
Lemma find_task_none h l : find_task h l = None -> forall k, In k l -> tk_rx k <> h.
Proof. intros H k Ik E. apply (find_none _ _ H) in Ik. apply N.eqb_neq in Ik. contradiction. Qed.

Lemma rx_inj m a b : inv m -> In a (tm_tasks m) -> In b (tm_tasks m) -> tk_rx a = tk_rx b -> a = b.
Proof.
  intros I. pose proof (iv_rx m I) as ND. revert ND. generalize (tm_tasks m).
  induction l as [|x l IH]; cbn; intros ND Ha Hb E; [contradiction|].
  inversion ND as [|? ? Nx ND']; subst.
  destruct Ha as [->|Ha], Hb as [->|Hb]; auto.
  - destruct Nx. rewrite E. now apply in_map.
  - destruct Nx. rewrite <- E. now apply in_map.
Qed.

Lemma inv_resolve m h b : inv m -> inv (resolve m h b).
Proof.
  intro I. unfold resolve. destruct (find_task h (tm_tasks m)) as [k|] eqn:F; [|exact I].
  apply find_task_spec in F as [Ik Ek].
  destruct (tk_phase k) eqn:P; try exact I. destruct b; [|now apply inv_finish].
  apply inv_phase; [exact I|]. intros _ k' Ik' Ek'. rewrite (rx_inj m k' k I Ik' Ik) by congruence. congruence.
Qed.

(** ** Starting *)
Lemma NoDup_snoc A (l : list A) x : NoDup l -> ~ In x l -> NoDup (l ++ [x]).
Proof.
  intros H N. apply (NoDup_Add (a := x) (l := l)); [|now split].
  pose proof (Add_app x l []) as X. now rewrite app_nil_r in X.
Qed.

Lemma within_snoc config n (sh : bool) (T : list task) :
  (if sh then false else match config with None => false | Some (Some max) => negb (max <=? N.of_nat (length T)) | Some None => true end) = true ->
  n = S (length T) -> within config n.
Proof. destruct sh; [discriminate|]. destruct config as [[x|]|]; cbn; try discriminate; intros; [lia | exact I]. Qed.

Lemma admit_spec m w id m1 h :
  admit_tunnel m w id = (m1, h) ->
  (h = None /\ m1 = m) \/
  (exists hh, h = Some hh /\ can_accept m = true /\ w = true /\ nget id (rt_tunnels (tm_table m)) = None /\
     hh = rt_next (tm_table m) /\ m1 = m_table m (fst (step (tm_table m) (OAddTunnel id CHANNEL_SIZE))) /\
     nget id (rt_tunnels (tm_table m1)) = Some hh /\
     nget hh (rt_rx (tm_table m1)) = Some (mkChan CHANNEL_SIZE [] true) /\ rt_next (tm_table m1) = hh + 1).
Proof.
  unfold admit_tunnel. destruct (can_accept m) eqn:C; cbn [andb]; [|intro H; injection H as <- <-; auto].
  destruct w; [|intro H; injection H as <- <-; auto].
  unfold step, try_add_tunnel. rewrite nhas_spec. destruct (nget id (rt_tunnels (tm_table m))) eqn:E.
  - intro H. injection H as <- <-. left. destruct m; auto.
  - intro H. injection H as <- <-. right. eexists. split; [reflexivity|].
    split; [reflexivity|]. split; [reflexivity|]. split; [reflexivity|]. split; [reflexivity|]. split; [reflexivity|].
    cbn. split; [apply nget_nput_same|]. split; [apply nget_nput_same | reflexivity].
Qed.

Lemma inv_start m w q k m1 h :
  inv m -> admit_tunnel m w (rq_tunnel q) = (m1, Some h) -> inv (start_task m1 h q k).
Proof.
  intros I A. apply admit_spec in A as [[A _]|(hh & A0 & C & _ & Nid & Eh & Em & A1 & A2 & A3)]; [discriminate|].
  injection A0 as <-.
  assert (I1 : inv m1) by (rewrite Em; apply inv_step; [exact I | exact Logic.I]).
  assert (Et : tm_tasks m1 = tm_tasks m) by (rewrite Em; reflexivity).
  assert (Frx : ~ In h (map tk_rx (tm_tasks m))).
  { intro X. apply in_map_iff in X as (k0 & E0 & I0). destruct (iv_reg m I k0 I0) as (_ & R & _). lia. }
  assert (Fid : ~ In (rq_tunnel q) (map tk_id (tm_tasks m))).
  { intro X. apply in_map_iff in X as (k0 & E0 & I0). destruct (iv_reg m I k0 I0) as (R & _). rewrite E0 in R. congruence. }
  constructor; cbn [start_task tm_table tm_tasks tm_others tm_config tm_noise tm_done tm_shutting m_tasks].
  - apply I1.
  - rewrite map_app, Et. apply NoDup_snoc; [apply I | exact Fid].
  - rewrite map_app, Et. apply NoDup_snoc; [apply I | exact Frx].
  - intros k0 Ik. apply in_app_or in Ik as [Ik|[<-|[]]]; [now apply (iv_reg m1 I1)|]. cbn.
    split; [exact A1|]. split; [lia|]. eexists. split; [exact A2|]. cbn. auto.
  - intros id Ii. destruct (iv_others m1 I1 id Ii) as [O1 O2]. split; [exact O1|].
    rewrite map_app, in_app_iff. intros [X|[X|[]]]; [contradiction|]. cbn in X. subst id.
    rewrite Em in Ii. destruct (iv_others m I _ Ii) as [O _]. contradiction.
  - rewrite Et, app_length. cbn. rewrite Em. cbn. apply within_snoc with (sh := tm_shutting m) (T := tm_tasks m); [exact C | lia].
  - apply I1.
  - rewrite Em. cbn. intro D. destruct (iv_done m I D) as [_ S]. unfold can_accept in C. rewrite S in C. discriminate.
Qed.

(** ** A build request *)
Definition handled (m m' : manager) (r : option reply) : Prop :=
  (m' = m /\ r = None) \/
  (exists w q k m1 h out,
     admit_tunnel m w (rq_tunnel q) = (m1, h) /\
     m' = match h with Some h => start_task m1 h q k | None => m1 end /\
     r = Some (rq_next_router q, out, h)).

Lemma short_handled c now m msg m' r : handle_short c now m msg = (m', r) -> handled m m' r.
Proof.
  unfold handle_short. destruct (find_local _ _ _) as [i|]; [|intro H; injection H as <- <-; left; auto].
  cbv zeta. destruct (decrypt_record _ _ _) as [[plain state]|]; [|intro H; injection H as <- <-; left; auto].
  destruct (parse_short_record plain) as [[b rest]|]; [|intro H; injection H as <- <-; left; auto].
  destruct (admit_tunnel _ _ _) as [m1 h] eqn:A. intro H. apply pair_equal_spec in H as [<- <-].
  right. eexists _, _, _, m1, h, _. split; [exact A|]. split; reflexivity.
Qed.
Lemma variable_handled c m msg m' r : handle_variable c m msg = (m', r) -> handled m m' r.
Proof.
  unfold handle_variable. destruct (find_local _ _ _) as [i|]; [|intro H; injection H as <- <-; left; auto].
  cbv zeta. destruct (decrypt_record _ _ _) as [[plain state]|]; [|intro H; injection H as <- <-; left; auto].
  destruct (parse_var_record plain) as [[b rest]|]; [|intro H; injection H as <- <-; left; auto].
  destruct (admit_tunnel _ _ _) as [m1 h] eqn:A. intro H. apply pair_equal_spec in H as [<- <-].
  right. eexists _, _, _, m1, h, _. split; [exact A|]. split; reflexivity.
Qed.

Lemma inv_handled m m' r : inv m -> handled m m' r -> inv m'.
Proof.
  intros I [[-> _]|(w & q & k & m1 & h & out & A & -> & _)]; [exact I|].
  destruct h as [h|]; [now apply (inv_start m w q k)|].
  apply admit_spec in A as [[_ ->]|(hh & A & _)]; [exact I | discriminate].
Qed.

Lemma inv_send m r : inv m -> inv (fst (send_reply m r)).
Proof.
  intro I. unfold send_reply. destruct r as [[[router out] h]|]; [|exact I].
  pose proof (inv_step m (OSend router out h) I Logic.I) as I1. cbn [step] in I1.
  destruct (send_message (tm_table m) router out h) as [t s]. cbn [fst] in I1.
  destruct s as [res f|]; [|exact I1].
  destruct h as [h|], f; cbn [fst]; try exact I1; now apply inv_resolve.
Qed.

Lemma inv_message c now m msg : inv m -> inv (fst (on_message c now m msg)).
Proof.
  intro I. unfold on_message. destruct (m_type msg); try exact I.
  - destruct (length (m_payload msg) <? 12)%nat; exact I.
  - destruct (handle_variable c m msg) as [m1 r] eqn:E. apply inv_send. eapply inv_handled; [exact I|]. exact (variable_handled _ _ _ _ _ E).
  - destruct (handle_short c now m msg) as [m1 r] eqn:E. apply inv_send. eapply inv_handled; [exact I|]. exact (short_handled _ _ _ _ _ _ E).
Qed.

Lemma recv_transit_op t : fst (step t ORecvTransit) = fst (recv_transit t).
Proof. cbn. destruct (recv_transit t) as [t' [x|]]; reflexivity. Qed.

Lemma done_op m : m_done m = let m1 := m_table m (fst (step (tm_table m) ODropTransit)) in
  mkManager (tm_config m1) (tm_noise m1) (tm_shutting m1) (tm_table m1) (tm_tasks m1) true (tm_others m1).
Proof. reflexivity. Qed.
Lemma inv_m_done m : inv m -> tm_tasks m = [] -> tm_shutting m = true -> inv (m_done m).
Proof.
  intros I E S. rewrite done_op. pose proof (inv_step m ODropTransit I Logic.I) as I1. cbv zeta.
  destruct I1. constructor; auto.
Qed.

Lemma filter_notin (h : N) l : (forall k, In k l -> tk_rx k <> h) -> filter (fun x => negb (tk_rx x =? h)) l = l.
Proof.
  induction l as [|x l IH]; cbn; intro H; [reflexivity|].
  destruct (N.eqb_spec (tk_rx x) h) as [E|E]; [destruct (H x (or_introl eq_refl) E)|]. cbn. f_equal. apply IH. auto.
Qed.
Lemma NoDup_map_filter A B (f : A -> B) p l : NoDup (map f l) -> NoDup (map f (filter p l)).
Proof.
  induction l as [|x l IH]; cbn; intro H; [constructor|]. inversion H as [|? ? N ND]; subst.
  destruct (p x); cbn; [|now apply IH]. constructor; [|now apply IH].
  intro X. apply N. apply in_map_iff in X as (y & E & Iy). apply filter_In in Iy as [Iy _].
  rewrite <- E. now apply in_map.
Qed.

Lemma within_le config a b : (a <= b)%nat -> within config b -> within config a.
Proof. destruct config as [[x|]|]; cbn; intros; [lia | exact I | lia]. Qed.
Lemma filter_len A (p : A -> bool) l : (length (filter p l) <= length l)%nat.
Proof. induction l as [|x l IH]; cbn; [lia|]. destruct (p x); cbn; lia. Qed.

Lemma inv_filter m h : inv m -> inv (m_tasks m (filter (fun x => negb (tk_rx x =? h)) (tm_tasks m))).
Proof.
  intro I. constructor; cbn [tm_table tm_tasks tm_others tm_config tm_noise tm_done tm_shutting m_tasks].
  - apply I.
  - apply NoDup_map_filter, I.
  - apply NoDup_map_filter, I.
  - intros k Ik. apply filter_In in Ik as [Ik _]. now apply I.
  - intros id Ii. destruct (iv_others m I id Ii) as [O1 O2]. split; [exact O1|]. intro X. apply O2.
    apply in_map_iff in X as (y & E & Iy). apply filter_In in Iy as [Iy _]. rewrite <- E. now apply in_map.
  - eapply within_le; [apply filter_len | apply I].
  - apply I.
  - intro D. destruct (iv_done m I D) as [E S]. rewrite E. auto.
Qed.

Definition collected (m : manager) (k : task) : manager :=
  m_table (m_tasks m (filter (fun x => negb (tk_rx x =? tk_rx k)) (tm_tasks m))) (remove_tunnel (tm_table m) (tk_id k)).
Lemma inv_collected m k : inv m -> In k (tm_tasks m) -> inv (collected m k).
Proof.
  intros I Ik.
  apply (inv_step (m_tasks m (filter (fun x => negb (tk_rx x =? tk_rx k)) (tm_tasks m))) (ORemoveTunnel (tk_id k))).
  - now apply inv_filter.
  - cbn. split.
    + intro X. apply in_map_iff in X as (y & E & Iy). apply filter_In in Iy as [Iy Py].
      destruct (iv_reg m I k Ik) as (R1 & _). destruct (iv_reg m I y Iy) as (R2 & _). rewrite E in R2.
      assert (tk_rx y = tk_rx k) as Q by congruence. rewrite Q, N.eqb_refl in Py. discriminate.
    + intro X. destruct (iv_others m I _ X) as [_ O]. apply O. now apply in_map.
Qed.

Lemma inv_collect m h : inv m -> inv (collect m h).
Proof.
  intro I. unfold collect. destruct (find_task h (tm_tasks m)) as [k|] eqn:F; [|exact I].
  apply find_task_spec in F as [Ik <-]. destruct (tk_phase k); try exact I.
  cbv zeta. pose proof (inv_collected m k I Ik) as I1. fold (collected m k).
  destruct (tm_tasks (collected m k)) eqn:E; [|exact I1].
  destruct (tm_shutting (collected m k)) eqn:S; [|exact I1]. now apply inv_m_done.
Qed.

Lemma inv_mstep c m o : inv m -> inv (fst (mstep c m o)).
Proof.
  intro I. destruct o; cbn [mstep].
  - destruct (tm_done m); [exact I|].
    pose proof (inv_step m ORecvTransit I Logic.I) as I1. rewrite recv_transit_op in I1.
    destruct (recv_transit (tm_table m)) as [t [msg|]]; [|exact I]. cbn [fst] in I1.
    pose proof (inv_message c now _ msg I1) as I2. destruct (on_message c now (m_table m t) msg). exact I2.
  - now apply inv_resolve.
  - now apply inv_resolve.
  - destruct (find_task h (tm_tasks m)) as [k|]; [|exact I]. destruct (tk_phase k); try exact I.
    pose proof (inv_step m (ORecvTunnel h) I Logic.I) as I1.
    destruct (step (tm_table m) (ORecvTunnel h)) as [t u]. exact I1.
  - destruct (find_task h (tm_tasks m)) as [k|]; [|exact I]. destruct (tk_phase k); try exact I. now apply inv_finish.
  - destruct (tm_done m); [exact I|]. now apply inv_collect.
  - destruct (tm_done m) eqn:D; [exact I|]. cbv zeta.
    assert (I1 : inv (m_shutting m)) by (destruct I; constructor; auto; cbn in *; congruence).
    destruct (tm_tasks (m_shutting m)) eqn:E; [|exact I1]. now apply inv_m_done.
  - destruct (other_may m o) eqn:M; [|exact I].
    destruct (step (tm_table m) o) as [t u] eqn:E.
    destruct o; try discriminate M;
      try match type of E with step _ ?x = _ =>
            pose proof (inv_step m x I Logic.I) as I1; rewrite E in I1; destruct u; exact I1 end.
    + (* insert *)
      pose proof (inv_step m (OInsertTunnel draws cap) I Logic.I) as I1. rewrite E in I1. cbn [fst] in I1.
      destruct u; try exact I1.
      pose proof E as E'. cbn in E'.
      destruct (insert_tunnel (tm_table m) draws cap) as [t1 [[i1 h1]|]] eqn:Ei; [|discriminate].
      injection E' as -> -> ->.
      unfold insert_tunnel in Ei. destruct (draw_free draws (rt_tunnels (tm_table m))) as [i|] eqn:Ed; [|discriminate].
      cbn in Ei. injection Ei as Et Ei Eh. apply draw_free_spec in Ed as [Ed _].
      destruct I1 as [X1 X2 X3 X4 X5 X6 X7 X8]. constructor; auto.
      cbn [m_others tm_others tm_table m_table tm_tasks fst]. intros id' [<-|Hi]; [|now apply X5].
      split.
      * rewrite <- Et, Ei. cbn. rewrite nget_nput_same. discriminate.
      * intro X. apply in_map_iff in X as (k0 & E0 & I0). destruct (iv_reg m I k0 I0) as (R & _). congruence.
    + (* remove *)
      apply existsb_exists in M as (id' & Ii & Ei). apply N.eqb_eq in Ei as <-.
      assert (I1 : inv (m_others m (filter (fun x => negb (x =? id)) (tm_others m)))).
      { destruct I as [X1 X2 X3 X4 X5 X6 X7 X8]. constructor; auto. cbn. intros i Hi. apply filter_In in Hi as [Hi _]. now apply X5. }
      assert (S : safe_op (m_others m (filter (fun x => negb (x =? id)) (tm_others m))) (ORemoveTunnel id)).
      { cbn. split; [now apply (iv_others m I)|]. intro X. apply filter_In in X as [_ X]. rewrite N.eqb_refl in X. discriminate. }
      pose proof (inv_step _ _ I1 S) as I2. cbn [tm_table m_others] in I2. rewrite E in I2. destruct u; exact I2.
    + (* drop *)
      assert (S : safe_op m (ODropTunnel h)).
      { cbn. intros k Ik Ek. exfalso. apply negb_true_iff in M. assert (X : existsb (fun k => tk_rx k =? h) (tm_tasks m) = true).
        { apply existsb_exists. exists k. split; [exact Ik | now apply N.eqb_eq]. }
        rewrite X in M. discriminate. }
      pose proof (inv_step _ _ I S) as I1. rewrite E in I1. destruct u; exact I1.
Qed.
