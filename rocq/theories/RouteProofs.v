(** Proofs about the routing table. *)
From Coq Require Import List NArith Bool Lia Arith ZArith ZifyBool ZifyNat ZifyN.
From Verif Require Import ListUtil Bytes NMap I2npModel TunnelModel RouteModel RouteSpec.
Import ListNotations.
Open Scope N_scope.

Lemma nhas_spec V k (m : nmap V) : nhas k m = match nget k m with Some _ => true | None => false end.
Proof. reflexivity. Qed.

Lemma nget_nput V k j (v : V) m : nget j (nput k v m) = if j =? k then Some v else nget j m.
Proof.
  destruct (N.eqb_spec j k) as [->|H]; [apply nget_nput_same | now apply nget_nput_other].
Qed.
Lemma nget_ndel V k j (m : nmap V) : nget j (ndel k m) = if j =? k then None else nget j m.
Proof.
  destruct (N.eqb_spec j k) as [->|H]; [apply nget_ndel_same | now apply nget_ndel_other].
Qed.

Lemma holder_forget id j reg : holder j (forget id reg) = if j =? id then None else holder j reg.
Proof.
  induction reg as [|[i h] r IH]; simpl; [now destruct (j =? id)|].
  destruct (N.eqb_spec i id) as [->|Hi]; simpl.
  - rewrite IH. destruct (N.eqb_spec j id) as [->|Hj]; auto.
    destruct (N.eqb_spec id j); [congruence | auto].
  - rewrite IH. destruct (N.eqb_spec j id) as [->|Hj]; auto.
    destruct (N.eqb_spec i id); [congruence | auto].
Qed.

Lemma draw_free_spec V draws (m : nmap V) id : draw_free draws m = Some id -> nget id m = None /\ In id draws.
Proof.
  induction draws as [|d ds IH]; simpl; [discriminate|].
  rewrite nhas_spec. destruct (nget d m) eqn:E.
  - intro H. destruct (IH H). auto.
  - intros [= <-]. auto.
Qed.

(** The table agrees with the registers, and unused handles are unused. *)
Record agree (t : table) (T L : list (N * N)) : Prop := mkAgree {
  ag_t : forall id, nget id (rt_tunnels t) = holder id T;
  ag_l : forall id, nget id (rt_listeners t) = holder id L;
  ag_rx : forall h, rt_next t <= h -> nget h (rt_rx t) = None;
  ag_one : forall h, rt_next t <= h -> nget h (rt_one t) = None }.

Lemma agree_new self a b : agree (rt_new self a b) [] [].
Proof. constructor; reflexivity. Qed.

(** ** One routed message *)
Lemma try_send_inl A (c c' : chan A) x :
  try_send c x = inl c' -> c' = mkChan (ch_cap c) (ch_q c ++ [x]) true /\ ch_open c = true.
Proof.
  unfold try_send. destruct (ch_open c); simpl; [|discriminate].
  destruct (_ <=? _); [discriminate|]. intros [= <-]. auto.
Qed.

Lemma route_self t m t' r : route_message t m = (t', r) -> rt_self t' = rt_self t.
Proof.
  unfold route_message, route_tunnel_message, route_listener_message.
  repeat match goal with |- context [match ?x with _ => _ end] => destruct x end;
    intro H; apply pair_equal_spec in H as [<- _]; reflexivity.
Qed.

Lemma place_eqb_eq a b : place_eqb a b = true <-> a = b.
Proof.
  destruct a, b; simpl; split; intro H; try discriminate; try reflexivity;
    try (apply N.eqb_eq in H; congruence); injection H as ->; apply N.eqb_refl.
Qed.
Lemma place_eqb_refl a : place_eqb a a = true. Proof. now apply place_eqb_eq. Qed.

(** An accepted message is appended to what waits at the place it belongs to, and nothing else
    that waits anywhere changes; a refused message comes back in the error and nothing changes. *)
Lemma route_effect t T L m t' r :
  agree t T L -> route_message t m = (t', r) ->
  match r with
  | ROk => exists p, belongs T L m = Some p /\
                     forall q, waiting q t' = waiting q t ++ (if place_eqb q p then [m] else [])
  | RErr _ m' => m' = m /\ forall q, waiting q t' = waiting q t
  end.
Proof.
  intros Ag. unfold route_message, belongs.
  destruct (is_tunnel_type (m_type m)) eqn:Ty.
  - unfold route_tunnel_message. destruct (tunnel_of m) as [id|].
    + rewrite (ag_t _ _ _ Ag). destruct (holder id T) as [h|].
      * destruct (nget h (rt_rx t)) as [c|] eqn:Eh.
        -- destruct (try_send c m) as [c'|x] eqn:Es; intro H; apply pair_equal_spec in H as [<- <-].
           ++ apply try_send_inl in Es as [-> Ho]. exists (PTunnel h). split; [reflexivity|].
              intros [k|k|]; simpl; [|now rewrite app_nil_r|now rewrite app_nil_r].
              rewrite nget_nput. destruct (N.eqb_spec k h) as [->|Hk]; [now rewrite Eh|].
              now rewrite app_nil_r.
           ++ auto.
        -- intro H; apply pair_equal_spec in H as [<- <-]. auto.
      * intro H; apply pair_equal_spec in H as [<- <-]. auto.
    + intro H; apply pair_equal_spec in H as [<- <-]. auto.
  - unfold route_listener_message. rewrite (ag_l _ _ _ Ag). destruct (holder (m_id m) L) as [h|].
    + cbv zeta. cbn [rt_one w_listeners]. destruct (nget h (rt_one t)) as [[|m0|]|] eqn:Eh;
        intro H; apply pair_equal_spec in H as [<- <-]; try (split; [reflexivity|]; intros [k|k|]; reflexivity).
      exists (PListener h). split; [reflexivity|].
      intros [k|k|]; simpl; [now rewrite app_nil_r| |now rewrite app_nil_r].
      rewrite nget_nput. destruct (N.eqb_spec k h) as [->|Hk]; [now rewrite Eh|].
      now rewrite app_nil_r.
    + destruct (try_send (rt_transit t) m) as [c'|x] eqn:Es; intro H; apply pair_equal_spec in H as [<- <-].
      * apply try_send_inl in Es as [-> Ho]. exists PTransit. split; [reflexivity|].
        intros [k|k|]; simpl; now rewrite ?app_nil_r.
      * auto.
Qed.

(** The registers after a routed message. *)
Lemma route_agree t T L m t' r :
  agree t T L -> route_message t m = (t', r) ->
  agree t' T (if is_tunnel_type (m_type m) then L else forget (m_id m) L).
Proof.
  intros Ag. unfold route_message.
  assert (Hfl : agree (w_listeners t (ndel (m_id m) (rt_listeners t))) T (forget (m_id m) L)).
  { destruct Ag as [A B C D]. constructor; simpl; auto.
    intro id. rewrite nget_ndel, holder_forget, B. reflexivity. }
  destruct (is_tunnel_type (m_type m)).
  - unfold route_tunnel_message. destruct (tunnel_of m) as [id|];
      [|intro H; apply pair_equal_spec in H as [<- _]; exact Ag].
    destruct (nget id (rt_tunnels t)) as [h|];
      [|intro H; apply pair_equal_spec in H as [<- _]; exact Ag].
    destruct (nget h (rt_rx t)) as [c|] eqn:Eh;
      [|intro H; apply pair_equal_spec in H as [<- _]; exact Ag].
    destruct (try_send c m); intro H; apply pair_equal_spec in H as [<- _]; [|exact Ag].
    destruct Ag as [A B C D]. constructor; simpl; auto.
    intros k Hk. rewrite nget_nput. destruct (N.eqb_spec k h) as [->|]; [|auto].
    rewrite (C h Hk) in Eh. discriminate.
  - unfold route_listener_message. destruct (nget (m_id m) (rt_listeners t)) as [h|] eqn:El.
    + cbv zeta. cbn [rt_one w_listeners]. destruct (nget h (rt_one t)) as [[|m0|]|] eqn:Eh;
        intro H; apply pair_equal_spec in H as [<- _]; try exact Hfl.
      destruct Hfl as [A B C D]. constructor; simpl; auto.
      intros k Hk. rewrite nget_nput. destruct (N.eqb_spec k h) as [->|]; [|auto].
      destruct Ag as [_ _ _ D']. rewrite (D' h Hk) in Eh. discriminate.
    + assert (Hsame : forall id, holder id (forget (m_id m) L) = holder id L).
      { intro id. rewrite holder_forget. destruct (N.eqb_spec id (m_id m)) as [->|]; [|reflexivity].
        now rewrite <- (ag_l _ _ _ Ag), El. }
      destruct Ag as [A B C D].
      destruct (try_send (rt_transit t) m); intro H; apply pair_equal_spec in H as [<- _];
        (constructor; simpl; auto; intro id; rewrite Hsame; apply B).
Qed.

(** ** One call *)
Definition step_ok (t : table) (T L : list (N * N)) (o : op) (t' : table) (u : out) : Prop :=
  agree t' (tunnels_after T (o, u)) (listeners_after (rt_self t) L (o, u)) /\
  rt_self t' = rt_self t /\
  (forall p, dropped p [o] = false ->
     waiting p t ++ meant_for p (accepted (rt_self t) T L [(o, u)]) = got p [(o, u)] ++ waiting p t').

Lemma accepted_one self T L e :
  accepted self T L [e] =
  match routed self e with Some (m, ROk) => [(belongs T L m, m)] | _ => [] end.
Proof. simpl. now rewrite app_nil_r. Qed.

Lemma meant_one p q m : meant_for p [(Some q, m)] = if place_eqb p q then [m] else [].
Proof. unfold meant_for. simpl. now destruct (place_eqb p q). Qed.

Lemma step_fine t T L o t' u : agree t T L -> step t o = (t', u) -> step_ok t T L o t' u.
Proof.
  intros Ag. unfold step_ok. destruct o; simpl step.
  - (* OAddTunnel *)
    unfold try_add_tunnel. rewrite nhas_spec. destruct (nget id (rt_tunnels t)) as [h|] eqn:E.
    + intro H; apply pair_equal_spec in H as [<- <-]. split; [exact Ag|]. split; [reflexivity|].
      intros p _. simpl. now rewrite app_nil_r.
    + unfold register_tunnel. intro H; apply pair_equal_spec in H as [<- <-].
      destruct Ag as [A B C D]. split; [|split; [reflexivity|]].
      * constructor; simpl; auto.
        -- intro j. rewrite nget_nput, (N.eqb_sym id j). destruct (j =? id); auto.
        -- intros k Hk. rewrite nget_nput. destruct (N.eqb_spec k (rt_next t)); [lia|]. apply C; lia.
        -- intros k Hk. apply D; lia.
      * intros p _. simpl. rewrite app_nil_r. destruct p as [k|k|]; simpl; auto.
        rewrite nget_nput. destruct (N.eqb_spec k (rt_next t)) as [->|]; [|reflexivity].
        now rewrite (C _ (N.le_refl _)).
  - (* OInsertTunnel *)
    unfold insert_tunnel. destruct (draw_free draws (rt_tunnels t)) as [id|] eqn:E.
    + unfold register_tunnel. intro H; apply pair_equal_spec in H as [<- <-].
      destruct Ag as [A B C D]. split; [|split; [reflexivity|]].
      * constructor; simpl; auto.
        -- intro j. rewrite nget_nput, (N.eqb_sym id j). destruct (j =? id); auto.
        -- intros k Hk. rewrite nget_nput. destruct (N.eqb_spec k (rt_next t)); [lia|]. apply C; lia.
        -- intros k Hk. apply D; lia.
      * intros p _. simpl. rewrite app_nil_r. destruct p as [k|k|]; simpl; auto.
        rewrite nget_nput. destruct (N.eqb_spec k (rt_next t)) as [->|]; [|reflexivity].
        now rewrite (C _ (N.le_refl _)).
    + intro H; apply pair_equal_spec in H as [<- <-]. split; [exact Ag|]. split; [reflexivity|].
      intros p _. simpl. now rewrite app_nil_r.
  - (* ORemoveTunnel *)
    intro H; apply pair_equal_spec in H as [<- <-].
    destruct Ag as [A B C D]. split; [|split; [reflexivity|]].
    + constructor; simpl; auto. intro j. rewrite nget_ndel, holder_forget, A. reflexivity.
    + intros p _. simpl. rewrite app_nil_r. now destruct p.
  - (* OInsertListener *)
    unfold insert_listener. destruct (draw_free draws (rt_listeners t)) as [id|] eqn:E.
    + intro H; apply pair_equal_spec in H as [<- <-].
      destruct Ag as [A B C D]. split; [|split; [reflexivity|]].
      * constructor; simpl; auto.
        -- intro j. rewrite nget_nput, (N.eqb_sym id j). destruct (j =? id); auto.
        -- intros k Hk. apply C; lia.
        -- intros k Hk. rewrite nget_nput. destruct (N.eqb_spec k (rt_next t)); [lia|]. apply D; lia.
      * intros p _. simpl. rewrite app_nil_r. destruct p as [k|k|]; simpl; auto.
        rewrite nget_nput. destruct (N.eqb_spec k (rt_next t)) as [->|]; [|reflexivity].
        now rewrite (D _ (N.le_refl _)).
    + intro H; apply pair_equal_spec in H as [<- <-]. split; [exact Ag|]. split; [reflexivity|].
      intros p _. simpl. now rewrite app_nil_r.
  - (* ORemoveListener *)
    intro H; apply pair_equal_spec in H as [<- <-].
    destruct Ag as [A B C D]. split; [|split; [reflexivity|]].
    + constructor; simpl; auto. intro j. rewrite nget_ndel, holder_forget, B. reflexivity.
    + intros p _. simpl. rewrite app_nil_r. now destruct p.
  - (* ORoute *)
    destruct (route_message t m) as [t1 r] eqn:E.
    intro H; apply pair_equal_spec in H as [<- <-]. split; [|split; [exact (route_self _ _ _ _ E)|]].
    + exact (route_agree _ _ _ _ _ _ Ag E).
    + intros p _. rewrite accepted_one. simpl routed. simpl got. simpl app at 2.
      pose proof (route_effect _ _ _ _ _ _ Ag E) as Ef. destruct r as [|e m'].
      * destruct Ef as (q & -> & Hq). rewrite meant_one, Hq. reflexivity.
      * destruct Ef as [_ Hq]. rewrite Hq. simpl. now rewrite app_nil_r.
  - (* OSend *)
    unfold send_message. destruct (beq router (rt_self t)) eqn:Eb.
    + destruct (parse_short msg) as [[m rest]|] eqn:Ep.
      * destruct (routed_type (m_type m)) eqn:Et.
        -- destruct (route_message t m) as [t1 r] eqn:E.
           intro H; apply pair_equal_spec in H as [<- <-].
           split; [|split; [exact (route_self _ _ _ _ E)|]].
           ++ simpl. rewrite Eb, Ep, Et. exact (route_agree _ _ _ _ _ _ Ag E).
           ++ intros p _. rewrite accepted_one. simpl routed. rewrite Eb, Ep, Et. simpl got. simpl app at 2.
              pose proof (route_effect _ _ _ _ _ _ Ag E) as Ef. destruct r as [|e m'].
              ** destruct Ef as (q & -> & Hq). rewrite meant_one, Hq. reflexivity.
              ** destruct Ef as [_ Hq]. rewrite Hq. simpl. now rewrite app_nil_r.
        -- destruct (try_send (rt_manager t) (Internal m)) as [c|x];
             intro H; apply pair_equal_spec in H as [<- <-];
             (split; [simpl; rewrite Eb, Ep, Et; destruct Ag; constructor; simpl; auto|]);
             (split; [reflexivity|]); intros p _; rewrite accepted_one; simpl routed;
             rewrite Eb, Ep, Et; simpl; rewrite app_nil_r; now destruct p.
      * intro H; apply pair_equal_spec in H as [<- <-]. split; [exact Ag|]. split; [reflexivity|].
        intros p _. simpl. now rewrite app_nil_r.
    + destruct (try_send (rt_manager t) _) as [c|x].
      * intro H; apply pair_equal_spec in H as [<- <-].
        split; [simpl; rewrite Eb; destruct Ag; constructor; simpl; auto|]. split; [reflexivity|].
        intros p _. rewrite accepted_one. simpl routed. rewrite Eb. simpl. rewrite app_nil_r. now destruct p.
      * destruct (parse_short msg) as [[m rest]|] eqn:Ep; intro H; apply pair_equal_spec in H as [<- <-];
          (split; [simpl; rewrite ?Eb; exact Ag|]); (split; [reflexivity|]); intros p _;
          rewrite accepted_one; simpl routed; rewrite ?Eb; simpl; now rewrite app_nil_r.
  - (* ORecvTunnel *)
    unfold recv_tunnel. destruct (nget h (rt_rx t)) as [c|] eqn:Eh.
    + destruct (ch_q c) as [|m q] eqn:Eq; intro H; apply pair_equal_spec in H as [<- <-].
      * split; [exact Ag|]. split; [reflexivity|]. intros p _. simpl. now rewrite app_nil_r.
      * destruct Ag as [A B C D]. split; [|split; [reflexivity|]].
        -- constructor; simpl; auto. intros k Hk. rewrite nget_nput.
           destruct (N.eqb_spec k h) as [->|]; [rewrite (C h Hk) in Eh; discriminate | auto].
        -- intros p _. simpl. rewrite app_nil_r. destruct p as [k|k|]; simpl; auto.
           rewrite nget_nput. destruct (N.eqb_spec k h) as [->|]; [now rewrite Eh, Eq | reflexivity].
    + intro H; apply pair_equal_spec in H as [<- <-]. split; [exact Ag|]. split; [reflexivity|].
      intros p _. simpl. now rewrite app_nil_r.
  - (* ODropTunnel *)
    unfold drop_tunnel. intro H; apply pair_equal_spec in H as [<- <-].
    destruct (nget h (rt_rx t)) as [c|] eqn:Eh.
    + destruct Ag as [A B C D]. split; [|split; [reflexivity|]].
      * constructor; simpl; auto. intros k Hk. rewrite nget_nput.
        destruct (N.eqb_spec k h) as [->|]; [rewrite (C h Hk) in Eh; discriminate | auto].
      * intros p Hd. simpl. rewrite app_nil_r. destruct p as [k|k|]; simpl; auto.
        rewrite nget_nput. simpl in Hd. rewrite orb_false_r in Hd. now rewrite Hd.
    + split; [exact Ag|]. split; [reflexivity|]. intros p _. simpl. now rewrite app_nil_r.
  - (* ORecvListener *)
    unfold recv_listener. destruct (nget h (rt_one t)) as [[|m|]|] eqn:Eh;
      intro H; apply pair_equal_spec in H as [<- <-];
      try (split; [exact Ag|]; split; [reflexivity|]; intros p _; simpl; now rewrite app_nil_r).
    destruct Ag as [A B C D]. split; [|split; [reflexivity|]].
    + constructor; simpl; auto. intros k Hk. rewrite nget_nput.
      destruct (N.eqb_spec k h) as [->|]; [rewrite (D h Hk) in Eh; discriminate | auto].
    + intros p _. simpl. rewrite app_nil_r. destruct p as [k|k|]; simpl; auto.
      rewrite nget_nput. destruct (N.eqb_spec k h) as [->|]; [now rewrite Eh | reflexivity].
  - (* ODropListener *)
    unfold drop_listener. intro H; apply pair_equal_spec in H as [<- <-].
    destruct (nget h (rt_one t)) as [c|] eqn:Eh.
    + destruct Ag as [A B C D]. split; [|split; [reflexivity|]].
      * constructor; simpl; auto. intros k Hk. rewrite nget_nput.
        destruct (N.eqb_spec k h) as [->|]; [rewrite (D h Hk) in Eh; discriminate | auto].
      * intros p Hd. simpl. rewrite app_nil_r. destruct p as [k|k|]; simpl; auto.
        rewrite nget_nput. simpl in Hd. rewrite orb_false_r in Hd. now rewrite Hd.
    + split; [exact Ag|]. split; [reflexivity|]. intros p _. simpl. now rewrite app_nil_r.
  - (* ORecvTransit *)
    unfold recv_transit. destruct (ch_q (rt_transit t)) as [|m q] eqn:Eq;
      intro H; apply pair_equal_spec in H as [<- <-].
    + split; [exact Ag|]. split; [reflexivity|]. intros p _. simpl. now rewrite app_nil_r.
    + destruct Ag as [A B C D]. split; [constructor; simpl; auto|]. split; [reflexivity|].
      intros p _. simpl. rewrite app_nil_r. destruct p as [k|k|]; simpl; auto.
  - (* ODropTransit *)
    intro H; apply pair_equal_spec in H as [<- <-]. destruct Ag as [A B C D].
    split; [constructor; simpl; auto|]. split; [reflexivity|].
    intros p Hd. simpl. rewrite app_nil_r. destruct p as [k|k|]; simpl; auto. discriminate.
  - (* ORecvManager *)
    unfold recv_manager. destruct (ch_q (rt_manager t)) as [|m q] eqn:Eq;
      intro H; apply pair_equal_spec in H as [<- <-].
    + split; [exact Ag|]. split; [reflexivity|]. intros p _. simpl. now rewrite app_nil_r.
    + destruct Ag as [A B C D]. split; [constructor; simpl; auto|]. split; [reflexivity|].
      intros p _. simpl. rewrite app_nil_r. now destruct p.
  - (* ODropManager *)
    intro H; apply pair_equal_spec in H as [<- <-]. destruct Ag as [A B C D].
    split; [constructor; simpl; auto|]. split; [reflexivity|].
    intros p _. simpl. rewrite app_nil_r. now destruct p.
Qed.
