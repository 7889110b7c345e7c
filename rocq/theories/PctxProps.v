(** C91, C92, C93: messages received through a pool's inbound tunnels.  Statements use PctxSpec.v
    only. *)
From Coq Require Import List NArith Bool Lia.
From Verif Require Import ListUtil Bytes NMap I2npModel RouteModel PctxModel PctxSpec PctxProofs PctxProofs2.
Import ListNotations.
Open Scope N_scope.

(** ** C91: every message goes to whom it belongs *)

(** For every history of calls in which a build reply that is waited for by its tag comes as a
    build reply or as a garlic message with the tag: every listener, the owner and the pool have,
    in order and each once, the messages and events that belonged to them when they were accepted.
    What is missing: see the refutation below. *)
Theorem C91_delivered_to_the_right_one_partial : forall ops c tr,
  run cx_new ops = (c, tr) -> orderly [] tr -> all_delivered ops tr c.
Proof.
  intros ops c tr H Ho p Hd. destruct (run_fine _ _ _ _ _ agree_new H Ho) as [_ E].
  specialize (E p Hd). rewrite <- E. destruct p; reflexivity.
Qed.
Print Assumptions C91_delivered_to_the_right_one_partial.

(** A listener gets at most one message, whatever is received and in whatever order. *)
Theorem C91_listener_at_most_once : forall ops c tr h,
  run cx_new ops = (c, tr) -> (length (got (PListener h) tr) <= 1)%nat.
Proof.
  intros ops c tr h H. assert (F : fresh cx_new) by (intros k _; reflexivity).
  pose proof (run_one h _ _ _ _ F H) as L.
  assert (E : credit cx_new h = 1%nat) by (unfold credit, cx_new; destruct h; reflexivity).
  rewrite E in L. lia.
Qed.
Print Assumptions C91_listener_at_most_once.

(** A message is not refused without cause: if it belongs to somebody who has not gone away and has
    room, it is accepted. *)
Theorem C91_not_refused_without_cause_partial : forall ops c tr m,
  run cx_new ops = (c, tr) -> orderly [] tr ->
  existsb (drops (belongs (waits [] tr) m)) ops = false -> has_room (belongs (waits [] tr) m) c ->
  (is_garlic (m_type m) = true -> (12 <= length (m_payload m))%nat) ->
  snd (step c (CRoute m)) = URoute (ROut ROk).
Proof.
  intros ops c tr m H Ho Hd Hr Hl.
  destruct (run_fine _ _ _ _ _ agree_new H Ho) as [A _].
  pose proof (run_held _ [] _ _ _ _ agree_new held_new H Ho) as He. cbn [app] in He.
  set (W := waits [] tr) in *. unfold belongs in *.
  destruct He as [Hw _ [Oc Oo] [Pc Po]].
  assert (G : forall c0 id w, In w W -> cx_one c0 = cx_one c ->
            existsb (drops (PListener (w_h w))) ops = false ->
            snd (give c0 id (w_h w) m) = ROk).
  { intros c0 id w Hin E D. unfold give. cbv zeta. cbn [cx_one v_listen].
    rewrite E, (proj2 (Hw w Hin) D). reflexivity. }
  assert (O : existsb (drops POwner) ops = false -> has_room POwner c -> snd (to_owner c m) = ROk).
  { intros D R. unfold to_owner, try_send. rewrite (Oo D), Oc. cbn [negb]. cbn [has_room waiting] in R.
    destruct (N.leb_spec 64 (N.of_nat (length (ch_q (cx_owner c))))); [lia | reflexivity]. }
  assert (P : forall c0, cx_pool c0 = cx_pool c -> existsb (drops PPool) ops = false -> has_room PPool c ->
            snd (match try_send (cx_pool c0) m with
                 | inl q => (v_pool c0 q, ROk) | inr x => (c0, RErr (of_send_error x) m) end) = ROk).
  { intros c0 E D R. unfold try_send. rewrite E, (Po D), Pc. cbn [negb]. cbn [has_room waiting] in R.
    rewrite map_length in R.
    destruct (N.leb_spec 4096 (N.of_nat (length (ch_q (cx_pool c))))); [lia | reflexivity]. }
  cbn [step]. unfold route_message.
  assert (X : forall x, snd x = ROk -> snd (let '(c', r) := out_of x in (c', URoute r)) = URoute (ROut ROk)).
  { intros [c1 r] E. cbn in *. now rewrite E. }
  unfold answers in Hd, Hr.
  destruct (m_type m) eqn:Ty; cbn [is_db is_garlic orb] in Hd, Hr;
    try (apply X, O; assumption).
  2: { destruct (garlic_tag (m_payload m)) as [tag|] eqn:Eg.
       - assert (tag = tag_of m) as ->.
         { unfold garlic_tag in Eg. destruct (_ <? 12); [discriminate|]. injection Eg as <-. reflexivity. }
         rewrite (ag_t _ _ A). destruct (by_tag (tag_of m) W) as [w|] eqn:Bt; cbn [option_map].
         + apply X. unfold to_listener_or_pool. cbn [cx_listen v_ids v_tags].
           destruct (by_tag_some _ _ _ Bt) as [Hin _].
           rewrite (ag_l _ _ A), (by_id_in _ _ (ag_n _ _ A) Hin). cbn [option_map]. apply G; auto.
         + rewrite (ag_l _ _ A). destruct (by_id (m_id m) W) as [w|] eqn:Bi; cbn [option_map].
           * apply X, G; auto. now apply by_id_some in Bi.
           * apply X, O; assumption.
       - exfalso. unfold garlic_tag in Eg. specialize (Hl eq_refl).
         destruct (N.ltb_spec (N.of_nat (length (m_payload m))) 12); [lia | discriminate]. }
  all: apply X; unfold to_listener_or_pool; rewrite ?drop_association_listen, (ag_l _ _ A);
    destruct (by_id (m_id m) W) as [w|] eqn:Bi; cbn [option_map];
    [ apply G; [now apply by_id_some in Bi | rewrite ?drop_association_one; reflexivity | exact Hd]
    | apply P; [rewrite ?drop_association_pool; reflexivity | exact Hd | exact Hr] ].
Qed.
Print Assumptions C91_not_refused_without_cause_partial.

(** If the last hop of an outbound tunnel being built sends any other kind of message with the id
    the reply is waited for under, the tag stays behind, and a later garlic message that begins
    with it never reaches the pool's owner, although nobody waits for it. *)
Definition g_tag : bytes := [1; 2; 3; 4; 5; 6; 7; 8].
Definition data (id : N) : message := mkMsg Data id 7 [9].
Definition garlic (id : N) : message := mkMsg Garlic id 7 ([0; 0; 0; 9] ++ g_tag ++ [0]).
Definition stray : list op := [CAdd [7]; CTag 7 (be_val g_tag); CRoute (data 7); CRoute (garlic 9)].
Theorem C91_refuted_stale_tag :
  ~ (forall ops c tr, run cx_new ops = (c, tr) -> throughout tag_call [] tr -> all_delivered ops tr c).
Proof.
  intro F. specialize (F stray). destruct (run cx_new stray) as [c tr] eqn:E.
  specialize (F c tr eq_refl). vm_compute in E. injection E as <- <-.
  assert (T : throughout tag_call []
    [(CAdd [7], UListener 7 0); (CTag 7 (be_val g_tag), UNone); (CRoute (data 7), URoute (ROut ROk));
     (CRoute (garlic 9), URoute (ROut ROk))]).
  { vm_compute. repeat split. eexists. split; reflexivity. }
  specialize (F T POwner eq_refl). vm_compute in F. discriminate.
Qed.
Print Assumptions C91_refuted_stale_tag.

(** ** C92: what is answered or given up leaves nothing behind *)

(** After every such history the maps hold exactly what those who still wait need: one listener
    each, and one association in each direction for each that waits for a tag. *)
Theorem C92_nothing_left_behind_partial : forall ops c tr,
  run cx_new ops = (c, tr) -> orderly [] tr ->
  (forall id, (exists h, nget id (cx_listen c) = Some h) <-> (exists w, In w (waits [] tr) /\ w_id w = id)) /\
  (forall t, (exists id, nget t (cx_tags c) = Some id) <-> (exists w, In w (waits [] tr) /\ w_tag w = Some t)) /\
  (forall id, (exists t, nget id (cx_ids c) = Some t) <->
              (exists w t, In w (waits [] tr) /\ w_id w = id /\ w_tag w = Some t)).
Proof.
  intros ops c tr H Ho. destruct (run_fine _ _ _ _ _ agree_new H Ho) as [A _].
  set (W := waits [] tr) in *. split; [|split].
  - intro id. rewrite (ag_l _ _ A). split.
    + intros [h E]. destruct (by_id id W) as [w|] eqn:Bi; [|discriminate]. exists w. now apply by_id_some.
    + intros (w & Hin & <-). rewrite (by_id_in _ _ (ag_n _ _ A) Hin). cbn. eauto.
  - intro t. rewrite (ag_t _ _ A). split.
    + intros [id E]. destruct (by_tag t W) as [w|] eqn:Bt; [|discriminate]. exists w. now apply by_tag_some.
    + intros (w & Hin & E). rewrite (by_tag_in _ _ _ (ag_u _ _ A) Hin E). cbn. eauto.
  - intro id. rewrite (ag_i _ _ A). split.
    + intros [t E]. destruct (by_id id W) as [w|] eqn:Bi; [|discriminate]. exists w, t.
      apply by_id_some in Bi. tauto.
    + intros (w & t & Hin & <- & E). rewrite (by_id_in _ _ (ag_n _ _ A) Hin). eauto.
Qed.
Print Assumptions C92_nothing_left_behind_partial.

(** In general the association outlives the wait. *)
Theorem C92_refuted_association_kept :
  exists ops c tr, run cx_new ops = (c, tr) /\ throughout tag_call [] tr /\ waits [] tr = [] /\
    cx_listen c = [] /\ length (cx_tags c) = 1%nat /\ length (cx_ids c) = 1%nat.
Proof.
  exists (firstn 3 stray). eexists. eexists. split; [vm_compute; reflexivity|]. split.
  { vm_compute. repeat split. eexists. split; reflexivity. }
  vm_compute. auto.
Qed.
Print Assumptions C92_refuted_association_kept.

(** ** C93: no received message stops the tunnel *)

(** Any message but a garlic message shorter than twelve bytes is handled, in every state. *)
Theorem C93_handled_partial : forall c m,
  (is_garlic (m_type m) = true -> (12 <= length (m_payload m))%nat) ->
  exists r, snd (step c (CRoute m)) = URoute (ROut r).
Proof.
  intros c m Hl. cbn [step]. unfold route_message.
  assert (X : forall x, exists r, snd (let '(c', r) := out_of x in (c', URoute r)) = URoute (ROut r)).
  { intros [c1 r]. exists r. reflexivity. }
  destruct (m_type m); try apply X.
  destruct (garlic_tag (m_payload m)) as [tag|] eqn:Eg.
  - destruct (nget tag (cx_tags c)); [apply X|]. destruct (nget (m_id m) (cx_listen c)); apply X.
  - exfalso. unfold garlic_tag in Eg. specialize (Hl eq_refl).
    destruct (N.ltb_spec (N.of_nat (length (m_payload m))) 12); [lia | discriminate].
Qed.
Print Assumptions C93_handled_partial.

(** A garlic message of one byte, which the tunnel accepts as a message, panics in every state. *)
Definition short_garlic : bytes := [11; 0; 0; 0; 1; 0; 0; 0; 0; 0; 0; 0; 9; 0; 1; 77; 5].
Theorem C93_refuted_short_garlic :
  exists m, parse_standard short_garlic = Some (m, []) /\
    forall c, snd (step c (CRoute m)) = URoute RPanic.
Proof. eexists. split; [vm_compute; reflexivity|]. intro c. reflexivity. Qed.
Print Assumptions C93_refuted_short_garlic.

(** ** A concrete history: two builds wait for a tag, one is answered by a garlic message with
    another id, the other by a build reply; a test listener is answered by its id; a garlic message
    and a database message go to the owner and a status message to the pool. *)
Definition reply (id : N) : message := mkMsg OutboundTunnelBuildReply id 7 [3].
Definition hist : list op :=
  [CAdd [7]; CTag 7 (be_val g_tag); CAdd [7; 8]; CTag 8 5; CAdd [40]; CAdd [41];
   CRoute (garlic 99); CRoute (reply 8); CRoute (data 40); CRemove 41; CEvent (EvOutBuilt 6);
   CRoute (garlic 98); CRoute (mkMsg DatabaseStore 1 7 [1]); CRoute (data 41);
   CRecv 0; CRecv 1; CRecv 2; COwnerRecv; COwnerRecv; CPoolRecv].
Example C91_history :
  let '(c, tr) := run cx_new hist in
  orderly [] tr /\ waits [] tr = [] /\ cx_tags c = [] /\ cx_ids c = [] /\ cx_listen c = [] /\
  got (PListener 0) tr = [EvMessage (garlic 99)] /\ got (PListener 1) tr = [EvMessage (reply 8)] /\
  got (PListener 2) tr = [EvMessage (data 40)] /\ got (PListener 3) tr = [] /\
  got POwner tr = [EvOutBuilt 6; EvMessage (garlic 98)] /\
  waiting POwner c = [EvMessage (mkMsg DatabaseStore 1 7 [1])] /\
  got PPool tr = [EvMessage (data 41)] /\ existsb (drops POwner) hist = false.
Proof.
  vm_compute. repeat split; try (eexists; split; reflexivity); try (left; reflexivity);
    try (right; split; reflexivity).
Qed.
