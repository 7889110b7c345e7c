(** Proofs about the transit tunnel manager, continued: sizes of replies, no panics, and the end
    of a tunnel. *)
From Coq Require Import List NArith Bool Arith Lia ZifyBool ZifyNat ZifyN.
From Verif Require Import ListUtil Bytes NMap PrimModel I2npModel I2npProofs GarlicModel TunnelModel TunnelProofs
  NoiseModel RouteModel RouteSpec RouteProofs RouteProofs2 TransitModel TransitSpec TransitProofs TransitProofs2.
Import ListNotations.
Open Scope N_scope.

(** ** Records *)
Lemma chunks_fuel_rs n rs : (0 < n)%nat -> Forall (fun r : bytes => length r = n) rs ->
  forall f, (length (concat rs) <= f)%nat -> chunks_fuel f n (concat rs) = rs.
Proof.
  intros Hn H. induction H as [|r rs Hr H IH]; intros f Hf; [destruct f; reflexivity|].
  cbn [concat] in *. rewrite app_length in Hf. destruct f as [|f]; [lia|]. cbn [chunks_fuel].
  destruct (r ++ concat rs) eqn:E; [destruct r; [cbn in Hr; lia | discriminate]|].
  rewrite <- E. rewrite <- Hr at 1 3. rewrite firstn_exact, skipn_exact. f_equal. apply IH. lia.
Qed.
Lemma chunks_records n rs : (0 < n)%nat -> Forall (fun r : bytes => length r = n) rs -> chunks n (concat rs) = rs.
Proof. intros. unfold chunks. apply chunks_fuel_rs; auto. Qed.

Lemma split_records n : (0 < n)%nat -> forall k (l : bytes), length l = (k * n)%nat ->
  exists rs, concat rs = l /\ length rs = k /\ Forall (fun r : bytes => length r = n) rs.
Proof.
  intros Hn. induction k as [|k IH]; intros l Hl.
  - destruct l; [|discriminate]. exists []. auto.
  - destruct (IH (skipn n l)) as (rs & E & L & F); [rewrite skipn_length; lia|].
    exists (firstn n l :: rs). cbn. rewrite E, L. split; [apply firstn_skipn|]. split; [reflexivity|].
    constructor; [|exact F]. rewrite firstn_length. lia.
Qed.
Lemma concat_length n rs : Forall (fun r : bytes => length r = n) rs -> length (concat rs) = (length rs * n)%nat.
Proof. induction 1 as [|r rs Hr _ IH]; cbn; [reflexivity|]. rewrite app_length, IH. lia. Qed.

Lemma find_local_spec size hash payload i : (0 < size)%nat ->
  find_local size hash payload = Some i ->
  exists rs k, skipn 1 payload = concat rs /\ chunks size (skipn 1 payload) = rs /\ length rs = k /\ (0 < k)%nat /\
    length payload = (1 + k * size)%nat /\ Forall (fun r : bytes => length r = size) rs /\
    find_index (fun r => beq (firstn 16 r) (firstn 16 hash)) rs = Some i.
Proof.
  intros Hs H. unfold find_local in H.
  destruct (Nat.ltb_spec size (length payload)); [|discriminate].
  destruct (Nat.eqb_spec ((length payload - 1) mod size) 0) as [E|]; [|discriminate]. cbn [andb] in H.
  apply Nat.mod_divides in E as [k Ek]; [|lia].
  destruct (split_records size Hs k (skipn 1 payload)) as (rs & E1 & E2 & E3); [rewrite skipn_length; lia|].
  rewrite <- E1, (chunks_records size rs Hs E3) in H.
  exists rs, k. split; [now rewrite E1|]. rewrite <- E1, (chunks_records size rs Hs E3).
  split; [reflexivity|]. split; [exact E2|]. split; [destruct k; lia|]. split; [lia|]. split; [exact E3 | exact H].
Qed.

Lemma find_index_lt A (f : A -> bool) l i : find_index f l = Some i -> (i < length l)%nat.
Proof.
  revert i. induction l as [|x l IH]; cbn; intros i H; [discriminate|].
  destruct (f x); [injection H as <-; lia|]. destruct (find_index f l) as [j|]; [|discriminate].
  cbn in H. injection H as <-. specialize (IH j eq_refl). lia.
Qed.

Lemma map_from_length A B (f : nat -> A -> B) l : forall i, length (map_from i f l) = length l.
Proof. induction l as [|x l IH]; intro i; cbn; [reflexivity | now rewrite IH]. Qed.
Lemma map_from_nth A B (f : nat -> A -> B) l da db : forall i j, (j < length l)%nat ->
  nth j (map_from i f l) db = f (i + j)%nat (nth j l da).
Proof.
  induction l as [|x l IH]; cbn; intros i j H; [lia|].
  destruct j; [now rewrite Nat.add_0_r|]. rewrite IH by lia. f_equal. lia.
Qed.
Lemma map_from_forall (P Q : bytes -> Prop) f (l : list bytes) : forall i, Forall P l ->
  (forall j r, P r -> Q (f j r)) -> Forall Q (map_from i f l).
Proof.
  induction l as [|x l IH]; intros i H G; cbn; constructor; inversion H; subst; auto.
Qed.

Lemma set_byte_length i x l : (i < length l)%nat -> length (set_byte i x l) = length l.
Proof. intro H. unfold set_byte. rewrite app_length, firstn_length. cbn [length]. rewrite skipn_length. lia. Qed.
Lemma answer_length p b rec : (49 < length rec)%nat -> (p < length rec)%nat -> length (answer p b rec) = length rec.
Proof.
  intros H1 H2. unfold answer.
  assert (L1 : length (set_byte 48 0 rec) = length rec) by (apply set_byte_length; lia).
  assert (L2 : length (set_byte 49 0 (set_byte 48 0 rec)) = length rec) by (rewrite set_byte_length; lia).
  rewrite set_byte_length; lia.
Qed.

Lemma xor_length a b : length b = length a -> length (xor_bytes a b) = length a.
Proof. revert b. induction a as [|x a IH]; intros [|y b] H; cbn in *; try lia. now rewrite IH by lia. Qed.
Lemma chacha_length c k n r : crypto_sizes c -> length (chacha c k n r) = length r.
Proof. intros [_ S]. unfold chacha. apply xor_length. apply S. Qed.

Lemma set_record_forall n i f rs : Forall (fun r : bytes => length r = n) rs ->
  (forall r : bytes, length r = n -> length (f r) = n) ->
  Forall (fun r : bytes => length r = n) (set_record i f rs).
Proof.
  intros H G. unfold set_record. eapply map_from_forall; [exact H|].
  intros j r Hr. cbn. destruct (Nat.eqb j i); auto.
Qed.
Lemma encrypt_records_forall c k st i rs : crypto_sizes c ->
  Forall (fun r : bytes => length r = 218%nat) rs ->
  Forall (fun r : bytes => length r = 218%nat) (encrypt_records c k st i rs).
Proof.
  intros Z H. unfold encrypt_records. eapply map_from_forall; [exact H|].
  intros j r Hr. cbn beta in *. destruct (Nat.eqb j i).
  - destruct Z as [Z _]. rewrite Z, firstn_length, Hr. reflexivity.
  - rewrite chacha_length; auto.
Qed.

(** ** Sizes of the messages sent on *)
Lemma short_parses m : (0 < length (m_payload m))%nat -> N.of_nat (length (m_payload m)) <= 65526 ->
  exists m', parse_short (build_short m) = Some (m', []) /\ m_payload m' = m_payload m /\ m_type m' = m_type m.
Proof.
  intros Hp Hl. pose proof (mtype_small (m_type m)).
  unfold parse_short, build_short, len. eexists.
  split.
  - pnum. pnum. pstep ltac:(apply be_uint_app_mod). pstep ltac:(apply be_uint_app_mod).
    rewrite guard_step by lia.
    rewrite <- (app_nil_r (m_payload m)) at 2.
    pstep ltac:(apply take_app; lia).
    rewrite (opt_step _ _ _ _ (mtype_round (m_type m))). reflexivity.
  - split; reflexivity.
Qed.

Lemma gateway_message_length mid nt ex inner : length (gateway_message mid nt ex inner) = (17 + length inner)%nat.
Proof.
  unfold gateway_message, build_short, ser_gateway. cbn [m_payload].
  rewrite !app_length, !be_bytes_length. cbn [tg_payload]. lia.
Qed.
Lemma standard_length e m : length (build_standard e m) = (16 + length (m_payload m))%nat.
Proof. unfold build_standard. rewrite !app_length, !be_bytes_length. lia. Qed.
Lemma garlic_reply_length c now gk gt nm payload : crypto_sizes c ->
  length (garlic_reply c now gk gt nm payload) = (4 + length gt + (20 + length payload + 16))%nat.
Proof.
  intros [Z _]. unfold garlic_reply. cbn [build_garlic ser_block].
  rewrite !app_length, Z, !be_bytes_length, !app_length, !be_bytes_length. cbn. lia.
Qed.

Definition fine_out (out : bytes) : Prop :=
  exists m', parse_short out = Some (m', []) /\ m_type m' <> Garlic /\ N.of_nat (length (m_payload m')) <= 65526.
Lemma fine_short m : (0 < length (m_payload m))%nat -> N.of_nat (length (m_payload m)) <= 65526 -> m_type m <> Garlic ->
  fine_out (build_short m).
Proof. intros A B G. destruct (short_parses m A B) as (m' & E & P & T). exists m'. rewrite T, P. auto. Qed.
Lemma fine_gateway mid nt ex inner : N.of_nat (length inner) <= 65520 -> fine_out (gateway_message mid nt ex inner).
Proof.
  intro H. unfold gateway_message. apply fine_short; cbn [m_payload m_type]; [| |discriminate];
    unfold ser_gateway; rewrite !app_length, !be_bytes_length; cbn [tg_payload]; lia.
Qed.

Lemma garlic_tag_length c ck r gk gt : k_garlic (new_keys c ck r) = Some (gk, gt) -> (length gt <= 8)%nat.
Proof.
  unfold new_keys. destruct (hkdf c ck _) as [a b]. destruct (hkdf c a _) as [a1 b1].
  destruct r; try discriminate. destruct (hkdf c a1 _) as [a2 b2]. destruct (hkdf c a2 _) as [a3 b3]. cbn [k_garlic].
  intro H. apply (f_equal (fun o => match o with Some (_, x) => x | None => gt end)) in H. cbv beta iota in H.
  rewrite <- H. rewrite firstn_length. lia.
Qed.

Lemma short_reply_fine c now m msg m' router out h : crypto_sizes c ->
  N.of_nat (length (m_payload msg)) <= 65535 ->
  handle_short c now m msg = (m', Some (router, out, h)) -> fine_out out.
Proof.
  intros Z Hl. unfold handle_short. destruct (find_local _ _ _) as [i|] eqn:F; [|discriminate].
  apply find_local_spec in F as (rs & k & E1 & E2 & E3 & E4 & E5 & E6 & E7); [|unfold SHORT_LEN; lia].
  cbv zeta. destruct (decrypt_record _ _ _) as [[plain state]|]; [|discriminate].
  destruct (parse_short_record plain) as [[b rest]|]; [|discriminate].
  destruct (admit_tunnel _ _ _) as [m1 hh]. intro H. apply pair_equal_spec in H as [_ H].
  apply (f_equal (fun o : option reply => match o with Some (_, x, _) => x | None => [] end)) in H.
  cbv beta iota in H. rewrite <- H, E2. clear H.
  set (acc := match hh with Some _ => true | None => false end).
  set (s := create_inbound _ _ _).
  set (kk := new_keys _ _ _).
  assert (L : length (firstn 1 (m_payload msg) ++ concat (encrypt_records c kk state i (set_record i (answer 201 acc) rs))) = length (m_payload msg)).
  { rewrite app_length, firstn_length, (concat_length 218).
    - unfold encrypt_records, set_record. rewrite !map_from_length. unfold SHORT_LEN in *. lia.
    - apply encrypt_records_forall; [exact Z|]. apply set_record_forall; [exact E6|].
      intros r Hr. rewrite answer_length; lia. }
  assert (B : N.of_nat (length (m_payload msg)) <= 65401) by (unfold SHORT_LEN in *; lia).
  assert (B0 : (0 < length (m_payload msg))%nat) by lia.
  revert L. generalize (firstn 1 (m_payload msg) ++ concat (encrypt_records c kk state i (set_record i (answer 201 acc) rs))).
  intros pay L. cbn [rq_role rq_next_msg rq_next_tunnel].
  assert (P : fine_out (build_short (mkMsg ShortTunnelBuild (br_next_msg b) (m_expiration msg) pay))).
  { apply fine_short; cbn; [lia | lia | discriminate]. }
  destruct (br_role b) eqn:R; try exact P.
  destruct (k_garlic kk) as [[gk gt]|] eqn:G.
  - apply garlic_tag_length in G. apply fine_gateway. rewrite standard_length. cbn [m_payload].
    rewrite garlic_reply_length by exact Z. lia.
  - exfalso. unfold kk, new_keys, hkdf in G. cbn [rq_role] in G. rewrite ?R in G. cbn in G. discriminate.
Qed.

Lemma variable_reply_fine c m msg m' router out h : crypto_sizes c ->
  N.of_nat (length (m_payload msg)) <= 65535 ->
  handle_variable c m msg = (m', Some (router, out, h)) -> fine_out out.
Proof.
  intros Z Hl. unfold handle_variable. destruct (find_local _ _ _) as [i|] eqn:F; [|discriminate].
  apply find_local_spec in F as (rs & k & E1 & E2 & E3 & E4 & E5 & E6 & E7); [|unfold LONG_LEN; lia].
  cbv zeta. destruct (decrypt_record _ _ _) as [[plain state]|]; [|discriminate].
  destruct (parse_var_record plain) as [[b rest]|]; [|discriminate].
  destruct (admit_tunnel _ _ _) as [m1 hh]. intro H. apply pair_equal_spec in H as [_ H].
  apply (f_equal (fun o : option reply => match o with Some (_, x, _) => x | None => [] end)) in H.
  cbv beta iota in H. rewrite <- H, E2. clear H.
  set (acc := match hh with Some _ => true | None => false end).
  set (s := create_inbound _ _ _).
  assert (L : length (firstn 1 (m_payload msg) ++ concat (set_record i (fun r => encrypt_long c s state (answer 511 acc r)) rs)) = length (m_payload msg)).
  { rewrite app_length, firstn_length, (concat_length 528).
    - unfold set_record. rewrite !map_from_length. unfold LONG_LEN in *. lia.
    - apply set_record_forall; [exact E6|].
      intros r Hr. unfold encrypt_long. destruct Z as [Z _]. rewrite Z, firstn_length, answer_length; lia. }
  assert (B : N.of_nat (length (m_payload msg)) <= 65473) by (unfold LONG_LEN in *; lia).
  assert (B0 : (0 < length (m_payload msg))%nat) by lia.
  revert L. generalize (firstn 1 (m_payload msg) ++ concat (set_record i (fun r => encrypt_long c s state (answer 511 acc r)) rs)).
  intros pay L. cbn [rq_role rq_next_msg rq_next_tunnel].
  assert (P : fine_out (build_short (mkMsg VariableTunnelBuild (vr_next_msg b) (m_expiration msg) pay))).
  { apply fine_short; cbn; [lia | lia | discriminate]. }
  destruct (vr_role b) eqn:R; try exact P.
  apply fine_gateway. rewrite standard_length. cbn [m_payload]. lia.
Qed.

(** ** No panics *)
Definition fine_msg (m : message) : Prop := m_type m <> Garlic /\ N.of_nat (length (m_payload m)) <= 65535.
Definition fine_queue (t : table) : Prop := Forall fine_msg (ch_q (rt_transit t)).

Lemma route_queue t m : fine_queue t -> fine_msg m -> fine_queue (fst (route_message t m)).
Proof.
  intros Q M. unfold route_message, route_tunnel_message, route_listener_message.
  destruct (is_tunnel_type (m_type m)).
  - destruct (tunnel_of m) as [id|]; [|exact Q].
    destruct (nget id (rt_tunnels t)) as [k|]; [|exact Q].
    destruct (nget k (rt_rx t)) as [c0|]; [|exact Q].
    destruct (try_send c0 m); exact Q.
  - destruct (nget (m_id m) (rt_listeners t)) as [k|].
    + cbv zeta. destruct (nget k (rt_one (w_listeners t (ndel (m_id m) (rt_listeners t))))) as [[]|]; exact Q.
    + destruct (try_send (rt_transit t) m) as [c'|] eqn:E; [|exact Q].
      apply try_send_inl in E as [-> _]. unfold fine_queue. cbn. apply Forall_app. split; [exact Q | now constructor].
Qed.
Lemma send_queue t router b fb : fine_queue t ->
  (forall m rest, parse_short b = Some (m, rest) -> routed_type (m_type m) = true -> fine_msg m) ->
  fine_queue (fst (send_message t router b fb)).
Proof.
  intros Q P. unfold send_message. destruct (beq router (rt_self t)).
  - destruct (parse_short b) as [[m rest]|]; [|exact Q]. destruct (routed_type (m_type m)) eqn:R.
    + pose proof (route_queue t m Q (P _ _ eq_refl R)) as X. destruct (route_message t m). exact X.
    + destruct (try_send (rt_manager t) (Internal m)); exact Q.
  - destruct (try_send (rt_manager t) _); [exact Q|]. destruct (parse_short b) as [[m rest]|]; exact Q.
Qed.

Lemma parse_short_small b m rest : Forall (fun x => x < 256) b -> parse_short b = Some (m, rest) ->
  N.of_nat (length (m_payload m)) <= 65535.
Proof.
  intros B H. unfold parse_short, bind in H.
  destruct (be_uint 2 b) as [[size r1]|] eqn:E1; [|discriminate].
  destruct (be_uint 1 r1) as [[t r2]|]; [|discriminate].
  destruct (be_uint 4 r2) as [[id r3]|]; [|discriminate].
  destruct (be_uint 4 r3) as [[x r4]|]; [|discriminate].
  destruct (guard (negb (size <=? 9)) r4) as [[u r5]|]; [|discriminate].
  destruct (take (N.to_nat (size - 9)) r5) as [[p r6]|] eqn:E6; [|discriminate].
  destruct (opt (mtype_of t) r6) as [[ty r7]|]; [|discriminate].
  cbv [ret] in H. injection H as <- _. cbn.
  apply take_inv in E6 as [_ L6].
  unfold be_uint in E1. destruct (take 2 b) as [[p1 q1]|] eqn:T; [|discriminate].
  apply take_inv in T as [T1 T2]. injection E1 as <- _.
  pose proof (be_val_lt p1) as V. rewrite T2 in V.
  assert (F : Forall (fun x => x < 256) p1) by (rewrite T1 in B; apply Forall_app in B; apply B).
  specialize (V F). change (256 ^ N.of_nat 2) with 65536 in V. lia.
Qed.

Lemma routed_not_garlic ty : routed_type ty = true -> ty <> Garlic.
Proof. now destruct ty. Qed.

Lemma other_queue t o : fine_queue t ->
  match o with
  | ORoute m => fine_msg m
  | OSend _ b _ => Forall (fun x => x < 256) b
  | _ => True
  end -> fine_queue (fst (step t o)).
Proof.
  intros Q P. destruct o; cbn [step]; try exact Q.
  - unfold try_add_tunnel. destruct (nhas id (rt_tunnels t)); exact Q.
  - unfold insert_tunnel. destruct (draw_free draws (rt_tunnels t)); exact Q.
  - unfold insert_listener. destruct (draw_free draws (rt_listeners t)); exact Q.
  - pose proof (route_queue t m Q P) as X. destruct (route_message t m). exact X.
  - assert (X : fine_queue (fst (send_message t router msg fb))).
    { apply send_queue; [exact Q|]. intros m rest H R. split; [now apply routed_not_garlic | eapply parse_short_small; eauto]. }
    destruct (send_message t router msg fb). exact X.
  - unfold recv_tunnel. destruct (nget h (rt_rx t)) as [c0|]; [|exact Q]. destruct (ch_q c0); exact Q.
  - cbn. unfold drop_tunnel. destruct (nget h (rt_rx t)); exact Q.
  - unfold recv_listener. destruct (nget h (rt_one t)) as [[]|]; exact Q.
  - cbn. unfold drop_listener. destruct (nget h (rt_one t)) as [[]|]; exact Q.
  - unfold recv_transit, fine_queue in *. destruct (ch_q (rt_transit t)) eqn:E; [rewrite <- E in Q; exact Q|].
    cbn. now inversion Q.
  - unfold fine_queue. cbn. constructor.
  - unfold recv_manager. destruct (ch_q (rt_manager t)); exact Q.
Qed.

Lemma resolve_queue m h b : rt_transit (tm_table (resolve m h b)) = rt_transit (tm_table m).
Proof.
  unfold resolve. destruct (find_task h (tm_tasks m)) as [k|]; [|reflexivity]. destruct (tk_phase k); try reflexivity.
  destruct b; [reflexivity|]. unfold finish. cbn. unfold drop_tunnel. destruct (nget h (rt_rx (tm_table m))); reflexivity.
Qed.

Lemma send_fine m r :
  fine_queue (tm_table m) -> (forall router out h, r = Some (router, out, h) -> fine_out out) ->
  fine_queue (tm_table (fst (send_reply m r))) /\ snd (send_reply m r) <> APanic.
Proof.
  intros Q F. unfold send_reply. destruct r as [[[router out] h]|]; [|split; [exact Q | discriminate]].
  destruct (F _ _ _ eq_refl) as (m' & Ep & G & L).
  assert (X : fine_queue (fst (send_message (tm_table m) router out h))).
  { apply send_queue; [exact Q|]. intros m2 rest H _. rewrite Ep in H. injection H as <- _. split; [exact G | lia]. }
  assert (NP : snd (send_message (tm_table m) router out h) <> SPanic).
  { unfold send_message. rewrite Ep. destruct (beq router (rt_self (tm_table m))).
    - destruct (routed_type (m_type m')); [destruct (route_message (tm_table m) m'); discriminate|].
      destruct (try_send (rt_manager (tm_table m)) (Internal m')); discriminate.
    - destruct (try_send (rt_manager (tm_table m)) _); discriminate. }
  destruct (send_message (tm_table m) router out h) as [t s]. cbn [fst snd] in *.
  destruct s as [res f|]; [|congruence]. split; [|discriminate].
  destruct h as [h|], f; cbn [fst]; try exact X; unfold fine_queue; rewrite resolve_queue; exact X.
Qed.

Lemma handled_queue m m' r : handled m m' r -> rt_transit (tm_table m') = rt_transit (tm_table m).
Proof.
  intros [[-> _]|(w & q & k & m1 & h & out & A & -> & _)]; [reflexivity|].
  apply admit_spec in A as [[-> ->]|(hh & -> & _ & _ & _ & _ & -> & _)]; [reflexivity|].
  cbn. unfold try_add_tunnel. destruct (nhas (rq_tunnel q) (rt_tunnels (tm_table m))); reflexivity.
Qed.

Lemma message_fine c now m msg : crypto_sizes c -> fine_queue (tm_table m) -> fine_msg msg ->
  fine_queue (tm_table (fst (on_message c now m msg))) /\ snd (on_message c now m msg) <> APanic.
Proof.
  intros Z Q [G L]. unfold on_message. destruct (m_type msg); try (split; [exact Q | discriminate]); [congruence| |].
  - destruct (handle_variable c m msg) as [m1 r] eqn:E. apply send_fine.
    + unfold fine_queue. rewrite (handled_queue _ _ _ (variable_handled _ _ _ _ _ E)). exact Q.
    + intros router out h ->. eapply variable_reply_fine; [exact Z | exact L | exact E].
  - destruct (handle_short c now m msg) as [m1 r] eqn:E. apply send_fine.
    + unfold fine_queue. rewrite (handled_queue _ _ _ (short_handled _ _ _ _ _ _ E)). exact Q.
    + intros router out h ->. eapply short_reply_fine; [exact Z | exact L | exact E].
Qed.

Lemma mstep_fine c m o : crypto_sizes c -> fine_queue (tm_table m) -> sane_op o ->
  fine_queue (tm_table (fst (mstep c m o))) /\ (forall msg, snd (mstep c m o) <> OAnswer msg APanic).
Proof.
  intros Z Q S. destruct o; cbn [mstep].
  - destruct (tm_done m); [split; [exact Q | discriminate]|].
    destruct (recv_transit (tm_table m)) as [t [msg|]] eqn:E; [|split; [exact Q | discriminate]].
    apply recv_transit_spec in E as (_ & _ & E & _).
    assert (X : fine_msg msg /\ fine_queue t) by (unfold fine_queue in *; rewrite E in Q; inversion Q; auto).
    destruct X as [X1 X2]. pose proof (message_fine c now (m_table m t) msg Z X2 X1) as Y.
    destruct (on_message c now (m_table m t) msg) as [m1 a]. cbn [fst snd] in *. destruct Y as [Y1 Y2].
    split; [exact Y1|]. intros ms H. injection H as _ ->. now apply Y2.
  - split; [|discriminate]. cbn [fst]. unfold fine_queue. rewrite resolve_queue. exact Q.
  - split; [|discriminate]. cbn [fst]. unfold fine_queue. rewrite resolve_queue. exact Q.
  - destruct (find_task h (tm_tasks m)) as [x|]; [|split; [exact Q | discriminate]].
    destruct (tk_phase x); try (split; [exact Q | discriminate]).
    pose proof (other_queue (tm_table m) (ORecvTunnel h) Q Logic.I) as X.
    destruct (step (tm_table m) (ORecvTunnel h)) as [t u]. split; [exact X | discriminate].
  - destruct (find_task h (tm_tasks m)) as [x|]; [|split; [exact Q | discriminate]].
    destruct (tk_phase x); try (split; [exact Q | discriminate]).
    split; [|discriminate]. exact (other_queue (tm_table m) (ODropTunnel h) Q Logic.I).
  - destruct (tm_done m); split; try exact Q; try discriminate. cbn [fst]. unfold collect.
    destruct (find_task h (tm_tasks m)) as [x|]; [|exact Q]. destruct (tk_phase x); try exact Q. cbv zeta.
    destruct (tm_tasks _); [|exact Q]. destruct (tm_shutting _); [|exact Q]. unfold fine_queue. cbn. constructor.
  - destruct (tm_done m); split; try exact Q; try discriminate. cbn. destruct (tm_tasks m); [|exact Q].
    unfold fine_queue. cbn. constructor.
  - destruct (other_may m o) eqn:M; [|split; [exact Q | discriminate]].
    assert (X : fine_queue (fst (step (tm_table m) o))).
    { apply other_queue; [exact Q|]. destruct o; try exact Logic.I; exact S. }
    destruct (step (tm_table m) o) as [t u]. split; [|discriminate].
    cbn [fst] in *. destruct o; try exact X; destruct u; exact X.
Qed.

Lemma mrun_fine c ops : crypto_sizes c -> forall m, fine_queue (tm_table m) -> Forall sane_op ops ->
  forall o msg, ~ In (o, OAnswer msg APanic) (snd (mrun c m ops)).
Proof.
  intro Z. induction ops as [|o l IH]; intros m Q S o' msg; cbn [mrun]; [exact (fun x => x)|].
  inversion S as [|? ? S1 S2]; subst. destruct (mstep_fine c m o Z Q S1) as [Q1 P].
  destruct (mstep c m o) as [m1 u]. cbn [fst snd] in *. specialize (IH m1 Q1 S2 o' msg).
  destruct (mrun c m1 l) as [m2 us]. cbn [snd] in *. intros [X|X]; [|now apply IH].
  injection X as -> ->. exact (P _ eq_refl).
Qed.

(** ** The end of a tunnel *)
Lemma filter_set_phase h p l :
  filter (fun x => negb (tk_rx x =? h)) (set_phase h p l) = filter (fun x => negb (tk_rx x =? h)) l.
Proof.
  induction l as [|x l IH]; cbn; [reflexivity|]. destruct (N.eqb_spec (tk_rx x) h) as [E|E]; cbn.
  - rewrite E, N.eqb_refl. cbn. exact IH.
  - destruct (N.eqb_spec (tk_rx x) h); [contradiction|]. cbn. f_equal. exact IH.
Qed.
Lemma find_set_phase h p l k : find_task h l = Some k ->
  find_task h (set_phase h p l) = Some (mkTask (tk_rx k) (tk_id k) (tk_role k) (tk_next_id k) (tk_next k) (tk_keys k) p).
Proof.
  unfold find_task. induction l as [|x l IH]; cbn; [discriminate|].
  destruct (N.eqb_spec (tk_rx x) h) as [E|E]; cbn.
  - intro H. injection H as <-. rewrite E, N.eqb_refl. reflexivity.
  - destruct (N.eqb_spec (tk_rx x) h); [contradiction|]. exact IH.
Qed.
Lemma find_task_in m k : inv m -> In k (tm_tasks m) -> find_task (tk_rx k) (tm_tasks m) = Some k.
Proof.
  intros I Ik. destruct (find_task (tk_rx k) (tm_tasks m)) as [x|] eqn:F.
  - apply find_task_spec in F as [Ix Ex]. f_equal. now apply (rx_inj m).
  - exfalso. exact (find_task_none _ _ F k Ik eq_refl).
Qed.

Lemma mrun3 c m a b d : fst (mrun c m [a; b; d]) = fst (mstep c (fst (mstep c (fst (mstep c m a)) b)) d).
Proof. cbn [mrun]. destruct (mstep c m a) as [m1 u1]. cbn [fst]. destruct (mstep c m1 b) as [m2 u2]. cbn [fst]. destruct (mstep c m2 d). reflexivity. Qed.
Lemma end_run c m k : inv m -> tm_done m = false -> In k (tm_tasks m) ->
  let m' := fst (mrun c m [MTimeout (tk_rx k); MExpire (tk_rx k); MCollect (tk_rx k)]) in
  tm_tasks m' = filter (fun x => negb (tk_rx x =? tk_rx k)) (tm_tasks m) /\
  rt_tunnels (tm_table m') = ndel (tk_id k) (rt_tunnels (tm_table m)) /\
  tm_others m' = tm_others m /\ tm_shutting m' = tm_shutting m.
Proof.
  intros I D Ik. cbv zeta. pose proof (find_task_in m k I Ik) as F.
  assert (C : forall m1 k1, find_task (tk_rx k) (tm_tasks m1) = Some k1 -> tk_phase k1 = Finished -> tk_id k1 = tk_id k ->
    tm_done m1 = false -> let m' := fst (mstep c m1 (MCollect (tk_rx k))) in
    tm_tasks m' = filter (fun x => negb (tk_rx x =? tk_rx k)) (tm_tasks m1) /\
    rt_tunnels (tm_table m') = ndel (tk_id k) (rt_tunnels (tm_table m1)) /\
    tm_others m' = tm_others m1 /\ tm_shutting m' = tm_shutting m1).
  { intros m1 k1 F1 P1 E1 D1. cbn. rewrite D1. unfold collect. rewrite F1, P1. cbv zeta. rewrite E1.
    cbn [tm_tasks m_table m_tasks tm_shutting fst].
    destruct (filter (fun x => negb (tk_rx x =? tk_rx k)) (tm_tasks m1)) eqn:G; [|cbn; auto].
    destruct (tm_shutting m1) eqn:S; cbn; rewrite ?S; auto. }
  assert (Fin : forall m1, find_task (tk_rx k) (tm_tasks m1) = Some k -> tm_done m1 = false ->
    let m' := fst (mstep c (finish m1 (tk_rx k)) (MCollect (tk_rx k))) in
    tm_tasks m' = filter (fun x => negb (tk_rx x =? tk_rx k)) (tm_tasks m1) /\
    rt_tunnels (tm_table m') = ndel (tk_id k) (rt_tunnels (tm_table m1)) /\
    tm_others m' = tm_others m1 /\ tm_shutting m' = tm_shutting m1).
  { intros m1 F1 D1. cbv zeta.
    pose proof (C (finish m1 (tk_rx k)) _ (find_set_phase _ Finished _ _ F1) eq_refl eq_refl D1) as X. cbv zeta in X.
    destruct X as (X1 & X2 & X3 & X4). rewrite X1, X2, X3, X4. cbn [finish m_table m_tasks tm_tasks tm_table tm_others tm_shutting].
    rewrite filter_set_phase. unfold drop_tunnel. destruct (nget (tk_rx k) (rt_rx (tm_table m1))); auto. }
  rewrite mrun3.
  destruct (tk_phase k) eqn:P.
  - replace (fst (mstep c m (MTimeout (tk_rx k)))) with (finish m (tk_rx k))
      by (cbn [mstep]; unfold resolve; rewrite F, P; reflexivity).
    replace (fst (mstep c (finish m (tk_rx k)) (MExpire (tk_rx k)))) with (finish m (tk_rx k))
      by (cbn [mstep finish tm_tasks m_table m_tasks]; rewrite (find_set_phase _ Finished _ _ F); reflexivity).
    exact (Fin m F D).
  - replace (fst (mstep c m (MTimeout (tk_rx k)))) with m
      by (cbn [mstep]; unfold resolve; rewrite F, P; reflexivity).
    replace (fst (mstep c m (MExpire (tk_rx k)))) with (finish m (tk_rx k))
      by (cbn [mstep]; rewrite F, P; reflexivity).
    exact (Fin m F D).
  - replace (fst (mstep c m (MTimeout (tk_rx k)))) with m
      by (cbn [mstep]; unfold resolve; rewrite F, P; reflexivity).
    replace (fst (mstep c m (MExpire (tk_rx k)))) with m
      by (cbn [mstep]; rewrite F, P; reflexivity).
    exact (C m k F P eq_refl D).
Qed.

(** ** Messages for a tunnel *)
Lemma route_to_task m k msg : inv m -> In k (tm_tasks m) ->
  is_tunnel_type (m_type msg) = true -> tunnel_of msg = Some (tk_id k) ->
  let '(t, r) := route_message (tm_table m) msg in
  (r = ROk /\ waiting (PTunnel (tk_rx k)) t = waiting (PTunnel (tk_rx k)) (tm_table m) ++ [msg] /\
   (forall h, h <> tk_rx k -> waiting (PTunnel h) t = waiting (PTunnel h) (tm_table m))) \/
  (t = tm_table m /\ exists e, r = RErr e msg /\
     (tk_phase k <> Finished -> e = ChannelFull /\ 64 <= N.of_nat (length (waiting (PTunnel (tk_rx k)) (tm_table m))))).
Proof.
  intros I Ik Ty Tn. destruct (iv_reg m I k Ik) as (R1 & R2 & ch & R3 & R4 & R5).
  unfold route_message, route_tunnel_message. rewrite Ty, Tn, R1, R3.
  unfold try_send. destruct (ch_open ch) eqn:O; cbn [negb].
  - destruct (N.leb_spec (ch_cap ch) (N.of_nat (length (ch_q ch)))).
    + right. split; [reflexivity|]. eexists. split; [reflexivity|]. intros _. split; [reflexivity|].
      cbn. rewrite R3. rewrite R4 in H. exact H.
    + left. split; [reflexivity|]. cbn. rewrite nget_nput_same, R3. cbn. split; [reflexivity|].
      intros h Hh. rewrite nget_nput. destruct (N.eqb_spec h (tk_rx k)); [contradiction | reflexivity].
  - right. split; [reflexivity|]. eexists. split; [reflexivity|]. intro X. specialize (R5 X). congruence.
Qed.
