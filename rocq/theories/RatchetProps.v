(** C32, C33, C34, C52, C53: end-to-end sessions between destinations. *)
From Coq Require Import String List NArith Bool Arith Lia.
From Coq Require Import ZifyBool ZifyNat ZifyN.
From Verif Require Import Bytes ListUtil NMap I2npModel GarlicModel I2npSpec GarlicProofs RatchetModel RatchetSpec RatchetProofs
  RatchetProofs2 RatchetProofs3 RatchetProofs4 RatchetProofs5 RatchetProofs6 RatchetToy.
Import ListNotations.
Open Scope N_scope.

(** ** C32 *)

(** A tag set hands out its 65535 entries in order, each once, and then nothing any more. *)
Theorem C32_tag_set_order :
  forall c root key n,
    draws c n (ts_new c root key) =
    map (fun i => if i <? 65535 then Some (nth_entry c (key_context c root key) 0 i) else None) (nseq 0 n).
Proof. intros. exact (draws_spec c _ n _ (issued_new c root key)). Qed.
Print Assumptions C32_tag_set_order.

(** A session that is ready for the next [w] tags of its peer's tag set decrypts the messages
    sent under them in whatever order they arrive, each exactly once, whatever else it sends
    and whenever it is maintained: the outcome is the one of the abstract receiver [wanted]. *)
Theorem C32_any_order :
  forall c k set w remote newpriv ops g s seen,
    rcrypt_ok c -> distinct_tags c k set -> receives c k set w seen s ->
    Forall (fun o => match o with RArrive _ i p => i < max_tags /\ plain p | _ => True end) ops ->
    deliver c remote k set newpriv g s ops = wanted w set seen ops.
Proof. intros c k set w remote np ops g s seen Hc Hd. exact (deliver_wanted c k set w remote np Hc Hd ops g s seen). Qed.
Print Assumptions C32_any_order.

(** The end that started a session is ready for 4096 tags as soon as it is established ... *)
Theorem C32_initiator_window :
  forall c k local remote now lease message d g out rpub nsr created tag reply ix e o send recv p0
    g1 p1 ev g2 p2 msg s set index,
    nget tag nsr = Some (ix, e) -> nth_error out ix = Some o ->
    handle_reply c o e reply = Ok (p0, send, recv) ->
    advance_inbound c remote tag reply g (mkPend created (PAwaitNsr out rpub nsr [])) = (g1, p1, Ok ev) ->
    advance_outbound c k local remote now lease message d g1 p1 = (g2, p2, Ok (PvCreate msg s set index)) ->
    distinct_tags c (ts_ctx recv) 0 -> apart c (ts_ctx recv) 0 (nkeys nsr) ->
    receives c (ts_ctx recv) 0 4096 [] s.
Proof. intros. eapply initiator_receives; eassumption. Qed.
Print Assumptions C32_initiator_window.

(** ... the end that answered has used one of its 4096 tags for the first message and not
    replaced it ... *)
Theorem C32_responder_window :
  forall c chain st reph rstatic payload eph tweak i msg tags,
    rcrypt_ok c ->
    create_reply c (IAwaiting chain st reph rstatic) payload eph tweak = (i, Ok (msg, tags)) ->
    exists root key,
      tags = map (nth_entry c (key_context c root key) 0) (nseq 0 (N.to_nat 4096)) /\
      (distinct_tags c (key_context c root key) 0 ->
       forall remote g created j q, j < 4096 ->
       let e := nth_entry c (key_context c root key) 0 j in
       exists p s, advance_inbound c remote (e_tag e) (es_wire c e q) g
                     (mkPend created (PInbound i (put_entries [] tags))) = (g, p, Ok (PvCreate q s 0 j)) /\
                   receives c (key_context c root key) 0 4095 [j] s).
Proof.
  intros c ch st reph rst p eph tweak i msg tags Hc E.
  assert (stage c ch st reph rst 0 [] [] (IAwaiting ch st reph rst)) as H0.
  { split; [reflexivity|]. left. auto. }
  destruct (stage_step c ch st reph rst 0 [] [] _ p eph tweak H0) as
    (i' & msg' & send & recv0 & recv & tags' & root & key & E1 & E2 & E3 & E4 & E5); [lia|].
  rewrite E in E1. apply pair_equal_spec in E1 as [<- E1].
  assert (tags = tags') as <- by congruence. clear E1. subst recv0.
  destruct (gen_fresh c (ts_new c root key) recv tags eq_refl E4) as (Htags & Hrecv & Hidx & Hid).
  cbn [ts_new ts_ctx ts_id] in Htags, Hrecv, Hid.
  exists root, key. split; [rewrite Htags; unfold stream_from, NUM_TAGS; reflexivity|]. intros Hd remote g created j q Hj e.
  assert (In e tags) as Hin.
  { rewrite Htags. unfold stream_from. apply in_map. apply nseq_In.
    change (N.of_nat (N.to_nat NUM_TAGS)) with 4096. lia. }
  assert (NoDup (map e_tag tags)) as Hnd.
  { rewrite Htags. apply (stream_tags_nodup c _ 0 Hd). change (N.of_nat (N.to_nat NUM_TAGS)) with 4096. lia. }
  destruct E5 as [_ [(Z & _)|(_ & nsr & Es & _)]]; [lia|].
  unfold advance_inbound. cbn [p_state p_created]. rewrite nget_put_entries_in by assumption. rewrite Es.
  unfold handle_existing. rewrite put_ix_in by now apply in_map. cbn [N.to_nat nth_error app].
  rewrite open_es_wire by assumption. eexists _, _. split.
  - unfold e. now rewrite nth_entry_set, nth_entry_index.
  - apply (responder_receives c (key_context c root key) recv send (put_entries [] tags) j); try assumption.
    intros x Hx. destruct (x <? 4096) eqn:E'.
    + apply nget_put_entries_in; [assumption|]. rewrite Htags. unfold stream_from. apply in_map. apply nseq_In.
      change (N.of_nat (N.to_nat NUM_TAGS)) with 4096. lia.
    + rewrite nget_put_entries_other; [reflexivity|]. rewrite Htags. unfold stream_from. rewrite map_map.
      intro Q. apply in_map_iff in Q as (y & Hy & Q). apply nseq_In in Q.
      change (N.of_nat (N.to_nat NUM_TAGS)) with 4096 in Q. apply Hd in Hy; unfold max_tags in *; lia.
Qed.
Print Assumptions C32_responder_window.

(** ... and after a ratchet the receiving end is ready for 4096 tags of the new set. *)
Theorem C32_ratchet_window :
  forall c remote now p g s k g' s',
    can_ratchet (se_recv s) k = true ->
    match k with ForwardKey _ _ _ => True | ReverseKey _ _ => False end ->
    handle_block c remote now p g s k = (g', s', Ok tt) ->
    let k' := ts_ctx (fst (handle_next_key c (se_recv s) k p)) in
    let set' := ts_id (fst (handle_next_key c (se_recv s) k p)) in
    let old := nkeys (put_entries (se_entries s) (snd (gen_opt c (N.to_nat NUM_EXTRA_TAGS) (se_recv s)))) in
    distinct_tags c k' set' ->
    apart c k' set' (match se_nsr s with NActive _ e _ => nkeys e | NInactive => [] end) ->
    (forall x, In x (se_expiring s) -> apart c k' set' (snd x)) -> apart c k' set' old ->
    receives c k' set' 4096 [] s'.
Proof. intros c remote now p g s k g' s'. exact (ratchet_receives c remote now p g s k g' s'). Qed.
Print Assumptions C32_ratchet_window.

(** No tag ever decrypts two messages, whatever reaches the session, as long as no tag is
    handed out twice. *)
Theorem C32_tag_used_once :
  forall c remote g s ops,
    let r := fold_left (sstep c remote) ops (mkSrun g s [] []) in
    NoDup (live_tags s ++ sr_new r) -> NoDup (sr_used r).
Proof. intros c remote g s ops. exact (used_once c remote g s ops). Qed.
Print Assumptions C32_tag_used_once.

(** A session the toy primitives make: the tag set [ts_new [1] [2]], 4096 tags ready. *)
Definition toy_k : kctx := key_context toy [1] [2].
Definition toy_session : session :=
  match gen toy (N.to_nat NUM_TAGS) (ts_new toy [1] [2]) with
  | Some (t, l) => sess_new NInactive t (ts_new toy [1] [3]) (put_entries [] l)
  | None => sess_new NInactive (ts_new toy [1] [2]) (ts_new toy [1] [3]) []
  end.
Lemma toy_receives : receives toy toy_k 0 4096 [] toy_session.
Proof.
  unfold toy_session. destruct (gen_new toy [1] [2]) as (t & l & -> & Hl & Hi & Hx & Hid & _).
  pose proof (toy_distinct_new [1] [2] 0) as Hd. fold toy_k in *.
  constructor; cbn [sess_new se_nsr se_expiring se_recv se_entries].
  - intros i _ [].
  - intros x [].
  - assumption.
  - apply Hi.
  - rewrite Hx. reflexivity.
  - intros i [].
  - intros i Hlt. rewrite ready_fresh. destruct (i <? 4096) eqn:E.
    + apply nget_put_entries_in; rewrite Hl.
      * apply (stream_tags_nodup toy _ 0 Hd). change (N.of_nat (N.to_nat NUM_TAGS)) with 4096. lia.
      * unfold stream_from. apply in_map. apply nseq_In. change (N.of_nat (N.to_nat NUM_TAGS)) with 4096. lia.
    + rewrite nget_put_entries_other; [reflexivity|]. rewrite Hl. unfold stream_from. rewrite map_map.
      intro Q. apply in_map_iff in Q as (y & Hy & Q). apply nseq_In in Q.
      change (N.of_nat (N.to_nat NUM_TAGS)) with 4096 in Q. apply Hd in Hy; unfold max_tags in *; lia.
Qed.
Definition toy_garlic : bytes := match build_garlic [BDateTime 7] with Some w => w | None => [] end.
Lemma toy_plain : plain toy_garlic.
Proof. exists [BDateTime 7]. split; [vm_compute; reflexivity|]. constructor; [exact I|constructor]. Qed.

(** Messages 4095, 0, 4095 again, 4096 and 5000: the second copy and the one out of reach are
    refused. *)
Example C32_any_order_example :
  deliver toy 1 toy_k 0 (fun _ => []) [] toy_session
    [RArrive 0 4095 toy_garlic; REncrypt [BDateTime 1] []; RArrive 0 0 toy_garlic;
     RArrive 0 4095 toy_garlic; RMaintain 5; RArrive 0 4096 toy_garlic; RArrive 0 5000 toy_garlic]
  = [Some (0, 4095, toy_garlic); Some (0, 0, toy_garlic); None; Some (0, 4096, toy_garlic); None].
Proof.
  rewrite (C32_any_order toy toy_k 0 4096 _ _ _ _ _ [] toy_ok (toy_distinct_new _ _ _) toy_receives).
  - reflexivity.
  - repeat (constructor; [first [exact I|split; [reflexivity|exact toy_plain]]|]). constructor.
Qed.

(** ** C33 *)

(** Both ends of one direction of a session, and everything that is said between them about
    keys.  Blocks are lost, delayed and repeated at will, but a block of an exchange does not
    arrive after the next exchange has been asked for ([timely]).  Then any entry both ends
    hand out with the same set id and index is the same entry.  The full statement does without
    [timely]; it is false, see [C33_refuted]. *)
Theorem C33_lockstep_partial :
  forall c root key ops, rcrypt_ok c -> link_agrees (lrun c true root key ops).
Proof. intros c root key ops H. exact (run_agrees c root key ops H). Qed.
Print Assumptions C33_lockstep_partial.

(** Whatever has been lost, the next exchange that gets through completes: both ends are then in
    the next tag set, at the same keys. *)
Theorem C33_exchange_completes :
  forall c root key ops p p',
    rcrypt_ok c ->
    let l := lrun c true root key ops in
    RATCHET_THRESHOLD < ts_index (l_send l) -> ts_id (l_send l) < 65535 ->
    let l' := lrun c true root key
                (ops ++ [LAsk p; LAnswer (List.length (l_fwd l)) p'; LDone (List.length (l_rev l))]) in
    ts_id (l_send l') = ts_id (l_send l) + 1 /\ ts_id (l_recv l') = ts_id (l_send l) + 1 /\
    ts_index (l_send l') = 0 /\
    (exists k, issued c k (l_send l') /\ issued c k (l_recv l')).
Proof. intros c root key ops p p'. exact (exchange_completes c root key ops p p'). Qed.
Print Assumptions C33_exchange_completes.

(** Key ids and tag set ids never overflow and tag set ids never go back, under any delivery
    whatsoever. *)
Lemma ids_step c timely l o :
  ids_ok (l_send l) -> ids_ok (l_recv l) ->
  ids_ok (l_send (lstep c timely l o)) /\ ids_ok (l_recv (lstep c timely l o)) /\
  ts_id (l_send l) <= ts_id (l_send (lstep c timely l o)) /\ ts_id (l_recv l) <= ts_id (l_recv (lstep c timely l o)).
Proof.
  intros Hs Hr.
  assert (forall t, ids_ok t -> forall t' x, next_entry c t = (t', x) -> ids_ok t' /\ ts_id t' = ts_id t) as Hn.
  { intros t [A B] t' x E. unfold next_entry in E. destruct (ts_index t =? 65535).
    - apply pair_equal_spec in E as [<- _]. split; [split; assumption|reflexivity].
    - destruct (ratchet_once _ _) as [k [ky tg]]. apply pair_equal_spec in E as [<- _].
      split; [split; assumption|reflexivity]. }
  destruct o as [| |p|n p|n]; cbn [lstep].
  - destruct (next_entry c (l_send l)) as [t [e|]] eqn:E; cbn [l_send l_recv]; [|auto using N.le_refl].
    destruct (Hn _ Hs _ _ E) as [A B]. rewrite B. auto using N.le_refl.
  - destruct (next_entry c (l_recv l)) as [t [e|]] eqn:E; cbn [l_send l_recv]; [|auto using N.le_refl].
    destruct (Hn _ Hr _ _ E) as [A B]. rewrite B. auto using N.le_refl.
  - destruct (try_next_key c (l_send l) p) as [t [[k|]|e|]] eqn:E; cbn [l_send l_recv]; try (auto using N.le_refl; fail);
      destruct (try_next_key_ids _ _ _ _ _ Hs E) as (A & B & _); rewrite B; auto using N.le_refl.
  - destruct (nth_error (l_fwd l) n) as [[x k]|]; [|auto using N.le_refl].
    destruct (deliverable timely l x); [|auto using N.le_refl].
    destruct (handle_next_key c (l_recv l) k p) as [t [[y|]|e|]] eqn:E; cbn [l_send l_recv]; try (auto using N.le_refl; fail);
      destruct (handle_next_key_ids _ _ _ _ _ _ Hr E) as (A & B); auto using N.le_refl.
  - destruct (nth_error (l_rev l) n) as [[x k]|]; [|auto using N.le_refl].
    destruct (deliverable timely l x); [|auto using N.le_refl].
    destruct (handle_next_key c (l_send l) k []) as [t [[y|]|e|]] eqn:E; cbn [l_send l_recv]; try (auto using N.le_refl; fail);
      destruct (handle_next_key_ids _ _ _ _ _ _ Hs E) as (A & B); auto using N.le_refl.
Qed.
Lemma ids_run c timely ops : forall l,
  ids_ok (l_send l) -> ids_ok (l_recv l) ->
  let l' := fold_left (lstep c timely) ops l in
  ids_ok (l_send l') /\ ids_ok (l_recv l') /\ ts_id (l_send l) <= ts_id (l_send l') /\ ts_id (l_recv l) <= ts_id (l_recv l').
Proof.
  induction ops as [|o ops IH]; intros l Hs Hr; cbn [fold_left]; [auto using N.le_refl|].
  destruct (ids_step c timely l o Hs Hr) as (A & B & C & D).
  destruct (IH _ A B) as (E & F & G & H). repeat (split; [assumption|]). split; lia.
Qed.
Definition key_ids (s : key_state) : list N :=
  match s with
  | KAwaitRev s r _ | KAwaitConf s r _ _ | KActive s r _ _ => [s; r]
  | KUninit | KPoisoned => []
  end.
Theorem C33_ids_bounded :
  forall c timely root key ops ops',
    let l := lrun c timely root key ops in let l' := lrun c timely root key (ops ++ ops') in
    ts_id (l_send l) <= 65535 /\ ts_id (l_recv l) <= 65535 /\
    ts_id (l_send l) <= ts_id (l_send l') /\ ts_id (l_recv l) <= ts_id (l_recv l') /\
    forall id, In id (key_ids (ts_state (l_send l)) ++ key_ids (ts_state (l_recv l))) -> id <= MAX_KEY_ID.
Proof.
  intros c timely root key ops ops' l l'.
  assert (ids_ok (ts_new c root key)) as H0 by (split; cbn; lia).
  destruct (ids_run c timely ops (link_new c root key) H0 H0) as (A & B & _).
  fold (lrun c timely root key ops) in A, B. fold l in A, B.
  destruct (ids_run c timely ops' l A B) as (_ & _ & C & D).
  unfold l', lrun. rewrite fold_left_app. fold (lrun c timely root key ops). fold l.
  split; [apply A|]. split; [apply B|]. split; [assumption|]. split; [assumption|].
  assert (forall t, ids_ok t -> forall id, In id (key_ids (ts_state t)) -> id <= MAX_KEY_ID) as K.
  { intros t [H _] id Hin. destruct (ts_state t); cbn in H, Hin; intuition (subst; assumption). }
  intros id Hin. apply in_app_iff in Hin as [Hin|Hin]; eauto.
Qed.
Print Assumptions C33_ids_bounded.

(** A run with one complete exchange, for real: 20001 tags, the request, the answer. *)
Fixpoint sends (n : nat) : list lop := match n with O => [] | S n => LSendTag :: sends n end.
Lemma send_many c timely : forall n l, ts_index (l_send l) + N.of_nat n <= 65535 ->
  let l' := fold_left (lstep c timely) (sends n) l in
  l_recv l' = l_recv l /\ l_fwd l' = l_fwd l /\ l_rev l' = l_rev l /\ l_asked l' = l_asked l /\ l_errs l' = l_errs l /\
  ts_state (l_send l') = ts_state (l_send l) /\ ts_id (l_send l') = ts_id (l_send l) /\
  ts_index (l_send l') = ts_index (l_send l) + N.of_nat n.
Proof.
  induction n as [|n IH]; intros l H; cbn [sends fold_left].
  - cbn [N.of_nat]. rewrite N.add_0_r. auto 10.
  - cbn [lstep]. unfold next_entry. replace (ts_index (l_send l) =? 65535) with false by lia.
    destruct (ratchet_once c (ts_ctx (l_send l))) as [k [key tag]].
    match goal with |- context [fold_left _ _ ?x] => set (l1 := x) end.
    destruct (IH l1) as (A & B & C & D & E & F & G & I); [cbn; lia|].
    rewrite A, B, C, D, E, F, G, I. cbn [l1 l_send l_recv l_fwd l_rev l_asked l_errs ts_state ts_id ts_index].
    repeat (split; [reflexivity|]). lia.
Qed.
Lemma one_exchange many : N.of_nat many = 20001 ->
  let l := lrun toy true [1] [2] (sends many) in
  RATCHET_THRESHOLD < ts_index (l_send l) /\ ts_id (l_send l) < 65535.
Proof.
  intro Hm. cbv zeta. unfold lrun. destruct (send_many toy true many (link_new toy [1] [2])) as (_ & _ & _ & _ & _ & _ & G & I).
  - rewrite Hm. discriminate.
  - rewrite G, I, Hm. cbn [link_new l_send ts_new ts_index ts_id]. unfold RATCHET_THRESHOLD. lia.
Qed.
Example C33_exchange_example :
  exists ops, let l := lrun toy true [1] [2] ops in
  RATCHET_THRESHOLD < ts_index (l_send l) /\ ts_id (l_send l) < 65535.
Proof. exists (sends (N.to_nat 20001)). apply one_exchange. apply N2Nat.id. Qed.

(** A repeated answer that arrives after the next exchange has been asked for destroys the
    sending tag set: the second exchange never completes, and no message can be encrypted any
    more.  The ids are far from the maximum. *)
Lemma refuted_run many : N.of_nat many = 20001 ->
  let l := lrun toy false [1] [2]
             (sends many ++ [LAsk [7]; LAnswer 0 [8]; LDone 0] ++ sends many ++ [LAsk [9]; LDone 0]) in
  l_errs l = [(EInvalidState, 1)] /\ ts_state (l_send l) = KPoisoned /\ ts_index (l_send l) = 20001 /\
  ts_id (l_send l) = 1.
Proof.
  intro Hm. cbv zeta. unfold lrun. rewrite !fold_left_app.
  set (l0 := fold_left _ (sends many) (link_new toy [1] [2])).
  assert (ts_index (l_send l0) = 20001 /\ ts_state (l_send l0) = KUninit /\ l_recv l0 = ts_new toy [1] [2] /\
          l_fwd l0 = [] /\ l_rev l0 = [] /\ l_errs l0 = []) as (I0 & S0 & R0 & F0 & V0 & E0).
  { destruct (send_many toy false many (link_new toy [1] [2])) as (A & B & C & D & E & F & G & I).
    - rewrite Hm. discriminate.
    - fold l0 in A, B, C, D, E, F, G, I. rewrite A, B, C, E, F, I. rewrite Hm.
      cbn [link_new l_send l_recv l_fwd l_rev l_errs ts_new ts_index ts_state]. repeat (split; [reflexivity|]). reflexivity. }
  clearbody l0. cbn [fold_left].
  assert (exists l1, lstep toy false (lstep toy false (lstep toy false l0 (LAsk [7])) (LAnswer 0 [8])) (LDone 0) = l1 /\
    (exists a b, ts_state (l_send l1) = KActive 0 0 a b) /\ ts_id (l_send l1) = 1 /\ ts_index (l_send l1) = 0 /\
    (exists x k, l_rev l1 = [(x, ReverseKey 0 (Some k))]) /\ l_errs l1 = []) as (l1 & -> & (a & b & S1) & D1 & I1 & (x & kk & V1) & E1).
  { eexists. split; [reflexivity|].
    cbn [lstep]. unfold try_next_key. rewrite I0, S0. cbn [N.leb N.compare Pos.compare Pos.compare_cont RATCHET_THRESHOLD].
    cbn [l_fwd]. rewrite F0. cbn [app nth_error deliverable negb orb l_recv]. rewrite R0.
    unfold handle_next_key. cbn [ts_new ts_state N.eqb l_rev]. rewrite V0. cbn [app nth_error l_send ts_with_state ts_state].
    cbn [l_send l_rev l_errs ts_reinit ts_state ts_id ts_index]. repeat split; eauto. }
  set (l2 := fold_left _ (sends many) l1).
  assert (ts_index (l_send l2) = 20001 /\ ts_state (l_send l2) = KActive 0 0 a b /\ ts_id (l_send l2) = 1 /\
          l_rev l2 = [(x, ReverseKey 0 (Some kk))] /\ l_errs l2 = []) as (I2 & S2 & D2 & V2 & E2).
  { destruct (send_many toy false many l1) as (A & B & C & D & E & F & G & I).
    - rewrite I1, Hm. discriminate.
    - fold l2 in A, B, C, D, E, F, G, I. rewrite C, E, F, G, I, I1, S1, D1, V1, E1. rewrite Hm.
      repeat (split; [reflexivity|]). reflexivity. }
  clearbody l2. cbn [lstep]. unfold try_next_key. rewrite I2, S2, D2.
  cbn [N.leb N.compare Pos.compare Pos.compare_cont RATCHET_THRESHOLD].
  change (negb (1 mod 2 =? 0)) with true. change (MAX_KEY_ID <? 0 + 1) with false. cbn [l_rev]. rewrite V2.
  cbn [nth_error deliverable negb orb l_send ts_with_state].
  unfold handle_next_key. cbn [ts_state ts_with_state l_errs l_send ts_id]. rewrite E2.
  split; [rewrite D2; reflexivity|]. split; [reflexivity|]. split; [exact I2|exact D2].
Qed.
Definition broken (c : rcrypt) (l : link) : Prop :=
  l_errs l = [(EInvalidState, 1)] /\ ts_id (l_send l) = 1 /\
  (forall p, try_next_key c (l_send l) p = (l_send l, Err EInvalidState)) /\
  (forall s blocks p, se_send s = l_send l -> exists s', sess_encrypt c s blocks p = (s', Err EInvalidState)).
Lemma poisoned_broken (l : link) :
  l_errs l = [(EInvalidState, 1)] /\ ts_state (l_send l) = KPoisoned /\ ts_index (l_send l) = 20001 /\
  ts_id (l_send l) = 1 -> broken toy l.
Proof.
  intros (E & S & I & D).
  assert (forall t, RATCHET_THRESHOLD < ts_index t -> ts_state t = KPoisoned ->
    forall p, try_next_key toy t p = (t, Err EInvalidState)) as H.
  { intros t Ht Hs p. unfold try_next_key. replace (ts_index t <=? RATCHET_THRESHOLD) with false by lia. now rewrite Hs. }
  split; [exact E|]. split; [exact D|]. split.
  - apply H; [rewrite I; reflexivity|exact S].
  - intros s blocks p Hs. unfold sess_encrypt, next_entry. rewrite Hs, I.
    change (20001 =? 65535) with false. cbv iota.
    destruct (ratchet_once toy (ts_ctx (l_send l))) as [k [key tag]].
    rewrite H; [|reflexivity|exact S]. eexists. reflexivity.
Qed.
Lemma broken_run many : N.of_nat many = 20001 ->
  exists ops, broken toy (lrun toy false [1] [2] ops).
Proof.
  intro Hm. eexists. apply poisoned_broken. exact (refuted_run many Hm).
Qed.
Theorem C33_refuted :
  exists c root key ops,
    rcrypt_ok c /\
    let l := lrun c false root key ops in
    l_errs l = [(EInvalidState, 1)] /\ ts_id (l_send l) = 1 /\
    (forall p, try_next_key c (l_send l) p = (l_send l, Err EInvalidState)) /\
    (forall s blocks p, se_send s = l_send l -> exists s', sess_encrypt c s blocks p = (s', Err EInvalidState)).
Proof.
  destruct (broken_run (N.to_nat 20001) (N2Nat.id _)) as [ops H].
  exists toy, [1], [2], ops. split; [exact toy_ok|exact H].
Qed.
Print Assumptions C33_refuted.

(** ** C34 *)

(** In an established session: whatever else arrives (damaged copies, unknown tags, NextKey
    blocks, replies) and is sent, the message sealed with an entry the session holds is
    decrypted when it comes, unless its tag was used up by something else or a tag was handed
    out twice.  [SMaintain] is left out: old tags expire. *)
Theorem C34_session :
  forall c remote ops g s t e payload now newpriv,
    rcrypt_ok c -> nget t (se_entries s) = Some e -> e_tag e = t -> plain payload ->
    Forall (fun o => match o with SDecrypt _ tag _ _ => tag <> t | SEncrypt _ _ => True | SMaintain _ => False end) ops ->
    let r := fold_left (sstep c remote) ops (mkSrun g s [] []) in
    ~ In t (sr_new r) ->
    snd (sess_decrypt c remote now newpriv (ndel t (sr_tags r)) (sr_sess r) t (es_wire c e payload)) =
    Ok (e_set e, e_index e, payload).
Proof.
  intros c remote ops g s t e payload now np Hc H He Hp Hf r Hn.
  apply decrypts_entry; try assumption. now apply (entry_stays c remote t e ops g s H Hf).
Qed.
Print Assumptions C34_session.

(** A message of which some bytes were changed does not decrypt (the cipher says so); then
    every message under another tag of any established session is answered as if it had
    never come. *)
Theorem C34_bad_message :
  forall c lo now np m bad m' v tb tag dest a,
    mgr_decrypt c lo now np m bad = (m', Err ECrypto) ->
    garlic_tag bad = Some tb -> garlic_tag v = Some tag -> tag <> tb ->
    nget tag (m_tags m) = Some dest -> nget dest (m_active m) = Some a ->
    nget tag (se_entries (a_sess a)) <> None ->
    (forall d x e, nget tb (m_tags m) = Some d -> nget d (m_active m) = Some x ->
       snd (next_entry c (se_recv (a_sess x))) = Some e -> e_tag e <> tag) ->
    forall lo' now' np', snd (mgr_decrypt c lo' now' np' m v) = snd (mgr_decrypt c lo' now' np' m' v).
Proof.
  intros. eapply bad_message_local; eassumption.
Qed.
Print Assumptions C34_bad_message.

(** A message under a tag nobody knows changes nothing, unless it is a proper [NewSession]. *)
Theorem C34_unknown_tag :
  forall c lo now np m v t,
    garlic_tag v = Some t -> nget t (m_tags m) = None ->
    (forall i p, create_inbound c (m_kc m) v <> Ok (i, p)) ->
    fst (mgr_decrypt c lo now np m v) = m.
Proof.
  intros c lo now np m v t Ht Hn Hc. unfold mgr_decrypt. rewrite Ht, Hn.
  destruct (create_inbound c (m_kc m) v) as [[i p]| |] eqn:E; [|reflexivity|reflexivity]. destruct (Hc i p). reflexivity.
Qed.
Print Assumptions C34_unknown_tag.

(** ** A conversation with the toy primitives *)
Definition lo (body : bytes) : option (N * N) := Some (be_val (firstn 32 body), be_val (firstn 32 body)).
Definition np (n : nat) : bytes := [9; N.of_nat n; 0].
Definition dw (x : N) : draw := mkDraw [x; 3; 0] 0 [x; 4; 0] x (x + 1) (1000000000 * x) x.
Definition got (r : res bytes) : bytes := match r with Ok w => w | _ => [] end.
Definition fine {A} (r : res A) : bool := match r with Ok _ => true | _ => false end.
(** the two destinations, 11 and 22; 11 knows the public key of 22 *)
Definition alice : manager := mgr_add_remote (mgr_new toy 11 [100; 1; 0] [5; 6; 7]) 22 (pubkey toy [200; 2; 0]).
Definition bob : manager := mgr_new toy 22 [200; 2; 0] [8; 9].
Definition say (m : manager) (x dest : N) (message : bytes) := mgr_encrypt toy 0 (dw x) m dest message.
Definition hear (m : manager) (w : bytes) := mgr_decrypt toy lo 0 np m w.
(** NewSession, two NewSessionReplys *)
Definition a1 := say alice 1 22 [1; 2; 3].
Definition b1 := hear bob (got (snd a1)).
Definition b2 := say (fst b1) 2 11 [4; 5].
Definition b3 := mgr_encrypt toy 0 (mkDraw (tw (tM - 300000)) 0 [3] 3 4 3000000000 3) (fst b2) 11 [4; 5].
Definition damaged (w : bytes) : bytes := firstn (length w - 1) w ++ [77].

(** ** C52 *)

(** Two destinations that have no session with each other and send three messages: the first is
    understood, so is the answer, so is the message after that, and the two sessions then use
    the same pair of tag sets. *)
Theorem C52_first_contact :
  forall c lo ida idb a b A B t0 t1 t2 t3 t4 t5 d0 d2 d4 np m0 m1 m2,
    rcrypt_ok c ->
    m_local A = ida -> m_kc A = kc_from_private c a -> m_kc B = kc_from_private c b ->
    nget idb (m_remotes A) = Some (pubkey c b) ->
    nget idb (m_active A) = None -> nget idb (m_pending A) = None ->
    nget ida (m_active B) = None -> nget ida (m_pending B) = None ->
    Forall block_ok (ns_blocks ida idb (m_lease A) m0 d0) ->
    block_ok (data_clove (dr_mid d2) (dr_exp d2) ida m1) ->
    block_ok (data_clove (dr_mid d4) (dr_exp d4) idb m2) ->
    lo (ser_store (be_bytes 32 ida) (KLeaseSet2 (m_lease A)) SrNone) = Some (ida, ida) ->
    exists A1 w0, mgr_encrypt c t0 d0 A idb m0 = (A1, Ok w0) /\
    ((forall t, garlic_tag w0 = Some t -> nget t (m_tags B) = None) ->
     exists B1 l0, mgr_decrypt c lo t1 np B w0 = (B1, Ok l0) /\
     In (data_received (dr_mid d0) (dr_exp d0) idb m0) l0 /\
     exists B2 w1, mgr_encrypt c t2 d2 B1 ida m1 = (B2, Ok w1) /\
     (listening A1 idb = 16%nat -> listening B2 ida = 4096%nat ->
      exists A2 A3 w2 B3,
      mgr_decrypt c lo t3 np A1 w1 = (A2, Ok [data_received (dr_mid d2) (dr_exp d2) ida m1]) /\
      mgr_encrypt c t4 d4 A2 idb m2 = (A3, Ok w2) /\
      mgr_decrypt c lo t5 np B2 w2 = (B3, Ok [data_received (dr_mid d4) (dr_exp d4) idb m2]) /\
      exists sA sB root k1 k2,
      option_map a_sess (nget idb (m_active A3)) = Some sA /\ option_map a_sess (nget ida (m_active B3)) = Some sB /\
      issued c (key_context c root k1) (se_send sA) /\ issued c (key_context c root k1) (se_recv sB) /\
      issued c (key_context c root k2) (se_recv sA) /\ issued c (key_context c root k2) (se_send sB))).
Proof. exact first_contact. Qed.
Print Assumptions C52_first_contact.

(** The responder may answer any number of times before it hears from the initiator again; any
    of the first sixteen answers opens the session, and both ends take the keys from that one. *)
Theorem C52_any_reply :
  forall c a b payload eph tweak o msg l n p eph' tweak',
    rcrypt_ok c ->
    create_outbound c (kc_from_private c a) (pubkey c b) payload eph tweak = (o, msg) ->
    nth_error l n = Some (p, eph', tweak') -> (n < 16)%nat -> N.of_nat (length l) <= 65535 ->
    exists i, create_inbound c (kc_from_private c b) (framed msg) = Ok (i, payload) /\
    exists reply tags e send recv,
    nth_error (snd (reply_run c i l)) n = Some (Ok (reply, tags)) /\
    nth_error (reply_tags c o) n = Some e /\
    firstn 8 reply = le_bytes 8 (e_tag e) /\
    handle_reply c o e (framed reply) = Ok (p, send, recv) /\
    (exists root k1 k2, send = ts_new c root k1 /\ recv = ts_new c root k2) /\
    (exists recv', gen c (N.to_nat NUM_TAGS) send = Some (recv', tags) /\
     forall x t q, In x tags -> e_tag x = t ->
     NoDup (concat (map reply_tags_of (snd (reply_run c i l)))) ->
     handle_existing c (fst (reply_run c i l)) t x (es_wire c x q) = Ok (q, recv, recv')).
Proof. exact handshake_agrees. Qed.
Print Assumptions C52_any_reply.

Example C52_first_contact_example :
  (fine (snd a1), fine (snd b1), fine (snd b2), listening (fst a1) 22, listening (fst b2) 11,
   match garlic_tag (got (snd a1)) with Some t => nget t (m_tags bob) | None => Some 0 end,
   snd (hear (fst a1) (got (snd b2))))
  = (true, true, true, 16%nat, 4096%nat, None, Ok [data_received 2 2000000000 11 [4; 5]]).
Proof. vm_compute. reflexivity. Qed.

(** ** C34, refuted for sessions being set up *)

(** The initiator after its first message, a damaged copy of the first reply, the second reply *)
Definition waiting_alice : manager := Eval vm_compute in fst a1.
Definition bad_reply : bytes := Eval vm_compute in damaged (got (snd b2)).
Definition good_reply : bytes := Eval vm_compute in got (snd b3).
Example C34_replies_arise :
  (waiting_alice, bad_reply, good_reply) = (fst a1, damaged (got (snd b2)), got (snd b3)).
Proof. vm_compute. reflexivity. Qed.
Definition poisoned_alice : manager := Eval vm_compute in fst (hear waiting_alice bad_reply).

(** A damaged copy of the first reply makes the initiator refuse the second, undamaged one,
    which it would have taken otherwise; and nothing can be sent either. *)
Theorem C34_pending_refuted :
  exists c lo np m bad good m',
    rcrypt_ok c /\ garlic_tag bad <> garlic_tag good /\
    mgr_decrypt c lo 0 np m bad = (m', Err ECrypto) /\
    fine (snd (mgr_decrypt c lo 0 np m good)) = true /\
    snd (mgr_decrypt c lo 0 np m' good) = Err EInvalidState /\
    snd (mgr_encrypt c 0 (dw 5) m' 22 [1]) = Err EInvalidState.
Proof.
  exists toy, lo, np, waiting_alice, bad_reply, good_reply, poisoned_alice.
  split; [exact toy_ok|]. split; [vm_compute; discriminate|]. split; [vm_compute; reflexivity|].
  split; [vm_compute; reflexivity|]. split; vm_compute; reflexivity.
Qed.
Print Assumptions C34_pending_refuted.

(** ** C53 *)

(** While a session is active, a [NewSession] message of its peer is accepted but does not
    change what is sent to the peer: the answer is what would have been sent without it. *)
Theorem C53_answer_ignores_new_session :
  forall c lo t np m w dest i payload blocks a,
    (forall x, garlic_tag w = Some x -> nget x (m_tags m) = None) ->
    create_inbound c (m_kc m) w = Ok (i, payload) -> parse_garlic payload = Some blocks ->
    ns_remote lo blocks = Ok dest ->
    Forall (fun b => match b with BAck _ | BAckRequest => False | _ => True end) blocks ->
    nget dest (m_active m) = Some a ->
    forall t' d message,
      snd (mgr_encrypt c t' d (fst (mgr_decrypt c lo t np m w)) dest message) =
      snd (mgr_encrypt c t' d m dest message).
Proof.
  intros c lo t np m w dest i payload blocks a Ht Hi Hp Hr Hf Ha t' d message.
  unfold mgr_decrypt. destruct (garlic_tag w) as [x|]; [|reflexivity]. rewrite (Ht x eq_refl), Hi, Hp, Hr.
  assert (forall set ix act, fst (take_cloves dest set ix act blocks) = act) as Hk.
  { intros set ix. clear - Hf. induction Hf as [|b l Hb Hf IH]; intro act; cbn [take_cloves]; [reflexivity|].
    destruct b; try (apply IH); try (now destruct Hb).
    specialize (IH act). destruct (take_cloves dest set ix act l). exact IH. }
  cbn [mgr_with m_active]. specialize (Hk 0 0 (m_active m)).
  destruct (take_cloves dest 0 0 (m_active m) blocks) as [act l]. cbn [fst] in Hk. subst act. cbn [fst].
  unfold mgr_encrypt. cbn [mgr_with m_active m_local]. rewrite Ha.
  destruct (a_lease a); destruct (sess_encrypt _ _ _ _) as [s [[[q1 q2] q3]|[]|]]; reflexivity.
Qed.
Print Assumptions C53_answer_ignores_new_session.

(** [A] starts a session with 22, [B] gets the message and answers, [A] gets the answer: which of
    the four steps succeed *)
Definition contact (c : rcrypt) (lo : bytes -> option (N * N)) (np : nat -> bytes) (A B : manager) (d : draw)
  (m0 m1 : bytes) : list bool :=
  let sent := mgr_encrypt c 0 d A 22 m0 in
  let taken := mgr_decrypt c lo 0 np B (got (snd sent)) in
  let answer := mgr_encrypt c 0 d (fst taken) 11 m1 in
  let heard := mgr_decrypt c lo 0 np (fst sent) (got (snd answer)) in
  [fine (snd sent); fine (snd taken); fine (snd answer); fine (snd heard)].
(** Destination 11 has lost its state (it is [alice] again) and starts a new session with 22,
    which still has the old one.  22 takes its message and answers; 11 cannot read the answer.
    Had 22 lost its state as well, it could. *)
Theorem C53_refuted :
  exists c lo np A B B0 d m0 m1,
    rcrypt_ok c /\ contact c lo np A B0 d m0 m1 = [true; true; true; true] /\
    contact c lo np A B d m0 m1 = [true; true; true; false].
Proof.
  exists toy, lo, np, alice,
    (fst (hear (fst b2) (got (snd (say (fst (hear (fst a1) (got (snd b2)))) 4 22 [6]))))), bob, (dw 7), [1], [2].
  split; [exact toy_ok|]. split; vm_compute; reflexivity.
Qed.
Print Assumptions C53_refuted.
