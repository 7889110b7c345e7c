(** The handshake: both ends come to the same keys. *)
From Coq Require Import String List NArith Bool Arith Lia.
From Coq Require Import ZifyBool ZifyNat ZifyN.
From Verif Require Import Bytes ListUtil NMap GarlicModel RatchetModel RatchetSpec RatchetProofs RatchetProofs2
  RatchetProofs3.
Import ListNotations.
Open Scope N_scope.

Lemma framed_skip m n : skipn (4 + n) (framed m) = skipn n m.
Proof.
  unfold framed. rewrite <- skipn_add. f_equal.
Qed.
Lemma framed_length m : length (framed m) = (4 + length m)%nat.
Proof. unfold framed. now rewrite app_length, be_bytes_length. Qed.

Lemma skipn_len {A} (a b : list A) n : length a = n -> skipn n (a ++ b) = b.
Proof. intros <-. apply skipn_exact. Qed.
Lemma firstn_len {A} (a b : list A) n : length a = n -> firstn n (a ++ b) = a.
Proof. intros <-. apply firstn_exact. Qed.

(** [NewSession] *)
Lemma ns_agrees c a b payload eph tweak o msg :
  rcrypt_ok c ->
  create_outbound c (kc_from_private c a) (pubkey c b) payload eph tweak = (o, msg) ->
  create_inbound c (kc_from_private c b) (framed msg) =
    Ok (IAwaiting (o_chain o) (o_state o) (epub c eph) (pubkey c a), payload) /\
  o_static o = a /\ o_eph o = eph.
Proof.
  intros (_ & Hdh & Hde & _ & Hpk & Hrep & Hop & Hsl) E.
  unfold create_outbound in E. cbn [kc_from_private k_chain k_in k_out k_priv k_pub] in E.
  destruct (mix_key c (sha c (str _)) (dh c eph (pubkey c b))) as [ch1 key1] eqn:M1.
  destruct (mix_key c ch1 (dh c a (pubkey c b))) as [ch2 key2] eqn:M2.
  apply pair_equal_spec in E as [<- <-]. cbn [o_chain o_state o_static o_eph].
  split; [|split; reflexivity].
  unfold create_inbound. rewrite framed_length, !app_length.
  destruct (Hrep eph tweak) as [Hl Hu]. rewrite Hl, !Hsl, Hpk.
  match goal with |- context [(?x <? 100)%nat] => replace (x <? 100)%nat with false by lia end.
  rewrite (framed_skip _ 0), (framed_skip _ 32), (framed_skip _ 80), skipn_O.
  rewrite firstn_len by assumption. rewrite Hu.
  rewrite skipn_len by assumption.
  cbn [kc_from_private k_chain k_in k_out k_priv k_pub].
  rewrite (Hde b eph). rewrite M1.
  set (st := sha c _).
  assert (length (aseal c key1 0 st (pubkey c a)) = 48)%nat as Hs by (rewrite Hsl, Hpk; reflexivity).
  rewrite firstn_len by assumption. rewrite Hop.
  rewrite (Hdh b a), M2.
  change 80%nat with (32 + 48)%nat. rewrite <- skipn_add.
  rewrite (skipn_len (represent c eph tweak)) by assumption.
  rewrite skipn_len by assumption. rewrite Hop. reflexivity.
Qed.

(** [NewSessionReply] *)
Lemma nsr_agrees c o a reph_priv p eph tweak msg send recv e :
  rcrypt_ok c -> o_static o = a -> o_eph o = reph_priv ->
  nsr_message c (epub c reph_priv) (pubkey c a) (o_state o) (o_chain o) p eph tweak (e_tag e) = (msg, send, recv) ->
  handle_reply c o e (framed msg) = Ok (p, recv, send) /\ firstn 8 msg = le_bytes 8 (e_tag e).
Proof.
  intros (_ & Hdh & Hde & Hee & Hpk & Hrep & Hop & Hsl) <- <- E. unfold nsr_message in E.
  destruct (nsr_keys c (o_chain o) (dh c eph (epub c (o_eph o))) (dh c eph (pubkey c (o_static o)))) as [chain key] eqn:K.
  destruct (split_keys c chain) as [rk sk] eqn:Sp.
  apply pair_equal_spec in E as [E <-]. apply pair_equal_spec in E as [<- <-].
  set (st := sha c (sha c (o_state o ++ le_bytes 8 (e_tag e)) ++ epub c eph)) in *.
  set (mac := aseal c key 0 st []). assert (length mac = 16)%nat as Hm by (unfold mac; now rewrite Hsl).
  set (ct := aseal c _ 0 _ p).
  destruct (Hrep eph tweak) as [Hl Hu].
  pose proof (le_bytes_length 8 (e_tag e)) as Ht.
  split; [|now apply firstn_len].
  unfold handle_reply. rewrite framed_length, !app_length, Ht, Hl, Hm.
  match goal with |- context [(?x <? 60)%nat] => replace (x <? 60)%nat with false by lia end.
  rewrite (framed_skip _ 8), (framed_skip _ 40), (framed_skip _ 56).
  rewrite skipn_len by assumption. rewrite firstn_len by assumption. rewrite Hu.
  change 56%nat with (8 + (32 + 16))%nat. change 40%nat with (8 + 32)%nat.
  rewrite <- !skipn_add. rewrite (skipn_len (le_bytes 8 (e_tag e))) by assumption.
  rewrite (skipn_len (represent c eph tweak)) by assumption.
  rewrite skipn_len, firstn_len by assumption. fold st.
  rewrite (Hee (o_eph o) eph), (Hde (o_static o) eph), K. unfold mac at 1. rewrite Hop.
  rewrite Sp. unfold ct. rewrite Hop. reflexivity.
Qed.

Section Replies.
Context (c : rcrypt) (ch st reph rst : bytes).

Definition kn : kctx := ts_ctx (nsr_tag_set c ch).

Definition stage (n : N) (sets : list (tagset * tagset)) (mapping : nmap nat) (i : inbound) : Prop :=
  length sets = N.to_nat n /\
  ((n = 0 /\ mapping = [] /\ i = IAwaiting ch st reph rst) \/
   (0 < n /\ exists nsr, i = ISent sets mapping nsr reph rst st ch /\
      issued c kn nsr /\ ts_index nsr = n /\ ts_id nsr = 0)).

Definition put_ix (m : nmap nat) (ix : nat) (l : list entry) : nmap nat :=
  fold_left (fun m e => nput (e_tag e) ix m) l m.

Lemma gen_new root key : exists t l,
  gen c (N.to_nat NUM_TAGS) (ts_new c root key) = Some (t, l) /\
  l = stream_from c (key_context c root key) 0 0 (N.to_nat NUM_TAGS) /\
  issued c (key_context c root key) t /\ ts_index t = 4096 /\ ts_id t = 0 /\ ts_state t = KUninit.
Proof.
  pose proof (issued_new c root key) as Hi. assert (N.of_nat (N.to_nat NUM_TAGS) = 4096) as E by reflexivity.
  destruct (gen_works c _ (N.to_nat NUM_TAGS) _ Hi) as [[t l] Hg]; [cbn [ts_new ts_index]; rewrite E; lia|].
  exists t, l. destruct (gen_spec c _ _ _ _ _ Hi Hg) as (A & B & C & D & F).
  rewrite E in C. cbn [ts_new ts_index ts_id ts_state] in *. auto 10.
Qed.

Lemma stage_step n sets mapping i p eph tweak :
  stage n sets mapping i -> n < 65535 ->
  exists i' msg send recv0 recv tags root key,
  create_reply c i p eph tweak = (i', Ok (msg, tags)) /\
  nsr_message c reph rst st ch p eph tweak (e_tag (nth_entry c kn 0 n)) = (msg, send, recv0) /\
  recv0 = ts_new c root key /\
  gen c (N.to_nat NUM_TAGS) recv0 = Some (recv, tags) /\
  stage (n + 1) (sets ++ [(send, recv)]) (put_ix mapping (N.to_nat n) tags) i'.
Proof.
  intros [Hlen H] Hn.
  assert (exists nsr0, issued c kn nsr0 /\ ts_index nsr0 = n /\ ts_id nsr0 = 0 /\
    ((i = IAwaiting ch st reph rst /\ nsr0 = nsr_tag_set c ch /\ sets = [] /\ mapping = []) \/
     i = ISent sets mapping nsr0 reph rst st ch)) as (nsr0 & I1 & I2 & I3 & Hi).
  { destruct H as [(-> & -> & ->)|(_ & nsr & -> & A & B & D)].
    - exists (nsr_tag_set c ch). repeat split; try reflexivity; [cbn; lia|]. left. repeat split.
      destruct sets; [reflexivity|discriminate].
    - exists nsr. auto 10. }
  assert (exists nsr1, next_entry c nsr0 = (nsr1, Some (nth_entry c kn 0 n)) /\
          issued c kn nsr1 /\ ts_index nsr1 = n + 1 /\ ts_id nsr1 = 0) as (nsr1 & E1 & J1 & J2 & J3).
  { destruct (next_entry c nsr0) as [nsr1 [e|]] eqn:E.
    - destruct (next_entry_some _ _ _ _ _ I1 E) as (-> & A & B & D & _). rewrite I2, I3 in *.
      exists nsr1. auto.
    - apply next_entry_none in E. lia. }
  destruct (nsr_message c reph rst st ch p eph tweak (e_tag (nth_entry c kn 0 n))) as [[msg send] recv0] eqn:Em.
  assert (exists root key, recv0 = ts_new c root key) as (root & key & Er).
  { unfold nsr_message in Em. destruct (nsr_keys _ _ _ _). destruct (split_keys _ _).
    apply pair_equal_spec in Em as [_ <-]. eauto. }
  destruct (gen_new root key) as (recv & tags & Eg & _). rewrite <- Er in Eg.
  unfold create_reply.
  destruct Hi as [(-> & -> & -> & ->)| ->]; rewrite E1, Em, Eg; do 8 eexists;
    (split; [reflexivity|]); (split; [reflexivity|]); (split; [eassumption|]); (split; [eassumption|]);
    (split; [rewrite app_length, Hlen; cbn [length]; lia|]); right; (split; [lia|]); exists nsr1.
  - cbn [length] in Hlen. assert (n = 0) as -> by lia. cbn [app]. auto.
  - rewrite Hlen. auto.
Qed.

Lemma put_ix_other m ix l t : ~ In t (map e_tag l) -> nget t (put_ix m ix l) = nget t m.
Proof.
  unfold put_ix. revert m. induction l as [|e l IH]; intros m H; cbn [fold_left]; [reflexivity|].
  cbn in H. rewrite IH by tauto. apply nget_nput_other. intro Q. apply H. now left.
Qed.
Lemma put_ix_in m ix l t : In t (map e_tag l) -> nget t (put_ix m ix l) = Some ix.
Proof.
  unfold put_ix. revert m. induction l as [|e l IH]; intros m H; cbn [fold_left]; [destruct H|].
  destruct (in_dec N.eq_dec t (map e_tag l)) as [Hin|Hn]; [now apply IH|].
  fold (put_ix (nput (e_tag e) ix m) ix l). rewrite put_ix_other by assumption.
  cbn in H. destruct H as [->|H]; [apply nget_nput_same|tauto].
Qed.

Lemma replies_run : forall l n sets mapping i,
  stage n sets mapping i -> n + N.of_nat (length l) <= 65535 ->
  exists sets' mapping', stage (n + N.of_nat (length l)) (sets ++ sets') mapping' (fst (reply_run c i l)) /\
  length sets' = length l /\
  (forall t, ~ In t (concat (map reply_tags_of (snd (reply_run c i l)))) -> nget t mapping' = nget t mapping) /\
  forall j p eph tweak, nth_error l j = Some (p, eph, tweak) ->
  exists msg send recv0 recv tags root key,
    nth_error (snd (reply_run c i l)) j = Some (Ok (msg, tags)) /\
    nsr_message c reph rst st ch p eph tweak (e_tag (nth_entry c kn 0 (n + N.of_nat j))) = (msg, send, recv0) /\
    recv0 = ts_new c root key /\
    gen c (N.to_nat NUM_TAGS) recv0 = Some (recv, tags) /\
    nth_error sets' j = Some (send, recv) /\
    (NoDup (concat (map reply_tags_of (snd (reply_run c i l)))) ->
     forall t, In t (map e_tag tags) -> nget t mapping' = Some (N.to_nat n + j)%nat).
Proof.
  induction l as [|[[p eph] tweak] l IH]; intros n sets mapping i Hs Hn.
  - exists [], mapping. cbn [length] in *. rewrite N.add_0_r, app_nil_r. split; [assumption|].
    split; [reflexivity|]. split; [auto|]. intros [|j]; discriminate.
  - cbn [length] in Hn.
    destruct (stage_step n sets mapping i p eph tweak Hs) as
      (i' & msg & send & recv0 & recv & tags & root & key & E1 & E2 & E3 & E4 & E5); [lia|].
    destruct (IH _ _ _ _ E5) as (sets' & mapping' & S1 & S2 & S3 & S4); [lia|].
    unfold reply_run in *. cbn [accum map concat]. rewrite E1. cbn [fst snd].
    set (out := accum (fun i x => let '(p, eph, tweak) := x in create_reply c i p eph tweak) i' l) in *.
    exists ((send, recv) :: sets'), mapping'. split; [|split; [|split]].
    + replace (n + N.of_nat (length ((p, eph, tweak) :: l))) with (n + 1 + N.of_nat (length l)) by (cbn [length]; lia).
      rewrite <- app_assoc in S1. exact S1.
    + cbn [length]. now rewrite S2.
    + intros t Ht. change (~ In t (map e_tag tags ++ concat (map reply_tags_of (snd out)))) in Ht.
      rewrite in_app_iff in Ht.
      rewrite S3 by tauto. apply put_ix_other. tauto.
    + intros [|j] p1 eph1 tweak1 Hj; cbn [nth_error] in *.
      * injection Hj as <- <- <-. exists msg, send, recv0, recv, tags, root, key.
        replace (n + N.of_nat 0) with n by lia. repeat (split; [reflexivity || assumption|]).
        intros Hnd t Ht. rewrite S3.
        -- rewrite put_ix_in by assumption. f_equal. lia.
        -- change (NoDup (map e_tag tags ++ concat (map reply_tags_of (snd out)))) in Hnd.
           revert Hnd Ht. generalize (concat (map reply_tags_of (snd out))). clear. intros r Hnd Ht.
           induction (map e_tag tags) as [|x xs IHx]; [destruct Ht|].
           cbn [app] in Hnd. inversion Hnd as [|? ? Hx Hnd']; subst. destruct Ht as [->|Ht]; [|now apply IHx].
           rewrite in_app_iff in Hx. tauto.
      * destruct (S4 j p1 eph1 tweak1 Hj) as (msg1 & send1 & r01 & r1 & t1 & ro1 & k1 & A & B & C & D & F & G).
        exists msg1, send1, r01, r1, t1, ro1, k1.
        replace (n + N.of_nat (S j)) with (n + 1 + N.of_nat j) by lia.
        repeat (split; [assumption|]). intros Hnd t Ht. rewrite G; auto.
        -- f_equal. lia.
        -- change (NoDup (map e_tag tags ++ concat (map reply_tags_of (snd out)))) in Hnd.
           revert Hnd. generalize (concat (map reply_tags_of (snd out))). clear. intros r Hnd.
           induction (map e_tag tags) as [|x xs IHx]; [assumption|].
           cbn [app] in Hnd. inversion Hnd; subst. auto.
Qed.
End Replies.

Lemma reply_tags_nth c o n : (n < 16)%nat ->
  nth_error (reply_tags c o) n = Some (nth_entry c (kn c (o_chain o)) 0 (N.of_nat n)).
Proof.
  intro Hn. unfold reply_tags.
  pose proof (issued_new c (o_chain o) (hmac c (hmac c (o_chain o) []) (str "SessionReplyTags"%string ++ [1]))) as Hi.
  fold (nsr_tag_set c (o_chain o)) in Hi.
  destruct (gen_opt_spec c _ (N.to_nat NSR_TAG_COUNT) _ Hi) as (m & Hm & -> & _).
  change (N.of_nat (N.to_nat NSR_TAG_COUNT)) with 16 in Hm. cbn [nsr_tag_set ts_new ts_index ts_id] in *.
  assert (N.to_nat m = 16)%nat as -> by lia.
  unfold stream_from. rewrite nth_error_map.
  assert (nth_error (nseq 0 16) n = Some (N.of_nat n)) as ->.
  { do 16 (destruct n as [|n]; [reflexivity|]). lia. }
  reflexivity.
Qed.

(** The whole handshake: the initiator's message is understood; so is any of the first sixteen
    answers, and both ends then hold the same pair of tag sets. *)
Lemma handshake_agrees c a b payload eph tweak o msg l n p eph' tweak' :
  rcrypt_ok c ->
  create_outbound c (kc_from_private c a) (pubkey c b) payload eph tweak = (o, msg) ->
  nth_error l n = Some (p, eph', tweak') -> (n < 16)%nat -> N.of_nat (length l) <= 65535 ->
  exists i, create_inbound c (kc_from_private c b) (framed msg) = Ok (i, payload) /\
  exists reply tags e send recv,
  nth_error (snd (reply_run c i l)) n = Some (Ok (reply, tags)) /\
  nth_error (reply_tags c o) n = Some e /\
  firstn 8 reply = le_bytes 8 (e_tag e) /\
  handle_reply c o e (framed reply) = Ok (p, send, recv) /\
  (exists root k1 k2, send = ts_new c root k1 /\ recv = ts_new c root k2) /\
  (exists recv', gen c (N.to_nat NUM_TAGS) send = Some (recv', tags) /\
   forall x t q, In x tags -> e_tag x = t ->
   NoDup (concat (map reply_tags_of (snd (reply_run c i l)))) ->
   handle_existing c (fst (reply_run c i l)) t x (es_wire c x q) = Ok (q, recv, recv')).
Proof.
  intros Hc Eo Hl Hn Hlen. destruct (ns_agrees c a b payload eph tweak o msg Hc Eo) as (Ei & Hs & He).
  eexists. split; [exact Ei|].
  set (i := IAwaiting (o_chain o) (o_state o) (epub c eph) (pubkey c a)).
  assert (stage c (o_chain o) (o_state o) (epub c eph) (pubkey c a) 0 [] [] i) as H0.
  { split; [reflexivity|]. left. auto. }
  destruct (replies_run c (o_chain o) (o_state o) (epub c eph) (pubkey c a) l 0 [] [] i H0)
    as (sets & mapping & S1 & S2 & _ & S4); [lia|].
  destruct (S4 n p eph' tweak' Hl) as (reply & send & recv0 & recv & tags & root & key & A & B & C & D & F & G).
  rewrite N.add_0_l in B.
  set (e := nth_entry c (kn c (o_chain o)) 0 (N.of_nat n)) in *.
  exists reply, tags, e, recv0, send.
  destruct (nsr_agrees c o a eph p eph' tweak' reply send recv0 e Hc Hs He B) as [R1 R2].
  split; [assumption|]. split; [now apply reply_tags_nth|]. split; [assumption|]. split; [assumption|].
  split.
  { unfold nsr_message in B. destruct (nsr_keys _ _ _ _) as [chain k]. destruct (split_keys _ _) as [k1 k2].
    apply pair_equal_spec in B as [B <-]. apply pair_equal_spec in B as [_ <-]. exists chain, k1, k2. split; reflexivity. }
  exists recv. split; [assumption|]. intros x t q Hx <- Hnd.
  destruct S1 as [_ [(Z & _)|(_ & nsr & Es & _)]].
  - destruct l; [destruct n; discriminate|cbn [length] in Z; lia].
  - rewrite Es. unfold handle_existing. cbn [app].
    rewrite (G Hnd (e_tag x)) by now apply in_map. cbn [N.to_nat Nat.add].
    cbn [app] in F. rewrite F. now rewrite open_es_wire.
Qed.

(** ** The windows of new sessions *)

Lemma ready_fresh i : ready 4096 [] i = (i <? 4096).
Proof. unfold ready, max_tags. cbn [existsb negb andb length N.of_nat]. lia. Qed.
Lemma ready_one j i : j < 4096 -> ready 4095 [j] i = negb (i =? j) && (i <? 4096).
Proof. intro H. unfold ready, max_tags. cbn [existsb length]. rewrite orb_false_r. lia. Qed.

Lemma gen_fresh c t t' l :
  ts_index t = 0 -> gen c (N.to_nat NUM_TAGS) t = Some (t', l) ->
  l = stream_from c (ts_ctx t) (ts_id t) 0 (N.to_nat NUM_TAGS) /\ issued c (ts_ctx t) t' /\
  ts_index t' = 4096 /\ ts_id t' = ts_id t.
Proof.
  intros H Hg. assert (issued c (ts_ctx t) t) as Hi by (split; rewrite H; [reflexivity|lia]).
  destruct (gen_spec c _ _ _ _ _ Hi Hg) as (A & B & C & D & _).
  change (N.of_nat (N.to_nat NUM_TAGS)) with 4096 in C. rewrite H in *. auto.
Qed.

(** The initiator, when it has got the answer and sends its first ordinary message *)
Lemma initiator_receives c k local remote now lease message d g out rpub nsr created tag reply ix e o send recv p0
  g1 p1 ev g2 p2 msg s set index :
  nget tag nsr = Some (ix, e) -> nth_error out ix = Some o ->
  handle_reply c o e reply = Ok (p0, send, recv) ->
  advance_inbound c remote tag reply g (mkPend created (PAwaitNsr out rpub nsr [])) = (g1, p1, Ok ev) ->
  advance_outbound c k local remote now lease message d g1 p1 = (g2, p2, Ok (PvCreate msg s set index)) ->
  distinct_tags c (ts_ctx recv) 0 -> apart c (ts_ctx recv) 0 (nkeys nsr) ->
  receives c (ts_ctx recv) 0 4096 [] s.
Proof.
  intros H1 H2 H3 E1 E2 Hd Ha. unfold advance_inbound in E1. cbn [p_state] in E1. rewrite H1, H2, H3 in E1.
  assert (ts_index recv = 0 /\ ts_id recv = 0) as [I0 J0].
  { unfold handle_reply in H3. destruct (_ <? _)%nat; [discriminate|].
    destruct (unrepresent _ _); [|discriminate]. destruct (nsr_keys _ _ _ _).
    destruct (aopen _ _ _ _ _); [|discriminate]. destruct (split_keys _ _).
    destruct (aopen _ _ _ _ _); [|discriminate]. injection H3 as _ _ <-. auto. }
  destruct (gen c (N.to_nat NUM_TAGS) recv) as [[recv' tags]|] eqn:Eg; [|discriminate].
  apply pair_equal_spec in E1 as [E1 _]. apply pair_equal_spec in E1 as [_ <-].
  unfold advance_outbound in E2. cbn [p_state] in E2.
  destruct (next_entry c send) as [send' [e1|]]; [|discriminate].
  destruct (build_garlic _) as [m|]; [|discriminate].
  apply pair_equal_spec in E2 as [_ E2]. injection E2 as _ <- _ _.
  destruct (gen_fresh c recv recv' tags I0 Eg) as (-> & B & C & D). rewrite J0 in *.
  constructor; cbn [sess_new se_nsr se_expiring se_recv se_entries].
  - intros i Hi Q. apply In_nkeys_ndel in Q as [_ Q]. now apply (Ha i Hi).
  - intros x [].
  - assumption.
  - apply B.
  - rewrite C. reflexivity.
  - intros i [].
  - intros i Hi. rewrite ready_fresh. apply stream_in_map; auto. intros j _ [].
Qed.

(** The responder, when the first ordinary message arrives, as number [j] of its tag set *)
Lemma responder_receives c (k : kctx) recv send (m : nmap entry) j :
  issued c k recv -> ts_index recv = 4096 -> ts_id recv = 0 -> distinct_tags c k 0 -> j < 4096 ->
  (forall i, i < max_tags ->
     nget (e_tag (nth_entry c k 0 i)) m = if i <? 4096 then Some (nth_entry c k 0 i) else None) ->
  receives c k 0 4095 [j] (sess_new NInactive recv send (ndel (e_tag (nth_entry c k 0 j)) m)).
Proof.
  intros Hi Hx Hs Hd Hj Hm. constructor; cbn [sess_new se_nsr se_expiring se_recv se_entries].
  - intros i _ [].
  - intros x [].
  - assumption.
  - apply Hi.
  - rewrite Hx. reflexivity.
  - intros i [<-|[]]. lia.
  - intros i Hlt. rewrite ready_one by assumption. destruct (i =? j) eqn:E.
    + assert (i = j) as -> by lia. cbn [negb andb]. apply nget_ndel_same.
    + cbn [negb andb]. rewrite nget_ndel_other; [now apply Hm|].
      intro Q. apply Hd in Q; unfold max_tags in *; lia.
Qed.

(** After a ratchet *)
Lemma hnk_root c t t' k p :
  ts_state t = ts_state t' -> kc_root (ts_ctx t) = kc_root (ts_ctx t') -> can_ratchet t k = true ->
  ts_ctx (fst (handle_next_key c t k p)) = ts_ctx (fst (handle_next_key c t' k p)) /\
  ts_id (fst (handle_next_key c t k p)) = ts_id (fst (handle_next_key c t' k p)) /\
  ts_index (fst (handle_next_key c t k p)) = 0.
Proof.
  intros Hs Hr H. unfold can_ratchet in H. unfold handle_next_key. rewrite <- Hs.
  destruct (ts_state t) as [|s r a|s r a b|s r a b|], k as [id [key|] [|]|id [key|]]; try discriminate.
  - rewrite H. cbn. now rewrite Hr.
  - cbn. now rewrite Hr.
  - cbn. now rewrite Hr.
  - apply andb_prop in H as [H1 H2]. rewrite H1. replace (MAX_KEY_ID <? id) with false by lia. cbn. now rewrite Hr.
  - apply andb_prop in H as [H1 H2]. rewrite H1. replace (MAX_KEY_ID <? id) with false by lia. cbn. now rewrite Hr.
Qed.

Lemma gen_opt_same c n : forall t,
  ts_state (fst (gen_opt c n t)) = ts_state t /\ kc_root (ts_ctx (fst (gen_opt c n t))) = kc_root (ts_ctx t).
Proof.
  induction n as [|n IH]; intro t; cbn [gen_opt]; [auto|].
  unfold next_entry. destruct (ts_index t =? 65535); [apply IH|].
  pose proof (ratchet_root c (ts_ctx t)) as Hr.
  destruct (ratchet_once c (ts_ctx t)) as [k [key tag]]. cbn [fst] in Hr.
  specialize (IH (mkTS k (ts_state t) (ts_index t + 1) (ts_id t))). cbn [ts_state ts_ctx] in IH.
  destruct (gen_opt _ _ _). cbn [fst] in *. rewrite Hr in IH. exact IH.
Qed.

Lemma ratchet_receives c remote now p g s k g' s' :
  can_ratchet (se_recv s) k = true ->
  match k with ForwardKey _ _ _ => True | ReverseKey _ _ => False end ->
  handle_block c remote now p g s k = (g', s', Ok tt) ->
  let k' := ts_ctx (fst (handle_next_key c (se_recv s) k p)) in
  let set' := ts_id (fst (handle_next_key c (se_recv s) k p)) in
  let old := nkeys (put_entries (se_entries s) (snd (gen_opt c (N.to_nat NUM_EXTRA_TAGS) (se_recv s)))) in
  distinct_tags c k' set' ->
  apart c k' set' (match se_nsr s with NActive _ e _ => nkeys e | NInactive => [] end) ->
  (forall x, In x (se_expiring s) -> apart c k' set' (snd x)) -> apart c k' set' old ->
  receives c k' set' 4096 [] s'.
Proof.
  intros Hr Hk E k' set' old Hd Hn Hx Ho. unfold handle_block in E. destruct k as [id key q|]; [|tauto].
  rewrite Hr in E. set (fk := ForwardKey id key q) in *.
  destruct (gen_opt_same c (N.to_nat NUM_EXTRA_TAGS) (se_recv s)) as [G1 G2].
  destruct (gen_opt c (N.to_nat NUM_EXTRA_TAGS) (se_recv s)) as [o extra]. cbn [fst snd] in *.
  assert (can_ratchet o fk = true) as Hro.
  { rewrite <- Hr. unfold can_ratchet. now rewrite G1. }
  destruct (hnk_root c o (se_recv s) fk p G1 G2 Hro) as (A1 & A2 & A3).
  destruct (handle_next_key c o fk p) as [t [reply|e|]]; try (apply pair_equal_spec in E as [_ E]; discriminate).
  cbn [fst] in *. fold k' in A1. fold set' in A2.
  destruct (gen c (N.to_nat NUM_TAGS) t) as [[t' l]|] eqn:Eg; [|apply pair_equal_spec in E as [_ E]; discriminate].
  apply pair_equal_spec in E as [E _]. apply pair_equal_spec in E as [_ <-].
  destruct (gen_fresh c t t' l A3 Eg) as (-> & B & C & D). rewrite A1, A2 in *.
  constructor; cbn [se_nsr se_expiring se_recv se_entries].
  - assumption.
  - intros x Q. apply in_app_iff in Q as [Q|[<-|[]]]; [auto|]. exact Ho.
  - assumption.
  - apply B.
  - rewrite C. reflexivity.
  - intros i [].
  - intros i Hi. rewrite ready_fresh. apply stream_in_map; auto.
Qed.
