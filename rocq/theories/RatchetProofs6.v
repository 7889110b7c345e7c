(** First contact: two session managers, three messages. *)
From Coq Require Import String List NArith Bool Arith Lia.
From Coq Require Import ZifyBool ZifyNat ZifyN.
From Verif Require Import Bytes ListUtil NMap I2npModel GarlicModel I2npSpec GarlicProofs RatchetModel RatchetSpec RatchetProofs
  RatchetProofs2 RatchetProofs3 RatchetProofs5.
Import ListNotations.
Open Scope N_scope.

(** ** Tags on the wire *)

Lemma bytes_ok_firstn n l : bytes_ok l -> bytes_ok (firstn n l).
Proof. intro H. apply Forall_forall. intros x Hx. apply (proj1 (Forall_forall _ _) H). eapply In_firstn; eassumption. Qed.
Lemma bytes_ok_rev l : bytes_ok l -> bytes_ok (rev l).
Proof. apply Forall_rev. Qed.

Lemma tag_small c k set i : rcrypt_ok c -> e_tag (nth_entry c k set i) < 256 ^ 8.
Proof.
  intros (Hh & _). unfold nth_entry.
  destruct (ratchet_once c (nth_ctx c k (N.to_nat i))) as [k' [key tag]] eqn:E. cbn [e_tag].
  unfold ratchet_once in E. apply pair_equal_spec in E as [_ E]. apply pair_equal_spec in E as [_ <-].
  set (h := hmac c _ _). destruct (Hh (hmac c (kc_data (nth_ctx c k (N.to_nat i))) (kc_const (nth_ctx c k (N.to_nat i))))
    (hmac c (hmac c (kc_data (nth_ctx c k (N.to_nat i))) (kc_const (nth_ctx c k (N.to_nat i))))
       (str "SessionTagKeyGen" ++ [1]) ++ str "SessionTagKeyGen" ++ [2])) as [L B]. fold h in L, B.
  pose proof (be_val_lt (rev (firstn 8 h)) (bytes_ok_rev _ (bytes_ok_firstn 8 _ B))) as Q.
  rewrite rev_length, firstn_length, L in Q. exact Q.
Qed.

Lemma garlic_tag_framed m t : t < 256 ^ 8 -> firstn 8 m = le_bytes 8 t -> garlic_tag (framed m) = Some t.
Proof.
  intros Ht Hf. unfold garlic_tag. rewrite framed_length.
  assert (8 <= length m)%nat as Hl.
  { pose proof (le_bytes_length 8 t) as L. rewrite <- Hf, firstn_length in L. lia. }
  replace (12 <=? 4 + length m)%nat with true by lia.
  change (skipn 4 (framed m)) with (skipn (4 + 0) (framed m)). rewrite framed_skip, skipn_O, Hf.
  unfold le_bytes. rewrite rev_involutive, be_val_bytes. now rewrite N.mod_small.
Qed.

Lemma garlic_tag_framed_some m : (8 <= length m)%nat -> exists t, garlic_tag (framed m) = Some t.
Proof.
  intro H. unfold garlic_tag. rewrite framed_length.
  replace (12 <=? 4 + length m)%nat with true by lia. eauto.
Qed.

(** ** Maps that have as many keys as were put *)

Section Grow.
Context {V : Type} (f : entry -> V).
Definition puts (m : nmap V) (l : list entry) : nmap V := fold_left (fun m e => nput (e_tag e) (f e) m) l m.

Lemma nput_length_old k (v : V) : forall m, sorted (nkeys m) -> In k (nkeys m) -> length (nput k v m) = length m.
Proof.
  induction m as [|[j w] m IH]; intros Hs H; [destruct H|]. cbn [nput nkeys map fst] in *.
  pose proof (sorted_head_min _ _ _ Hs H) as Hm. inversion Hs as [|? ? Hs' _]; subst.
  replace (k <? j) with false by lia. destruct (k =? j) eqn:E; cbn [length]; [reflexivity|].
  destruct H as [H|H]; [lia|]. now rewrite IH.
Qed.
Lemma puts_length l : forall m, (length (puts m l) <= length m + length l)%nat.
Proof.
  unfold puts. induction l as [|e l IH]; intros m; cbn [fold_left length]; [lia|].
  specialize (IH (nput (e_tag e) (f e) m)). pose proof (nput_length_le _ (e_tag e) (f e) m). lia.
Qed.
Lemma puts_nodup l : forall m, sorted (nkeys m) -> length (puts m l) = (length m + length l)%nat ->
  NoDup (map e_tag l) /\ forall t, In t (map e_tag l) -> ~ In t (nkeys m).
Proof.
  induction l as [|e l IH]; intros m Hs H; cbn [map].
  - split; [constructor|]. intros t [].
  - cbn [length] in H. unfold puts in H. cbn [fold_left] in H. fold (puts (nput (e_tag e) (f e) m) l) in H.
    pose proof (puts_length l (nput (e_tag e) (f e) m)) as Hle.
    pose proof (nput_length_le _ (e_tag e) (f e) m) as Hl1.
    assert (~ In (e_tag e) (nkeys m)) as He.
    { intro Q. pose proof (nput_length_old (e_tag e) (f e) m Hs Q). lia. }
    destruct (IH (nput (e_tag e) (f e) m)) as [H1 H2]; [now apply nput_Sorted|lia|].
    split.
    + constructor; [|assumption]. intro Q. apply H2 in Q. apply Q. apply In_nkeys_nput. now left.
    + intros t [<-|Ht]; [assumption|]. intro Q. apply (H2 _ Ht). apply In_nkeys_nput. now right.
Qed.
Lemma nget_puts_other m l t : ~ In t (map e_tag l) -> nget t (puts m l) = nget t m.
Proof.
  unfold puts. revert m. induction l as [|e l IH]; intros m H; cbn [fold_left]; [reflexivity|].
  cbn in H. rewrite IH by tauto. apply nget_nput_other. intro E. apply H. now left.
Qed.
Lemma nget_puts_in m l e : NoDup (map e_tag l) -> In e l -> nget (e_tag e) (puts m l) = Some (f e).
Proof.
  unfold puts. revert m. induction l as [|x l IH]; intros m Hn Hin; [destruct Hin|].
  cbn [map] in Hn. inversion Hn as [|? ? Hx Hn']; subst. cbn [fold_left].
  destruct Hin as [->|Hin]; [|now apply IH].
  fold (puts (nput (e_tag e) (f e) m) l). rewrite nget_puts_other by assumption. apply nget_nput_same.
Qed.
End Grow.

Lemma nget_put_tags_tag m r l t : In t (map e_tag l) -> nget t (put_tags m r l) = Some r.
Proof.
  revert m. induction l as [|x l IH]; intros m Hin; [destruct Hin|]. unfold put_tags. cbn [fold_left].
  fold (put_tags (nput (e_tag x) r m) r l).
  destruct (in_dec N.eq_dec t (map e_tag l)) as [Hi|Hn]; [now apply IH|].
  change (put_tags (nput (e_tag x) r m) r l) with (puts (fun _ : entry => r) (nput (e_tag x) r m) l).
  rewrite nget_puts_other by assumption. cbn [map In] in Hin. destruct Hin as [->|Hin]; [apply nget_nput_same|tauto].
Qed.
Lemma nget_put_tags_in m r l e : In e l -> nget (e_tag e) (put_tags m r l) = Some r.
Proof. intro H. apply nget_put_tags_tag. now apply in_map. Qed.

(** ** The three messages *)

Definition data_received (mid exp dest : N) (message : bytes) : clove :=
  mkClove Data mid (whole_seconds exp) (DDestination (be_bytes 32 dest)) (be_bytes 4 (N.of_nat (length message)) ++ message).

Section Contact.
Context (c : rcrypt) (Hc : rcrypt_ok c) (lo : bytes -> option (N * N)) (ida idb : N) (a b : bytes).
Context (A B : manager).
Context (HlA : m_local A = ida) (HkA : m_kc A = kc_from_private c a) (HkB : m_kc B = kc_from_private c b).
Context (Hrem : nget idb (m_remotes A) = Some (pubkey c b)).
Context (HaA : nget idb (m_active A) = None) (HpA : nget idb (m_pending A) = None).
Context (HaB : nget ida (m_active B) = None) (HpB : nget ida (m_pending B) = None).

Lemma contact_ns t0 d0 m0 :
  Forall block_ok (ns_blocks ida idb (m_lease A) m0 d0) ->
  exists o msg payload, create_outbound c (m_kc A) (pubkey c b) payload (dr_eph d0) (dr_tweak d0) = (o, msg) /\
  parse_garlic payload = Some (map received (ns_blocks ida idb (m_lease A) m0 d0)) /\
  mgr_encrypt c t0 d0 A idb m0 =
    (mgr_with A (m_active A) (nput idb (mkPend t0 (PAwaitNsr [o] (pubkey c b) (put_nsr [] 0 (reply_tags c o)) [])) (m_pending A))
              (put_tags (m_tags A) idb (reply_tags c o)), Ok (framed msg)).
Proof.
  intro Hok. destruct (garlic_roundtrip _ Hok) as (w & Hb & Hp); [discriminate|].
  unfold mgr_encrypt. rewrite HaA, HpA, Hrem, HlA, Hb.
  destruct (create_outbound c (m_kc A) (pubkey c b) w (dr_eph d0) (dr_tweak d0)) as [o msg] eqn:E.
  exists o, msg, w. split; [assumption|]. split; [assumption|]. reflexivity.
Qed.

Lemma contact_ns_in o msg payload d0 m0 t1 np :
  create_outbound c (m_kc A) (pubkey c b) payload (dr_eph d0) (dr_tweak d0) = (o, msg) ->
  parse_garlic payload = Some (map received (ns_blocks ida idb (m_lease A) m0 d0)) ->
  lo (ser_store (be_bytes 32 ida) (KLeaseSet2 (m_lease A)) SrNone) = Some (ida, ida) ->
  (forall t, garlic_tag (framed msg) = Some t -> nget t (m_tags B) = None) ->
  o_static o = a /\ o_eph o = dr_eph d0 /\
  exists l, mgr_decrypt c lo t1 np B (framed msg) =
    (mgr_with B (m_active B) (nput ida (pend_inbound t1 (IAwaiting (o_chain o) (o_state o) (epub c (dr_eph d0)) (pubkey c a))) (m_pending B))
              (m_tags B), Ok l) /\ In (data_received (dr_mid d0) (dr_exp d0) idb m0) l.
Proof.
  intros E Hp Hlo Hf. rewrite HkA in E.
  destruct (ns_agrees c a b payload _ _ o msg Hc E) as (Ei & Hs & He).
  split; [assumption|]. split; [assumption|].
  assert (8 <= length msg)%nat as Hl.
  { unfold create_outbound in E. destruct (mix_key _ _ _). destruct (mix_key _ _ _).
    apply pair_equal_spec in E as [_ <-]. rewrite app_length.
    destruct Hc as (_ & _ & _ & _ & _ & Hr & _). destruct (Hr (dr_eph d0) (dr_tweak d0)) as [-> _]. lia. }
  destruct (garlic_tag_framed_some msg Hl) as [t Ht]. unfold mgr_decrypt. rewrite Ht, (Hf t Ht), HkB, Ei, Hp.
  unfold ns_remote. cbn [ns_blocks map received store_clove first_store]. rewrite Hlo, N.eqb_refl, HpB.
  cbn [take_cloves data_clove]. eexists. split; [reflexivity|]. right. left. reflexivity.
Qed.

Lemma contact_nsr o d0 d2 t1 t2 m1 (B1 := mgr_with B (m_active B) (nput ida (pend_inbound t1 (IAwaiting (o_chain o) (o_state o) (epub c (dr_eph d0)) (pubkey c a))) (m_pending B)) (m_tags B)) :
  block_ok (data_clove (dr_mid d2) (dr_exp d2) ida m1) ->
  o_static o = a -> o_eph o = dr_eph d0 ->
  exists reply payload root k1 k2 recv tags i e,
  mgr_encrypt c t2 d2 B1 ida m1 =
    (mgr_with B (m_active B) (nput ida (mkPend t1 (PInbound i (put_entries [] tags))) (nput ida (pend_inbound t1 (IAwaiting (o_chain o) (o_state o) (epub c (dr_eph d0)) (pubkey c a))) (m_pending B)))
              (put_tags (m_tags B) ida tags), Ok (framed reply)) /\
  parse_garlic payload = Some [received (data_clove (dr_mid d2) (dr_exp d2) ida m1)] /\
  nth_error (reply_tags c o) 0 = Some e /\ garlic_tag (framed reply) = Some (e_tag e) /\
  handle_reply c o e (framed reply) = Ok (payload, ts_new c root k1, ts_new c root k2) /\
  gen c (N.to_nat NUM_TAGS) (ts_new c root k1) = Some (recv, tags) /\
  (forall x q, In x tags -> handle_existing c i (e_tag x) x (es_wire c x q) = Ok (q, ts_new c root k2, recv)).
Proof.
  intros Hok Hs He. destruct (garlic_roundtrip [data_clove (dr_mid d2) (dr_exp d2) ida m1]) as (w & Hb & Hp);
    [now constructor|discriminate|].
  assert (stage c (o_chain o) (o_state o) (epub c (dr_eph d0)) (pubkey c a) 0 [] []
            (IAwaiting (o_chain o) (o_state o) (epub c (dr_eph d0)) (pubkey c a))) as H0.
  { split; [reflexivity|]. left. auto. }
  destruct (stage_step c _ _ _ _ 0 [] [] _ w (dr_eph d2) (dr_tweak d2) H0) as
    (i' & msg & send & recv0 & recv & tags & root & key & E1 & E2 & E3 & E4 & E5); [lia|].
  set (e := nth_entry c (kn c (o_chain o)) 0 0) in *.
  destruct (nsr_agrees c o a (dr_eph d0) w (dr_eph d2) (dr_tweak d2) msg send recv0 e Hc Hs He E2) as [R1 R2].
  assert (exists k1 k2 ro, recv0 = ts_new c ro k1 /\ send = ts_new c ro k2) as (k1 & k2 & ro & F1 & F2).
  { unfold nsr_message in E2. destruct (nsr_keys _ _ _ _) as [chain k]. destruct (split_keys _ _) as [k1 k2].
    apply pair_equal_spec in E2 as [E2 <-]. apply pair_equal_spec in E2 as [_ <-]. exists k1, k2, chain. split; reflexivity. }
  exists msg, w, ro, k1, k2, recv, tags, i', e.
  split.
  { unfold mgr_encrypt, B1. cbn [mgr_with m_active m_pending m_kc m_local m_lease m_tags]. rewrite HaB, nget_nput_same.
    unfold advance_outbound, pend_inbound. cbn [p_state p_created]. rewrite Hb, E1. reflexivity. }
  split; [exact Hp|]. split; [apply (reply_tags_nth c o 0); lia|].
  split; [apply garlic_tag_framed; [now apply tag_small|assumption]|].
  split; [rewrite <- F1, <- F2; exact R1|]. split; [rewrite <- F1; exact E4|].
  intros x q Hx. destruct E5 as [_ [(Z & _)|(_ & nsr & Es & _)]]; [lia|]. rewrite Es.
  unfold handle_existing. rewrite put_ix_in by now apply in_map. cbn [N.to_nat nth_error app].
  rewrite <- F2. now rewrite open_es_wire.
Qed.
End Contact.

Lemma put_nsr_puts m ix l : put_nsr m ix l = puts (fun e => (ix, e)) m l.
Proof. reflexivity. Qed.
Lemma put_entries_puts m l : put_entries m l = puts (fun e => e) m l.
Proof. reflexivity. Qed.

Lemma first_contact c lo ida idb a b A B t0 t1 t2 t3 t4 t5 d0 d2 d4 np m0 m1 m2 :
  rcrypt_ok c ->
  m_local A = ida -> m_kc A = kc_from_private c a -> m_kc B = kc_from_private c b ->
  nget idb (m_remotes A) = Some (pubkey c b) ->
  nget idb (m_active A) = None -> nget idb (m_pending A) = None ->
  nget ida (m_active B) = None -> nget ida (m_pending B) = None ->
  Forall block_ok (ns_blocks ida idb (m_lease A) m0 d0) ->
  block_ok (data_clove (dr_mid d2) (dr_exp d2) ida m1) ->
  block_ok (data_clove (dr_mid d4) (dr_exp d4) idb m2) ->
  lo (ser_store (be_bytes 32 ida) (KLeaseSet2 (m_lease A)) SrNone) = Some (ida, ida) ->
  exists A1 w0, mgr_encrypt c t0 d0 A idb m0 = (A1, Ok w0) /\
  ((forall t, garlic_tag w0 = Some t -> nget t (m_tags B) = None) ->
   exists B1 l0, mgr_decrypt c lo t1 np B w0 = (B1, Ok l0) /\
   In (data_received (dr_mid d0) (dr_exp d0) idb m0) l0 /\
   exists B2 w1, mgr_encrypt c t2 d2 B1 ida m1 = (B2, Ok w1) /\
   (listening A1 idb = 16%nat -> listening B2 ida = 4096%nat ->
    exists A2 A3 w2 B3,
    mgr_decrypt c lo t3 np A1 w1 = (A2, Ok [data_received (dr_mid d2) (dr_exp d2) ida m1]) /\
    mgr_encrypt c t4 d4 A2 idb m2 = (A3, Ok w2) /\
    mgr_decrypt c lo t5 np B2 w2 = (B3, Ok [data_received (dr_mid d4) (dr_exp d4) idb m2]) /\
    exists sA sB root k1 k2,
    option_map a_sess (nget idb (m_active A3)) = Some sA /\ option_map a_sess (nget ida (m_active B3)) = Some sB /\
    issued c (key_context c root k1) (se_send sA) /\ issued c (key_context c root k1) (se_recv sB) /\
    issued c (key_context c root k2) (se_recv sA) /\ issued c (key_context c root k2) (se_send sB))).
Proof.
  intros Hc HlA HkA HkB Hrem HaA HpA HaB HpB Hok0 Hok1 Hok2 Hlo.
  destruct (contact_ns c ida idb b A HlA Hrem HaA HpA t0 d0 m0 Hok0) as (o & msg & payload & Eo & Hpl & Ee).
  eexists _, (framed msg). split; [exact Ee|]. intro Hf.
  destruct (contact_ns_in c Hc lo ida idb a b A B HlA HkA HkB HpB o msg payload d0 m0 t1 np Eo Hpl Hlo Hf)
    as (Hs & He & l0 & Ed & Hin).
  eexists _, l0. split; [exact Ed|]. split; [exact Hin|].
  destruct (contact_nsr c Hc lo ida a A B HlA HaB o d0 d2 t1 t2 m1 Hok1 Hs He)
    as (reply & p1 & root & k1 & k2 & recv & tags & i & e & E1 & Hp1 & He0 & Hg1 & Hr & Hgen & Hex).
  eexists _, (framed reply). split; [exact E1|].
  unfold listening. cbn [mgr_with m_pending]. rewrite !nget_nput_same. cbn [p_state].
  intros HnA HnB.
  rewrite put_nsr_puts in HnA. rewrite put_entries_puts in HnB.
  assert (length (reply_tags c o) = 16)%nat as Hlen16.
  { unfold reply_tags.
    pose proof (issued_new c (o_chain o) (hmac c (hmac c (o_chain o) []) (str "SessionReplyTags"%string ++ [1]))) as Hi.
    fold (nsr_tag_set c (o_chain o)) in Hi.
    destruct (gen_opt_spec c _ (N.to_nat NSR_TAG_COUNT) _ Hi) as (n & Hn & -> & _).
    change (N.of_nat (N.to_nat NSR_TAG_COUNT)) with 16 in Hn. cbn [nsr_tag_set ts_new ts_index ts_id] in *.
    unfold stream_from. rewrite map_length, nseq_length. lia. }
  destruct (gen_fresh c (ts_new c root k1) recv tags eq_refl Hgen) as (Htags & Hrecv & Hidx & Hid).
  assert (length tags = 4096)%nat as Hlen4096.
  { rewrite Htags. unfold stream_from. rewrite map_length, nseq_length. reflexivity. }
  destruct (puts_nodup (fun e => (0%nat, e)) (reply_tags c o) []) as [NdA _];
    [constructor|rewrite Hlen16; cbn [length] in *; lia|].
  destruct (puts_nodup (fun e => e) tags []) as [NdB _];
    [constructor|rewrite Hlen4096; cbn [length] in *; lia|].
  pose proof (nth_error_In _ _ He0) as HinE.
  (* the reply reaches the initiator *)
  destruct (gen_new c root k2) as (recvA & tagsA & GA & _ & IA & _ & _ & _).
  set (A1 := mgr_with A (m_active A) (nput idb (mkPend t0 (PAwaitNsr [o] (pubkey c b) (put_nsr [] 0 (reply_tags c o)) [])) (m_pending A))
              (put_tags (m_tags A) idb (reply_tags c o))).
  assert (exists nsr pend tagsm pp,
    mgr_decrypt c lo t3 np A1 (framed reply) =
      (mgr_with A (m_active A) (nput idb (mkPend t0 (PAwaitEs [o] (ts_new c root k1) recvA (pubkey c b) nsr pp)) pend) tagsm,
       Ok [data_received (dr_mid d2) (dr_exp d2) ida m1])) as (nsr & pend & tagsm & pp & EA).
  { unfold mgr_decrypt. rewrite Hg1. unfold A1. cbn [mgr_with m_tags m_active m_pending].
    rewrite nget_put_tags_in by assumption. rewrite HaA, nget_nput_same.
    unfold advance_inbound. cbn [p_state].
    rewrite put_nsr_puts, nget_puts_in by assumption. cbn [nth_error]. rewrite Hr, GA, Hp1.
    cbn [data_clove received take_cloves m_active mgr_with p_created].
    do 4 eexists. reflexivity. }
  clear HnA HnB Hlen16 Hlen4096.
  destruct (garlic_roundtrip [data_clove (dr_mid d4) (dr_exp d4) idb m2]) as (w & Hb & Hp2);
    [constructor; [exact Hok2|constructor]|discriminate|].
  pose proof (issued_new c root k1) as I1.
  destruct (next_entry c (ts_new c root k1)) as [send1 [e1|]] eqn:En; [|discriminate En].
  destruct (next_entry_some _ _ _ _ _ I1 En) as (He1 & Isend & _).
  cbn [ts_new ts_id ts_index] in He1.
  assert (In e1 tags) as Hin1.
  { rewrite Htags, He1. unfold stream_from. apply in_map. apply nseq_In. cbn. lia. }
  set (msg2 := le_bytes 8 (e_tag e1) ++ aseal c (e_key e1) (e_index e1) (le_bytes 8 (e_tag e1)) w).
  assert (framed msg2 = es_wire c e1 w) as Hw2.
  { unfold framed, es_wire, msg2. rewrite app_length, le_bytes_length, Nat2N.inj_add. reflexivity. }
  eexists _, _, (framed msg2), _. split; [exact EA|].
  split.
  { unfold mgr_encrypt. cbn [mgr_with m_active m_pending m_kc m_local m_lease m_tags].
    rewrite HaA, nget_nput_same. unfold advance_outbound. cbn [p_state]. rewrite En, Hb. reflexivity. }
  split.
  { unfold mgr_decrypt. rewrite (garlic_tag_framed msg2 (e_tag e1)).
    2:{ rewrite He1. exact (tag_small c _ _ _ Hc). }
    2:{ unfold msg2. apply firstn_len. apply le_bytes_length. }
    cbn [mgr_with m_tags m_active m_pending]. rewrite nget_put_tags_in by assumption.
    rewrite HaB, nget_nput_same. unfold advance_inbound. cbn [p_state p_created].
    rewrite put_entries_puts, nget_puts_in by assumption.
    rewrite Hw2, Hex by assumption. rewrite Hp2.
    cbn [map data_clove received take_cloves]. reflexivity. }
  cbn [mgr_with m_active]. rewrite !nget_nput_same. cbn [option_map active_new a_sess sess_new se_send se_recv].
  eexists _, _, root, k1, k2. split; [reflexivity|]. split; [reflexivity|].
  cbn [sess_new se_send se_recv].
  split; [assumption|]. split; [exact Hrecv|]. split; [assumption|]. apply issued_new.
Qed.
