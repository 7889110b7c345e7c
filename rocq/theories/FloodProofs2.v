(** What leaves a floodfill: answers, acknowledgements, flooded stores. *)
From Coq Require Import List NArith Bool Arith Lia ZArith ZifyBool ZifyNat ZifyN.
From Verif Require Import ListUtil Bytes NMap PrimModel PrimProofs I2npModel I2npSpec I2npProofs KadModel KadSpec
  RouteProofs FloodModel FloodSpec FloodProofs.
Import ListNotations.
Open Scope N_scope.

Lemma short_read v t id body :
  v_now v + 8000 < 1000 * 2 ^ 32 -> id < 2 ^ 32 -> (0 < length body)%nat -> N.of_nat (length body) <= 65526 ->
  exists msg, parse_short (build_short (message_of t id (v_now v) body)) = Some (msg, []) /\
    m_type msg = t /\ m_payload msg = body /\ timely v msg.
Proof.
  intros Hn Hi H0 H1. rewrite <- (app_nil_r (build_short _)). rewrite short_roundtrip.
  - eexists. split; [reflexivity|]. cbn [m_type m_payload message_of]. split; [reflexivity|]. split; [reflexivity|].
    unfold timely, message_of. cbn [m_expiration]. unfold whole_seconds, of_ms, message_lifetime.
    pose proof (N.mod_lt ((v_now v + 8000) * 1000000) 1000000000 ltac:(lia)). lia.
  - exact Hi.
  - cbn [m_expiration message_of]. unfold of_ms, message_lifetime. lia.
  - exact H0.
  - exact H1.
Qed.
Lemma standard_read e v t id body :
  v_now v + 8000 < 1000 * 2 ^ 32 -> id < 2 ^ 32 -> (0 < length body)%nat -> N.of_nat (length body) <= 65535 ->
  exists msg, parse_standard (build_standard e (message_of t id (v_now v) body)) = Some (msg, []) /\
    m_type msg = t /\ m_payload msg = body /\ timely v msg.
Proof.
  intros Hn Hi H0 H1. rewrite <- (app_nil_r (build_standard _ _)). rewrite standard_roundtrip.
  - eexists. split; [reflexivity|]. cbn [m_type m_payload message_of]. split; [reflexivity|]. split; [reflexivity|].
    unfold timely, message_of. cbn [m_expiration]. unfold whole_millis, of_ms, message_lifetime.
    pose proof (N.mod_lt ((v_now v + 8000) * 1000000) 1000000 ltac:(lia)). lia.
  - exact Hi.
  - cbn [m_expiration message_of]. unfold of_ms, message_lifetime. lia.
  - exact H0.
  - exact H1.
Qed.

Lemma parse_lookup_key p l rest : parse_lookup p = Some (l, rest) -> hash_ok (lk_key l).
Proof.
  intros H. unfold parse_lookup in H. apply bind_inv in H as (key & i1 & E1 & H).
  repeat (apply bind_inv in H as (? & ? & ? & H)). apply ret_inv in H as [-> _]. cbn [lk_key].
  now apply take_inv in E1.
Qed.

Lemma ser_store_length key k : N.of_nat (length (ser_store key k SrNone)) =
  N.of_nat (length key) + 5 + match k with KRouterInfo z => 2 + N.of_nat (length z) | KLeaseSet2 b => N.of_nat (length b) end.
Proof.
  unfold ser_store, ser_store_reply. rewrite !app_length, !be_bytes_length. destruct k; rewrite ?app_length, ?be_bytes_length; lia.
Qed.

(** ** Answers to lookups *)
Lemma reply_reads e v reply t body : env_ok v -> (0 < length body)%nat -> N.of_nat (length body) <= 65526 ->
  exists mb msg, reply_to e v reply t body = sent_back v reply mb /\ reads reply mb = Some msg /\
    m_type msg = t /\ m_payload msg = body /\ timely v msg.
Proof.
  intros (Hn & H1 & _) L0 L. unfold reply_to, sent_back, reads, send_now. destruct reply as [tun r|r].
  - destruct (standard_read e v t (v_id1 v) body Hn H1 L0 ltac:(lia)) as (msg & P & A & B & C).
    eexists _, msg. split; [reflexivity|]. rewrite P. exact (conj eq_refl (conj A (conj B C))).
  - destruct (short_read v t (v_id1 v) body Hn H1 L0 L) as (msg & P & A & B & C).
    eexists _, msg. split; [reflexivity|]. rewrite P. exact (conj eq_refl (conj A (conj B C))).
Qed.

Definition lookup_lease (t : lookup_type) : option bool :=
  match t with LLeaseSet => Some true | LRouter => Some false | _ => None end.

Definition answer_ok e gunzip c (s : fdb) (v : fenv) (lease : bool) (key : bytes) (ignore : list bytes)
  (m : option store_payload) (msg : message) : Prop :=
  match m with
  | Some p => m_type msg = DatabaseStore /\
              exists r, parse_store e gunzip (m_payload msg) = Some (mkStore key p SrNone, r)
  | None => m_type msg = DatabaseSearchReply /\ m_payload msg = search_answer c (fd_dht s) v key ignore
  end.

Lemma concat_len (l : list bytes) : Forall hash_ok l -> length (concat l) = (32 * length l)%nat.
Proof. induction 1 as [|x l Hx F IH]; [reflexivity|]. cbn [concat length]. rewrite app_length, IH, Hx. lia. Qed.
Lemma map_be_hash (l : list N) : Forall hash_ok (map (be_bytes 32) l).
Proof. induction l; constructor; [apply be_bytes_length|assumption]. Qed.

Definition search_routers (t : table) (v : fenv) (key : bytes) (ignore : list bytes) : list N :=
  match closest_with_ignore t (v_target v key) 5 (map be_val ignore) with Some l => l | None => [] end.
Lemma search_routers_len t v key ignore : (length (search_routers t v key ignore) <= 5)%nat.
Proof.
  unfold search_routers, closest_with_ignore. destruct (bucket_order _); [|cbn; lia]. apply firstn_le_length.
Qed.
Lemma search_answer_read c t v key ignore : hash_ok key ->
  parse_search_reply (search_answer c t v key ignore) =
  Some (mkSr (be_bytes 32 (fc_local c)) key (map (be_bytes 32) (search_routers t v key ignore)), []).
Proof.
  intros Hk. unfold search_answer. fold (search_routers t v key ignore).
  rewrite <- (app_nil_r (ser_search_reply _)). apply search_reply_roundtrip; cbn [sr_key sr_from sr_routers].
  - exact Hk.
  - apply be_bytes_length.
  - apply map_be_hash.
  - rewrite map_length. pose proof (search_routers_len t v key ignore). lia.
Qed.
Lemma search_answer_len c t v key ignore : hash_ok key ->
  (0 < length (search_answer c t v key ignore))%nat /\ N.of_nat (length (search_answer c t v key ignore)) <= 65526.
Proof.
  intros Hk. unfold search_answer, ser_search_reply. cbn [sr_key sr_from sr_routers].
  fold (search_routers t v key ignore). rewrite !app_length, Hk, !be_bytes_length, concat_len by apply map_be_hash.
  rewrite map_length. pose proof (search_routers_len t v key ignore). lia.
Qed.

Lemma lookup_answer e gunzip c ops s v p ignore key ty reply rest lease :
  fc_floodfill c = true -> remembers e gunzip c s ops -> env_ok v ->
  parse_lookup p = Some (mkLookup ignore key ty reply, rest) -> lookup_lease ty = Some lease ->
  exists mb msg, fstep e gunzip c v s (FLookup p) = Some (s, sent_back v reply mb) /\ reads reply mb = Some msg /\
    timely v msg /\ answer_ok e gunzip c s v lease key ignore (recalls e gunzip c lease key ops) msg.
Proof.
  intros FF M Hv P T. pose proof (parse_lookup_key _ _ _ P) as Hk. cbn [lk_key] in Hk.
  assert (S : fstep e gunzip c v s (FLookup p) = Some (s, on_lookup e c v s lease key reply ignore)).
  { cbn [fstep]. unfold on_lookup_message. rewrite FF, P. destruct ty; cbn in T; try discriminate; injection T as <-; reflexivity. }
  destruct M as (_ & _ & M). specialize (M key) as [M1 M2].
  unfold on_lookup in S. unfold answer_ok. destruct lease.
  - destruct (bget key (fd_leases s)) as [[raw t]|]; cbn [lease_entry] in M1.
    + destruct M1 as (l & r & -> & Pl & _ & _ & L).
      destruct (reply_reads e v reply DatabaseStore (ser_store key (KLeaseSet2 raw) SrNone) Hv) as (mb & msg & A & B & C & D & E).
      { pose proof (ser_store_length key (KLeaseSet2 raw)) as Q. cbv iota in Q. lia. }
      { rewrite ser_store_length, Hk. lia. }
      exists mb, msg. rewrite S, A. split; [reflexivity|]. split; [exact B|]. split; [exact E|]. split; [exact C|].
      rewrite D. exists r. now apply store_ls_raw.
    + rewrite M1.
      destruct (search_answer_len c (fd_dht s) v key ignore Hk) as [L0 L].
      destruct (reply_reads e v reply DatabaseSearchReply _ Hv L0 L) as (mb & msg & A & B & C & D & E).
      exists mb, msg. rewrite S, A. exact (conj eq_refl (conj B (conj E (conj C D)))).
  - destruct (bget key (fd_infos s)) as [[raw t]|]; cbn [info_entry] in M2.
    + destruct M2 as (i & d & r & -> & G & Pi & _ & L).
      destruct (reply_reads e v reply DatabaseStore (ser_store key (KRouterInfo raw) SrNone) Hv) as (mb & msg & A & B & C & D & E).
      { pose proof (ser_store_length key (KRouterInfo raw)) as Q. cbv iota in Q. lia. }
      { rewrite ser_store_length, Hk. lia. }
      exists mb, msg. rewrite S, A. split; [reflexivity|]. split; [exact B|]. split; [exact E|]. split; [exact C|].
      rewrite D. exists []. rewrite <- (app_nil_r (ser_store _ _ _)).
      apply (store_ri_roundtrip e gunzip key raw d i r SrNone []); try assumption; [exact I|lia].
    + rewrite M2.
      destruct (search_answer_len c (fd_dht s) v key ignore Hk) as [L0 L].
      destruct (reply_reads e v reply DatabaseSearchReply _ Hv L0 L) as (mb & msg & A & B & C & D & E).
      exists mb, msg. rewrite S, A. exact (conj eq_refl (conj B (conj E (conj C D)))).
Qed.

(** ** Nothing panics *)
Lemma step_total e gunzip c v s o : exists s' out, fstep e gunzip c v s o = Some (s', out).
Proof.
  destruct o as [b|b|r|r|r|]; cbn [fstep].
  2: destruct (on_lookup_message e c v s b) as [s' out]; eauto.
  2: destruct (on_established v s r) as [s' out]; eauto.
  2,3: destruct (on_gone s r) as [s' out]; eauto.
  2: eauto.
  unfold on_store. destruct (parse_store e gunzip b) as [[st r]|] eqn:P; [|eauto].
  pose proof (extract_after_parse _ _ _ _ _ P) as X.
  destruct st as [key [i|l] reply]; cbn [st_payload] in X.
  - unfold on_info_store. destruct (negb _); [eauto|]. destruct (_ =? _); [eauto|]. destruct (_ <? _); [eauto|].
    destruct X as (z & d & rr & X & _ & _). rewrite X. destruct (negb _); [eauto|].
    destruct (answer_and_flood e v _ reply key _ _) as [s3 o3]. eauto.
  - destruct (fc_floodfill c); [|eauto]. unfold on_lease_store. destruct (ls_expired _ _); [eauto|].
    destruct X as (raw & X & _). rewrite X. cbv zeta. destruct (answer_and_flood e v _ reply key _ _) as [s3 o3]. eauto.
Qed.
Lemma runs_total e gunzip c ops : forall s, exists s' out, fruns e gunzip c s ops = Some (s', out).
Proof.
  induction ops as [|[v o] ops IH]; intros s; cbn [fruns]; [eauto|].
  destruct (step_total e gunzip c v s o) as (s1 & o1 & ->). destruct (IH s1) as (s2 & o2 & ->). eauto.
Qed.

(** ** Stores without a reply token *)
Lemma store_none_reply e gunzip key k st r : hash_ok key ->
  parse_store e gunzip (ser_store key k SrNone) = Some (st, r) -> st_reply st = SrNone.
Proof.
  intros Hk H. unfold parse_store, ser_store in H.
  unfold bind at 1 in H. rewrite (take_app 32 key _ Hk) in H.
  unfold bind at 1 in H.
  assert (E : exists ty, be_uint 1 (be_bytes 1 (store_u8 match k with KRouterInfo _ => StRouterInfo | KLeaseSet2 _ => StLeaseSet2 end) ++ ser_store_reply SrNone ++ match k with KRouterInfo z => be_bytes 2 (len z) ++ z | KLeaseSet2 b => b end)
     = Some (store_u8 ty, ser_store_reply SrNone ++ match k with KRouterInfo z => be_bytes 2 (len z) ++ z | KLeaseSet2 b => b end) /\ store_of (store_u8 ty) = Some ty).
  { destruct k; eexists; (split; [apply be1_app; reflexivity|reflexivity]). }
  destruct E as (ty & E & E2). rewrite E in H. rewrite (opt_step _ ty) in H by exact E2.
  unfold bind at 1 in H. rewrite (store_reply_roundtrip SrNone) in H by exact I. destruct ty; try discriminate.
  - repeat (apply bind_inv in H as (? & ? & _ & H)). now apply ret_inv in H as [-> _].
  - repeat (apply bind_inv in H as (? & ? & _ & H)). now apply ret_inv in H as [-> _].
Qed.

Lemma no_token_silent e gunzip c v s b st r s' out :
  parse_store e gunzip b = Some (st, r) -> st_reply st = SrNone ->
  fstep e gunzip c v s (FStore b) = Some (s', out) -> silent out /\ fd_links s' = fd_links s.
Proof.
  intros P R H. cbn [fstep] in H. unfold on_store in H. rewrite P in H.
  assert (Sil : silent []) by (intros x []).
  destruct st as [key [i|l] reply]; cbn [st_reply] in R; subst reply.
  - unfold on_info_store in H. destruct (negb _) in H; [injection H as <- <-; now split|].
    destruct (_ =? _) in H; [injection H as <- <-; now split|]. destruct (_ <? _) in H; [injection H as <- <-; now split|].
    destruct (extract_raw true b) as [raw|]; [|discriminate].
    assert (Sil1 : silent [Discovered i raw]) by (intros x [<-|[]]; eauto).
    destruct (negb _) in H; injection H as <- <-; now split.
  - destruct (fc_floodfill c); [|injection H as <- <-; now split].
    unfold on_lease_store in H. destruct (ls_expired _ _); [injection H as <- <-; now split|].
    destruct (extract_raw false b) as [raw|]; [|discriminate]. injection H as <- <-. now split.
Qed.
