(** Acknowledgements, flooding and messages that wait for a connection. *)
From Coq Require Import List NArith Bool Arith Lia ZArith ZifyBool ZifyNat ZifyN.
From Verif Require Import ListUtil Bytes NMap PrimModel PrimProofs I2npModel I2npSpec I2npProofs KadModel KadSpec
  RouteProofs FloodModel FloodSpec FloodProofs FloodProofs2.
Import ListNotations.
Open Scope N_scope.

(** ** A property of all messages that are kept or sent *)
Section Every.
Variable P : bytes -> Prop.
Definition all_kept (s : fdb) : Prop :=
  forall r q k, nget r (fd_links s) = Some (Dialing q) -> In k q -> P (kept_bytes k).
Definition all_sent (out : list fout) : Prop := forall r m, In (ToRouter r m) out -> P m.

Lemma all_sent_app a b : all_sent a -> all_sent b -> all_sent (a ++ b).
Proof. intros A B r m H. apply in_app_or in H as [H|H]; [exact (A _ _ H)|exact (B _ _ H)]. Qed.
Lemma all_sent_nil : all_sent [].
Proof. intros r m []. Qed.
Lemma send_now_all v r m : P m -> all_sent (send_now v r m).
Proof. intros H r' m' X. unfold send_now in X. destruct (v_linked v r); [|easy]. destruct X as [X|[]]. now injection X as <- <-. Qed.
Lemma all_kept_links s s' : fd_links s' = fd_links s -> all_kept s -> all_kept s'.
Proof. intros E H r q k. rewrite E. apply H. Qed.

Lemma send_one_all v k s r s' out : P (kept_bytes k) -> all_kept s -> send_one v k s r = (s', out) -> all_kept s' /\ all_sent out.
Proof.
  intros Pk Hs H. unfold send_one in H. destruct (nget r (fd_links s)) as [[|q]|] eqn:E; [| |destruct (v_dial v r)];
    apply pair_equal_spec in H as [<- <-]; (split; [|try apply all_sent_nil]).
  - exact Hs.
  - now apply send_now_all.
  - intros r' q' k' G Hk. cbn [fd_links with_links] in G. rewrite nget_nput in G. destruct (N.eqb_spec r' r) as [->|_].
    + injection G as <-. apply in_app_or in Hk as [Hk|[<-|[]]]; [exact (Hs _ _ _ E Hk)|exact Pk].
    + exact (Hs _ _ _ G Hk).
  - intros r' q' k' G Hk. cbn [fd_links with_links] in G. rewrite nget_nput in G. destruct (N.eqb_spec r' r) as [->|_].
    + injection G as <-. destruct Hk as [<-|[]]. exact Pk.
    + exact (Hs _ _ _ G Hk).
  - intros r' m [X|[]]. discriminate.
  - exact Hs.
Qed.
Lemma send_all_all v k rs : forall s s' out, P (kept_bytes k) -> all_kept s -> send_all v k s rs = (s', out) -> all_kept s' /\ all_sent out.
Proof.
  induction rs as [|r rs IH]; intros s s' out Pk Hs H; cbn [send_all] in H.
  - apply pair_equal_spec in H as [<- <-]. split; [exact Hs|apply all_sent_nil].
  - destruct (send_one v k s r) as [s1 o1] eqn:E1. destruct (send_all v k s1 rs) as [s2 o2] eqn:E2.
    apply pair_equal_spec in H as [<- <-]. destruct (send_one_all _ _ _ _ _ _ Pk Hs E1) as [A1 B1].
    destruct (IH _ _ _ Pk A1 E2) as [A2 B2]. split; [exact A2|now apply all_sent_app].
Qed.
End Every.

(** ** Flooding stops after one hop *)
(** Whoever reads a store message out of these bytes finds no reply token in it. *)
Definition no_token_inside (m : bytes) : Prop :=
  forall msg r, parse_short m = Some (msg, r) -> m_type msg = DatabaseStore ->
    exists key k, hash_ok key /\ m_payload msg = ser_store key k SrNone.

Lemma other_type v t id body :
  env_ok v -> id < 2 ^ 32 -> (0 < length body)%nat -> N.of_nat (length body) <= 65526 -> t <> DatabaseStore ->
  no_token_inside (build_short (message_of t id (v_now v) body)).
Proof.
  intros (Hn & _) Hi L0 L T msg r P X. destruct (short_read v t id body Hn Hi L0 L) as (msg' & P' & A & _).
  rewrite P' in P. injection P as <- <-. congruence.
Qed.
Lemma store_type v id key k :
  env_ok v -> id < 2 ^ 32 -> hash_ok key -> N.of_nat (length (ser_store key k SrNone)) <= 65526 ->
  no_token_inside (build_short (message_of DatabaseStore id (v_now v) (ser_store key k SrNone))).
Proof.
  intros (Hn & _) Hi Hk L msg r P X.
  assert (L0 : (0 < length (ser_store key k SrNone))%nat).
  { unfold ser_store. rewrite !app_length, be_bytes_length. lia. }
  destruct (short_read v DatabaseStore id _ Hn Hi L0 L) as (msg' & P' & _ & B & _).
  rewrite P' in P. injection P as <- <-. exists key, k. split; assumption.
Qed.

Lemma status_len token t : length (ser_delivery_status (mkDs token t)) = 12%nat.
Proof. unfold ser_delivery_status. now rewrite app_length, !be_bytes_length. Qed.
Lemma standard_len e m : length (build_standard e m) = (16 + length (m_payload m))%nat.
Proof. unfold build_standard. rewrite !app_length, !be_bytes_length. lia. Qed.
Lemma gateway_len g : length (ser_gateway g) = (6 + length (tg_payload g))%nat.
Proof. unfold ser_gateway. rewrite !app_length, !be_bytes_length. lia. Qed.

Lemma ack_no_token e v reply r k t : env_ok v -> acknowledge e v reply = (r, k) :: t -> no_token_inside (kept_bytes k).
Proof.
  intros Hv H. pose proof Hv as (Hn & H1 & H2 & _). unfold acknowledge in H. destruct reply as [tok tun h|tok h|]; [| |discriminate];
    injection H as <- <- _; cbn [kept_bytes]; (apply other_type; [exact Hv|assumption| | |discriminate]).
  - rewrite gateway_len. lia.
  - rewrite gateway_len. cbn [tg_payload]. rewrite standard_len. cbn [m_payload message_of]. rewrite status_len. lia.
  - rewrite status_len. lia.
  - rewrite status_len. lia.
Qed.

Lemma flood_no_token e v s reply key k x s' out :
  env_ok v -> hash_ok key -> N.of_nat (length (ser_store key k SrNone)) <= 65526 ->
  all_kept no_token_inside s -> answer_and_flood e v s reply key k x = (s', out) ->
  all_kept no_token_inside s' /\ all_sent no_token_inside out.
Proof.
  intros Hv Hk L Hs H. unfold answer_and_flood in H. destruct (acknowledge e v reply) as [|[r m] t] eqn:A.
  - apply pair_equal_spec in H as [<- <-]. split; [exact Hs|apply all_sent_nil].
  - destruct (send_one v m s r) as [s1 o1] eqn:E1. destruct (send_all v _ s1 _) as [s2 o2] eqn:E2 in H.
    apply pair_equal_spec in H as [<- <-].
    destruct (send_one_all _ _ _ _ _ _ _ (ack_no_token _ _ _ _ _ _ Hv A) Hs E1) as [K1 S1].
    apply (send_all_all no_token_inside) in E2 as [K2 S2]; [|cbn [kept_bytes]; apply store_type; try assumption; apply Hv|exact K1].
    split; [exact K2|now apply all_sent_app].
Qed.

(** Entries of the tables can be sent: they fit. *)
Definition entries_fit (s : fdb) : Prop :=
  (forall key raw t, bget key (fd_leases s) = Some (raw, t) -> N.of_nat (length raw) + 37 <= 65526) /\
  (forall key raw t, bget key (fd_infos s) = Some (raw, t) -> N.of_nat (length raw) + 39 <= 65526).

Lemma search_len c t v key ignore : hash_ok key ->
  (length (search_answer c t v key ignore) <= 225)%nat /\ (0 < length (search_answer c t v key ignore))%nat.
Proof.
  intros Hk. unfold search_answer, ser_search_reply. cbn [sr_key sr_from sr_routers].
  fold (search_routers t v key ignore). rewrite !app_length, Hk, !be_bytes_length, concat_len by apply map_be_hash.
  rewrite map_length. pose proof (search_routers_len t v key ignore). lia.
Qed.

Definition out_only (out : list fout) : Prop := forall x, In x out -> forall r m, x <> ToRouter r m.

Lemma step_no_token e gunzip c v s o s' out :
  env_ok v -> op_fits o -> entries_fit s -> all_kept no_token_inside s ->
  fstep e gunzip c v s o = Some (s', out) -> all_kept no_token_inside s' /\ all_sent no_token_inside out.
Proof.
  intros Hv Hf Ht Hs H. pose proof Hv as (Hn & H1 & H2 & H3). destruct o as [b|b|r|r|r|]; cbn [fstep] in H.
  - unfold on_store in H. destruct Hf as [Hb Hl].
    assert (Same : Some (s, []) = Some (s', out) -> all_kept no_token_inside s' /\ all_sent no_token_inside out).
    { intros E. injection E as <- <-. split; [exact Hs|apply all_sent_nil]. }
    destruct (parse_store e gunzip b) as [[st r]|] eqn:P; [|exact (Same H)].
    pose proof (parse_store_inv _ _ _ _ _ Hb P) as (Kk & Kr & Kp).
    destruct st as [key [i|l] reply]; cbn [st_key st_payload st_reply] in *.
    + unfold on_info_store in H. destruct (negb _) in H; [exact (Same H)|]. destruct (_ =? _) in H; [exact (Same H)|].
      destruct (_ <? _) in H; [exact (Same H)|]. destruct Kp as (z & d & rr & X & _ & _ & Lz). rewrite X in H.
      assert (D : all_sent no_token_inside [Discovered i z]) by (intros r' m' [E|[]]; discriminate).
      destruct (negb _) in H.
      * injection H as <- <-. split; [apply (all_kept_links _ s); [reflexivity|exact Hs]|exact D].
      * match goal with H : context [answer_and_flood e v ?s2 reply key ?k ?x] |- _ =>
          destruct (answer_and_flood e v s2 reply key k x) as [s3 o3] eqn:E3 end.
        injection H as <- <-. apply flood_no_token in E3 as [K S]; try assumption.
        -- split; [exact K|]. apply (all_sent_app _ [Discovered i z] o3); assumption.
        -- rewrite ser_store_length, Kk. lia.
    + destruct (fc_floodfill c); [|exact (Same H)]. unfold on_lease_store in H. destruct (ls_expired _ _); [exact (Same H)|].
      destruct Kp as (raw & X & _ & _ & Lr). rewrite X in H. cbv zeta in H.
      match goal with H : Some (answer_and_flood ?a ?b ?s2 ?d ?e ?f ?g) = _ |- _ =>
        destruct (answer_and_flood a b s2 d e f g) as [s3 o3] eqn:E3 end.
      injection H as <- <-. apply flood_no_token in E3 as [K S]; try assumption; [split; assumption|].
      rewrite ser_store_length, Kk. lia.
  - unfold on_lookup_message in H.
    assert (Same : Some (s, []) = Some (s', out) -> all_kept no_token_inside s' /\ all_sent no_token_inside out).
    { intros E. injection E as <- <-. split; [exact Hs|apply all_sent_nil]. }
    destruct (negb _); [exact (Same H)|].
    destruct (parse_lookup b) as [[[ig key ty rp] r]|] eqn:P; [|exact (Same H)].
    pose proof (parse_lookup_key _ _ _ P) as Hk. cbn [lk_key] in Hk.
    assert (L : forall lease, all_sent no_token_inside (on_lookup e c v s lease key rp ig)).
    { intros lease. destruct Ht as [T1 T2]. destruct (search_len c (fd_dht s) v key ig Hk) as [S1 S2].
      unfold on_lookup. destruct (bget key (if lease then fd_leases s else fd_infos s)) as [[raw t]|] eqn:G.
      - unfold reply_to. destruct rp as [tun rr|rr].
        + destruct (v_tunnel v); [intros r' m' [X|[]]; discriminate|apply all_sent_nil].
        + apply send_now_all. apply store_type; try assumption. rewrite ser_store_length, Hk.
          destruct lease; [specialize (T1 _ _ _ G)|specialize (T2 _ _ _ G)]; lia.
      - unfold reply_to. destruct rp as [tun rr|rr].
        + destruct (v_tunnel v); [intros r' m' [X|[]]; discriminate|apply all_sent_nil].
        + apply send_now_all. apply other_type; [exact Hv|assumption|assumption|lia|discriminate]. }
    destruct ty; try exact (Same H); try (injection H as <- <-; split; [exact Hs|apply L]).
    unfold on_exploration in H. destruct (fd_routers s) as [t|]; [|exact (Same H)].
    destruct (search_len c t v key ig Hk) as [S1 S2].
    destruct rp; injection H as H; apply (send_one_all no_token_inside) in H; try exact H; try exact Hs;
      cbn [kept_bytes]; (apply other_type; [exact Hv|assumption| | |discriminate]);
      rewrite ?gateway_len; cbn [tg_payload]; rewrite ?standard_len; cbn [m_payload message_of]; lia.
  - injection H as <- <-. split.
    + intros r' q k G Hk. cbn [fd_links] in G. rewrite nget_nput in G. destruct (r' =? r); [discriminate|]. exact (Hs _ _ _ G Hk).
    + destruct (nget r (fd_links s)) as [[|q]|] eqn:E; try apply all_sent_nil.
      intros r' m' X. apply in_flat_map in X as (k & Hk & X). pose proof (Hs _ _ _ E Hk) as Pk.
      destruct k as [m x|m]; cbn [kept_bytes] in Pk; [destruct (v_now v <? x); [|easy]|];
        exact (send_now_all _ v r m Pk r' m' X).
  - injection H as <- <-. split; [|apply all_sent_nil].
    intros r' q k G Hk. cbn [fd_links with_links] in G. rewrite nget_ndel in G. destruct (r' =? r); [discriminate|]. exact (Hs _ _ _ G Hk).
  - injection H as <- <-. split; [|apply all_sent_nil].
    intros r' q k G Hk. cbn [fd_links with_links] in G. rewrite nget_ndel in G. destruct (r' =? r); [discriminate|]. exact (Hs _ _ _ G Hk).
  - injection H as <- <-. split; [apply (all_kept_links _ s); [reflexivity|exact Hs]|apply all_sent_nil].
Qed.

Lemma remembers_fit e gunzip c s ops : remembers e gunzip c s ops -> entries_fit s.
Proof.
  intros (_ & _ & M). split; intros key raw t G; specialize (M key) as [M1 M2].
  - rewrite G in M1. destruct M1 as (l & r & _ & _ & _ & _ & L). exact L.
  - rewrite G in M2. destruct M2 as (i & d & r & _ & _ & _ & _ & L). exact L.
Qed.

Lemma runs_no_token e gunzip c ops : fc_floodfill c = true -> forall s out, history_ok ops ->
  fruns e gunzip c (fdb_new c) ops = Some (s, out) -> all_kept no_token_inside s /\ all_sent no_token_inside out.
Proof.
  intros FF. induction ops as [|[v o] ops IH] using rev_ind; intros s out Hh H.
  - injection H as <- <-. split; [intros r q k G; discriminate|apply all_sent_nil].
  - unfold history_ok in Hh. apply Forall_app in Hh as [Hh Hx]. apply Forall_cons_iff in Hx as [[He Hf] _]. cbn [fst snd] in *.
    apply fruns_snoc in H as (s0 & o0 & o2 & F1 & F2 & ->). cbn [fst snd] in F2.
    destruct (IH _ _ Hh F1) as [K S].
    pose proof (remembers_fit _ _ _ _ _ (runs_remember _ _ _ FF _ _ _ Hh F1)) as Fit.
    destruct (step_no_token _ _ _ _ _ _ _ _ He Hf Fit K F2) as [K2 S2]. split; [exact K2|now apply all_sent_app].
Qed.

(** ** Messages handed to a connection *)
Definition grows (s s' : fdb) (out : list fout) : Prop :=
  forall r, match nget r (fd_links s) with
            | Some Connected => nget r (fd_links s') = Some Connected
            | Some (Dialing q) => exists q', nget r (fd_links s') = Some (Dialing (q ++ q'))
            | None => nget r (fd_links s') = None \/ (In (Dial r) out /\ exists q', nget r (fd_links s') = Some (Dialing q'))
            end.
Lemma grows_refl s s' out : fd_links s' = fd_links s -> grows s s' out.
Proof.
  intros E r. rewrite E. destruct (nget r (fd_links s)) as [[|q]|]; [reflexivity| |now left]. exists []. now rewrite app_nil_r.
Qed.
Lemma grows_trans s1 s2 s3 o1 o2 : grows s1 s2 o1 -> grows s2 s3 o2 -> grows s1 s3 (o1 ++ o2).
Proof.
  intros A B r. specialize (A r). specialize (B r). destruct (nget r (fd_links s1)) as [[|q]|].
  - rewrite A in B. exact B.
  - destruct A as [q' A]. rewrite A in B. destruct B as [q2 B]. exists (q' ++ q2). now rewrite app_assoc.
  - destruct A as [A|[I [q' A]]]; rewrite A in B.
    + destruct B as [B|[I B]]; [now left|right]. split; [apply in_or_app; now right|exact B].
    + destruct B as [q2 B]. right. split; [apply in_or_app; now left|]. now exists (q' ++ q2).
Qed.
Lemma send_one_grows v k s r s' out : send_one v k s r = (s', out) -> grows s s' out /\ entrusted v s s' out r k.
Proof.
  intros H. unfold send_one in H. unfold entrusted. destruct (nget r (fd_links s)) as [[|q]|] eqn:E; [| |destruct (v_dial v r) eqn:D];
    apply pair_equal_spec in H as [<- <-].
  - split; [now apply grows_refl|]. intros L. unfold send_now. rewrite L. now left.
  - split.
    + intros r'. cbn [fd_links with_links]. rewrite nget_nput. destruct (N.eqb_spec r' r) as [->|_].
      * rewrite E. exists [k]. reflexivity.
      * destruct (nget r' (fd_links s)) as [[|q']|]; [reflexivity| |now left]. exists []. now rewrite app_nil_r.
    + exists [], []. cbn [fd_links with_links]. rewrite nget_nput, N.eqb_refl. reflexivity.
  - split.
    + intros r'. cbn [fd_links with_links]. rewrite nget_nput. destruct (N.eqb_spec r' r) as [->|_].
      * rewrite E. right. split; [now left|]. now exists [k].
      * destruct (nget r' (fd_links s)) as [[|q']|]; [reflexivity| |now left]. exists []. now rewrite app_nil_r.
    + intros _. split; [now left|]. exists [], []. cbn [fd_links with_links]. rewrite nget_nput, N.eqb_refl. reflexivity.
  - split; [now apply grows_refl|]. discriminate.
Qed.
Lemma entrusted_later v s s1 s2 o1 o2 r k : entrusted v s s1 o1 r k -> grows s s1 o1 -> grows s1 s2 o2 -> entrusted v s s2 (o1 ++ o2) r k.
Proof.
  unfold entrusted. intros A G1 G. specialize (G r). specialize (G1 r). destruct (nget r (fd_links s)) as [[|q]|].
  - intros L. apply in_or_app. left. auto.
  - destruct A as (q1 & q2 & A). rewrite A in G. destruct G as [q' G]. exists q1, (q2 ++ q'). rewrite G. now rewrite <- !app_assoc.
  - intros D. destruct (A D) as (I & q1 & q2 & A'). rewrite A' in G. destruct G as [q' G].
    split; [apply in_or_app; now left|]. exists q1, (q2 ++ q'). rewrite G. now rewrite <- app_assoc.
Qed.
Lemma entrusted_earlier v s s1 s2 o1 o2 r k : grows s s1 o1 -> entrusted v s1 s2 o2 r k -> entrusted v s s2 (o1 ++ o2) r k.
Proof.
  unfold entrusted. intros G A. specialize (G r). destruct (nget r (fd_links s)) as [[|q]|].
  - rewrite G in A. intros L. apply in_or_app. right. auto.
  - destruct G as [q' G]. rewrite G in A. destruct A as (q1 & q2 & A). exists (q' ++ q1), q2. rewrite A. now rewrite <- !app_assoc.
  - destruct G as [G|[I [q' G]]]; rewrite G in A.
    + intros D. destruct (A D) as [I B]. split; [apply in_or_app; now right|exact B].
    + intros D. destruct A as (q1 & q2 & A). split; [apply in_or_app; now left|]. exists (q' ++ q1), q2. rewrite A. now rewrite <- app_assoc.
Qed.
Lemma send_all_grows v k rs : forall s s' out, send_all v k s rs = (s', out) ->
  grows s s' out /\ forall r, In r rs -> entrusted v s s' out r k.
Proof.
  induction rs as [|r rs IH]; intros s s' out H; cbn [send_all] in H.
  - apply pair_equal_spec in H as [<- <-]. split; [now apply grows_refl|intros r []].
  - destruct (send_one v k s r) as [s1 o1] eqn:E1. destruct (send_all v k s1 rs) as [s2 o2] eqn:E2.
    apply pair_equal_spec in H as [<- <-]. apply send_one_grows in E1 as [G1 T1]. apply IH in E2 as [G2 T2].
    split; [now apply (grows_trans _ s1)|]. intros r' [<-|Hr].
    + now apply (entrusted_later _ _ s1).
    + apply (entrusted_earlier _ _ s1); auto.
Qed.

Lemma ack_reads e v reply r k t : env_ok v -> store_reply_ok reply -> acknowledge e v reply = (r, k) :: t ->
  ack_router reply = Some r /\ exists m, k = Expiring m (v_now v + 8000) /\ acknowledges reply m.
Proof.
  intros (Hn & H1 & H2 & _) Hr H. unfold acknowledge in H. destruct reply as [tok tun h|tok h|]; [| |discriminate];
    injection H as <- <- _; cbn [ack_router acknowledges]; (split; [reflexivity|]); eexists; (split; [reflexivity|]); cbn [store_reply_ok] in Hr.
  - set (body := ser_delivery_status (mkDs tok (of_ms (v_now v)))).
    destruct (standard_read e v DeliveryStatus (v_id1 v) body Hn H1) as (inner & P1 & A1 & B1 & _).
    { unfold body. rewrite status_len. lia. } { unfold body. rewrite status_len. lia. }
    set (g := mkTg tun (build_standard e (message_of DeliveryStatus (v_id1 v) (v_now v) body))).
    destruct (short_read v TunnelGateway (v_id2 v) (ser_gateway g) Hn H2) as (msg & P2 & A2 & B2 & _).
    { rewrite gateway_len. lia. }
    { rewrite gateway_len. unfold g. cbn [tg_payload]. rewrite standard_len. cbn [m_payload message_of]. unfold body. rewrite status_len. lia. }
    exists msg, g, inner, (mkDs tok (whole_millis (of_ms (v_now v)))).
    split; [exact P2|]. split; [exact A2|]. split.
    { rewrite B2, <- (app_nil_r (ser_gateway g)). apply gateway_roundtrip; [apply Hr|].
      unfold g. cbn [tg_payload]. rewrite standard_len. cbn [m_payload message_of]. unfold body. rewrite status_len. lia. }
    split; [reflexivity|]. split; [exact P1|]. split; [exact A1|]. split; [|reflexivity].
    rewrite B1. unfold body. rewrite <- (app_nil_r (ser_delivery_status _)). apply delivery_status_roundtrip; cbn [ds_id ds_time]; [apply Hr|unfold of_ms; lia].
  - set (body := ser_delivery_status (mkDs tok (of_ms (v_now v)))).
    destruct (short_read v DeliveryStatus (v_id1 v) body Hn H1) as (msg & P1 & A1 & B1 & _).
    { unfold body. rewrite status_len. lia. } { unfold body. rewrite status_len. lia. }
    exists msg, (mkDs tok (whole_millis (of_ms (v_now v)))).
    split; [exact P1|]. split; [exact A1|]. split; [|reflexivity].
    rewrite B1. unfold body. rewrite <- (app_nil_r (ser_delivery_status _)). apply delivery_status_roundtrip; cbn [ds_id ds_time]; [apply Hr|unfold of_ms; lia].
Qed.

(** An accepted store with a token: acknowledged, then flooded. *)
Lemma flood_sends e v s reply key k x s' out r :
  env_ok v -> store_reply_ok reply -> ack_router reply = Some r -> hash_ok key ->
  N.of_nat (length (ser_store key k SrNone)) <= 65526 ->
  answer_and_flood e v s reply key k x = (s', out) ->
  (exists m, entrusted v s s' out r (Expiring m (v_now v + 8000)) /\ acknowledges reply m) /\
  exists m msg, parse_short m = Some (msg, []) /\ m_type msg = DatabaseStore /\ m_payload msg = ser_store key k SrNone /\
    forall f, In f (match closest (fd_dht s) (v_target v key) 3 with Some l => l | None => [] end) ->
      entrusted v s s' out f (Expiring m x).
Proof.
  intros Hv Hr A Hk L H. unfold answer_and_flood in H. destruct (acknowledge e v reply) as [|[r0 k0] t] eqn:E.
  { destruct reply; discriminate. }
  destruct (ack_reads _ _ _ _ _ _ Hv Hr E) as (A0 & m & -> & Am). rewrite A in A0. injection A0 as <-.
  destruct (send_one v _ s r) as [s1 o1] eqn:E1. destruct (send_all v _ s1 _) as [s2 o2] eqn:E2 in H.
  apply pair_equal_spec in H as [<- <-]. pose proof (send_one_tables _ _ _ _ _ _ E1) as (_ & _ & Dh & _).
  apply send_one_grows in E1 as [G1 T1]. apply send_all_grows in E2 as [G2 T2]. rewrite Dh in T2. split.
  - exists m. split; [|exact Am]. now apply (entrusted_later _ _ s1).
  - pose proof Hv as (Hn & _ & _ & H3).
    assert (L0 : (0 < length (ser_store key k SrNone))%nat).
    { unfold ser_store. rewrite !app_length, be_bytes_length. lia. }
    destruct (short_read v DatabaseStore (v_id3 v) _ Hn H3 L0 L) as (msg & P & B & C & _).
    eexists _, msg. split; [exact P|]. split; [exact B|]. split; [exact C|].
    intros f Hf. apply (entrusted_earlier _ _ s1); [exact G1|]. now apply T2.
Qed.

(** ** A router that is dialed gets what a connected one would have got *)
Definition queue (r : N) (s : fdb) : list kept :=
  match nget r (fd_links s) with Some (Dialing q) => q | _ => [] end.
(** [a] waits for the router, [b] is connected to it; they agree on everything else. *)
Definition waits (r : N) (a b : fdb) : Prop :=
  fd_dht b = fd_dht a /\ fd_routers b = fd_routers a /\ fd_leases b = fd_leases a /\ fd_infos b = fd_infos a /\
  nget r (fd_links b) = Some Connected /\
  match nget r (fd_links a) with None => True | Some (Dialing q) => q <> [] | Some Connected => False end /\
  forall x, x <> r -> nget x (fd_links b) = nget x (fd_links a).

Definition dial_count (r : N) (a a' : fdb) : nat :=
  match nget r (fd_links a), nget r (fd_links a') with None, Some _ => 1 | _, _ => 0 end.

Lemma sent_to_app r a b : sent_to r (a ++ b) = sent_to r a ++ sent_to r b.
Proof. unfold sent_to. apply flat_map_app. Qed.
Lemma dials_app r a b : dials r (a ++ b) = (dials r a + dials r b)%nat.
Proof. unfold dials. now rewrite filter_app, app_length. Qed.
Lemma sent_to_now v r x m : sent_to r (send_now v x m) = if (x =? r) && v_linked v x then [m] else [].
Proof.
  unfold send_now, sent_to. destruct (v_linked v x); cbn [flat_map]; [rewrite app_nil_r, andb_true_r; reflexivity|].
  now rewrite andb_false_r.
Qed.
Lemma dials_now v r x m : dials r (send_now v x m) = 0%nat.
Proof. unfold send_now. now destruct (v_linked v x). Qed.

(** The relation between a step of the one and a step of the other. *)
Definition in_step (r : N) (a b a' b' : fdb) (oa ob : list fout) : Prop :=
  waits r a' b' /\ exists ks, queue r a' = queue r a ++ ks /\ map kept_bytes ks = sent_to r ob /\ sent_to r oa = [] /\
    dials r oa = dial_count r a a' /\ dials r ob = 0%nat.

Lemma in_step_trans r a b a1 b1 a2 b2 oa1 ob1 oa2 ob2 :
  in_step r a b a1 b1 oa1 ob1 -> in_step r a1 b1 a2 b2 oa2 ob2 -> waits r a b -> in_step r a b a2 b2 (oa1 ++ oa2) (ob1 ++ ob2).
Proof.
  intros (W1 & ks1 & Q1 & M1 & S1 & D1 & B1) (W2 & ks2 & Q2 & M2 & S2 & D2 & B2) W0.
  split; [exact W2|]. exists (ks1 ++ ks2). rewrite Q2, Q1, map_app, M1, M2, !sent_to_app, !dials_app, S1, S2, D1, D2, B1, B2, app_assoc.
  repeat split.
  destruct W0 as (_ & _ & _ & _ & _ & K0 & _). destruct W1 as (_ & _ & _ & _ & _ & K1 & _). destruct W2 as (_ & _ & _ & _ & _ & K2 & _).
  unfold dial_count. unfold queue in Q1, Q2.
  destruct (nget r (fd_links a)) as [[|q0]|]; [easy| |]; destruct (nget r (fd_links a1)) as [[|q1]|]; try easy; destruct (nget r (fd_links a2)) as [[|q2]|]; try easy.
  - destruct q0; [now elim K0|discriminate].
  - destruct q1; [now elim K1|discriminate].
Qed.
Lemma in_step_same r a b oa ob : waits r a b -> sent_to r oa = [] -> sent_to r ob = [] -> dials r oa = 0%nat -> dials r ob = 0%nat -> in_step r a b a b oa ob.
Proof.
  intros W A B C D. split; [exact W|]. exists []. rewrite app_nil_r, B. repeat split; try assumption.
  unfold dial_count. rewrite C. now destruct (nget r (fd_links a)).
Qed.

Lemma send_one_step v r k a b x a' b' oa ob :
  v_linked v r = false -> v_dial v r = true -> waits r a b ->
  send_one v k a x = (a', oa) -> send_one (linked r v) k b x = (b', ob) -> in_step r a b a' b' oa ob.
Proof.
  intros Lr Dr W HA HB. pose proof W as (W1 & W2 & W3 & W4 & W5 & W6 & W7).
  unfold send_one in HA, HB. cbn [linked v_dial] in HB. destruct (N.eqb_spec x r) as [->|Nx].
  - rewrite W5 in HB. apply pair_equal_spec in HB as [<- <-].
    assert (SB : sent_to r (send_now (linked r v) r (kept_bytes k)) = [kept_bytes k]).
    { rewrite sent_to_now. cbn [linked v_linked]. now rewrite N.eqb_refl. }
    destruct (nget r (fd_links a)) as [[|q]|] eqn:E; [easy| |rewrite Dr in HA]; apply pair_equal_spec in HA as [<- <-].
    + split.
      * repeat split; try assumption; cbn [fd_links with_links].
        -- rewrite nget_nput, N.eqb_refl. intro X. now apply app_eq_nil in X as [_ X].
        -- intros x Hx. rewrite nget_nput. destruct (N.eqb_spec x r); [contradiction|]. now apply W7.
      * exists [k]. unfold queue, dial_count. cbn [fd_links with_links]. rewrite nget_nput, N.eqb_refl, E, SB, dials_now. repeat split.
    + split.
      * repeat split; try assumption; cbn [fd_links with_links].
        -- rewrite nget_nput, N.eqb_refl. discriminate.
        -- intros x Hx. rewrite nget_nput. destruct (N.eqb_spec x r); [contradiction|]. now apply W7.
      * exists [k]. unfold queue, dial_count. cbn [fd_links with_links]. rewrite nget_nput, N.eqb_refl, E, SB, dials_now. repeat split.
        unfold dials. cbn [filter]. now rewrite N.eqb_refl.
  - rewrite (W7 x Nx) in HB.
    assert (Nb : (x =? r) = false) by now apply N.eqb_neq.
    assert (Put : forall y, y <> Connected \/ True -> in_step r a b (with_links (nput x y (fd_links a)) a) (with_links (nput x y (fd_links b)) b) [] []).
    { intros y _. split.
      - repeat split; try assumption; cbn [fd_links with_links]; rewrite ?nget_nput; replace (r =? x) with false by (rewrite N.eqb_sym; now symmetry); try assumption.
        intros z Hz. rewrite !nget_nput. destruct (z =? x); [reflexivity|now apply W7].
      - exists []. unfold queue, dial_count. cbn [fd_links with_links]. rewrite nget_nput, app_nil_r.
        replace (r =? x) with false by (rewrite N.eqb_sym; now symmetry). repeat split. now destruct (nget r (fd_links a)). }
    destruct (nget x (fd_links a)) as [[|q]|] eqn:E.
    + apply pair_equal_spec in HA as [<- <-]. apply pair_equal_spec in HB as [<- <-].
      apply in_step_same; [exact W|rewrite sent_to_now, Nb; reflexivity|rewrite sent_to_now, Nb; reflexivity|apply dials_now|apply dials_now].
    + apply pair_equal_spec in HA as [<- <-]. apply pair_equal_spec in HB as [<- <-]. apply Put. now right.
    + destruct (v_dial v x).
      * apply pair_equal_spec in HA as [<- <-]. apply pair_equal_spec in HB as [<- <-].
        destruct (Put (Dialing [k]) (or_intror I)) as (V & ks & Q & M & S & D & B).
        split; [exact V|]. exists ks. split; [exact Q|]. split; [exact M|]. split; [reflexivity|].
        unfold dials in *. cbn [filter]. rewrite Nb. split; [exact D|reflexivity].
      * apply pair_equal_spec in HA as [<- <-]. apply pair_equal_spec in HB as [<- <-]. now apply in_step_same.
Qed.
Lemma send_all_step v r k xs : forall a b a' b' oa ob,
  v_linked v r = false -> v_dial v r = true -> waits r a b ->
  send_all v k a xs = (a', oa) -> send_all (linked r v) k b xs = (b', ob) -> in_step r a b a' b' oa ob.
Proof.
  induction xs as [|x xs IH]; intros a b a' b' oa ob Lr Dr W HA HB; cbn [send_all] in HA, HB.
  - apply pair_equal_spec in HA as [<- <-]. apply pair_equal_spec in HB as [<- <-]. now apply in_step_same.
  - destruct (send_one v k a x) as [a1 oa1] eqn:A1. destruct (send_all v k a1 xs) as [a2 oa2] eqn:A2.
    destruct (send_one (linked r v) k b x) as [b1 ob1] eqn:B1. destruct (send_all (linked r v) k b1 xs) as [b2 ob2] eqn:B2.
    apply pair_equal_spec in HA as [<- <-]. apply pair_equal_spec in HB as [<- <-].
    pose proof (send_one_step _ _ _ _ _ _ _ _ _ _ Lr Dr W A1 B1) as S1.
    apply (in_step_trans r a b a1 b1); [exact S1| |exact W]. apply IH; try assumption. apply S1.
Qed.
Lemma flood_step e v r a b reply key k x a' b' oa ob :
  v_linked v r = false -> v_dial v r = true -> waits r a b ->
  answer_and_flood e v a reply key k x = (a', oa) -> answer_and_flood e (linked r v) b reply key k x = (b', ob) ->
  in_step r a b a' b' oa ob.
Proof.
  intros Lr Dr W HA HB. unfold answer_and_flood in HA, HB.
  change (acknowledge e (linked r v) reply) with (acknowledge e v reply) in HB.
  destruct (acknowledge e v reply) as [|[y m] t].
  - apply pair_equal_spec in HA as [<- <-]. apply pair_equal_spec in HB as [<- <-]. now apply in_step_same.
  - destruct (send_one v m a y) as [a1 oa1] eqn:A1. destruct (send_all v _ a1 _) as [a2 oa2] eqn:A2 in HA.
    destruct (send_one (linked r v) m b y) as [b1 ob1] eqn:B1. destruct (send_all (linked r v) _ b1 _) as [b2 ob2] eqn:B2 in HB.
    apply pair_equal_spec in HA as [<- <-]. apply pair_equal_spec in HB as [<- <-].
    pose proof (send_one_step _ _ _ _ _ _ _ _ _ _ Lr Dr W A1 B1) as S1. pose proof S1 as [W1 _].
    apply (in_step_trans r a b a1 b1); [exact S1| |exact W].
    cbn [linked v_target v_id3 v_now] in B2. rewrite (proj1 W1) in B2.
    exact (send_all_step _ _ _ _ _ _ _ _ _ _ Lr Dr W1 A2 B2).
Qed.

Lemma waits_tables r a b dht routers leases infos : waits r a b ->
  waits r (mkFdb dht routers leases infos (fd_links a)) (mkFdb dht routers leases infos (fd_links b)).
Proof. intros (_ & _ & _ & _ & W). split; [reflexivity|]. split; [reflexivity|]. split; [reflexivity|]. split; [reflexivity|]. exact W. Qed.

Lemma step_in_step e gunzip c v r a b o a' oa b' ob :
  v_linked v r = false -> v_dial v r = true -> waits r a b -> not_about r o ->
  fstep e gunzip c v a o = Some (a', oa) -> fstep e gunzip c (linked r v) b o = Some (b', ob) ->
  in_step r a b a' b' oa ob.
Proof.
  intros Lr Dr W Hn HA HB. pose proof W as (W1 & W2 & W3 & W4 & W5 & W6 & W7).
  assert (Same : Some (a, []) = Some (a', oa) -> Some (b, []) = Some (b', ob) -> in_step r a b a' b' oa ob).
  { intros EA EB. injection EA as <- <-. injection EB as <- <-. now apply in_step_same. }
  destruct o as [p|p|x|x|x|]; cbn [fstep] in HA, HB.
  - unfold on_store in HA, HB. destruct (parse_store e gunzip p) as [[st rest]|]; [|exact (Same HA HB)].
    destruct st as [key [i|l] reply].
    + unfold on_info_store in HA, HB. cbn [linked v_now] in HB.
      destruct (negb (rf_net_id i =? fc_net c)); [exact (Same HA HB)|].
      destruct (be_val (ri_hash (rf_identity i)) =? fc_local c); [exact (Same HA HB)|].
      destruct (rf_published i + 3600000 <? v_now v); [exact (Same HA HB)|].
      destruct (extract_raw true p) as [raw|]; [|discriminate]. rewrite W1, W2, W3, W4 in HB.
      destruct (negb (fc_floodfill c)).
      * injection HA as <- <-. injection HB as <- <-. split; [now apply waits_tables|]. exists [].
        rewrite app_nil_r. unfold queue, dial_count. cbn [fd_links]. repeat split. now destruct (nget r (fd_links a)).
      * match goal with H : context [answer_and_flood e v ?s2 reply key ?k ?x] |- _ =>
          destruct (answer_and_flood e v s2 reply key k x) as [a3 oa3] eqn:A3 end.
        match goal with H : context [answer_and_flood e (linked r v) ?s2 reply key ?k ?x] |- _ =>
          destruct (answer_and_flood e (linked r v) s2 reply key k x) as [b3 ob3] eqn:B3 end.
        injection HA as <- <-. injection HB as <- <-.
        exact (flood_step _ _ _ _ _ _ _ _ _ _ _ _ _ Lr Dr (waits_tables _ _ _ _ _ _ _ W) A3 B3).
    + destruct (fc_floodfill c); [|exact (Same HA HB)]. unfold on_lease_store in HA, HB. cbn [linked v_now] in HB.
      destruct (ls_expired (v_now v) l); [exact (Same HA HB)|].
      destruct (extract_raw false p) as [raw|]; [|discriminate]. cbv zeta in HA, HB. rewrite W1, W2, W3, W4 in HB.
      injection HA as A3. injection HB as B3.
      exact (flood_step _ _ _ _ _ _ _ _ _ _ _ _ _ Lr Dr (waits_tables _ _ _ _ _ _ _ W) A3 B3).
  - unfold on_lookup_message in HA, HB. destruct (negb (fc_floodfill c)); [exact (Same HA HB)|].
    unfold not_about in Hn. destruct (parse_lookup p) as [[[ig key ty rp] rest]|]; [|exact (Same HA HB)].
    assert (Q : forall lease, (match rp with LrRouter h => be_val h <> r | _ => True end) ->
              Some (a, on_lookup e c v a lease key rp ig) = Some (a', oa) ->
              Some (b, on_lookup e c (linked r v) b lease key rp ig) = Some (b', ob) -> in_step r a b a' b' oa ob).
    { intros lease Hr EA EB. injection EA as <- <-. injection EB as <- <-.
      assert (RS : forall w t body, sent_to r (reply_to e w rp t body) = [] /\ dials r (reply_to e w rp t body) = 0%nat).
      { intros w t body. unfold reply_to. destruct rp as [tun h|h].
        - destruct (v_tunnel w); split; reflexivity.
        - rewrite sent_to_now, dials_now. destruct (N.eqb_spec (be_val h) r); [contradiction|]. now split. }
      unfold on_lookup. rewrite W3, W4.
      destruct (bget key (if lease then fd_leases a else fd_infos a)) as [[raw t]|]; apply in_step_same; try exact W; apply RS. }
    destruct ty.
    + exact (Same HA HB).
    + apply (Q true); [destruct rp; [exact I|exact Hn]|exact HA|exact HB].
    + apply (Q false); [destruct rp; [exact I|exact Hn]|exact HA|exact HB].
    + unfold on_exploration in HA, HB. rewrite W2 in HB. destruct (fd_routers a) as [t|]; [|exact (Same HA HB)].
      destruct rp as [tun h|h]; injection HA as HA; injection HB as HB;
        exact (send_one_step _ _ _ _ _ _ _ _ _ _ Lr Dr W HA HB).
  - cbn [not_about] in Hn. injection HA as <- <-. injection HB as <- <-.
    cbn [linked v_floodfill]. rewrite W1, W2, W3, W4. split.
    + repeat split; cbn [fd_links]; rewrite ?nget_nput; replace (r =? x) with false by (symmetry; rewrite N.eqb_neq; congruence); try assumption.
      intros z Hz. rewrite !nget_nput. destruct (z =? x); [reflexivity|now apply W7].
    + exists []. unfold queue, dial_count. cbn [fd_links]. rewrite nget_nput, app_nil_r.
      replace (r =? x) with false by (symmetry; rewrite N.eqb_neq; congruence).
      assert (N0 : forall w q, sent_to r (flat_map (fun k => match k with Expiring m t => if v_now w <? t then send_now w x m else [] | NonExpiring m => send_now w x m end) q) = []
                /\ dials r (flat_map (fun k => match k with Expiring m t => if v_now w <? t then send_now w x m else [] | NonExpiring m => send_now w x m end) q) = 0%nat).
      { intros w q. assert (Sn : forall m, sent_to r (send_now w x m) = []).
        { intros m. rewrite sent_to_now. now destruct (N.eqb_spec x r). }
        induction q as [|k q [IH1 IH2]]; [now split|]. cbn [flat_map]. rewrite sent_to_app, dials_app, IH1, IH2, app_nil_r, Nat.add_0_r.
        destruct k as [m t|m]; [destruct (v_now w <? t); [|now split]|]; rewrite Sn, dials_now; now split. }
      rewrite (W7 x Hn). destruct (nget x (fd_links a)) as [[|q]|].
      * repeat split. now destruct (nget r (fd_links a)).
      * destruct (N0 v q) as [X1 X2]. destruct (N0 (linked r v) q) as [Y1 Y2]. cbn [linked v_now] in Y1, Y2.
        rewrite X1, X2, Y1, Y2. repeat split. now destruct (nget r (fd_links a)).
      * repeat split. now destruct (nget r (fd_links a)).
  - cbn [not_about] in Hn. injection HA as <- <-. injection HB as <- <-. split.
    + repeat split; cbn [fd_links with_links]; rewrite ?nget_ndel; replace (r =? x) with false by (symmetry; rewrite N.eqb_neq; congruence); try assumption.
      intros z Hz. rewrite !nget_ndel. destruct (z =? x); [reflexivity|now apply W7].
    + exists []. unfold queue, dial_count. cbn [fd_links with_links]. rewrite nget_ndel, app_nil_r.
      replace (r =? x) with false by (symmetry; rewrite N.eqb_neq; congruence). repeat split. now destruct (nget r (fd_links a)).
  - cbn [not_about] in Hn. injection HA as <- <-. injection HB as <- <-. split.
    + repeat split; cbn [fd_links with_links]; rewrite ?nget_ndel; replace (r =? x) with false by (symmetry; rewrite N.eqb_neq; congruence); try assumption.
      intros z Hz. rewrite !nget_ndel. destruct (z =? x); [reflexivity|now apply W7].
    + exists []. unfold queue, dial_count. cbn [fd_links with_links]. rewrite nget_ndel, app_nil_r.
      replace (r =? x) with false by (symmetry; rewrite N.eqb_neq; congruence). repeat split. now destruct (nget r (fd_links a)).
  - injection HA as <- <-. injection HB as <- <-. unfold maintain. cbn [linked v_now]. rewrite W1, W2, W3, W4.
    split; [now apply waits_tables|]. exists []. rewrite app_nil_r. unfold queue, dial_count. cbn [fd_links]. repeat split. now destruct (nget r (fd_links a)).
Qed.

Lemma runs_in_step e gunzip c r ops : forall a b a' oa b' ob,
  Forall (fun x => v_linked (fst x) r = false /\ v_dial (fst x) r = true /\ not_about r (snd x)) ops -> waits r a b ->
  fruns e gunzip c a ops = Some (a', oa) ->
  fruns e gunzip c b (map (fun x => (linked r (fst x), snd x)) ops) = Some (b', ob) ->
  in_step r a b a' b' oa ob.
Proof.
  induction ops as [|[v o] ops IH]; intros a b a' oa b' ob F W HA HB; cbn [fruns map] in HA, HB.
  - injection HA as <- <-. injection HB as <- <-. now apply in_step_same.
  - apply Forall_cons_iff in F as [(F1 & F2 & F3) F]. cbn [fst snd] in *.
    destruct (fstep e gunzip c v a o) as [[a1 oa1]|] eqn:A1; [|discriminate].
    destruct (fruns e gunzip c a1 ops) as [[a2 oa2]|] eqn:A2; [|discriminate]. injection HA as <- <-.
    destruct (fstep e gunzip c (linked r v) b o) as [[b1 ob1]|] eqn:B1; [|discriminate].
    destruct (fruns e gunzip c b1 _) as [[b2 ob2]|] eqn:B2 in HB; [|discriminate]. injection HB as <- <-.
    pose proof (step_in_step _ _ _ _ _ _ _ _ _ _ _ _ F1 F2 W F3 A1 B1) as S1.
    apply (in_step_trans r a b a1 b1); [exact S1| |exact W]. apply (IH a1 b1); try assumption. apply S1.
Qed.

Lemma established_sends v s r s' out : v_linked v r = true -> on_established v s r = (s', out) ->
  sent_to r out = map kept_bytes (filter (worth_sending (v_now v)) (queue r s)) /\ nget r (fd_links s') = Some Connected.
Proof.
  intros L H. apply pair_equal_spec in H as [<- <-]. split; [|cbn [fd_links]; now rewrite nget_nput, N.eqb_refl].
  unfold queue. destruct (nget r (fd_links s)) as [[|q]|]; try reflexivity.
  induction q as [|k q IH]; [reflexivity|]. cbn [flat_map filter]. rewrite sent_to_app, IH.
  destruct k as [m x|m]; cbn [worth_sending]; [destruct (v_now v <? x)|]; try reflexivity;
    rewrite sent_to_now, N.eqb_refl, L; reflexivity.
Qed.
