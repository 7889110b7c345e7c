(** Proofs about building a tunnel: one hop, and the whole way. *)
From Coq Require Import List NArith Bool Arith Lia ZifyBool ZifyNat ZifyN.
From Verif Require Import ListUtil Bytes NMap PrimModel I2npModel I2npSpec I2npProofs GarlicModel GarlicProofs TunnelModel TunnelProofs
  NoiseModel RouteModel RouteProofs TransitModel TransitSpec TransitProofs TransitProofs2 TransitProofs3 BuildModel BuildSpec BuildProofs.
Import ListNotations.
Open Scope N_scope.

Section Proofs.
Variable c : ops.
Hypothesis laws : crypto_laws c.

Definition made1 (now mid : N) (h : hin) (r : role) (next : N * bytes) : thop * bytes :=
  let s := create_outbound c (hi_static h) (hi_eph h) r in
  let plain := ser_short_record (mkBr (hi_id h) (fst next) (snd next) r mid)
                 (secs_of now / 60) (secs_of (now + of_ms 10000)) (hi_pad h) in
  let ct := x_seal c (o_aead s) 0 (o_state s) plain in
  (mkThop (hi_id h) (hi_hash h) (o_keys s) (x_sha c (o_state s ++ ct)),
   firstn 16 (hi_hash h) ++ o_eph s ++ ct).
Lemma make_hops_cons now mid h t r rt gw router :
  make_hops c now mid (h :: t) (r :: rt) gw router =
  made1 now mid h r (next_of t gw router) :: make_hops c now mid t rt gw router.
Proof. cbn [make_hops]. unfold made1, next_of. destruct t; reflexivity. Qed.

Lemma o_eph_eq h r : o_eph (create_outbound c (hi_static h) (hi_eph h) r) = x_pub c (hi_eph h).
Proof. unfold create_outbound. now destruct (session_keys c _). Qed.

Lemma made1_length now mid h r next : hin_ok h -> hash_ok (snd next) -> length (snd (made1 now mid h r next)) = 218%nat.
Proof.
  intros (H1 & _ & H3) Hn. unfold made1. cbn [snd]. rewrite o_eph_eq.
  rewrite !app_length, firstn_length, H1, (proj1 (proj2 (proj2 (proj2 laws)))), (proj1 (proj1 laws)).
  rewrite ser_record_length by assumption. reflexivity.
Qed.

Definition opens (slot : option N) : bool := match slot with Some _ => true | None => false end.

(** What hop [h] does with the request it gets. *)
Lemma hop_step now' m msg b S i now mid h r next :
  no_hash (tm_noise m) = hi_hash h -> x_pub c (no_priv (tm_noise m)) = hi_static h ->
  hin_ok h -> fst next < 2 ^ 32 -> hash_ok (snd next) -> mid < 2 ^ 32 ->
  records_of msg b S -> all218 S -> (i < length S)%nat ->
  nth i S [] = snd (made1 now mid h r next) ->
  (forall j, (j < i)%nat ->
     firstn 16 (firstn 218 (skipn (1 + 218 * j) (m_payload msg))) <> firstn 16 (no_hash (tm_noise m))) ->
  let hp := fst (made1 now mid h r next) in
  let '(m1, slot) := admit_tunnel m true (hi_id h) in
  let payload := b :: concat (hopf c i (th_keys hp) (th_state hp) (opens slot) S) in
  handle_short c now' m msg =
    (match slot with
     | Some s => start_task m1 s (mkReq (hi_id h) (fst next) (snd next) r mid) (th_keys hp)
     | None => m1
     end,
     Some (snd next,
           match r with
           | InboundGateway | Participant =>
               build_short (mkMsg ShortTunnelBuild mid (m_expiration msg) payload)
           | OutboundEndpoint =>
               match k_garlic (th_keys hp) with
               | None => []
               | Some (gk, gt) =>
                   gateway_message mid (fst next) (m_expiration msg)
                     (build_standard (x_ext c) (mkMsg Garlic mid (now' + of_ms 8000)
                        (garlic_reply c now' gk gt mid payload)))
               end
           end, slot)).
Proof.
  intros Hh Hs Hok Hn1 Hn2 Hm R HS Hi Hr Hc. cbv zeta.
  destruct Hok as (O1 & O2 & O3).
  assert (Hp : firstn 16 (nth i S []) = firstn 16 (no_hash (tm_noise m))).
  { rewrite Hr, Hh. unfold made1. cbn [snd].
    rewrite firstn_app. rewrite firstn_firstn. change (Nat.min 16 16) with 16%nat.
    rewrite firstn_length, O1. change (16 - Nat.min 16 32)%nat with 0%nat. cbn [firstn]. apply app_nil_r. }
  destruct (own_record msg b S i _ R HS Hi Hp Hc) as [F C].
  destruct (admit_tunnel m true (hi_id h)) as [m1 slot] eqn:EA.
  unfold handle_short. rewrite F, C. cbv zeta. rewrite Hr.
  set (o := create_outbound c (hi_static h) (hi_eph h) r).
  set (plain := ser_short_record (mkBr (hi_id h) (fst next) (snd next) r mid)
                 (secs_of now / 60) (secs_of (now + of_ms 10000)) (hi_pad h)).
  set (ct := x_seal c (o_aead o) 0 (o_state o) plain).
  assert (P16 : length (firstn 16 (hi_hash h)) = 16%nat) by (rewrite firstn_length, O1; reflexivity).
  assert (P32 : length (x_pub c (hi_eph h)) = 32%nat) by apply (proj1 (proj2 (proj2 (proj2 laws)))).
  assert (E : snd (made1 now mid h r next) = firstn 16 (hi_hash h) ++ x_pub c (hi_eph h) ++ ct).
  { unfold made1. cbn [snd]. rewrite o_eph_eq. reflexivity. }
  rewrite E.
  assert (E1 : skipn 16 (firstn 16 (hi_hash h) ++ x_pub c (hi_eph h) ++ ct) = x_pub c (hi_eph h) ++ ct).
  { rewrite <- P16 at 1. apply skipn_exact. }
  assert (E2 : skipn 48 (firstn 16 (hi_hash h) ++ x_pub c (hi_eph h) ++ ct) = ct).
  { change 48%nat with (16 + 32)%nat. rewrite <- skipn_add, E1. rewrite <- P32 at 1. apply skipn_exact. }
  rewrite E1, E2.
  assert (E3 : firstn 32 (x_pub c (hi_eph h) ++ ct) = x_pub c (hi_eph h)).
  { rewrite <- P32 at 1. apply firstn_exact. }
  rewrite E3.
  destruct (session_agree c laws h (tm_noise m) r Hs) as (A1 & A2 & A3). fold o in A1, A2, A3.
  unfold decrypt_record. rewrite A1, A2. unfold ct at 1. rewrite (proj1 (proj2 (proj2 laws))).
  fold ct.
  assert (PR : parse_short_record plain = Some (mkBr (hi_id h) (fst next) (snd next) r mid, [])).
  { apply short_record_roundtrip; assumption. }
  rewrite PR. cbn [br_tunnel br_next_tunnel br_next_router br_role br_next_msg rq_tunnel rq_next_tunnel rq_next_router rq_role rq_next_msg].
  rewrite EA, A3. fold (opens slot).
  assert (K : th_keys (fst (made1 now mid h r next)) = o_keys o) by reflexivity.
  assert (T : th_state (fst (made1 now mid h r next)) = x_sha c (o_state o ++ ct)) by reflexivity.
  rewrite K, T. unfold hopf.
  assert (B : firstn 1 (m_payload msg) = [b]) by (rewrite R; reflexivity).
  rewrite B. cbn [app]. reflexivity.
Qed.

Lemma whole_le x : whole_seconds x <= x.
Proof. unfold whole_seconds. pose proof (N.div_mod x 1000000000). lia. Qed.

(** What arrives at the next router. *)
Lemma short_arrives mid ex b S :
  mid < 2 ^ 32 -> ex < 1000000000 * 2 ^ 32 -> all218 S -> (length S <= 8)%nat ->
  arrives (build_short (mkMsg ShortTunnelBuild mid ex (b :: concat S))) =
  Some (None, mkMsg ShortTunnelBuild mid (whole_seconds ex) (b :: concat S)).
Proof.
  intros H1 H2 H3 H4. unfold arrives.
  pose proof (short_roundtrip (mkMsg ShortTunnelBuild mid ex (b :: concat S)) []) as P.
  cbn [m_type m_id m_expiration m_payload] in P. rewrite app_nil_r in P. rewrite P; clear P.
  - cbn [m_type]. reflexivity.
  - exact H1.
  - exact H2.
  - cbn [length]. lia.
  - cbn [length]. rewrite (concat_length 218) by exact H3. lia.
Qed.

Lemma tag_length ck gk gt : k_garlic (new_keys c ck OutboundEndpoint) = Some (gk, gt) -> length gt = 8%nat.
Proof.
  unfold new_keys. destruct (hkdf c ck _) as [a b]. destruct (hkdf c a _) as [a1 b1].
  destruct (hkdf c a1 _) as [a2 b2]. destruct (hkdf c a2 _) as [a3 b3] eqn:E. cbn [k_garlic].
  intro H. apply (f_equal (fun o => match o with Some (_, x) => x | None => gt end)) in H. cbv beta iota in H.
  rewrite <- H. rewrite firstn_length. unfold hkdf in E. apply (f_equal fst) in E. cbn [fst] in E. rewrite <- E.
  rewrite (proj2 (proj2 (proj2 (proj2 laws)))). reflexivity.
Qed.

Lemma gateway_arrives mid gw ex now gk gt b S :
  mid < 2 ^ 32 -> gw < 2 ^ 32 -> ex < 1000000000 * 2 ^ 32 -> in_time now -> length gt = 8%nat ->
  all218 S -> (length S <= 8)%nat ->
  exists ex', arrives (gateway_message mid gw ex
    (build_standard (x_ext c) (mkMsg Garlic mid (now + of_ms 8000) (garlic_reply c now gk gt mid (b :: concat S))))) =
  Some (Some gw, mkMsg Garlic mid ex' (garlic_reply c now gk gt mid (b :: concat S))).
Proof.
  intros H1 H2 H3 H4 Ht H5 H6.
  assert (L : length (garlic_reply c now gk gt mid (b :: concat S)) = (49 + 218 * length S)%nat).
  { rewrite garlic_reply_length by exact (proj1 laws). cbn [length]. rewrite (concat_length 218) by exact H5. lia. }
  set (g := garlic_reply c now gk gt mid (b :: concat S)) in *.
  unfold arrives, gateway_message.
  set (st := build_standard (x_ext c) (mkMsg Garlic mid (now + of_ms 8000) g)).
  assert (Ls : length st = (65 + 218 * length S)%nat).
  { unfold st. rewrite standard_length. cbn [m_payload]. lia. }
  pose proof (short_roundtrip (mkMsg TunnelGateway mid ex (ser_gateway (mkTg gw st))) []) as P.
  cbn [m_type m_id m_expiration m_payload] in P. rewrite app_nil_r in P.
  assert (Lg : length (ser_gateway (mkTg gw st)) = (6 + length st)%nat).
  { unfold ser_gateway. rewrite !app_length, !be_bytes_length. reflexivity. }
  rewrite P by (try assumption; lia). clear P. cbn [m_type m_payload].
  pose proof (gateway_roundtrip (mkTg gw st) []) as P. rewrite app_nil_r in P.
  cbn [tg_id tg_payload] in P. rewrite P by (try assumption; lia). clear P. cbn [tg_id tg_payload].
  pose proof (standard_roundtrip (x_ext c) (mkMsg Garlic mid (now + of_ms 8000) g) []) as P.
  cbn [m_type m_id m_expiration m_payload] in P. rewrite app_nil_r in P. fold st in P.
  unfold in_time in H4.
  rewrite P; [eexists; reflexivity | exact H1 | unfold of_ms; lia | lia | lia].
Qed.

(** ** The whole way *)
Fixpoint agreed (hs : list hin) (roles : list role) (gw : N) (router : bytes) (hops : list thop)
    (nodes : list node) (legs : list leg) : Prop :=
  match hs, roles, hops, nodes, legs with
  | [], [], [], [], [] => True
  | h :: t, r :: rt, hp :: hpt, nd :: ndt, l :: lt =>
      let next := next_of t gw router in
      l_to l = snd next /\
      l_tunnel l = match r with OutboundEndpoint => Some (fst next) | _ => None end /\
      l_slot l = snd (admit_tunnel (snd nd) true (hi_id h)) /\
      tm_tasks (l_after l) =
        tm_tasks (snd nd) ++ match l_slot l with
                             | Some s => [mkTask s (hi_id h) r (fst next) (snd next) (th_keys hp) Waiting]
                             | None => []
                             end /\
      agreed t rt gw router hpt ndt lt
  | _, _, _, _, _ => False
  end.

Definition final_ok (mid : N) (roles : list role) (hops : list thop) (final : message) (payload : bytes) : Prop :=
  match last roles Participant with
  | OutboundEndpoint =>
      m_type final = Garlic /\
      exists now gk gt, in_time now /\ length gt = 8%nat /\
        last (map (fun h => k_garlic (th_keys h)) hops) None = Some (gk, gt) /\
        m_payload final = garlic_reply c now gk gt mid payload
  | _ => m_type final = ShortTunnelBuild /\ m_payload final = payload
  end.

Lemma admit_tasks m w id : tm_tasks (fst (admit_tunnel m w id)) = tm_tasks m.
Proof.
  unfold admit_tunnel. destruct (can_accept m && w); [|reflexivity].
  destruct (try_add_tunnel (tm_table m) id CHANNEL_SIZE). reflexivity.
Qed.

Lemma travel_hops now mid gw router : mid < 2 ^ 32 -> gw < 2 ^ 32 -> hash_ok router ->
  forall hs roles i msg b S nodes,
  length roles = length hs ->
  Forall (fun r => r <> OutboundEndpoint) (removelast roles) ->
  Forall hin_ok hs ->
  all218 S -> (i + length hs <= length S)%nat -> (length S <= 8)%nat ->
  m_type msg = ShortTunnelBuild -> m_expiration msg < 1000000000 * 2 ^ 32 -> records_of msg b S ->
  (forall j, (i <= j < i + length hs)%nat ->
     nth j S [] = lay c i (map fst (make_hops c now mid hs roles gw router)) j
                    (nth (j - i) (map snd (make_hops c now mid hs roles gw router)) [])) ->
  Forall2 (serves c) hs nodes -> clear c i msg nodes ->
  let hops := map fst (make_hops c now mid hs roles gw router) in
  exists final legs,
    travel c msg nodes = Some (final, legs) /\
    agreed hs roles gw router hops nodes legs /\
    final_ok mid roles hops final (b :: concat (pass c i hops (map (fun l => opens (l_slot l)) legs) S)).
Proof.
  intros Hmid Hgw Hrouter. induction hs as [|h t IH]; intros roles i msg b S nodes Lr Hroles Hhs HS Hi H8 Ht Hx R HL Hn Hc.
  - destruct roles; [|discriminate]. inversion Hn; subst. cbn [make_hops map]. exists msg, [].
    cbn [travel agreed]. split; [reflexivity|]. split; [exact Logic.I|]. unfold final_ok. cbn. split; assumption.
  - destruct roles as [|r rt]; [discriminate|]. inversion Hn as [|h' nd t' ndt Hsv Hn' E1 E2]; subst.
    inversion Hhs as [|? ? Hok Hhs']; subst. destruct nd as [now' m]. cbn [length] in *.
    destruct Hsv as (S1 & S2 & S3). cbn [fst snd] in S1, S2, S3.
    cbn [clear] in Hc. destruct Hc as [Hc1 Hc2].
    rewrite make_hops_cons in *. cbn [map] in *.
    set (next := next_of t gw router) in *.
    assert (Hn1 : fst next < 2 ^ 32 /\ hash_ok (snd next)).
    { unfold next. destruct t as [|h2 t2]; cbn [next_of fst snd]; [auto|].
      inversion Hhs' as [|? ? Hok2 ?]; subst. destruct Hok2 as (? & ? & ?). auto. }
    destruct Hn1 as [Hn1 Hn2].
    assert (Hr : nth i S [] = snd (made1 now mid h r next)).
    { rewrite (HL i) by lia. rewrite Nat.sub_diag. cbn [nth]. apply lay_low. lia. }
    pose proof (hop_step now' m msg b S i now mid h r next S1 S2 Hok Hn1 Hn2 Hmid R HS ltac:(lia) Hr Hc1) as St.
    cbv zeta in St.
    pose proof (admit_tasks m true (hi_id h)) as AT.
    destruct (admit_tunnel m true (hi_id h)) as [m1 slot] eqn:EA. cbn [fst] in AT.
    set (hp := fst (made1 now mid h r next)) in *.
    set (S' := hopf c i (th_keys hp) (th_state hp) (opens slot) S) in *.
    assert (HS' : all218 S') by (apply hopf_218; assumption).
    assert (LS' : length S' = length S) by apply hopf_length.
    cbn [travel agreed map]. rewrite Ht, St.
    assert (TK : tm_tasks (match slot with
       | Some s => start_task m1 s (mkReq (hi_id h) (fst next) (snd next) r mid) (th_keys hp)
       | None => m1 end) = tm_tasks m ++ match slot with
                             | Some s => [mkTask s (hi_id h) r (fst next) (snd next) (th_keys hp) Waiting]
                             | None => [] end).
    { destruct slot; [unfold start_task; cbn [m_tasks tm_tasks]; now rewrite AT | now rewrite app_nil_r]. }
    rewrite St in Hc2.
    set (m2 := match slot with
       | Some s => start_task m1 s (mkReq (hi_id h) (fst next) (snd next) r mid) (th_keys hp)
       | None => m1 end) in *.
    destruct t as [|h2 t2].
    + (* the last hop *)
      assert (rt = []) as -> by (destruct rt; [reflexivity | discriminate]).
      inversion Hn'; subst. cbn [make_hops map].
      destruct (match r with OutboundEndpoint => true | _ => false end) eqn:Er.
      * destruct r; try discriminate Er.
        destruct (k_garlic (th_keys hp)) as [[gk gt]|] eqn:Ek.
        -- assert (Lt : length gt = 8%nat).
           { unfold hp, made1 in Ek. cbn [fst th_keys] in Ek. unfold create_outbound in Ek.
             destruct (session_keys c _) as [ck aead]. cbn [o_keys] in Ek. exact (tag_length _ _ _ Ek). }
           destruct (gateway_arrives mid (fst next) (m_expiration msg) now' gk gt b S' Hmid Hn1 Hx S3 Lt HS' ltac:(lia)) as [ex' EA'].
           rewrite EA'. eexists. eexists. split; [reflexivity|]. split.
           ++ cbn [snd fst l_to l_tunnel l_slot l_after]. split; [reflexivity|]. split; [reflexivity|].
              split; [rewrite EA; reflexivity|]. split; [exact TK | exact Logic.I].
           ++ unfold final_ok. cbn [last map m_type m_payload]. split; [reflexivity|].
              exists now', gk, gt. split; [exact S3|]. split; [exact Lt|]. split; [exact Ek|].
              cbn [pass l_slot]. reflexivity.
        -- exfalso. unfold hp, made1 in Ek. cbn [fst th_keys] in Ek. unfold create_outbound in Ek.
           destruct (session_keys c _) as [ck aead]. cbn [o_keys] in Ek. unfold new_keys in Ek.
           destruct (hkdf c ck _) as [a a']. destruct (hkdf c a _) as [a1 b1].
           destruct (hkdf c a1 _) as [a2 b2]. destruct (hkdf c a2 _) as [a3 b3]. discriminate Ek.
      * assert (EO : match r with
           | InboundGateway | Participant => build_short (mkMsg ShortTunnelBuild mid (m_expiration msg) (b :: concat S'))
           | OutboundEndpoint =>
               match k_garlic (th_keys hp) with
               | None => []
               | Some (gk, gt) =>
                   gateway_message mid (fst next) (m_expiration msg)
                     (build_standard (x_ext c) (mkMsg Garlic mid (now' + of_ms 8000)
                        (garlic_reply c now' gk gt mid (b :: concat S'))))
               end
           end = build_short (mkMsg ShortTunnelBuild mid (m_expiration msg) (b :: concat S'))) by (destruct r; first [discriminate Er | reflexivity]).
        rewrite EO. rewrite (short_arrives mid (m_expiration msg) b S' Hmid Hx HS') by lia.
        eexists. eexists. split; [reflexivity|]. split.
        -- cbn [snd fst l_to l_tunnel l_slot l_after]. split; [reflexivity|]. split; [destruct r; first [discriminate Er | reflexivity]|].
           split; [rewrite EA; reflexivity|]. split; [exact TK | exact Logic.I].
        -- unfold final_ok. cbn [last map m_type m_payload pass l_slot]. destruct r; first [discriminate Er | split; reflexivity].
    + (* more hops behind this one *)
      destruct rt as [|r2 rt2]; [discriminate|].
      assert (Hroles2 : r <> OutboundEndpoint /\ Forall (fun r => r <> OutboundEndpoint) (removelast (r2 :: rt2))).
      { change (removelast (r :: r2 :: rt2)) with (r :: removelast (r2 :: rt2)) in Hroles.
        inversion Hroles; subst; auto. }
      destruct Hroles2 as [Hr0 Hroles2].
      assert (EO : match r with
           | InboundGateway | Participant => build_short (mkMsg ShortTunnelBuild mid (m_expiration msg) (b :: concat S'))
           | OutboundEndpoint =>
               match k_garlic (th_keys hp) with
               | None => []
               | Some (gk, gt) =>
                   gateway_message mid (fst next) (m_expiration msg)
                     (build_standard (x_ext c) (mkMsg Garlic mid (now' + of_ms 8000)
                        (garlic_reply c now' gk gt mid (b :: concat S'))))
               end
           end = build_short (mkMsg ShortTunnelBuild mid (m_expiration msg) (b :: concat S'))) by (destruct r; first [exfalso; apply Hr0; reflexivity | reflexivity]).
      rewrite EO in *. rewrite (short_arrives mid (m_expiration msg) b S' Hmid Hx HS') in * by lia.
      set (msg' := mkMsg ShortTunnelBuild mid (whole_seconds (m_expiration msg)) (b :: concat S')) in *.
      pose proof (whole_le (m_expiration msg)).
      destruct (IH (r2 :: rt2) (Datatypes.S i) msg' b S' ndt) as (final & legs & E1 & E2 & E3).
      * cbn [length] in *. lia.
      * exact Hroles2.
      * exact Hhs'.
      * exact HS'.
      * cbn [length] in *. lia.
      * lia.
      * reflexivity.
      * cbn [msg' m_expiration]. lia.
      * reflexivity.
      * intros j Hj. unfold S'. rewrite hopf_nth by (cbn [length] in *; lia).
        destruct (Nat.eqb_spec j i); [lia|]. rewrite (HL j) by (cbn [length] in *; lia).
        replace (j - i)%nat with (Datatypes.S (j - Datatypes.S i)) by lia. cbn [nth]. cbn [lay].
        destruct (Nat.ltb_spec i j); [|lia]. rewrite lay_swap by exact laws. apply chacha_invol. exact laws.
      * exact Hn'.
      * exact Hc2.
      * rewrite E1. eexists. eexists. split; [reflexivity|]. split.
        -- cbn [snd fst l_to l_tunnel l_slot l_after]. split; [reflexivity|].
           split; [destruct r; first [exfalso; apply Hr0; reflexivity | reflexivity]|].
           split; [rewrite EA; reflexivity|]. split; [exact TK | exact E2].
        -- unfold final_ok in *. change (last (r :: r2 :: rt2) Participant) with (last (r2 :: rt2) Participant).
           cbn [map pass l_slot]. rewrite make_hops_cons in E3 |- *. cbn [map] in E3 |- *. exact E3.
Qed.
End Proofs.
