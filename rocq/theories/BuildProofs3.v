(** Proofs about building a tunnel: from the request to the finished tunnel. *)
From Coq Require Import List NArith Bool Arith Lia ZifyBool ZifyNat ZifyN.
From Verif Require Import ListUtil Bytes NMap PrimModel I2npModel I2npSpec I2npProofs GarlicModel GarlicProofs TunnelModel TunnelProofs
  NoiseModel RouteModel RouteProofs TransitModel TransitSpec TransitProofs TransitProofs2 TransitProofs3
  BuildModel BuildSpec BuildProofs BuildProofs2.
Import ListNotations.
Open Scope N_scope.

Section Proofs.
Variable c : ops.
Hypothesis laws : crypto_laws c.

Lemma make_hops_facts now mid gw router : hash_ok router -> forall hs roles,
  length roles = length hs -> Forall hin_ok hs ->
  length (make_hops c now mid hs roles gw router) = length hs /\
  all218 (map snd (make_hops c now mid hs roles gw router)) /\
  map (fun h => th_router (fst h)) (make_hops c now mid hs roles gw router) = map hi_hash hs /\
  map (fun h => th_id (fst h)) (make_hops c now mid hs roles gw router) = map hi_id hs.
Proof.
  intros Hr. induction hs as [|h t IH]; intros [|r rt] L F; try discriminate.
  - cbn. repeat split. constructor.
  - inversion F as [|? ? Hok F']; subst. rewrite make_hops_cons. cbn [length] in L.
    destruct (IH rt ltac:(lia) F') as (I1 & I2 & I3 & I4). cbn [map length].
    split; [now rewrite I1|]. split; [|split; [now rewrite I3 | now rewrite I4]].
    constructor; [|exact I2]. apply made1_length; [exact laws | exact Hok |].
    destruct t as [|h2 t2]; cbn [next_of snd]; [exact Hr|]. inversion F' as [|? ? Hok2 ?]; subst. apply Hok2.
Qed.

Lemma hop_roles_ok d n : (0 < n)%nat ->
  length (hop_roles d n) = n /\ Forall (fun r => r <> OutboundEndpoint) (removelast (hop_roles d n)) /\
  (last (hop_roles d n) Participant = OutboundEndpoint <-> d = Outbound).
Proof.
  intro Hn. destruct d; cbn [hop_roles].
  - split; [cbn [length]; rewrite repeat_length; lia|].
    assert (F : Forall (fun r => r <> OutboundEndpoint) (InboundGateway :: repeat Participant (n - 1))).
    { constructor; [discriminate|]. apply Forall_forall. intros x Hx. apply repeat_spec in Hx. now subst. }
    split.
    + apply Forall_forall. intros x Hx. rewrite Forall_forall in F. apply F.
      clear - Hx. induction (InboundGateway :: repeat Participant (n - 1)) as [|y l IH]; [exact Hx|].
      cbn [removelast] in Hx. destruct l; [contradiction|]. destruct Hx; [left; auto | right; auto].
    + split; [|discriminate]. intro E. exfalso. rewrite Forall_forall in F.
      apply (F (last (InboundGateway :: repeat Participant (n - 1)) Participant)); [|exact E].
      clear. generalize (InboundGateway). induction (repeat Participant (n - 1)) as [|y l IH]; intro x; [now left|].
      right. apply IH.
  - split; [rewrite app_length, repeat_length; cbn; lia|]. split.
    + rewrite removelast_last. apply Forall_forall. intros x Hx. apply repeat_spec in Hx. now subst.
    + rewrite last_last. tauto.
Qed.

Lemma num_records_ok h e : (0 < h <= 8)%nat -> (h <= num_records h e <= 8)%nat.
Proof.
  intro H. unfold num_records, UNFRAGMENTED, MAX_RECORDS. pose proof (N.mod_lt e 3).
  destruct (Nat.ltb_spec h 4); lia.
Qed.

Lemma garlic_reply_opens now gk gt mid payload : in_time now -> mid < 2 ^ 32 -> length gt = 8%nat ->
  N.of_nat (length payload) <= 2000 ->
  (12 <= length (garlic_reply c now gk gt mid payload))%nat /\
  exists plain blocks, x_open c gk 0 gt (skipn 12 (garlic_reply c now gk gt mid payload)) = Some plain /\
    parse_garlic plain = Some blocks /\
    exists x, find is_reply_clove blocks = Some (BClove OutboundTunnelBuildReply mid x GarlicModel.DLocal payload).
Proof.
  intros Ht Hm Lt Hp. unfold in_time in Ht. split; [rewrite garlic_reply_length by exact (proj1 laws); lia|].
  destruct (garlic_roundtrip [BClove OutboundTunnelBuildReply mid (now + of_ms 8000) GarlicModel.DLocal payload;
                      BDateTime (secs_of now)]) as (w & E1 & E2).
  - constructor; [|constructor; [|constructor]].
    + cbn [block_ok]. split; [exact Hm|]. split; [unfold of_ms; lia|]. split; [exact Logic.I|].
      cbn [overhead]. lia.
    + cbn [block_ok]. unfold secs_of. apply N.div_lt_upper_bound; lia.
  - discriminate.
  - exists w. unfold garlic_reply. rewrite E1. cbv zeta.
    set (ct := x_seal c gk 0 gt w).
    assert (E : skipn 12 (be_bytes 4 (len ct + 8) ++ gt ++ ct) = ct).
    { rewrite app_assoc. replace 12%nat with (length (be_bytes 4 (len ct + 8) ++ gt)); [apply skipn_exact|].
      rewrite app_length, be_bytes_length, Lt. reflexivity. }
    rewrite E. unfold ct. rewrite (proj1 (proj2 (proj2 laws))). eexists. split; [reflexivity|].
    split; [exact E2|]. cbn [map received find is_reply_clove]. eexists. reflexivity.
Qed.

Lemma reply_of_final mid roles p final payload :
  (last roles Participant = OutboundEndpoint <-> p_dir p = Outbound) ->
  mid < 2 ^ 32 -> N.of_nat (length payload) <= 2000 ->
  final_ok c mid roles (p_hops p) final payload -> reply_of c p final = RpOk payload.
Proof.
  intros Hd Hm Hp F. unfold final_ok in F. unfold reply_of.
  destruct (p_dir p) eqn:Ed.
  - assert (last roles Participant <> OutboundEndpoint) by (intro E; apply Hd in E; discriminate).
    destruct (last roles Participant); try contradiction; destruct F as [-> ->]; reflexivity.
  - rewrite (proj2 Hd eq_refl) in F. destruct F as (-> & now & gk & gt & Ht & Lt & El & ->).
    destruct (garlic_reply_opens now gk gt mid payload Ht Hm Lt Hp) as (L & plain & blocks & E1 & E2 & x & E3).
    destruct (Nat.ltb_spec (length (garlic_reply c now gk gt mid payload)) 12); [lia|].
    rewrite El, E1, E2, E3. reflexivity.
Qed.

Lemma verdict_all legs :
  forallb (fun r => match r with Some HAccepted => true | _ => false end) (map verdict_of (map (fun l => opens (l_slot l)) legs)) =
  forallb (fun l => opens (l_slot l)) legs.
Proof. induction legs as [|l t IH]; cbn; [reflexivity|]. rewrite IH. destruct (l_slot l); reflexivity. Qed.

Lemma agreed_lengths hs : forall roles gw router hops nodes legs,
  agreed hs roles gw router hops nodes legs ->
  length roles = length hs /\ length hops = length hs /\ length nodes = length hs /\ length legs = length hs.
Proof.
  induction hs as [|h t IH]; intros [|r rt] gw router [|hp hpt] [|nd ndt] [|l lt] H; cbn [agreed] in H; try contradiction.
  - auto.
  - destruct H as (_ & _ & _ & _ & H). apply IH in H. cbn [length]. lia.
Qed.

Lemma agreed_nth hs : forall roles gw router hops nodes legs,
  agreed hs roles gw router hops nodes legs ->
  forall i h nd l hp r,
    nth_error hs i = Some h -> nth_error nodes i = Some nd -> nth_error legs i = Some l ->
    nth_error hops i = Some hp -> nth_error roles i = Some r ->
    let next_id := nth (S i) (map hi_id hs ++ [gw]) 0 in
    let next_router := nth (S i) (map hi_hash hs ++ [router]) [] in
    l_to l = next_router /\
    l_tunnel l = (match r with OutboundEndpoint => Some next_id | _ => None end) /\
    l_slot l = snd (admit_tunnel (snd nd) true (hi_id h)) /\
    match l_slot l with
    | Some s => tm_tasks (l_after l) =
                tm_tasks (snd nd) ++ [mkTask s (hi_id h) r next_id next_router (th_keys hp) Waiting]
    | None => tm_tasks (l_after l) = tm_tasks (snd nd)
    end.
Proof.
  induction hs as [|h t IH]; intros [|r rt] gw router [|hp hpt] [|nd ndt] [|l lt] H i h' nd' l' hp' r' E1 E2 E3 E4 E5;
    cbn [agreed] in H; try contradiction; [destruct i; discriminate E1|].
  destruct H as (H1 & H2 & H3 & H4 & H5). cbv zeta.
  destruct i as [|i]; cbn [nth_error] in *.
  - injection E1 as <-. injection E2 as <-. injection E3 as <-. injection E4 as <-. injection E5 as <-.
    assert (N1 : nth 1 (map hi_id (h :: t) ++ [gw]) 0 = fst (next_of t gw router)) by (destruct t; reflexivity).
    assert (N2 : nth 1 (map hi_hash (h :: t) ++ [router]) [] = snd (next_of t gw router)) by (destruct t; reflexivity).
    rewrite N1, N2. split; [exact H1|]. split; [exact H2|]. split; [exact H3|].
    destruct (l_slot l); [exact H4|]. now rewrite app_nil_r in H4.
  - apply (IH rt gw router hpt ndt lt H5 i h' nd' l' hp' r'); assumption.
Qed.

(** The request as the first hop gets it. *)
Definition request_of (d : direction) (now mid : N) (hs : list hin) (extra : N) (fakes : nat -> bytes)
    (gw : N) (router : bytes) : bytes :=
  let made := make_hops c now mid hs (hop_roles d (length hs)) gw router in
  ser_records (layer c 0 (map fst made)
    (map snd made ++ map fakes (seq 0 (num_records (length hs) extra - length hs)))).

Lemma whole_build d now mid hs extra fakes gw id router nodes ex :
  (0 < length hs <= 8)%nat -> request_ok now mid hs fakes gw router -> ex < 1000000000 * 2 ^ 32 ->
  Forall2 (serves c) hs nodes ->
  let req := mkMsg ShortTunnelBuild mid ex (request_of d now mid hs extra fakes gw router) in
  let made := make_hops c now mid hs (hop_roles d (length hs)) gw router in
  let p := mkPending d (map fst made) (num_records (length hs) extra) id in
  clear c 0 req nodes ->
  exists final legs, travel c req nodes = Some (final, legs) /\
    ends_agree d hs gw router p nodes legs /\
    try_build c p final =
      (if forallb (fun l => opens (l_slot l)) legs then Built (p_hops p)
       else Failed (combine (rev (map hi_hash hs)) (map (fun l => verdict (l_slot l)) legs))).
Proof.
  intros Hlen (Rt & Rm & Rg & Rr & Rh & Rf) Hx Hn. cbv zeta. intro Hc.
  destruct (hop_roles_ok d (length hs)) as (L1 & L2 & L3); [lia|].
  destruct (make_hops_facts now mid gw router Rr hs (hop_roles d (length hs)) L1 Rh) as (M1 & M2 & M3 & M4).
  pose proof (num_records_ok (length hs) extra Hlen) as Hnum.
  unfold request_of in *.
  set (made := make_hops c now mid hs (hop_roles d (length hs)) gw router) in *.
  set (n := num_records (length hs) extra) in *.
  set (recs := map snd made ++ map fakes (seq 0 (n - length hs))) in *.
  assert (Lrecs : length recs = n).
  { unfold recs. rewrite app_length, !map_length, seq_length, M1. lia. }
  assert (Hrecs : all218 recs).
  { unfold recs. apply Forall_app. split; [exact M2|]. apply Forall_forall. intros r Hr.
    apply in_map_iff in Hr as (k & <- & _). apply Rf. }
  set (S0 := layer c 0 (map fst made) recs) in *.
  assert (HS0 : all218 S0) by (apply layer_218; assumption).
  assert (LS0 : length S0 = n) by (unfold S0; now rewrite layer_length).
  set (req := mkMsg ShortTunnelBuild mid ex (ser_records S0)) in *.
  set (b := N.of_nat n mod 256).
  assert (R0 : records_of req b S0).
  { unfold records_of, req. cbn [m_payload]. unfold ser_records. rewrite LS0. reflexivity. }
  destruct (travel_hops c laws now mid gw router Rm Rg Rr hs (hop_roles d (length hs)) 0%nat req b S0 nodes)
    as (final & legs & T1 & T2 & T3); try assumption; try reflexivity; try lia.
  { intros j Hj. fold made. unfold S0. rewrite layer_nth by lia. rewrite Nat.sub_0_r. f_equal.
    unfold recs. rewrite app_nth1; [reflexivity|]. rewrite map_length, M1. lia. }
  fold made in T2, T3.
  destruct (agreed_lengths _ _ _ _ _ _ _ T2) as (A1 & A2 & A3 & A4).
  exists final, legs. split; [exact T1|]. split.
  - split; [cbn [p_hops]; exact A2|]. split; [exact A4|].
    intros i h nd l hp r E1 E2 E3 E4 E5. cbv zeta. cbn [p_hops] in E4.
    assert (th_id hp = hi_id h).
    { rewrite <- (map_map fst th_id) in M4. pose proof (map_nth_error th_id _ _ E4) as Q1.
      rewrite M4, (map_nth_error hi_id _ _ E1) in Q1. now injection Q1. }
    assert (th_router hp = hi_hash h).
    { rewrite <- (map_map fst th_router) in M3. pose proof (map_nth_error th_router _ _ E4) as Q1.
      rewrite M3, (map_nth_error hi_hash _ _ E1) in Q1. now injection Q1. }
    split; [assumption|]. split; [assumption|].
    exact (agreed_nth _ _ _ _ _ _ _ T2 i h nd l hp r E1 E2 E3 E4 E5).
  - set (p := mkPending d (map fst made) n id) in *.
    set (P := pass c 0 (map fst made) (map (fun l => opens (l_slot l)) legs) S0) in *.
    assert (HP : all218 P) by (apply pass_218; assumption).
    assert (LP : length P = n) by (unfold P; now rewrite pass_length).
    assert (Lpay : length (b :: concat P) = (n * 218 + 1)%nat).
    { cbn [length]. rewrite (concat_length 218) by exact HP. lia. }
    unfold try_build.
    rewrite (reply_of_final mid (hop_roles d (length hs)) p final (b :: concat P)); [| exact L3 | exact Rm | lia | exact T3].
    cbn [p_num]. rewrite Lpay. unfold p at 1. cbn [p_num]. unfold SHORT_LEN at 1. rewrite Nat.eqb_refl. cbn [negb].
    change (skipn 1 (b :: concat P)) with (concat P).
    rewrite (chunks_records SHORT_LEN P) by (unfold SHORT_LEN; first [lia | exact HP]).
    destruct (unwind c laws (map fst made) 0 (map (fun l => opens (l_slot l)) legs) S0 P) as (Q & E & _ & _).
    + rewrite !map_length. lia.
    + exact HS0.
    + rewrite map_length. lia.
    + lia.
    + intros j _. reflexivity.
    + unfold p at 1. cbn [p_hops]. rewrite E. rewrite verdict_all.
      destruct (forallb _ legs); [reflexivity|]. f_equal. f_equal.
      * unfold p. cbn [p_hops]. rewrite map_rev, map_map, M3. reflexivity.
      * rewrite map_map. apply map_ext. intro l. unfold verdict_of, verdict, opens. now destruct (l_slot l).
Qed.

(** ** The first hop of an inbound tunnel *)
Lemma inbound_opens now mid h0 eph payload nd now1 :
  in_time now -> mid < 2 ^ 32 -> N.of_nat (length payload) <= 2000 ->
  x_pub c (no_priv nd) = hi_static h0 -> now1 <= whole_seconds (now + of_ms 8000) ->
  let msg := inbound_request c now mid (hi_static h0) eph payload in
  m_type msg = Garlic /\
  garlic_local c now1 nd (m_payload msg) =
    Some [mkMsg ShortTunnelBuild mid (whole_seconds (now + of_ms 8000)) payload].
Proof.
  intros Ht Hm Hp Hs Hnow. cbv zeta. unfold in_time in Ht. unfold inbound_request.
  destruct (garlic_roundtrip [BDateTime (secs_of now);
      BClove ShortTunnelBuild mid (now + of_ms 8000) GarlicModel.DLocal payload]) as (w & E1 & E2).
  - constructor; [|constructor; [|constructor]].
    + cbn [block_ok]. unfold secs_of. apply N.div_lt_upper_bound; lia.
    + cbn [block_ok]. split; [exact Hm|]. split; [unfold of_ms; lia|]. split; [exact Logic.I|].
      cbn [overhead]. lia.
  - discriminate.
  - rewrite E1. unfold outbound_garlic. set (key := snd (session_keys c (x_dh c eph (hi_static h0)))).
    set (ad := x_sha c (x_sha c (outbound_state c ++ hi_static h0) ++ x_pub c eph)).
    set (ct := x_seal c key 0 ad w). cbn [m_type m_payload]. split; [reflexivity|].
    assert (P32 : length (x_pub c eph) = 32%nat) by apply (proj1 (proj2 (proj2 (proj2 laws)))).
    unfold garlic_local.
    destruct (Nat.ltb_spec (length (be_bytes 4 (len ct + 32) ++ x_pub c eph ++ ct)) 36).
    { rewrite !app_length, be_bytes_length, P32 in *. lia. }
    assert (F1 : skipn 4 (be_bytes 4 (len ct + 32) ++ x_pub c eph ++ ct) = x_pub c eph ++ ct).
    { rewrite <- (be_bytes_length 4 (len ct + 32)) at 1. apply skipn_exact. }
    assert (F2 : skipn 36 (be_bytes 4 (len ct + 32) ++ x_pub c eph ++ ct) = ct).
    { change 36%nat with (4 + 32)%nat. rewrite <- skipn_add, F1. rewrite <- P32 at 1. apply skipn_exact. }
    rewrite F1, F2.
    assert (F3 : firstn 32 (x_pub c eph ++ ct) = x_pub c eph) by (rewrite <- P32 at 1; apply firstn_exact).
    rewrite F3. unfold inbound_garlic, inbound_state. rewrite Hs.
    rewrite <- Hs at 1. rewrite (proj1 (proj2 laws) (no_priv nd) eph), Hs. fold key. fold ad.
    unfold ct. rewrite (proj1 (proj2 (proj2 laws))), E2. cbn [map received flat_map].
    destruct (N.ltb_spec (whole_seconds (now + of_ms 8000)) now1); [lia|]. reflexivity.
Qed.

(** [clear] is decidable. *)
Fixpoint clear_b (i : nat) (msg : message) (nodes : list node) : bool :=
  match nodes with
  | [] => true
  | (now, m) :: rest =>
      forallb (fun j => negb (beq (firstn 16 (firstn 218 (skipn (1 + 218 * j) (m_payload msg)))) (firstn 16 (no_hash (tm_noise m)))))
        (seq 0 i) &&
      match handle_short c now m msg with
      | (_, Some (_, out, _)) =>
          match arrives out with Some (_, msg') => clear_b (S i) msg' rest | None => true end
      | _ => true
      end
  end.
Lemma clear_b_sound nodes : forall i msg, clear_b i msg nodes = true -> clear c i msg nodes.
Proof.
  induction nodes as [|[now m] rest IH]; intros i msg H; cbn [clear_b clear] in *; [exact Logic.I|].
  apply andb_true_iff in H as [H1 H2]. split.
  - intros j Hj E. rewrite forallb_forall in H1. specialize (H1 j). rewrite E, beq_refl in H1.
    discriminate H1. apply in_seq. lia.
  - destruct (handle_short c now m msg) as [m' [[[router out] slot]|]]; [|exact Logic.I].
    destruct (arrives out) as [[via msg']|]; [|exact Logic.I]. apply IH, H2.
Qed.

(** ** Success needs every hop's own answer *)
Lemma process_all hs : forall i recs Q rs,
  process c i hs recs = (Some Q, rs) -> length rs = length hs /\
  (forallb (fun r => match r with Some HAccepted => true | _ => false end) rs = true ->
   forall j hp, nth_error hs j = Some hp ->
     exists ct plain, x_open c (k_reply (th_keys hp)) (N.of_nat (i + j)) (th_state hp) ct = Some plain /\
                      nth 201 plain 0 = 0).
Proof.
  induction hs as [|h t IH]; intros i recs Q rs H; cbn [process] in H.
  - injection H as <- <-. split; [reflexivity|]. intros _ j hp Hj. destruct j; discriminate Hj.
  - destruct (process c (S i) t recs) as [[recs'|] rs'] eqn:E; [|discriminate H].
    destruct (x_open c (k_reply (th_keys h)) (N.of_nat i) (th_state h) (nth i recs' [])) as [plain|] eqn:Eo; [|discriminate H].
    cbv zeta in H. injection H as _ <-.
    destruct (IH _ _ _ _ E) as [I1 I2]. split; [cbn [length]; now rewrite I1|].
    intros F j hp Hj. cbn [forallb] in F. destruct (N.eqb_spec (nth 201 plain 0) 0) as [E0|]; [|discriminate F].
    destruct j as [|j]; cbn [nth_error] in Hj.
    + injection Hj as <-. exists (nth i recs' []), plain. rewrite Nat.add_0_r. auto.
    + destruct (I2 F j hp Hj) as (ct & pl & G1 & G2). exists ct, pl.
      replace (i + S j)%nat with (S i + j)%nat by lia. auto.
Qed.
End Proofs.
