(** Property theorems C57, C58 and C59 (NTCP2 handshake). *)
From Coq Require Import List NArith Bool Arith Lia ZifyBool ZifyNat ZifyN.
From Verif Require Import ListUtil Bytes PrimModel PrimSpec PrimProps I2npModel I2npSpec I2cpModel I2cpSpec EncModel TunnelModel TunnelSpec TunnelProps
  NoiseModel Ntcp2Model Ntcp2Spec Ntcp2Proofs TransitSpec NoiseToy HandshakeModel HandshakeSpec HandshakeProofs HandshakeProofs2.
Import ListNotations.
Open Scope N_scope.

(** ** C57 *)
(** A router dials another one with the key, the IV and the identity hash the other one
    publishes, on the same network, and the connection delivers the bytes of both sides.  Then
    both sides finish, the listening side with the dialing router's router info; what one side
    sends with is what the other one receives with; and bytes that arrive behind the handshake
    are left for the session. *)
Theorem C57_both_sides_agree :
  forall c d a r, primitives_ok c -> dialer_ok d -> acceptor_ok a -> dials c d a -> dl_net d = ac_net a ->
    parse_info c (dl_info d) = Some r -> rf_net_id r = ac_net a ->
  exists request created confirmed kd ka,
    dial c d [] = (request, HsWait) /\
    accept c a request = (created, HsWait) /\
    (forall rest, dial c d (created ++ rest) = (request ++ confirmed, HsDone kd rest)) /\
    (forall rest, accept c a (request ++ confirmed ++ rest) = (created, HsDone (ka, r) rest)) /\
    mirrored kd ka.
Proof.
  intros c d a r P D A DA Net Hr Rn. exists (M1 c d), (M2 c d a), (M3 c d a), (kcA c d a), (kcB c d a).
  split; [now apply dial_start|]. split; [now apply accept_wait|]. split; [intros; now apply dial_done|].
  split; [intros; now apply accept_done|]. apply mirrored_keys.
Qed.
Print Assumptions C57_both_sides_agree.

(** The two sessions carry messages: whatever one end sends reaches the other one in order,
    each once, in both directions. *)
Lemma session_aead c : primitives_ok c -> aead_ok (session_crypt c).
Proof. intros P. split; intros; cbn [session_crypt seal open]; [apply (p_open c P)|apply (p_seal_len c P)]. Qed.
Theorem C57_messages_follow :
  forall c kd ka, primitives_ok c -> mirrored kd ka -> forall ms written w read out r,
    Forall fits_frame ms -> N.of_nat (length ms) < 2 ^ 64 - 1 -> prefix_of read written ->
    (nwrote (session_crypt c) (session_writer kd) (map build_short ms) written w /\
     socket_reads nr_room (nr_on_read (session_crypt c)) (session_reader ka) read out r \/
     nwrote (session_crypt c) (session_writer ka) (map build_short ms) written w /\
     socket_reads nr_room (nr_on_read (session_crypt c)) (session_reader kd) read out r) ->
    prefix_of out (map received ms) /\ (nidle w -> read = written -> out = map received ms).
Proof.
  intros c kd ka P (M1 & M2 & M3 & M4) ms written w read out r F L Pr H.
  unfold session_writer, session_reader in H. rewrite M1, M2, M3, M4 in H.
  destruct H as [[H1 H2]|[H1 H2]]; exact (end_to_end _ (session_aead c P) _ _ ms written w read out r F L H1 Pr H2).
Qed.
Print Assumptions C57_messages_follow.

(** No bytes from the network make either side panic. *)
Theorem C57_no_panic :
  forall c, primitives_ok c ->
    (forall d incoming, dialer_ok d -> snd (dial c d incoming) <> HsPanic) /\
    (forall a incoming, acceptor_ok a -> snd (accept c a incoming) <> HsPanic).
Proof. intros c P. split; intros; [now apply dial_no_panic | now apply accept_no_panic]. Qed.
Print Assumptions C57_no_panic.

(** A router of another network is refused after its first message, and sent nothing. *)
Theorem C57_other_network_refused :
  forall c d a request, primitives_ok c -> dialer_ok d -> dials c d a -> dl_net d <> ac_net a ->
    dial c d [] = (request, HsWait) ->
    forall more, accept c a (request ++ more) = ([], HsFail).
Proof.
  intros c d a req P D DA Net E more. rewrite (dial_start c P d D) in E. injection E as <-. now apply wrong_network.
Qed.
Print Assumptions C57_other_network_refused.

(** Whatever happened to the bytes on the way: two ends that finish with the same handshake hash
    (from which the length keys are derived) have received exactly what the other one sent, and
    the dialing end used the listening end's key; otherwise SHA-256 has a collision.  In
    particular their keys then match. *)
Theorem C57_same_hash_same_bytes :
  forall c d a i o kd rest i' o' ka r rest', primitives_ok c -> dialer_ok d -> acceptor_ok a ->
    dl_hash d = ac_hash a -> dl_iv d = ac_iv a ->
    dial c d i = (o, HsDone kd rest) -> accept c a i' = (o', HsDone (ka, r) rest') ->
    kc_hash kd = kc_hash ka ->
    sha_collision c \/
    dl_remote d = x_pub (h_ops c) (ac_static a) /\ i = o' ++ rest /\ i' = o ++ rest'.
Proof.
  intros c d a i o kd rest i' o' ka r rest' P D A Hh Hi E1 E2 K.
  destruct (same_hash c P d a i o kd rest i' o' ka r rest' D A Hh Hi E1 E2 K) as [C|((R & _) & I1 & I2)]; [now left|].
  right. auto.
Qed.
Print Assumptions C57_same_hash_same_bytes.

(** ** C58 *)
(** What does hold of the router a session is accepted for: its router info carries a valid
    signature of its identity, and it is on the same network.  Missing: that the router is the
    one at the other end (see below). *)
Theorem C58_signed_info_partial :
  forall c a incoming o k r rest, primitives_ok c -> acceptor_ok a ->
    accept c a incoming = (o, HsDone (k, r) rest) ->
    rf_net_id r = ac_net a /\
    exists info, parse_info c info = Some r /\
      (bytes_ok info -> exists body sg, info = body ++ sg /\ length sg = 64%nat /\
         verify (x_ext (h_ops c)) (Ed25519 (ri_signing (rf_identity r))) body sg = true).
Proof.
  intros c a i o k r rest P A E.
  destruct (accept_done_inv c P a i o k r rest A E) as (x & oc & pad & oc2 & sc & m & _ & _ & _ & _ & _ & _ & Hn & (info & Hi) & _).
  split; [exact Hn|]. exists info. split; [exact Hi|]. intros Ob.
  unfold parse_info in Hi. destruct (parse_rinfo _ info) as [[r' rr]|] eqn:Ep; [|discriminate]. injection Hi as ->.
  destruct (C29_router_info_authentic _ _ _ _ Ob Ep) as (body & sg & H1 & H2 & H3 & _). eauto 6.
Qed.
Print Assumptions C58_signed_info_partial.

(** Anybody can be accepted as any router of the network: [attacker] is an arbitrary private
    key and [info] somebody else's published router info.  Everything else the dialing side
    uses is published by the listening router or drawn at random.  The listening side ends with
    a working session attributed to the router of [info]. *)
Theorem C58_impersonation_refuted :
  forall c a info r attacker eph padding now, primitives_ok c -> acceptor_ok a ->
    parse_info c info = Some r -> rf_net_id r = ac_net a ->
    N.of_nat (length info) <= 65515 -> length padding = 32%nat ->
    let d := mkDialer info attacker (x_pub (h_ops c) (ac_static a)) (ac_hash a) (ac_iv a) (ac_net a) eph padding now in
    exists request created confirmed kd ka,
      dial c d [] = (request, HsWait) /\ accept c a request = (created, HsWait) /\
      dial c d created = (request ++ confirmed, HsDone kd []) /\
      accept c a (request ++ confirmed) = (created, HsDone (ka, r) []) /\ mirrored kd ka.
Proof.
  intros c a info r at_ eph padding now P A Hr Rn Hl Hp d.
  assert (D : dialer_ok d) by (destruct A as (A1 & A2 & A3); repeat split; assumption).
  assert (DA : dials c d a) by (repeat split).
  destruct (C57_both_sides_agree c d a r P D A DA eq_refl Hr Rn) as (m1 & m2 & m3 & kd & ka & H1 & H2 & H3 & H4 & H5).
  exists m1, m2, m3, kd, ka. split; [exact H1|]. split; [exact H2|].
  split. { rewrite <- (app_nil_r m2). apply H3. }
  split; [|exact H5]. rewrite <- (app_nil_r m3). apply H4.
Qed.
Print Assumptions C58_impersonation_refuted.

(** A concrete case: the victim publishes a static key, the attacker holds another one. *)
Definition toy_hops : hops := mkHops noise_toy toy_aes (fun a b l => a + b + fold_left N.add l 0).
Lemma toy_hops_ok : primitives_ok toy_hops.
Proof.
  split; cbn [toy_hops h_ops h_aes].
  - exact toy_dh.
  - intros. apply pad32_length.
  - intros. apply be_bytes_length.
  - exact toy_open.
  - apply toy_sizes.
  - intros k n ad b p. cbn [noise_toy x_open].
    destruct (Nat.leb_spec 16 (length b)); cbn [andb]; [|discriminate].
    destruct (beq _ _); [|discriminate]. intros E. injection E as <-.
    rewrite xor_len; unfold toy_mask; rewrite ?gen_length, firstn_length; lia.
  - exact C50_aes_nonvacuous.
Qed.
Definition victim_addr : router_address :=
  mkRa 10 0 Ntcp2 [(s_host, [49; 46; 50]); (s_key_i, base64_encode (repeat 3 16)); (s_port, [56; 48]);
                   (s_key_s, base64_encode (pad32 [7; 7]))] None.
Definition victim : router_info := mkRinfo toy_ri 1700000000000 (Some victim_addr) None toy_opts (parse_caps [76; 82]) 2.
Definition victim_info : list N := Eval vm_compute in match ser_rinfo toy [1; 2] victim with Some b => b | None => [] end.
Definition bob : acceptor := mkAcceptor [9; 8] (repeat 5 32) (repeat 4 16) 2 [6] (repeat 0 32) 1700000000.
Example C57_hypotheses :
  primitives_ok toy_hops /\ acceptor_ok bob /\
  exists r, parse_info toy_hops victim_info = Some r /\ rf_net_id r = ac_net bob /\
    N.of_nat (length victim_info) <= 65515 /\
    ntcp2_static_key r = Some (pad32 [7; 7]) /\ pad32 [7; 7] <> x_pub (h_ops toy_hops) [5; 5].
Proof.
  split; [exact toy_hops_ok|]. split; [repeat split; vm_compute; reflexivity|].
  assert (E : match parse_info toy_hops victim_info with
              | Some r => (rf_net_id r =? 2) && match ntcp2_static_key r with Some k => beq k (pad32 [7; 7]) | None => false end
              | None => false end = true) by (vm_compute; reflexivity).
  destruct (parse_info toy_hops victim_info) as [r|]; [|discriminate]. exists r. apply andb_true_iff in E as [E1 E2].
  split; [reflexivity|]. split; [now apply N.eqb_eq|]. split; [vm_compute; discriminate|].
  destruct (ntcp2_static_key r) as [k|]; [|discriminate]. apply beq_eq in E2 as ->. split; [reflexivity|vm_compute; discriminate].
Qed.

(** ** C59 *)
Lemma special_of x a b c d l : In (v4 a b c d, l) special_blocks -> v4 a b c d <= x -> x < v4 a b c d + 2 ^ (32 - l) -> special x.
Proof. intros H1 H2 H3. exists (v4 a b c d, l). split; [exact H1|]. split; assumption. Qed.
Lemma global_special x : x < 2 ^ 32 -> is_global x = true <-> ~ special x.
Proof.
  intros Hx. unfold is_global. rewrite negb_true_iff.
  unfold is_private, in_range, is_loopback, is_link_local, is_unspecified, is_documentation, is_broadcast, v4.
  split.
  - intros H (b & Hb & H1 & H2). cbn [special_blocks In] in Hb.
    repeat (destruct Hb as [<-|Hb]; [cbn [fst snd] in *; unfold v4 in *; cbn in H1, H2; lia|]). destruct Hb.
  - intros H. apply not_true_iff_false. intros E. apply H. clear H.
    rewrite !orb_true_iff in E.
    destruct E as [[[[[[[[E|[[E|E]|E]]|E]|E]|E]|E]|[[E|E]|E]]|E]|E].
    + apply (special_of x 240 0 0 0 4); [cbn; tauto|unfold v4; lia|unfold v4; cbn; lia].
    + apply (special_of x 10 0 0 0 8); [cbn; tauto|unfold v4; lia|unfold v4; cbn; lia].
    + apply (special_of x 172 16 0 0 12); [cbn; tauto|unfold v4; lia|unfold v4; cbn; lia].
    + apply (special_of x 192 168 0 0 16); [cbn; tauto|unfold v4; lia|unfold v4; cbn; lia].
    + apply (special_of x 100 64 0 0 10); [cbn; tauto|unfold v4; lia|unfold v4; cbn; lia].
    + apply (special_of x 127 0 0 0 8); [cbn; tauto|unfold v4; lia|unfold v4; cbn; lia].
    + apply (special_of x 169 254 0 0 16); [cbn; tauto|unfold v4; lia|unfold v4; cbn; lia].
    + apply (special_of x 0 0 0 0 32); [cbn; tauto|unfold v4; lia|unfold v4; cbn; lia].
    + apply (special_of x 192 0 2 0 24); [cbn; tauto|unfold v4; lia|unfold v4; cbn; lia].
    + apply (special_of x 198 51 100 0 24); [cbn; tauto|unfold v4; lia|unfold v4; cbn; lia].
    + apply (special_of x 203 0 113 0 24); [cbn; tauto|unfold v4; lia|unfold v4; cbn; lia].
    + apply (special_of x 198 18 0 0 15); [cbn; tauto|unfold v4; lia|unfold v4; cbn; lia].
    + apply (special_of x 240 0 0 0 4); [cbn; tauto|unfold v4; lia|unfold v4; cbn; lia].
Qed.

(** With local addresses disabled, NTCP2 neither connects to nor takes up a connection from an
    IPv4 address of a special-purpose block, and refuses no other.  Missing: IPv6 addresses and
    the SSU2 transport, which do not look at the setting. *)
Theorem C59_no_local_ipv4_partial :
  forall a b c d, a < 256 -> b < 256 -> c < 256 -> d < 256 ->
    (special (v4 a b c d) ->
       (forall r key iv port, dial_target false r <> Ok (key, iv, ([a; b; c; d], port))) /\
       listener_takes false [a; b; c; d] = false) /\
    (~ special (v4 a b c d) ->
       listener_takes false [a; b; c; d] = true /\
       forall r addr key iv port, rf_ntcp2 r = Some addr -> ra_socket addr = Some ([a; b; c; d], port) ->
         ntcp2_static_key r = Some key -> ntcp2_iv r = Some iv ->
         dial_target false r = Ok (key, iv, ([a; b; c; d], port))).
Proof.
  intros a b c d Ha Hb Hc Hd. assert (Hx : v4 a b c d < 2 ^ 32) by (unfold v4; lia).
  pose proof (global_special _ Hx) as G.
  split.
  - intros Hs. assert (E : is_global (v4 a b c d) = false).
    { destruct (is_global (v4 a b c d)); [|reflexivity]. exfalso. now apply (proj1 G eq_refl). }
    split; [|cbn [listener_takes as_v4]; now rewrite E].
    intros r key iv port H. unfold dial_target in H.
    destruct (ntcp2_static_key r); cbn [or_err rbind] in H; [|discriminate].
    destruct (ntcp2_iv r); cbn [or_err rbind] in H; [|discriminate].
    destruct (rf_ntcp2 r) as [ad|]; cbn [or_panic rbind] in H; [|discriminate].
    destruct (ra_socket ad) as [s|]; cbn [or_err rbind] in H; [|discriminate].
    destruct (as_v4 (fst s)) as [x|] eqn:V; [destruct (negb (is_global x)) eqn:Gx; cbn [andb negb] in H; [discriminate|]|];
      injection H as -> -> ->; cbn [fst as_v4] in V; [|discriminate].
    injection V as <-. rewrite E in Gx. discriminate.
  - intros Hs. apply G in Hs. split; [cbn [listener_takes as_v4]; now rewrite Hs|].
    intros r ad key iv port H1 H2 H3 H4. unfold dial_target. rewrite H3, H4, H1. cbn [or_err or_panic rbind]. rewrite H2.
    cbn [or_err rbind fst as_v4]. now rewrite Hs.
Qed.
Print Assumptions C59_no_local_ipv4_partial.

(** With local addresses enabled nothing is refused on account of its address. *)
Theorem C59_allowed : forall host, listener_takes true host = true.
Proof. intros host. unfold listener_takes. destruct (as_v4 host); [apply orb_true_r|reflexivity]. Qed.
Print Assumptions C59_allowed.

(** The IPv6 loopback address is connected to and accepted from although local addresses are
    disabled. *)
Definition ipv6_loopback : list N := repeat 0 15 ++ [1].
Definition local_v6 : router_info :=
  mkRinfo toy_ri 0 (Some (mkRa 10 0 Ntcp2 [(s_key_i, base64_encode (repeat 3 16)); (s_key_s, base64_encode (repeat 7 32))]
    (Some (ipv6_loopback, 4444)))) None [] (parse_caps []) 2.
Theorem C59_ipv6_refuted :
  (exists r key iv port, dial_target false r = Ok (key, iv, (ipv6_loopback, port))) /\
  listener_takes false ipv6_loopback = true.
Proof.
  split; [|reflexivity]. exists local_v6, (repeat 7 32), (repeat 3 16), 4444. vm_compute. reflexivity.
Qed.
Print Assumptions C59_ipv6_refuted.
Example C59_ex : special (v4 192 168 1 1) /\ ~ special (v4 8 8 8 8) /\ ~ special (v4 172 32 0 1) /\ special (v4 100 127 255 255).
Proof.
  split. { apply (special_of _ 192 168 0 0 16); [cbn; tauto|discriminate|reflexivity]. }
  split. { apply global_special; [reflexivity|vm_compute; reflexivity]. }
  split. { apply global_special; [reflexivity|vm_compute; reflexivity]. }
  apply (special_of _ 100 64 0 0 10); [cbn; tauto|discriminate|reflexivity].
Qed.
