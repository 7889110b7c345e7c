(** More proofs about the NTCP2 handshake: arbitrary bytes from the network. *)
From Coq Require Import List NArith Bool Arith Lia ZifyBool ZifyNat ZifyN.
From Verif Require Import ListUtil Bytes PrimModel I2npModel EncModel TunnelModel TunnelSpec NoiseModel Ntcp2Model
  HandshakeModel HandshakeSpec HandshakeProofs.
Import ListNotations.
Open Scope N_scope.

Section Proofs.
Variable c : hops.
Variable P : primitives_ok c.

(** ** No bytes make either side panic *)
Lemma register_no_panic s b : (64 <= length b)%nat -> register_created c s b <> Panic.
Proof.
  intros H. destruct s as [q|q|]; cbn [register_created]; try discriminate.
  rewrite (slice_some b 0 32), (slice_some b 32 64) by lia. cbn [or_panic rbind].
  destruct (public_from _); cbn [or_err rbind]; [|discriminate].
  destruct (mix_key _ _ _ _) as [n key].
  destruct (x_open _ _ _ _ _); cbn [or_err rbind]; [|discriminate].
  destruct (parse_roptions _); cbn [or_err rbind]; discriminate.
Qed.
Lemma register_keeps q b s n : register_created c (IRequested q) b = Ok (s, n) ->
  exists q', s = ICreated q' /\ ic_info q' = iq_info q.
Proof.
  cbn [register_created]. destruct (slice b 0 32); cbn [or_panic rbind]; [|discriminate].
  destruct (public_from _); cbn [or_err rbind]; [|discriminate].
  destruct (mix_key _ _ _ _) as [n' key]. destruct (slice b 32 64); cbn [or_panic rbind]; [|discriminate].
  destruct (x_open _ _ _ _ _); cbn [or_err rbind]; [|discriminate].
  destruct (parse_roptions _); cbn [or_err rbind]; [|discriminate].
  intros E; injection E as <- <-. eexists. split; [reflexivity|reflexivity].
Qed.
Lemma ifinalize_no_panic q p : N.of_nat (length (ic_info q)) <= 65515 -> initiator_finalize c (ICreated q) p <> Panic.
Proof.
  intros H. cbn [initiator_finalize]. destruct (mix_key _ _ _ _) as [n k].
  unfold new_router_info. rewrite N.mod_small by lia.
  destruct (N.eqb_spec (N.of_nat (length (ic_info q))) 65535); [lia|]. cbn [or_panic rbind].
  destruct (data_keys _ _) as [[t a] b]. discriminate.
Qed.

Lemma on_read_no_panic {B} n i (f : bytes -> bytes -> bytes * hs B) :
  (forall b r, length b = n -> snd (f b r) <> HsPanic) -> snd (on_read n i f) <> HsPanic.
Proof.
  intros H. unfold on_read, read_exact. destruct (take n i) as [[b r]|] eqn:E; [|discriminate].
  apply H. now apply take_inv in E.
Qed.
Lemma of_res_no_panic {A B} (x : res A) (f : A -> bytes * hs B) :
  x <> Panic -> (forall a, x = Ok a -> snd (f a) <> HsPanic) -> snd (of_res x f) <> HsPanic.
Proof. intros H1 H2. destruct x; cbn [of_res snd]; [now apply H2 | discriminate | congruence]. Qed.

Lemma dial_no_panic d i : dialer_ok d -> snd (dial c d i) <> HsPanic.
Proof.
  intros D. unfold dial. rewrite (initiator_new_ok c P d _ D). cbn [of_res]. unfold write. cbn [snd].
  apply on_read_no_panic. intros b r Hb.
  apply of_res_no_panic; [apply register_no_panic; lia|]. intros [s n] E.
  destruct (register_keeps _ _ _ _ E) as (q' & -> & Hq). cbn [iq_info] in Hq.
  apply on_read_no_panic. intros b2 r2 _.
  apply of_res_no_panic; [apply ifinalize_no_panic; rewrite Hq; apply D|].
  intros [kc m] _. cbn [snd]. discriminate.
Qed.

Lemma responder_new_no_panic n h s iv m net : (64 <= length m)%nat -> responder_new c n h s iv m net <> Panic.
Proof.
  intros H. unfold responder_new. rewrite (slice_some m 0 32), (slice_some m 32 64) by lia. cbn [or_panic rbind].
  destruct (public_from _); cbn [or_err rbind]; [|discriminate].
  destruct (mix_key _ _ _ _) as [n' key].
  destruct (x_open _ _ _ _ _); cbn [or_err rbind]; [|discriminate].
  destruct (parse_ioptions _); cbn [or_err rbind]; [|discriminate].
  destruct (negb _); [discriminate|]. destruct (negb _); discriminate.
Qed.
Lemma responder_new_inv n h s iv m net st pad : length m = 64%nat -> responder_new c n h s iv m net = Ok (st, pad) ->
  exists eph n1 k o opts,
    cbc_dec (h_aes c) h iv (firstn 32 m) = eph /\ length eph = 32%nat /\
    mix_key c (mix_hash c n eph) s eph = (n1, k) /\
    x_open (h_ops c) k 0 (n_h n1) (skipn 32 m) = Some opts /\ parse_ioptions opts = Some o /\
    io_network o = net /\ io_version o = 2 /\ pad = N.to_nat (io_padding o) /\
    st = RRequested (mkRreq eph (cbc_iv (firstn 32 m)) h (N.to_nat (io_m3p2 o)) (mix_hash c n1 (skipn 32 m))).
Proof.
  intros Hm. unfold responder_new. rewrite (slice_some m 0 32), (slice_some m 32 64) by lia. cbn [or_panic rbind].
  change (firstn (32 - 0) (skipn 0 m)) with (firstn 32 m). change (64 - 32)%nat with 32%nat.
  rewrite (firstn_all2 (skipn 32 m)) by (rewrite skipn_length; lia).
  set (x := cbc_dec (h_aes c) h iv (firstn 32 m)). unfold public_from.
  destruct (Nat.eqb_spec (length x) 32); cbn [or_err rbind]; [|discriminate].
  destruct (mix_key c (mix_hash c n x) s x) as [n1 k] eqn:K.
  destruct (x_open (h_ops c) k 0 (n_h n1) (skipn 32 m)) as [opts|] eqn:O; cbn [or_err rbind]; [|discriminate].
  destruct (parse_ioptions opts) as [o|] eqn:Po; cbn [or_err rbind]; [|discriminate].
  destruct (N.eqb_spec (io_network o) net); cbn [negb]; [|discriminate].
  destruct (N.eqb_spec (io_version o) 2); cbn [negb]; [|discriminate].
  intros E. injection E as <- <-. exists x, n1, k, o, opts. now repeat (split; [assumption || reflexivity|]).
Qed.

Lemma create_session_inv q a p s m l : acceptor_ok a -> length (rq_iv q) = 16%nat ->
  create_session c (RRequested q) a p = Ok (s, m, l) ->
  exists n k oc, mix_key c (mix_hash c (mix_hash c (rq_ctx q) p) (pub c (ac_eph a))) (ac_eph a) (rq_eph q) = (n, k) /\
    length oc = 32%nat /\
    m = cbc_enc (h_aes c) (rq_hash q) (rq_iv q) (pub c (ac_eph a)) ++ oc ++ ac_padding a /\
    s = RCreated (mkRcre (ac_eph a) k (mix_hash c (mix_hash c n oc) (ac_padding a))) /\ l = (48 + rq_m3p2 q)%nat.
Proof.
  intros A Hiv. cbn [create_session]. fold (pub c (ac_eph a)).
  destruct (mix_key c (mix_hash c (mix_hash c (rq_ctx q) p) (pub c (ac_eph a))) (ac_eph a) (rq_eph q)) as [n k] eqn:K.
  set (y := cbc_enc (h_aes c) (rq_hash q) (rq_iv q) (pub c (ac_eph a))).
  set (oc := x_seal (h_ops c) k 0 (n_h n) (ser_roptions (mkRoptions 32 (ac_now a mod 2 ^ 32)))).
  assert (Hy : length y = 32%nat) by (apply (cbc_ok c P); [exact Hiv|apply (p_pub c P)]).
  assert (Hoc : length oc = 32%nat) by (unfold oc; rewrite (p_seal_len c P), ser_roptions_length; reflexivity).
  destruct A as (A1 & A2 & A3).
  rewrite (slice_app y oc (ac_padding a)) by lia. cbn [or_panic rbind].
  replace (y ++ oc ++ ac_padding a) with ((y ++ oc) ++ ac_padding a ++ []) at 1
    by (now rewrite app_nil_r, <- app_assoc).
  rewrite (slice_app (y ++ oc) (ac_padding a) []) by (rewrite ?app_length; lia). cbn [or_panic rbind].
  intros E. injection E as <- <- <-. exists n, k, oc. repeat (split; [assumption || reflexivity|]). reflexivity.
Qed.
Lemma create_session_ok_or q a p : acceptor_ok a -> length (rq_iv q) = 16%nat ->
  exists x, create_session c (RRequested q) a p = Ok x.
Proof.
  intros A Hiv. cbn [create_session]. fold (pub c (ac_eph a)).
  destruct (mix_key c (mix_hash c (mix_hash c (rq_ctx q) p) (pub c (ac_eph a))) (ac_eph a) (rq_eph q)) as [n k] eqn:K.
  set (y := cbc_enc (h_aes c) (rq_hash q) (rq_iv q) (pub c (ac_eph a))).
  set (oc := x_seal (h_ops c) k 0 (n_h n) (ser_roptions (mkRoptions 32 (ac_now a mod 2 ^ 32)))).
  assert (Hy : length y = 32%nat) by (apply (cbc_ok c P); [exact Hiv|apply (p_pub c P)]).
  assert (Hoc : length oc = 32%nat) by (unfold oc; rewrite (p_seal_len c P), ser_roptions_length; reflexivity).
  destruct A as (A1 & A2 & A3).
  rewrite !slice_some by (rewrite ?app_length; lia). cbn [or_panic rbind]. eexists. reflexivity.
Qed.
Lemma rfinalize_no_panic s m : (48 <= length m)%nat -> responder_finalize c s m <> Panic.
Proof.
  intros H. destruct s as [q|q|]; cbn [responder_finalize]; try discriminate.
  rewrite (slice_some m 0 48) by lia. cbn [or_panic rbind].
  change (firstn (48 - 0) (skipn 0 m)) with (firstn 48 m).
  destruct (x_open (h_ops c) (rc_key q) 1 (n_h (rc_ctx q)) (firstn 48 m)) as [sp|] eqn:O; cbn [or_err rbind]; [|discriminate].
  apply (p_open_len c P) in O. rewrite firstn_length in O.
  rewrite (slice_some sp 0 32) by lia. cbn [or_panic rbind].
  destruct (public_from _); cbn [or_err rbind]; [|discriminate].
  destruct (mix_key _ _ _ _) as [n k].
  destruct (x_open (h_ops c) k 0 (n_h n) (skipn 48 m)); cbn [or_err rbind]; [|discriminate].
  destruct (parse_one_block _) as [[]|]; cbn [rbind]; try discriminate.
  destruct (parse_info _ _); cbn [or_err rbind]; [|discriminate].
  destruct (data_keys _ _) as [[t x] y]. discriminate.
Qed.

Lemma accept_no_panic a i : acceptor_ok a -> snd (accept c a i) <> HsPanic.
Proof.
  intros A. unfold accept. apply on_read_no_panic. intros m r Hm.
  apply of_res_no_panic; [apply responder_new_no_panic; lia|]. intros [s pad] E.
  destruct (responder_new_inv _ _ _ _ _ _ _ _ Hm E) as (eph & n1 & k & o & opts & _ & _ & _ & _ & _ & _ & _ & _ & ->).
  apply on_read_no_panic. intros p r2 Hp.
  assert (Hiv : length (cbc_iv (firstn 32 m)) = 16%nat) by (unfold cbc_iv; rewrite skipn_length, firstn_length; lia).
  match goal with |- context [create_session c (RRequested ?q) a p] =>
    destruct (create_session_ok_or q a p A Hiv) as [[[s2 m2] l] E2]; rewrite E2;
    destruct (create_session_inv q a p s2 m2 l A Hiv E2) as (n' & k' & oc & _ & _ & _ & _ & Hl) end.
  cbn [of_res]. unfold write. cbn [snd].
  apply on_read_no_panic. intros m3 r3 Hm3.
  apply of_res_no_panic; [apply rfinalize_no_panic; lia|]. intros [kc router] _.
  destruct (negb _); discriminate.
Qed.

(** ** Networks *)
Lemma wrong_network d a i : dialer_ok d -> dials c d a -> dl_net d <> ac_net a ->
  accept c a (M1 c d ++ i) = ([], HsFail).
Proof.
  intros D DA Net. unfold accept, M1.
  replace ((X c d ++ c1 c d (start_out c) ++ dl_padding d) ++ i)
    with ((X c d ++ c1 c d (start_out c)) ++ dl_padding d ++ i) by (now rewrite <- !app_assoc).
  rewrite on_read_app by (rewrite app_length, (X_length c P), (c1_length c P); [reflexivity|exact D]).
  destruct (responder_new _ _ _ _ _ _ _) as [[s pad]| |] eqn:E.
  - exfalso. apply responder_new_inv in E.
    + destruct E as (eph & nn & k & o & opts & E1 & E2 & E3 & E4 & E5 & E6 & _).
      pose proof (X_length c P d D) as HX. rewrite <- HX, firstn_exact in E1. rewrite <- HX, skipn_exact in E4.
      pose proof D as (Hi & _). pose proof DA as (A1 & A2 & A3).
      assert (Ex : eph = pub c (dl_eph d)).
      { rewrite <- E1. unfold X. rewrite A2, A3. apply (cbc_ok c P); [rewrite <- A3; exact Hi|apply (p_pub c P)]. }
      subst eph. rewrite Ex in E3.
      assert (E3' : k1 c d (start_out c) = (nn, k)).
      { rewrite <- E3. unfold k1, n1. rewrite (start_same c d a DA), A1. now rewrite (mix_key_sym c P). }
      unfold c1 in E4. rewrite E3' in E4. cbn [fst snd] in E4. rewrite (p_open c P) in E4. injection E4 as <-.
      rewrite (o1_parse d D) in E5. injection E5 as <-. cbn [o1 io_network] in E6. congruence.
    + rewrite app_length, (X_length c P), (c1_length c P); [reflexivity|exact D].
  - reflexivity.
  - exfalso. eapply responder_new_no_panic; [|exact E].
    rewrite app_length, (X_length c P), (c1_length c P); [lia|exact D].
Qed.

(** ** Taking a finished handshake apart *)
Lemma on_read_done {B} n i (f : bytes -> bytes -> bytes * hs B) o x r :
  on_read n i f = (o, HsDone x r) -> exists b i', i = b ++ i' /\ length b = n /\ f b i' = (o, HsDone x r).
Proof.
  unfold on_read, read_exact. destruct (take n i) as [[b i']|] eqn:E; [|discriminate].
  intros H. apply take_inv in E. exists b, i'. tauto.
Qed.
Lemma of_res_done {A B} (x : res A) (f : A -> bytes * hs B) o y r :
  of_res x f = (o, HsDone y r) -> exists a, x = Ok a /\ f a = (o, HsDone y r).
Proof. destruct x; cbn [of_res]; try discriminate. eauto. Qed.
Lemma write_done {B} m (x : bytes * hs B) o y r :
  write m x = (o, HsDone y r) -> exists o', o = m ++ o' /\ x = (o', HsDone y r).
Proof. unfold write. destruct x as [o' h]. cbn [fst snd]. intros H. injection H as <- ->. eauto. Qed.

Lemma rfinalize_inv q m kc r : (48 <= length m)%nat -> responder_finalize c (RCreated q) m = Ok (kc, r) ->
  exists remote info, parse_info c info = Some r /\
    x_open (h_ops c) (rc_key q) 1 (n_h (rc_ctx q)) (firstn 48 m) = Some remote /\
    kc_hash kc = x_sha (h_ops c) (x_sha (h_ops c) (n_h (rc_ctx q) ++ firstn 48 m) ++ skipn 48 m).
Proof.
  intros H. cbn [responder_finalize].
  rewrite (slice_some m 0 48) by lia. cbn [or_panic rbind].
  change (firstn (48 - 0) (skipn 0 m)) with (firstn 48 m).
  destruct (x_open (h_ops c) (rc_key q) 1 (n_h (rc_ctx q)) (firstn 48 m)) as [sp|] eqn:O; cbn [or_err rbind]; [|discriminate].
  destruct (slice sp 0 32); cbn [or_panic rbind]; [|discriminate].
  destruct (public_from _) as [remote|]; cbn [or_err rbind]; [|discriminate].
  destruct (mix_key c (mix_hash c (rc_ctx q) (firstn 48 m)) (rc_eph q) remote) as [n k] eqn:K.
  destruct (x_open (h_ops c) k 0 (n_h n) (skipn 48 m)) as [b'|]; cbn [or_err rbind]; [|discriminate].
  destruct (parse_one_block b') as [[]|]; cbn [rbind]; try discriminate.
  destruct (parse_info c info) as [r'|] eqn:Pi; cbn [or_err rbind]; [|discriminate].
  destruct (data_keys c (mix_hash c n (skipn 48 m))) as [[t x] y].
  intros E. injection E as <- <-. exists sp, info. split; [exact Pi|]. split; [reflexivity|].
  cbn [kc_hash mix_hash n_h]. unfold mix_key in K. injection K as <- _. reflexivity.
Qed.

Lemma accept_done_inv a i o kc r rest : acceptor_ok a -> accept c a i = (o, HsDone (kc, r) rest) ->
  exists x oc pad oc2 sc m,
    i = (x ++ oc) ++ pad ++ (sc ++ m) ++ rest /\ length x = 32%nat /\ length oc = 32%nat /\ length sc = 48%nat /\
    length oc2 = 32%nat /\
    o = cbc_enc (h_aes c) (ac_hash a) (cbc_iv x) (pub c (ac_eph a)) ++ oc2 ++ ac_padding a /\
    rf_net_id r = ac_net a /\ (exists info, parse_info c info = Some r) /\
    kc_hash kc = fold_left (fun h b => x_sha (h_ops c) (h ++ b))
      [cbc_dec (h_aes c) (ac_hash a) (ac_iv a) x; oc; pad; pub c (ac_eph a); oc2; ac_padding a; sc; m]
      (hs_inbound c (ac_static a)).
Proof.
  intros A H. unfold accept in H. apply on_read_done in H as (m1 & i1 & -> & L1 & H).
  apply of_res_done in H as ([s pad] & E1 & H).
  destruct (responder_new_inv _ _ _ _ _ _ _ _ L1 E1) as (eph & n1 & k & op & opts & X1 & X2 & X3 & X4 & X5 & X6 & X7 & X8 & ->).
  apply on_read_done in H as (p & i2 & -> & L2 & H).
  apply of_res_done in H as ([[s2 m2] l] & E2 & H).
  assert (Hiv : length (cbc_iv (firstn 32 m1)) = 16%nat) by (unfold cbc_iv; rewrite skipn_length, firstn_length; lia).
  apply create_session_inv in E2; [|exact A|exact Hiv]. destruct E2 as (n' & k' & oc & K2 & Loc & Hm2 & -> & ->).
  cbn [rq_ctx rq_eph rq_hash rq_iv rq_m3p2] in *.
  apply write_done in H as (o' & -> & H).
  apply on_read_done in H as (m3 & i3 & -> & L3 & H).
  apply of_res_done in H as ([kc' r'] & E3 & H).
  destruct (N.eqb_spec (rf_net_id r') (ac_net a)); cbn [negb] in H; [|discriminate].
  injection H as <- <- <- <-.
  destruct (rfinalize_inv _ m3 kc' r' ltac:(lia) E3) as (remote & info & Hi & _ & Hk).
  exists (firstn 32 m1), (skipn 32 m1), p, oc, (firstn 48 m3), (skipn 48 m3).
  rewrite !firstn_skipn, !firstn_length, !skipn_length, app_nil_r.
  split; [reflexivity|]. split; [lia|]. split; [lia|]. split; [lia|]. split; [exact Loc|].
  split; [exact Hm2|]. split; [assumption|]. split; [eauto|].
  rewrite Hk. cbn [rc_ctx n_h mix_hash fold_left].
  unfold mix_key in K2. injection K2 as <- _. unfold mix_key in X3. injection X3 as <- _.
  cbn [n_h mix_hash]. now rewrite <- X1.
Qed.

Lemma dial_done_inv d i o kc rest : dialer_ok d -> dial c d i = (o, HsDone kc rest) ->
  exists y oc2 pad2 sp m,
    i = (y ++ oc2) ++ pad2 ++ rest /\ length y = 32%nat /\ length oc2 = 32%nat /\ length sp = 48%nat /\
    o = M1 c d ++ sp ++ m /\ length m = (20 + length (dl_info d))%nat /\
    kc_hash kc = fold_left (fun h b => x_sha (h_ops c) (h ++ b))
      [dl_remote d; pub c (dl_eph d); c1 c d (start_out c); dl_padding d;
       cbc_dec (h_aes c) (dl_hash d) (cbc_iv (X c d)) y; oc2; pad2; sp; m] (hs_outbound c).
Proof.
  intros D H. unfold dial in H. fold (start_out c) in H. rewrite (initiator_new_ok c P d _ D) in H. cbn [of_res] in H.
  apply write_done in H as (o' & -> & H). apply on_read_done in H as (m1 & i1 & -> & L1 & H).
  apply of_res_done in H as ([s pad] & E1 & H).
  cbn [register_created iq_hash iq_iv iq_ctx iq_eph iq_info iq_static] in E1.
  rewrite (slice_some m1 0 32), (slice_some m1 32 64) in E1 by lia. cbn [or_panic rbind] in E1.
  change (firstn (32 - 0) (skipn 0 m1)) with (firstn 32 m1) in E1. change (64 - 32)%nat with 32%nat in E1.
  rewrite (firstn_all2 (skipn 32 m1)) in E1 by (rewrite skipn_length; lia).
  destruct (public_from _) as [remote|]; cbn [or_err rbind] in E1; [|discriminate].
  destruct (mix_key c _ (dl_eph d) remote) as [n key] eqn:K.
  destruct (x_open (h_ops c) key 0 (n_h n) (skipn 32 m1)) as [opts|]; cbn [or_err rbind] in E1; [|discriminate].
  destruct (parse_roptions opts) as [ro|]; cbn [or_err rbind] in E1; [|discriminate].
  injection E1 as <- <-.
  apply on_read_done in H as (p & i2 & -> & L2 & H).
  apply of_res_done in H as ([kc' m3] & E2 & H).
  cbn [initiator_finalize ic_info ic_static ic_ctx ic_key ic_remote] in E2.
  set (sp := x_seal (h_ops c) key 1 _ _) in E2.
  destruct (mix_key c _ (dl_static d) remote) as [n' k'] eqn:K2.
  destruct (new_router_info (dl_info d)) as [blk|] eqn:B; cbn [or_panic rbind] in E2; [|discriminate].
  destruct (data_keys c _) as [[t x] y]. injection E2 as <- <-.
  apply write_done in H as (o2 & -> & H). injection H as <- <- <-.
  assert (Hb : length blk = (4 + length (dl_info d))%nat).
  { unfold new_router_info in B. destruct (N.eqb _ _); [discriminate|]. apply (f_equal (fun o => match o with Some b => b | None => [] end)) in B.
    rewrite <- B. rewrite !app_length, be_bytes_length. cbn [length]. lia. }
  exists (firstn 32 m1), (skipn 32 m1), p, sp, (x_seal (h_ops c) k' 0 (n_h n') blk).
  rewrite !firstn_skipn, !firstn_length, !skipn_length, app_nil_r.
  split; [reflexivity|]. split; [lia|]. split; [lia|].
  split. { unfold sp. rewrite (p_seal_len c P), (p_pub c P). reflexivity. }
  split; [reflexivity|]. split. { rewrite (p_seal_len c P), Hb. lia. }
  cbn [kc_hash mix_hash n_h fold_left].
  unfold mix_key in K2. injection K2 as <- _. unfold mix_key in K. injection K as <- _.
  cbn [n_h mix_hash]. reflexivity.
Qed.

(** ** The handshake hash *)
Lemma sha_step h h' b b' : length h = 32%nat -> length h' = 32%nat ->
  x_sha (h_ops c) (h ++ b) = x_sha (h_ops c) (h' ++ b') -> sha_collision c \/ h = h' /\ b = b'.
Proof.
  intros L L' E. destruct (list_eq_dec N.eq_dec (h ++ b) (h' ++ b')) as [Eq|Ne].
  - right. assert (Hh : h = h').
    { apply (f_equal (firstn 32)) in Eq. rewrite !firstn_app_n in Eq by assumption. exact Eq. }
    split; [exact Hh|]. subst h'. now apply app_inv_head in Eq.
  - left. exists (h ++ b), (h' ++ b'). auto.
Qed.
Lemma sha_fold l : forall l' h h', length l = length l' -> length h = 32%nat -> length h' = 32%nat ->
  fold_left (fun h b => x_sha (h_ops c) (h ++ b)) l h = fold_left (fun h b => x_sha (h_ops c) (h ++ b)) l' h' ->
  sha_collision c \/ h = h' /\ l = l'.
Proof.
  induction l as [|b l IH]; intros [|b' l'] h h' Ll L L' E; try discriminate.
  - right. auto.
  - cbn [fold_left] in E. destruct (IH l' _ _ ltac:(cbn in Ll; lia) (p_sha c P _) (p_sha c P _) E) as [C|[E1 E2]]; [now left|].
    destruct (sha_step h h' b b' L L' E1) as [C|[E3 E4]]; [now left|]. right. subst. auto.
Qed.

Lemma same_hash d a i o kc rest i' o' kc' r rest' : dialer_ok d -> acceptor_ok a ->
  dl_hash d = ac_hash a -> dl_iv d = ac_iv a ->
  dial c d i = (o, HsDone kc rest) -> accept c a i' = (o', HsDone (kc', r) rest') -> kc_hash kc = kc_hash kc' ->
  sha_collision c \/ dials c d a /\ i = o' ++ rest /\ i' = o ++ rest'.
Proof.
  intros D A Hh Hi E1 E2 Hk.
  destruct (dial_done_inv d i o kc rest D E1) as (y & oc2 & pad2 & sp & m & -> & L1 & L2 & L3 & -> & L4 & K1).
  destruct (accept_done_inv a i' o' kc' r rest' A E2) as (x & oc & pad & oc3 & sc & m' & -> & L5 & L6 & L7 & L8 & -> & _ & _ & K2).
  rewrite K1, K2 in Hk. cbn [fold_left] in Hk.
  change (hs_inbound c (ac_static a)) with (x_sha (h_ops c) (hs_outbound c ++ pub c (ac_static a))) in Hk.
  destruct (sha_fold
    [dl_remote d; pub c (dl_eph d); c1 c d (start_out c); dl_padding d;
     cbc_dec (h_aes c) (dl_hash d) (cbc_iv (X c d)) y; oc2; pad2; sp; m]
    [pub c (ac_static a); cbc_dec (h_aes c) (ac_hash a) (ac_iv a) x; oc; pad; pub c (ac_eph a); oc3; ac_padding a; sc; m']
    (hs_outbound c) (hs_outbound c) eq_refl (p_sha c P _) (p_sha c P _) Hk) as [C|[_ E]]; [now left|].
  injection E as R1 R2 R3 R4 R5 R6 R7 R8 R9. right.
  assert (HX : X c d = x).
  { unfold X. rewrite R2, Hh, Hi. apply (cbc_ok c P); [apply A|exact L5]. }
  assert (HY : cbc_enc (h_aes c) (ac_hash a) (cbc_iv x) (pub c (ac_eph a)) = y).
  { rewrite <- R5, <- Hh, HX. apply (cbc_ok c P); [|exact L1]. unfold cbc_iv. rewrite skipn_length. lia. }
  split. { split; [exact R1|]. split; assumption. }
  split.
  - rewrite HY, R6, R7. now rewrite <- !app_assoc.
  - unfold M1. rewrite HX, R3, R4, R8, R9. now rewrite <- !app_assoc.
Qed.

End Proofs.
