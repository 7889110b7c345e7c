(** Proofs about the NTCP2 handshake. *)
From Coq Require Import List NArith Bool Arith Lia ZifyBool ZifyNat ZifyN.
From Verif Require Import ListUtil Bytes PrimModel I2npModel EncModel TunnelModel TunnelSpec NoiseModel Ntcp2Model
  HandshakeModel HandshakeSpec.
Import ListNotations.
Open Scope N_scope.

Lemma slice_app (a b d : bytes) from to :
  length a = from -> (length a + length b)%nat = to -> slice (a ++ b ++ d) from to = Some b.
Proof.
  intros <- <-. unfold slice. rewrite !app_length.
  destruct (Nat.leb_spec (length a) (length a + length b)); [|lia].
  destruct (Nat.leb_spec (length a + length b) (length a + (length b + length d))); [|lia]. cbn [andb].
  rewrite skipn_exact. replace (length a + length b - length a)%nat with (length b) by lia.
  now rewrite firstn_exact.
Qed.
Lemma slice_inv b from to r : slice b from to = Some r ->
  length r = (to - from)%nat /\ r = firstn (to - from) (skipn from b) /\ (from <= to <= length b)%nat.
Proof.
  unfold slice. destruct (Nat.leb_spec from to), (Nat.leb_spec to (length b)); cbn [andb]; try discriminate.
  intros E; injection E as <-. rewrite firstn_length, skipn_length. split; [lia|]. split; [reflexivity|lia].
Qed.
Lemma slice_some b from to : (from <= to <= length b)%nat ->
  slice b from to = Some (firstn (to - from) (skipn from b)).
Proof.
  intros H. unfold slice. destruct (Nat.leb_spec from to), (Nat.leb_spec to (length b)); cbn [andb]; try lia. reflexivity.
Qed.

Lemma ser_ioptions_length o : length (ser_ioptions o) = 16%nat.
Proof. unfold ser_ioptions. rewrite !app_length, !be_bytes_length. reflexivity. Qed.
Lemma ser_roptions_length o : length (ser_roptions o) = 16%nat.
Proof. unfold ser_roptions. rewrite !app_length, !be_bytes_length. reflexivity. Qed.
Lemma parse_ser_ioptions o : io_network o < 256 -> io_version o < 256 -> io_padding o < 65536 -> io_m3p2 o < 65536 ->
  io_time o < 2 ^ 32 -> parse_ioptions (ser_ioptions o) = Some o.
Proof.
  intros. unfold parse_ioptions, ser_ioptions. destruct o as [n v p m t]; cbn [io_network io_version io_padding io_m3p2 io_time] in *.
  rewrite <- (app_nil_r (be_bytes 4 0)) at 1. rewrite <- ?app_assoc.
  erewrite bind_step by (apply be1_app; assumption).
  erewrite bind_step by (apply be1_app; assumption).
  erewrite bind_step by (apply be2_app; assumption).
  erewrite bind_step by (apply be2_app; assumption).
  erewrite bind_step by (apply be2_app; reflexivity).
  erewrite bind_step by (apply be4_app; assumption).
  rewrite <- (app_nil_r (be_bytes 4 0)).
  erewrite bind_step by (apply be4_app; reflexivity). reflexivity.
Qed.
Lemma parse_ser_roptions o : ro_padding o < 65536 -> ro_time o < 2 ^ 32 -> parse_roptions (ser_roptions o) = Some o.
Proof.
  intros. unfold parse_roptions, ser_roptions. destruct o as [p t]; cbn [ro_padding ro_time] in *.
  erewrite bind_step by (apply be2_app; reflexivity).
  erewrite bind_step by (apply be2_app; assumption).
  erewrite bind_step by (apply be4_app; reflexivity).
  erewrite bind_step by (apply be4_app; assumption).
  rewrite <- (app_nil_r (be_bytes 4 0)).
  erewrite bind_step by (apply be4_app; reflexivity). reflexivity.
Qed.

Section Proofs.
Variable c : hops.
Variable P : primitives_ok c.

Lemma cbc_ok k iv d : length iv = 16%nat -> length d = 32%nat ->
  length (cbc_enc (h_aes c) k iv d) = 32%nat /\ length (cbc_dec (h_aes c) k iv d) = 32%nat /\
  cbc_dec (h_aes c) k iv (cbc_enc (h_aes c) k iv d) = d /\ cbc_enc (h_aes c) k iv (cbc_dec (h_aes c) k iv d) = d.
Proof.
  intros Hi Hd. destruct (p_aes c P) as [_ A]. destruct (A k iv d Hi) as (A1 & A2 & A3 & A4).
  { exists 2%nat. lia. } rewrite A1, A2. auto.
Qed.

(** ** The pieces of a run, as functions of what each side is given *)
Definition pub := x_pub (h_ops c).
Definition X (d : dialer) : bytes := cbc_enc (h_aes c) (dl_hash d) (dl_iv d) (pub (dl_eph d)).
Definition n1 (d : dialer) (n : nctx) : nctx := mix_hash c (mix_hash c n (dl_remote d)) (pub (dl_eph d)).
Definition k1 (d : dialer) (n : nctx) : nctx * bytes := mix_key c (n1 d n) (dl_eph d) (dl_remote d).
Definition o1 (d : dialer) : ioptions :=
  mkIoptions (dl_net d) 2 32 (N.of_nat (length (dl_info d)) mod 65536 + 20) (dl_now d mod 2 ^ 32).
Definition c1 (d : dialer) (n : nctx) : bytes :=
  x_seal (h_ops c) (snd (k1 d n)) 0 (n_h (fst (k1 d n))) (ser_ioptions (o1 d)).
Definition n2 (d : dialer) (n : nctx) : nctx := mix_hash c (mix_hash c (fst (k1 d n)) (c1 d n)) (dl_padding d).

Lemma c1_length d n : length (c1 d n) = 32%nat.
Proof. unfold c1. rewrite (p_seal_len c P), ser_ioptions_length. reflexivity. Qed.
Lemma X_length d : dialer_ok d -> length (X d) = 32%nat.
Proof. intros (H & _). unfold X. apply cbc_ok; [exact H|apply (p_pub c P)]. Qed.

Lemma initiator_new_ok d n : dialer_ok d ->
  initiator_new c n d =
    Ok (IRequested (mkIreq (dl_eph d) (cbc_iv (X d)) (dl_info d) (dl_static d) (n2 d n) (dl_hash d)),
        X d ++ c1 d n ++ dl_padding d).
Proof.
  intros D. pose proof (X_length d D) as HX. pose proof (c1_length d n) as Hc.
  destruct D as (Hi & Hp & Hn & Hl). unfold initiator_new.
  fold (pub (dl_eph d)). fold (n1 d n). fold (X d).
  change (mix_key c (n1 d n) (dl_eph d) (dl_remote d)) with (k1 d n).
  rewrite (surjective_pairing (k1 d n)). fold (o1 d).
  rewrite (N.mod_small (N.of_nat (length (dl_info d)))) by lia.
  destruct (N.leb_spec 65536 (N.of_nat (length (dl_info d)) + 20)); [lia|].
  replace (mkIoptions (dl_net d) 2 32 (N.of_nat (length (dl_info d)) + 20) (dl_now d mod 2 ^ 32)) with (o1 d)
    by (unfold o1; rewrite (N.mod_small (N.of_nat (length (dl_info d)))) by lia; reflexivity).
  fold (c1 d n). cbv zeta.
  rewrite (slice_app (X d) (c1 d n) (dl_padding d)) by lia. cbn [or_panic rbind].
  replace (X d ++ c1 d n ++ dl_padding d) with ((X d ++ c1 d n) ++ dl_padding d ++ []) at 1
    by (now rewrite app_nil_r, <- app_assoc).
  rewrite (slice_app (X d ++ c1 d n) (dl_padding d) []) by (rewrite app_length; lia). cbn [or_panic rbind].
  reflexivity.
Qed.

(** the responder's side of message 1 *)
Lemma public_from_ok b : length b = 32%nat -> public_from b = Some b.
Proof. intros H. unfold public_from. now rewrite H. Qed.

Definition start_out : nctx := mkNctx (hs_ck c) (hs_outbound c).
Definition start_in (priv : bytes) : nctx := mkNctx (hs_ck c) (hs_inbound c priv).
Lemma start_same d a : dials c d a -> mix_hash c start_out (dl_remote d) = start_in (ac_static a).
Proof. intros (H & _). unfold mix_hash, start_out, start_in, hs_inbound. cbn [n_ck n_h]. now rewrite H. Qed.

Lemma o1_parse d : dialer_ok d -> parse_ioptions (ser_ioptions (o1 d)) = Some (o1 d).
Proof.
  intros (Hi & Hp & Hn & Hl). apply parse_ser_ioptions; unfold o1; cbn [io_network io_version io_padding io_m3p2 io_time]; try lia.
Qed.

Definition rq (d : dialer) : rstate :=
  RRequested (mkRreq (pub (dl_eph d)) (cbc_iv (X d)) (dl_hash d) (length (dl_info d) + 20)
    (mix_hash c (fst (k1 d start_out)) (c1 d start_out))).

Lemma mix_key_sym n a b : mix_key c n a (pub b) = mix_key c n b (pub a).
Proof. unfold mix_key, pub. now rewrite (p_dh c P a b). Qed.

Lemma responder_new_ok d a : dialer_ok d -> dials c d a -> dl_net d = ac_net a ->
  responder_new c (start_in (ac_static a)) (ac_hash a) (ac_static a) (ac_iv a) (X d ++ c1 d start_out) (ac_net a) =
  Ok (rq d, 32%nat).
Proof.
  intros D A Net. pose proof (X_length d D) as HX. pose proof (c1_length d start_out) as Hc.
  pose proof (o1_parse d D) as Ho.
  pose proof D as (Hi & Hp & Hn & Hl). pose proof A as (A1 & A2 & A3). unfold responder_new.
  replace (X d ++ c1 d start_out) with ([] ++ X d ++ c1 d start_out) at 1 by reflexivity.
  rewrite (slice_app [] (X d) (c1 d start_out)) by (cbn [length]; lia). cbn [or_panic rbind].
  assert (E : cbc_dec (h_aes c) (ac_hash a) (ac_iv a) (X d) = pub (dl_eph d)).
  { unfold X. rewrite A2, A3. apply cbc_ok; [rewrite <- A3; exact Hi|apply (p_pub c P)]. }
  rewrite E, public_from_ok by apply (p_pub c P). cbn [or_err rbind].
  assert (E2 : mix_key c (mix_hash c (start_in (ac_static a)) (pub (dl_eph d))) (ac_static a) (pub (dl_eph d)) = k1 d start_out).
  { unfold k1, n1. rewrite (start_same d a A), A1. apply mix_key_sym. }
  rewrite E2, (surjective_pairing (k1 d start_out)).
  rewrite <- HX, skipn_exact. unfold c1 at 1. rewrite (p_open c P). cbn [or_err rbind].
  replace (X d ++ c1 d start_out) with (X d ++ c1 d start_out ++ []) by (now rewrite app_nil_r).
  rewrite (slice_app (X d) (c1 d start_out) []) by lia. cbn [or_panic rbind].
  rewrite Ho. cbn [or_err rbind]. unfold o1 at 1. cbn [io_network]. rewrite Net, N.eqb_refl. cbn [negb].
  unfold o1 at 1. cbn [io_version]. change (2 =? 2) with true. cbn [negb].
  unfold rq, o1. cbn [io_m3p2 io_padding]. rewrite (N.mod_small (N.of_nat (length (dl_info d)))) by lia.
  rewrite A2. repeat f_equal; lia.
Qed.

(** message 2 *)
Section Two.
Variables (d : dialer) (a : acceptor).
Hypothesis D : dialer_ok d. Hypothesis A : acceptor_ok a. Hypothesis DA : dials c d a.
Definition n3 : nctx := mix_hash c (n2 d start_out) (pub (ac_eph a)).
Definition k3 : nctx * bytes := mix_key c n3 (ac_eph a) (pub (dl_eph d)).
Definition Y : bytes := cbc_enc (h_aes c) (dl_hash d) (cbc_iv (X d)) (pub (ac_eph a)).
Definition c2 : bytes :=
  x_seal (h_ops c) (snd k3) 0 (n_h (fst k3)) (ser_roptions (mkRoptions 32 (ac_now a mod 2 ^ 32))).
Definition n4 : nctx := mix_hash c (mix_hash c (fst k3) c2) (ac_padding a).

Lemma iv_len : length (cbc_iv (X d)) = 16%nat.
Proof. unfold cbc_iv. rewrite skipn_length, (X_length d D). reflexivity. Qed.
Lemma Y_length : length Y = 32%nat.
Proof. unfold Y. apply cbc_ok; [exact iv_len|apply (p_pub c P)]. Qed.
Lemma c2_length : length c2 = 32%nat.
Proof. unfold c2. rewrite (p_seal_len c P), ser_roptions_length. reflexivity. Qed.

Lemma create_session_ok :
  create_session c (rq d) a (dl_padding d) =
  Ok (RCreated (mkRcre (ac_eph a) (snd k3) n4), Y ++ c2 ++ ac_padding a, (68 + length (dl_info d))%nat).
Proof.
  unfold create_session, rq. cbn [rq_ctx rq_eph rq_hash rq_iv rq_m3p2].
  fold (n2 d start_out). fold (pub (ac_eph a)). fold n3. fold k3. rewrite (surjective_pairing k3).
  fold Y. fold c2. cbv zeta. pose proof Y_length as HY. pose proof c2_length as Hc. destruct A as (A1 & A2 & A3).
  rewrite (slice_app Y c2 (ac_padding a)) by lia. cbn [or_panic rbind].
  replace (Y ++ c2 ++ ac_padding a) with ((Y ++ c2) ++ ac_padding a ++ []) at 1
    by (now rewrite app_nil_r, <- app_assoc).
  rewrite (slice_app (Y ++ c2) (ac_padding a) []) by (rewrite ?app_length; lia). cbn [or_panic rbind].
  fold n4. replace (48 + (length (dl_info d) + 20))%nat with (68 + length (dl_info d))%nat by lia. reflexivity.
Qed.

Definition iq : istate :=
  IRequested (mkIreq (dl_eph d) (cbc_iv (X d)) (dl_info d) (dl_static d) (n2 d start_out) (dl_hash d)).
Lemma register_ok :
  register_created c iq (Y ++ c2) =
  Ok (ICreated (mkIcre (dl_info d) (dl_static d) (mix_hash c (fst k3) c2) (snd k3) (pub (ac_eph a))), 32%nat).
Proof.
  unfold register_created, iq. cbn [iq_hash iq_iv iq_ctx iq_eph iq_info iq_static].
  pose proof Y_length as HY. pose proof c2_length as Hc.
  replace (Y ++ c2) with ([] ++ Y ++ c2) at 1 by reflexivity.
  rewrite (slice_app [] Y c2) by (cbn [length]; lia). cbn [or_panic rbind].
  assert (E : cbc_dec (h_aes c) (dl_hash d) (cbc_iv (X d)) Y = pub (ac_eph a)).
  { unfold Y. apply cbc_ok; [exact iv_len|apply (p_pub c P)]. }
  rewrite E, public_from_ok by apply (p_pub c P). cbn [or_err rbind]. fold n3.
  assert (E2 : mix_key c n3 (dl_eph d) (pub (ac_eph a)) = k3) by apply mix_key_sym.
  rewrite E2, (surjective_pairing k3).
  replace (Y ++ c2) with (Y ++ c2 ++ []) by (now rewrite app_nil_r).
  rewrite (slice_app Y c2 []) by lia. cbn [or_panic rbind].
  unfold c2 at 1. rewrite (p_open c P). cbn [or_err rbind].
  rewrite parse_ser_roptions; [|reflexivity|cbn [ro_time]; apply N.mod_lt; discriminate].
  cbn [or_err rbind ro_padding]. reflexivity.
Qed.

(** message 3 *)
Definition s3 : bytes := x_seal (h_ops c) (snd k3) 1 (n_h n4) (pub (dl_static d)).
Definition n5 : nctx := mix_hash c n4 s3.
Definition k5 : nctx * bytes := mix_key c n5 (dl_static d) (pub (ac_eph a)).
Definition block : bytes := [2] ++ be_bytes 2 (N.of_nat (length (dl_info d)) + 1) ++ [0] ++ dl_info d.
Definition m3 : bytes := x_seal (h_ops c) (snd k5) 0 (n_h (fst k5)) block.
Definition n6 : nctx := mix_hash c (fst k5) m3.
Definition keys6 := data_keys c n6.
Definition kcA : key_context :=
  mkKc (snd (fst keys6)) (snd keys6) (sip_initiator (session_crypt c) (fst (fst keys6)) (n_h n6)) (n_h n6).
Definition kcB : key_context :=
  mkKc (snd keys6) (snd (fst keys6)) (sip_responder (session_crypt c) (fst (fst keys6)) (n_h n6)) (n_h n6).

Lemma s3_length : length s3 = 48%nat.
Proof. unfold s3. rewrite (p_seal_len c P). unfold pub. rewrite (p_pub c P). reflexivity. Qed.
Lemma block_length : length block = (4 + length (dl_info d))%nat.
Proof. unfold block. rewrite !app_length, be_bytes_length. cbn [length]. lia. Qed.
Lemma m3_length : length m3 = (20 + length (dl_info d))%nat.
Proof. unfold m3. rewrite (p_seal_len c P), block_length. lia. Qed.

Lemma finalize_ok :
  initiator_finalize c (ICreated (mkIcre (dl_info d) (dl_static d) (mix_hash c (fst k3) c2) (snd k3) (pub (ac_eph a))))
    (ac_padding a) = Ok (kcA, s3 ++ m3).
Proof.
  unfold initiator_finalize. cbn [ic_info ic_static ic_ctx ic_key ic_remote]. fold n4. fold (pub (dl_static d)). fold s3. fold n5.
  fold k5. rewrite (surjective_pairing k5).
  assert (E : new_router_info (dl_info d) = Some block).
  { destruct D as (_ & _ & _ & Hl). unfold new_router_info. rewrite N.mod_small by lia.
    destruct (N.eqb_spec (N.of_nat (length (dl_info d))) 65535); [lia|reflexivity]. }
  rewrite E. cbn [or_panic rbind]. fold m3. fold n6. unfold kcA. fold keys6.
  rewrite (surjective_pairing keys6), (surjective_pairing (fst keys6)). reflexivity.
Qed.

Lemma parse_block i : parse_one_block block = Some (BRouterInfo false i) <-> i = dl_info d.
Proof.
  destruct D as (_ & _ & _ & Hl).
  assert (E : parse_one_block block = Some (BRouterInfo false (dl_info d))).
  { unfold parse_one_block, parse_nblock, block. cbn [app].
    rewrite (bind_step _ _ _ _ _ (be_uint1_cons _ _)).
    change (2 =? 0) with false. change (2 =? 1) with false. change (2 =? 2) with true. cbv iota.
    unfold parse_nrouter_info. erewrite bind_step by (apply be2_app; lia).
    rewrite guard_step by (destruct (N.eqb_spec (N.of_nat (length (dl_info d)) + 1) 0); [lia|reflexivity]).
    rewrite (bind_step _ _ _ _ _ (be_uint1_cons _ _)).
    rewrite (bind_step _ _ _ _ _ (take_all (N.to_nat (N.of_nat (length (dl_info d)) + 1 - 1)) (dl_info d) ltac:(lia))).
    reflexivity. }
  rewrite E. split; [intros H; injection H as <-; reflexivity | intros ->; reflexivity].
Qed.

Lemma responder_finalize_ok r : parse_info c (dl_info d) = Some r ->
  responder_finalize c (RCreated (mkRcre (ac_eph a) (snd k3) n4)) (s3 ++ m3) = Ok (kcB, r).
Proof.
  intros Hr. unfold responder_finalize. cbn [rc_key rc_ctx rc_eph].
  pose proof s3_length as Hs.
  replace (s3 ++ m3) with ([] ++ s3 ++ m3) at 1 by reflexivity.
  rewrite (slice_app [] s3 m3) by (cbn [length]; lia). cbn [or_panic rbind].
  unfold s3 at 1. rewrite (p_open c P). cbn [or_err rbind]. fold n5.
  pose proof (p_pub c P (dl_static d)) as Hp. fold (pub (dl_static d)) in Hp.
  rewrite (slice_some (pub (dl_static d)) 0 32) by lia. cbn [or_panic rbind].
  change (firstn (32 - 0) (skipn 0 (pub (dl_static d)))) with (firstn 32 (pub (dl_static d))).
  rewrite firstn_all2 by lia. rewrite public_from_ok by exact Hp. cbn [or_err rbind].
  assert (E : mix_key c n5 (ac_eph a) (pub (dl_static d)) = k5) by apply mix_key_sym.
  rewrite E, (surjective_pairing k5). rewrite <- Hs, skipn_exact. unfold m3 at 1.
  rewrite (p_open c P). cbn [or_err rbind]. fold n6.
  rewrite (proj2 (parse_block (dl_info d)) eq_refl), Hr. cbn [or_err rbind]. fold keys6. unfold kcB.
  rewrite (surjective_pairing keys6), (surjective_pairing (fst keys6)). reflexivity.
Qed.

Lemma mirrored_keys : mirrored kcA kcB.
Proof.
  unfold mirrored, kcA, kcB. cbn [kc_send kc_recv kc_sip]. unfold sip_initiator, sip_responder.
  destruct (sip_derive _ _ _) as [i r]. cbn. auto.
Qed.
End Two.

(** ** The two sides over a connection *)
Definition M1 (d : dialer) : bytes := X d ++ c1 d start_out ++ dl_padding d.
Definition M2 (d : dialer) (a : acceptor) : bytes := Y d a ++ c2 d a ++ ac_padding a.
Definition M3 (d : dialer) (a : acceptor) : bytes := s3 d a ++ m3 d a.

Lemma on_read_app {B} n b r (f : bytes -> bytes -> bytes * hs B) : length b = n -> on_read n (b ++ r) f = f b r.
Proof. intros H. unfold on_read, read_exact. now rewrite take_app. Qed.
Lemma on_read_short {B} n b (f : bytes -> bytes -> bytes * hs B) : (length b < n)%nat -> on_read n b f = ([], HsWait).
Proof. intros H. unfold on_read, read_exact. now rewrite take_short. Qed.

Lemma dial_start d : dialer_ok d -> dial c d [] = (M1 d, HsWait).
Proof.
  intros D. unfold dial. fold start_out. rewrite (initiator_new_ok d start_out D). cbn [of_res].
  rewrite on_read_short by (cbn; lia). unfold write. cbn [fst snd]. now rewrite app_nil_r.
Qed.
Lemma dial_done d a rest : dialer_ok d -> acceptor_ok a ->
  dial c d (M2 d a ++ rest) = (M1 d ++ M3 d a, HsDone (kcA d a) rest).
Proof.
  intros D A. unfold dial. fold start_out. rewrite (initiator_new_ok d start_out D). cbn [of_res].
  unfold M2. replace ((Y d a ++ c2 d a ++ ac_padding a) ++ rest) with ((Y d a ++ c2 d a) ++ ac_padding a ++ rest)
    by (now rewrite <- !app_assoc).
  rewrite on_read_app by (rewrite app_length, Y_length, c2_length; [reflexivity|exact D]).
  fold (iq d). rewrite (register_ok d a D). cbn [of_res].
  rewrite on_read_app by (destruct A as (_ & A & _); exact A).
  rewrite (finalize_ok d a D). cbn [of_res]. unfold write. cbn [fst snd]. now rewrite app_nil_r.
Qed.
Lemma accept_wait d a : dialer_ok d -> acceptor_ok a -> dials c d a -> dl_net d = ac_net a ->
  accept c a (M1 d) = (M2 d a, HsWait).
Proof.
  intros D A DA Net. unfold accept, M1. rewrite app_assoc.
  rewrite on_read_app by (rewrite app_length, X_length, c1_length; [reflexivity|exact D]).
  fold (start_in (ac_static a)). rewrite (responder_new_ok d a D DA Net). cbn [of_res].
  rewrite <- (app_nil_r (dl_padding d)) at 1.
  rewrite on_read_app by (destruct D as (_ & D & _); exact D).
  rewrite (create_session_ok d a D A). cbn [of_res].
  rewrite on_read_short by (cbn [length]; lia). unfold write. cbn [fst snd]. now rewrite app_nil_r.
Qed.
Lemma accept_done d a r rest : dialer_ok d -> acceptor_ok a -> dials c d a -> dl_net d = ac_net a ->
  parse_info c (dl_info d) = Some r -> rf_net_id r = ac_net a ->
  accept c a (M1 d ++ M3 d a ++ rest) = (M2 d a, HsDone (kcB d a, r) rest).
Proof.
  intros D A DA Net Hr Rn. unfold accept, M1.
  replace ((X d ++ c1 d start_out ++ dl_padding d) ++ M3 d a ++ rest)
    with ((X d ++ c1 d start_out) ++ dl_padding d ++ M3 d a ++ rest) by (now rewrite <- !app_assoc).
  rewrite on_read_app by (rewrite app_length, X_length, c1_length; [reflexivity|exact D]).
  fold (start_in (ac_static a)). rewrite (responder_new_ok d a D DA Net). cbn [of_res].
  rewrite on_read_app by (destruct D as (_ & D & _); exact D).
  rewrite (create_session_ok d a D A). cbn [of_res].
  rewrite on_read_app by (unfold M3; rewrite app_length, s3_length, m3_length; lia).
  unfold M3. rewrite (responder_finalize_ok d a D r Hr). cbn [of_res].
  rewrite Rn, N.eqb_refl. cbn [negb]. unfold write. cbn [fst snd]. now rewrite app_nil_r.
Qed.
End Proofs.
