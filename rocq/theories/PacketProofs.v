(** Proofs about PacketModel.v. *)
From Coq Require Import List NArith Bool Arith Lia ZArith ZifyBool ZifyNat ZifyN.
From Verif Require Import ListUtil Bytes PrimModel PrimSpec PrimProofs PacketModel PacketSpec.
Import ListNotations.
Open Scope N_scope.

Lemma flag_bits b :
  let w := flag_word b in
  w < 65536 /\ N.testbit w 0 = b_syn b /\ N.testbit w 1 = b_close b /\
  N.testbit w 2 = b_reset b /\ N.testbit w 3 = b_sig b /\ N.testbit w 5 = is_some (b_dest b) /\
  N.testbit w 6 = is_some (b_delay b) /\ N.testbit w 7 = is_some (b_max b) /\
  N.testbit w 9 = b_echo b /\ N.testbit w 10 = b_no_ack b /\ N.testbit w 11 = false.
Proof.
  unfold flag_word.
  destruct (b_syn b), (b_close b), (b_reset b), (b_sig b), (is_some (b_dest b)),
    (is_some (b_delay b)), (b_echo b), (b_no_ack b), (is_some (b_max b));
    vm_compute; repeat apply conj; reflexivity.
Qed.

Section P.
Variable e : ext.
Hypothesis He : ext_ok e.

Lemma dest_ok_len d : dest_ok e d -> length (ser_dest d) = dest_len d /\ (dest_len d <= 391)%nat.
Proof.
  intros H. destruct (parse_dest_inv e _ _ _ (H [])) as (_ & _ & L & _).
  split; [easy|]. unfold dest_len. destruct (d_key d); lia.
Qed.

Lemma options_len b : builder_ok e b -> (length (options_bytes b) <= 459)%nat.
Proof.
  intros (_ & _ & _ & _ & _ & _ & _ & _ & Hd). unfold options_bytes.
  rewrite !app_length.
  assert (length (on (b_delay b) (be_bytes 2)) <= 2)%nat
    by (destruct (b_delay b); cbn [on]; rewrite ?be_bytes_length; cbn; lia).
  assert (length (on (b_max b) (be_bytes 2)) <= 2)%nat
    by (destruct (b_max b); cbn [on]; rewrite ?be_bytes_length; cbn; lia).
  assert (length (on (b_dest b) ser_dest) <= 391)%nat.
  { destruct (b_dest b); cbn [on]; [|cbn; lia]. apply dest_ok_len in Hd. lia. }
  assert (length (if b_sig b then repeat 0%N 64 else []) <= 64)%nat by (destruct (b_sig b); cbn; lia).
  lia.
Qed.

(** The prefix of the options in front of the signature field. *)
Definition opts_front (b : builder) : bytes :=
  on (b_delay b) (be_bytes 2) ++ on (b_dest b) ser_dest ++ on (b_max b) (be_bytes 2).
Definition sig_field (b : builder) : bytes := if b_sig b then repeat 0 64 else [].
Lemma options_split b : options_bytes b = opts_front b ++ sig_field b.
Proof. unfold options_bytes, opts_front, sig_field. now rewrite <- !app_assoc. Qed.

Lemma flags_parse b sg :
  builder_ok e b -> (b_sig b = true -> length sg = 64%nat) -> (b_sig b = false -> sg = []) ->
  (b_sig b = true -> exists d k, b_dest b = Some d /\ d_key d = Ed25519 k) ->
  parse_flags e (flag_word b) (opts_front b ++ sg) =
  Some (mkFlags (b_dest b) (flag_word b) (b_max b) None (b_delay b)
          (if b_sig b then Some sg else None), []).
Proof.
  intros (_ & _ & _ & _ & _ & _ & Hdl & Hmx & Hd) Hs Hn Hk.
  destruct (flag_bits b) as (_ & _ & _ & _ & F3 & F5 & F6 & F7 & _ & _ & F11).
  unfold parse_flags. rewrite F3, F5, F6, F7, F11. unfold opts_front. rewrite <- !app_assoc.
  assert (W : forall {A} (o : option A) (ser : A -> list N) (p : parser A) r,
     (forall a, o = Some a -> p (ser a ++ r) = Some (a, r)) ->
     when (is_some o) p (on o ser ++ r) = Some (o, r)).
  { intros A o ser p r H. destruct o; cbn [is_some when on]; [|reflexivity].
    unfold bind. rewrite H by reflexivity. reflexivity. }
  erewrite bind_step.
  2: { apply W. intros a E. rewrite E in Hdl. now apply be2_app. }
  cbv beta. erewrite bind_step.
  2: { apply W. intros a E. rewrite E in Hd. apply Hd. }
  cbv beta. erewrite bind_step.
  2: { apply W. intros a E. rewrite E in Hmx. now apply be2_app. }
  cbv beta. rewrite (bind_step (ret None) _ _ None sg eq_refl).
  destruct (b_sig b).
  - destruct (Hk eq_refl) as (d & k & -> & Kd). rewrite Kd. cbn [signature_len].
    specialize (Hs eq_refl). rewrite <- (app_nil_r sg) at 1.
    pstep ltac:(unfold bind at 1; rewrite take_app by exact Hs; reflexivity). reflexivity.
  - rewrite Hn by reflexivity. reflexivity.
Qed.

(** Parsing a header with options [front ++ sg] in the place of the builder's. *)
Lemma packet_parse b s sg pl :
  builder_ok e b -> b_send b = Some s ->
  length sg = length (sig_field b) ->
  (b_sig b = true -> exists d k, b_dest b = Some d /\ d_key d = Ed25519 k) ->
  parse_packet e
    (be_bytes 4 s ++ be_bytes 4 (b_recv b) ++ be_bytes 4 (b_seq b) ++ be_bytes 4 (b_ack b) ++
     match b_nacks b with
     | None => be_bytes 1 0
     | Some l => be_bytes 1 (N.of_nat (length l)) ++ flat_map (be_bytes 4) l
     end ++
     be_bytes 1 (b_resend b) ++ be_bytes 2 (flag_word b) ++
     be_bytes 2 (len (options_bytes b)) ++ (opts_front b ++ sg) ++ pl) =
  Some (mkPacket s (b_recv b) (b_seq b) (b_ack b)
          match b_nacks b with Some l => l | None => [] end (b_resend b)
          (mkFlags (b_dest b) (flag_word b) (b_max b) None (b_delay b)
             (if b_sig b then Some sg else None)) pl).
Proof.
  intros Hb Hsend Hsg Hk. pose proof Hb as Hb'.
  destruct Hb' as (Hs & Hr & Hq & Ha & Hn & Hrs & Hdl & Hmx & Hd).
  rewrite Hsend in Hs. cbn [opt_all] in Hs. unfold u32 in *.
  pose proof (options_len b Hb) as Hol.
  destruct (flag_bits b) as (Hw & _).
  unfold parse_packet.
  pnum. pnum. pnum. pnum.
  match goal with |- match ?m with _ => _ end = _ => assert (X : m = Some
    (mkPacket s (b_recv b) (b_seq b) (b_ack b)
          match b_nacks b with Some l => l | None => [] end (b_resend b)
          (mkFlags (b_dest b) (flag_word b) (b_max b) None (b_delay b)
             (if b_sig b then Some sg else None)), pl)) end.
  2: { rewrite X. reflexivity. }
  assert (L : length (options_bytes b) = length (opts_front b ++ sg)).
  { rewrite options_split, !app_length. lia. }
  assert (Fin : forall nacks,
    (resend <- be_uint 1 ;;
     w <- be_uint 2 ;;
     sz <- be_uint 2 ;;
     opts <- take (N.to_nat sz) ;;
     fl <- (fun r => match parse_flags e w opts with
                     | Some (f, _) => Some (f, r)
                     | None => None
                     end) ;;
     ret (mkPacket s (b_recv b) (b_seq b) (b_ack b) nacks resend fl))
      (be_bytes 1 (b_resend b) ++ be_bytes 2 (flag_word b) ++
       be_bytes 2 (len (options_bytes b)) ++ (opts_front b ++ sg) ++ pl) =
    Some (mkPacket s (b_recv b) (b_seq b) (b_ack b) nacks (b_resend b)
          (mkFlags (b_dest b) (flag_word b) (b_max b) None (b_delay b)
             (if b_sig b then Some sg else None)), pl)).
  { intros nacks. unfold len.
    pnum. pnum. pnum. pstep ltac:(apply take_app; lia).
    erewrite bind_step; [reflexivity|]. cbv beta.
    rewrite flags_parse; [reflexivity|exact Hb| | |exact Hk].
    - intros E. rewrite Hsg. unfold sig_field. now rewrite E.
    - intros E. unfold sig_field in Hsg. rewrite E in Hsg. now destruct sg. }
  destruct (b_nacks b) as [l|]; cbn [opt_all] in Hn.
  - destruct Hn as [Hl Hf]. rewrite <- !app_assoc. pnum. rewrite Nat2N.id.
    rewrite (app_assoc (opts_front b) sg pl).
    pstep ltac:(apply many_app with (ok := fun x => x < 2 ^ 32);
                [intros; now apply be4_app|exact Hf]).
    apply Fin.
  - pnum. pstep ltac:(reflexivity). apply Fin.
Qed.

Lemma header_split s b :
  header_bytes s b =
  be_bytes 4 s ++ be_bytes 4 (b_recv b) ++ be_bytes 4 (b_seq b) ++ be_bytes 4 (b_ack b) ++
     match b_nacks b with
     | None => be_bytes 1 0
     | Some l => be_bytes 1 (N.of_nat (length l)) ++ flat_map (be_bytes 4) l
     end ++
     be_bytes 1 (b_resend b) ++ be_bytes 2 (flag_word b) ++
     be_bytes 2 (len (options_bytes b)) ++ opts_front b ++ sig_field b.
Proof. unfold header_bytes. now rewrite <- options_split. Qed.

Definition parsed (s : N) (b : builder) (sg : option bytes) : packet :=
  mkPacket s (b_recv b) (b_seq b) (b_ack b)
    match b_nacks b with Some l => l | None => [] end (b_resend b)
    (mkFlags (b_dest b) (flag_word b) (b_max b) None (b_delay b) sg)
    (on (b_payload b) (fun p => p)).

Lemma parsed_says s b sg : b_send b = Some s -> says (parsed s b sg) b.
Proof.
  intros H. destruct (flag_bits b) as (_ & F0 & F1 & F2 & _ & _ & _ & _ & F9 & F10 & _).
  unfold says, parsed, f_syn, f_close, f_reset, f_echo, f_no_ack. cbn.
  repeat apply conj; auto; destruct (b_payload b); reflexivity.
Qed.

Lemma build_parses b : builder_ok e b -> b_sig b = false -> b_send b <> None ->
  exists w p, build b = Some w /\ parse_packet e w = Some p /\ says p b /\ f_sig (p_flags p) = None.
Proof.
  intros Hb Hsig Hs. destruct (b_send b) as [s|] eqn:Es; [|easy].
  destruct (flag_bits b) as (_ & _ & _ & _ & F3 & _).
  unfold build. rewrite F3, Hsig, Es. eexists _, (parsed s b None).
  split; [reflexivity|]. split; [|split; [now apply parsed_says|reflexivity]].
  rewrite header_split, <- !app_assoc.
  pose proof (packet_parse b s [] (on (b_payload b) (fun p => p)) Hb Es) as X.
  unfold sig_field in *. rewrite Hsig in *. specialize (X eq_refl ltac:(discriminate)).
  rewrite <- !app_assoc in X. exact X.
Qed.

(** Where the signature goes. *)
Definition front_of (s : N) (b : builder) : bytes :=
  be_bytes 4 s ++ be_bytes 4 (b_recv b) ++ be_bytes 4 (b_seq b) ++ be_bytes 4 (b_ack b) ++
  match b_nacks b with
  | None => be_bytes 1 0
  | Some l => be_bytes 1 (N.of_nat (length l)) ++ flat_map (be_bytes 4) l
  end ++
  be_bytes 1 (b_resend b) ++ be_bytes 2 (flag_word b) ++
  be_bytes 2 (len (options_bytes b)) ++ opts_front b.

Lemma front_app s b sg : front_of s b ++ sg =
  be_bytes 4 s ++ be_bytes 4 (b_recv b) ++ be_bytes 4 (b_seq b) ++ be_bytes 4 (b_ack b) ++
  match b_nacks b with
  | None => be_bytes 1 0
  | Some l => be_bytes 1 (N.of_nat (length l)) ++ flat_map (be_bytes 4) l
  end ++
  be_bytes 1 (b_resend b) ++ be_bytes 2 (flag_word b) ++
  be_bytes 2 (len (options_bytes b)) ++ opts_front b ++ sg.
Proof. unfold front_of. now rewrite <- !app_assoc. Qed.

Lemma signed_shape priv b s :
  b_sig b = true -> b_send b = Some s ->
  header_bytes s b = front_of s b ++ repeat 0 64 /\
  build_and_sign e priv b =
    Some (front_of s b ++ ed_sign e priv (header_bytes s b ++ on (b_payload b) (fun p => p)) ++
          on (b_payload b) (fun p => p)).
Proof.
  intros Hsig Es.
  assert (Hh : header_bytes s b = front_of s b ++ repeat 0 64).
  { rewrite header_split, front_app. unfold sig_field. now rewrite Hsig. }
  split; [exact Hh|].
  set (pl := on (b_payload b) (fun p => p)).
  destruct (flag_bits b) as (_ & _ & _ & _ & F3 & _).
  unfold build_and_sign. rewrite F3, Hsig, Es. cbn [negb]. fold pl.
  rewrite Hh. set (front := front_of s b).
  assert (L : (length ((front ++ repeat 0%N 64) ++ pl) - 64 - length pl)%nat = length front)
    by (rewrite !app_length, repeat_length; lia).
  rewrite L. rewrite <- !app_assoc.
  rewrite firstn_exact. do 3 f_equal.
  rewrite <- skipn_add, skipn_exact.
  rewrite <- (repeat_length 0 64) at 1. apply skipn_exact.
Qed.

Lemma signed_parses priv b d :
  builder_ok e b -> b_sig b = true -> b_send b <> None ->
  b_dest b = Some d -> d_key d = Ed25519 (ed_public e priv) ->
  exists w p, build_and_sign e priv b = Some w /\ verify_syn e w = inl p /\ says p b /\
    parse_packet e w = Some p.
Proof.
  intros Hb Hsig Hs Hd Hk. destruct (b_send b) as [s|] eqn:Es; [|easy].
  destruct (signed_shape priv b s Hsig Es) as (Hf & Hw). pose proof (front_app s b) as Hfr.
  set (front := front_of s b) in *.
  set (pl := on (b_payload b) (fun p => p)) in *.
  set (sg := ed_sign e priv (header_bytes s b ++ pl)) in *.
  assert (Lsg : length sg = 64%nat) by apply (sign_len _ He).
  assert (P : parse_packet e (front ++ sg ++ pl) = Some (parsed s b (Some sg))).
  { rewrite app_assoc, (Hfr sg), <- !app_assoc.
    pose proof (packet_parse b s sg pl Hb Es) as X.
    unfold sig_field in X. rewrite Hsig in X.
    rewrite <- !app_assoc in X. apply X; [rewrite repeat_length; exact Lsg|].
    intros _. eauto. }
  exists (front ++ sg ++ pl), (parsed s b (Some sg)).
  split; [exact Hw|]. split; [|split; [now apply parsed_says|exact P]].
  unfold verify_syn. rewrite P. cbn [parsed p_flags f_sig f_dest f_offline p_payload].
  fold pl. rewrite Hd, Hk. cbn [signature_len].
  rewrite !app_length, Lsg.
  destruct (Nat.ltb_spec (length front + (64 + length pl)) (length pl + 64)); [lia|].
  replace (length front + (64 + length pl) - length pl - 64)%nat with (length front) by lia.
  assert (Z : zero_range (length front) 64 (front ++ sg ++ pl) = header_bytes s b ++ pl).
  { unfold zero_range. rewrite firstn_exact, <- skipn_add, skipn_exact.
    rewrite <- Lsg at 2. rewrite skipn_exact, Hf, <- app_assoc. reflexivity. }
  rewrite Z. unfold sg. now rewrite (sign_verify _ He).
Qed.
End P.

Lemma many_be_length k n : forall i l r, many n (be_uint k) i = Some (l, r) ->
  length i = (k * n + length r)%nat.
Proof.
  induction n; intros i l r H; cbn [many] in H.
  - apply ret_inv in H as [_ ->]. lia.
  - apply bind_inv in H as (x & r1 & E1 & H). apply bind_inv in H as (xs & r2 & E2 & H).
    apply ret_inv in H as [_ ->]. apply be_uint_length in E1. apply IHn in E2. lia.
Qed.
Lemma many_be_suffix k n : forall i l r, many n (be_uint k) i = Some (l, r) ->
  r = skipn (k * n) i.
Proof.
  induction n; intros i l r H; cbn [many] in H.
  - apply ret_inv in H as [_ ->]. now rewrite Nat.mul_0_r.
  - apply bind_inv in H as (x & r1 & E1 & H). apply bind_inv in H as (xs & r2 & E2 & H).
    apply ret_inv in H as [_ ->]. apply be_uint_split in E1 as (a & L & -> & _).
    apply IHn in E2 as ->. rewrite Nat.mul_succ_r, Nat.add_comm, <- skipn_add, <- L, skipn_exact.
    reflexivity.
Qed.

Lemma peek_agrees e i p :
  parse_packet e i = Some p ->
  peek i = Some (mkPeek (f_word (p_flags p)) (p_recv p) (p_send p) (p_seq p)).
Proof.
  unfold parse_packet, peek. intros H.
  match type of H with match ?m with _ => _ end = _ => destruct m as [[k rest]|] eqn:E end;
    [|discriminate].
  injection H as <-.
  apply bind_inv in E as (send & i1 & E1 & E). unfold bind at 1. rewrite E1.
  apply bind_inv in E as (recv & i2 & E2 & E). unfold bind at 1. rewrite E2.
  apply bind_inv in E as (seq & i3 & E3 & E). unfold bind at 1. rewrite E3.
  apply bind_inv in E as (ack & i4 & E4 & E).
  apply be_uint_split in E4 as (a & La & -> & _).
  pstep ltac:(apply take_app; exact La).
  apply bind_inv in E as (n & i5 & E5 & E). unfold bind at 1. rewrite E5.
  apply bind_inv in E as (nacks & i6 & E6 & E).
  apply bind_inv in E as (resend & i7 & E7 & E).
  apply bind_inv in E as (w & i8 & E8 & E).
  apply bind_inv in E as (sz & i9 & E9 & E).
  apply bind_inv in E as (opts & i10 & E10 & E).
  apply bind_inv in E as (fl & i11 & E11 & E).
  apply ret_inv in E as [-> ->].
  pose proof (many_be_length _ _ _ _ _ E6) as L6. pose proof (many_be_suffix _ _ _ _ _ E6) as S6.
  pose proof (be_uint_length _ _ _ _ E7) as L7.
  apply be_uint_split in E7 as (b & Lb & E7 & _).
  assert (T : take (4 * N.to_nat n + 1) i5 = Some (firstn (4 * N.to_nat n + 1) i5, i7)).
  { unfold take. replace (4 * N.to_nat n + 1 <=? length i5)%nat with true by lia.
    f_equal. f_equal. rewrite <- skipn_add, <- S6, E7, <- Lb. apply skipn_exact. }
  unfold bind at 1. rewrite T. unfold bind at 1. rewrite E8.
  cbn. destruct (parse_flags e w opts) as [[f q]|] eqn:F; [|discriminate].
  assert (fl = f) as -> by congruence.
  assert (f_word f = w) as ->; [|reflexivity].
  unfold parse_flags in F.
  repeat (apply bind_inv in F as (? & ? & ? & F)).
  apply ret_inv in F as [-> _]. reflexivity.
Qed.

Lemma many_be_consumes k n : consumes (many n (be_uint k)).
Proof.
  intros i l r H. apply many_be_suffix in H as ->. exists (firstn (k * n) i).
  now rewrite firstn_skipn.
Qed.

(** What an accepted SYN proves. *)
Lemma verify_syn_authentic e i p :
  verify_syn e i = inl p ->
  parse_packet e i = Some p /\
  exists d sg a z b, f_dest (p_flags p) = Some d /\ f_sig (p_flags p) = Some sg /\
    let key := match f_offline (p_flags p) with None => d_key d | Some k => k end in
    i = a ++ z ++ b /\ length z = signature_len key /\ b = p_payload p /\
    verify e key (a ++ repeat 0 (signature_len key) ++ b) sg = true.
Proof.
  unfold verify_syn. destruct (parse_packet e i) as [q|] eqn:P; [|discriminate].
  destruct (f_sig (p_flags q)) as [sg|] eqn:S; [|discriminate].
  destruct (f_dest (p_flags q)) as [d|] eqn:D; [|discriminate].
  set (key := match f_offline (p_flags q) with None => d_key d | Some k => k end).
  destruct (Nat.ltb_spec (length i) (length (p_payload q) + signature_len key)); [discriminate|].
  set (st := (length i - length (p_payload q) - signature_len key)%nat).
  destruct (verify e key _ sg) eqn:V; [|discriminate]. intros [= <-].
  split; [easy|].
  exists d, sg, (firstn st i), (firstn (signature_len key) (skipn st i)),
    (skipn (st + signature_len key) i).
  fold key.
  assert (B : skipn (st + signature_len key) i = p_payload q).
  { clear - P H. unfold parse_packet in P.
    match type of P with match ?m with _ => _ end = _ => destruct m as [[k rest]|] eqn:E end;
      [|discriminate].
    injection P as <-.
    assert (Suf : exists a, i = a ++ rest).
    { assert (C : forall A (p : parser A), consumes p -> forall j x r, p j = Some (x, r) ->
         exists a, j = a ++ r) by (intros A p Hc j x r Hj; exact (Hc _ _ _ Hj)).
      eapply C; [|exact E].
      repeat (apply bind_consumes; [|intro]);
        try apply be_uint_consumes; try apply take_consumes; try apply ret_consumes.
      - apply many_be_consumes.
      - intros j x r Hj. cbv beta in Hj. destruct (parse_flags _ _ _) as [[f q]|]; [|discriminate].
        injection Hj as _ <-. exists []. reflexivity. }
    destruct Suf as [a ->].
    assert (Pk : p_payload (k rest) = rest).
    { repeat (apply bind_inv in E as (? & ? & ? & E)). apply ret_inv in E as [-> _]. reflexivity. }
    unfold st. rewrite Pk in *. rewrite app_length in *.
    replace (length a + length rest - length rest - signature_len key + signature_len key)%nat
      with (length a) by lia.
    apply skipn_exact. }
  repeat apply conj; auto.
  - rewrite <- skipn_add. now rewrite !firstn_skipn.
  - rewrite firstn_length, skipn_length. unfold st. lia.
Qed.

(** Eight 32-bit words hold the 32-byte id. *)
Lemma chunks4_back : forall n l, length l = (4 * n)%nat -> bytes_ok l ->
  flat_map (be_bytes 4) (chunks4 n l) = l /\ length (chunks4 n l) = n /\
  Forall (fun x => x < 2 ^ 32) (chunks4 n l).
Proof.
  induction n; intros l L Hl.
  - destruct l; [|discriminate]. repeat apply conj; constructor.
  - destruct l as [|x0 l]; [cbn in L; lia|]. cbn [chunks4].
    set (m := x0 :: l) in *.
    assert (L1 : length (firstn 4 m) = 4%nat) by (rewrite firstn_length; lia).
    assert (Hf : bytes_ok (firstn 4 m) /\ bytes_ok (skipn 4 m)).
    { apply bytes_ok_app. now rewrite firstn_skipn. }
    destruct (IHn (skipn 4 m)) as (A & B & C).
    { rewrite skipn_length. lia. }
    { apply Hf. }
    cbn [flat_map length]. rewrite A, B. repeat apply conj.
    + rewrite <- L1 at 1. rewrite be_bytes_val by apply Hf. apply firstn_skipn.
    + reflexivity.
    + constructor; [|easy]. pose proof (be_val_lt _ (proj1 Hf)) as V. rewrite L1 in V. exact V.
Qed.

Lemma packet_payload_suffix e i p : parse_packet e i = Some p -> exists h, i = h ++ p_payload p.
Proof.
  intros P. unfold parse_packet in P.
  match type of P with match ?m with _ => _ end = _ => destruct m as [[k rest]|] eqn:E end;
    [|discriminate].
  injection P as <-.
  assert (Pk : p_payload (k rest) = rest).
  { clear -E. repeat (apply bind_inv in E as (? & ? & ? & E)). apply ret_inv in E as [-> _].
    reflexivity. }
  rewrite Pk.
  assert (C : forall A (p : parser A), consumes p -> forall j x r, p j = Some (x, r) ->
     exists a, j = a ++ r) by (intros A p Hc j x r Hj; exact (Hc _ _ _ Hj)).
  eapply C; [|exact E].
  repeat (apply bind_consumes; [|intro]);
    try apply be_uint_consumes; try apply take_consumes; try apply ret_consumes.
  - apply many_be_consumes.
  - intros j x r Hj. cbv beta in Hj. destruct (parse_flags _ _ _) as [[f q]|]; [|discriminate].
    injection Hj as _ <-. exists []. reflexivity.
Qed.

(** The key in an offline signature was signed by the destination in the same packet. *)
Lemma flags_offline e w o f r d k :
  parse_flags e w o = Some (f, r) -> f_dest f = Some d -> f_offline f = Some k ->
  exists u m s v, o = u ++ m ++ s ++ v /\ verify e (d_key d) m s = true /\
    exists hd b, m = hd ++ b /\ length hd = 6%nat /\ (k = Ed25519 b \/ k = P256 b).
Proof.
  unfold parse_flags. intros H D O.
  apply bind_inv in H as (dl & o1 & E1 & H).
  apply bind_inv in H as (ds & o2 & E2 & H).
  apply bind_inv in H as (mx & o3 & E3 & H).
  apply bind_inv in H as (off & o4 & E4 & H).
  apply bind_inv in H as (sg & o5 & E5 & H).
  apply ret_inv in H as [-> ->]. cbn [f_dest f_offline] in D, O. subst ds off.
  assert (Wc : forall A b (p : parser A), consumes p -> consumes (when b p)).
  { intros A b p Hp. unfold when. destruct b; [apply bind_consumes; [exact Hp|intro]|];
      apply ret_consumes. }
  assert (exists a1, o = a1 ++ o1) as [a1 ->] by (eapply Wc; [apply be_uint_consumes|exact E1]).
  assert (exists a2, o1 = a2 ++ o2) as [a2 ->].
  { eapply Wc; [|exact E2]. intros j x q Hj. apply parse_dest_inv in Hj as (-> & _). eauto. }
  assert (exists a3, o2 = a3 ++ o3) as [a3 ->] by (eapply Wc; [apply be_uint_consumes|exact E3]).
  destruct (N.testbit w 11); [|apply ret_inv in E4; easy].
  apply bind_inv in E4 as (k' & o4' & E4 & R). apply ret_inv in R as [R ->].
  injection R as <-.
  apply parse_offline_inv in E4 as (m & s & b & -> & V & K & hd & -> & Lh).
  exists (a1 ++ a2 ++ a3), (hd ++ b), s, o4'. rewrite <- !app_assoc. repeat apply conj; auto.
  exists hd, b. auto.
Qed.

Lemma packet_offline e i p d k :
  parse_packet e i = Some p -> f_dest (p_flags p) = Some d -> f_offline (p_flags p) = Some k ->
  exists u v m s, i = u ++ m ++ s ++ v /\ verify e (d_key d) m s = true /\
    exists hd b, m = hd ++ b /\ length hd = 6%nat /\ (k = Ed25519 b \/ k = P256 b).
Proof.
  unfold parse_packet. intros H D O.
  match type of H with match ?m with _ => _ end = _ => destruct m as [[c rest]|] eqn:E end;
    [|discriminate].
  injection H as <-.
  apply bind_inv in E as (send & i1 & E1 & E).
  apply bind_inv in E as (recv & i2 & E2 & E).
  apply bind_inv in E as (seq & i3 & E3 & E).
  apply bind_inv in E as (ack & i4 & E4 & E).
  apply bind_inv in E as (n & i5 & E5 & E).
  apply bind_inv in E as (nacks & i6 & E6 & E).
  apply bind_inv in E as (resend & i7 & E7 & E).
  apply bind_inv in E as (w & i8 & E8 & E).
  apply bind_inv in E as (sz & i9 & E9 & E).
  apply bind_inv in E as (opts & i10 & E10 & E).
  apply bind_inv in E as (fl & i11 & E11 & E).
  apply ret_inv in E as [-> ->]. cbn [p_flags] in D, O.
  destruct (parse_flags e w opts) as [[f q]|] eqn:F; [|discriminate].
  assert (fl = f) as -> by congruence.
  destruct (flags_offline e w opts f q d k F D O) as (u & m & s & v & -> & V & K).
  apply be_uint_consumes in E1 as [a1 ->]. apply be_uint_consumes in E2 as [a2 ->].
  apply be_uint_consumes in E3 as [a3 ->]. apply be_uint_consumes in E4 as [a4 ->].
  apply be_uint_consumes in E5 as [a5 ->]. apply many_be_consumes in E6 as [a6 ->].
  apply be_uint_consumes in E7 as [a7 ->]. apply be_uint_consumes in E8 as [a8 ->].
  apply be_uint_consumes in E9 as [a9 ->]. apply take_inv in E10 as [-> _].
  exists (a1 ++ a2 ++ a3 ++ a4 ++ a5 ++ a6 ++ a7 ++ a8 ++ a9 ++ u), (v ++ i10), m, s.
  rewrite <- !app_assoc. auto.
Qed.
