(** SSU2 data packets: what is written is what is read. *)
From Coq Require Import List NArith Bool Arith Lia ZArith ZifyBool ZifyNat ZifyN.
From Verif Require Import ListUtil Bytes NMap PrimModel I2npModel I2npSpec I2npProofs Ntcp2Model Ntcp2Spec
  Ntcp2Proofs TunnelModel TunnelSpec TunnelProofs TunnelProofs2 Ssu2Model Ssu2Spec Ssu2Proofs.
Import ListNotations.
Open Scope N_scope.

Lemma xor8_length m : forall l, length (xor8 m l) = length l.
Proof. induction m as [|a m IH]; intros [|b l]; cbn; auto. Qed.
Lemma xor8_twice m : forall l, xor8 m (xor8 m l) = l.
Proof.
  induction m as [|a m IH]; intros [|b l]; cbn [xor8]; auto. f_equal; auto.
  now rewrite N.lxor_assoc, N.lxor_nilpotent, N.lxor_0_r.
Qed.
Lemma le_bytes_length k n : length (le_bytes k n) = k.
Proof. unfold le_bytes. rewrite rev_length. apply be_bytes_length. Qed.
Lemma le_val_bytes k n : n < 256 ^ N.of_nat k -> le_val (le_bytes k n) = n.
Proof. intros. unfold le_val, le_bytes. rewrite rev_involutive, be_val_bytes. now apply N.mod_small. Qed.

Section Packets.
Variable e : ext.
Variable c : ncrypt.
Variable ks : bytes -> bytes -> bytes.
Hypothesis Hc : aead_ok c.

Lemma build_packet_some k dst n p : (8 <= length p)%nat -> exists d, build_packet c ks k dst n p = Some d.
Proof.
  intros H. unfold build_packet. destruct Hc as [_ L]. rewrite L.
  destruct (Nat.ltb_spec (length p + 16) 24); [lia|]. eauto.
Qed.

Lemma packet_opens k dst n p d : dst < 2 ^ 64 -> n < 2 ^ 32 -> build_packet c ks k dst n p = Some d ->
  exists d', socket_header ks (k_intro k) d = Some (dst, d') /\ (16 <= length d')%nat /\
    open_packet e c ks k d' =
    match s_parse e p with Some bs => Some (n, bs) | None => None end.
Proof.
  intros Hd Hn H. unfold build_packet in H.
  set (header := short_header dst n) in *.
  assert (Lh : length header = 16%nat).
  { subst header. unfold short_header. rewrite !app_length, le_bytes_length, be_bytes_length. reflexivity. }
  set (sealed := seal c (k_data k) (nonce_bytes n) header p) in *.
  destruct (Nat.ltb_spec (length sealed) 24) as [|L24]; [discriminate|].
  set (iv1 := firstn 12 (skipn (length sealed - 24) sealed)) in *.
  set (iv2 := skipn (length sealed - 12) sealed) in *.
  set (h1 := xor8 (ks (k_intro k) iv1) (firstn 8 header)) in *.
  set (h2 := xor8 (ks (k_header_2 k) iv2) (skipn 8 header)) in *.
  assert (L1 : length h1 = 8%nat) by (subst h1; rewrite xor8_length, firstn_length; lia).
  assert (L2 : length h2 = 8%nat) by (subst h2; rewrite xor8_length, skipn_length; lia).
  apply Some_inj in H. subst d.
  assert (Hhead : firstn 8 header = le_bytes 8 dst).
  { subst header. unfold short_header. apply firstn_app_n. apply le_bytes_length. }
  assert (Htail : skipn 8 header = be_bytes 4 n ++ [6; 0; 0; 0]).
  { subst header. unfold short_header. rewrite skipn_app, le_bytes_length.
    rewrite skipn_all2 by (rewrite le_bytes_length; lia). reflexivity. }
  assert (Sk : forall x y : bytes, forall m, length x = 8%nat -> length y = 8%nat -> (m <= length sealed)%nat ->
      skipn (length (x ++ y ++ sealed) - m) (x ++ y ++ sealed) = skipn (length sealed - m) sealed).
  { intros x y m Hx Hy Hm. rewrite !app_length. rewrite !skipn_app.
    rewrite (skipn_all2 x) by lia. rewrite (skipn_all2 y) by lia. cbn [app]. f_equal. lia. }
  unfold socket_header.
  destruct (Nat.ltb_spec (length (h1 ++ h2 ++ sealed)) 24) as [X|_]; [rewrite !app_length in X; lia|].
  rewrite Sk by lia. fold iv1.
  rewrite (firstn_app_n 8 h1) by exact L1.
  replace (xor8 (ks (k_intro k) iv1) h1) with (firstn 8 header)
    by (subst h1; symmetry; apply xor8_twice).
  assert (S8 : skipn 8 (h1 ++ h2 ++ sealed) = h2 ++ sealed).
  { rewrite skipn_app, L1. rewrite skipn_all2 by lia. reflexivity. }
  rewrite S8.
  exists (firstn 8 header ++ h2 ++ sealed). split; [|split].
  - f_equal. f_equal. rewrite Hhead. apply le_val_bytes. exact Hd.
  - rewrite !app_length, firstn_length. lia.
  - unfold open_packet. set (x := firstn 8 header) in *.
    assert (Lx : length x = 8%nat) by (subst x; rewrite firstn_length; lia).
    rewrite Sk by lia. fold iv2.
    rewrite (firstn_app_n 8 x) by exact Lx.
    assert (S8' : skipn 8 (x ++ h2 ++ sealed) = h2 ++ sealed).
    { rewrite skipn_app, Lx. rewrite skipn_all2 by lia. reflexivity. }
    rewrite S8'. rewrite (firstn_app_n 8 h2) by exact L2.
    replace (xor8 (ks (k_header_2 k) iv2) h2) with (skipn 8 header)
      by (subst h2; symmetry; apply xor8_twice).
    replace (skipn 16 (x ++ h2 ++ sealed)) with sealed.
    2:{ symmetry. rewrite app_assoc. rewrite skipn_app. rewrite skipn_all2 by (rewrite app_length; lia).
        rewrite app_length, Lx, L2. reflexivity. }
    assert (En : be_val (firstn 4 (skipn 8 header)) = n).
    { rewrite Htail. rewrite firstn_app_n by apply be_bytes_length.
      rewrite be_val_bytes. apply N.mod_small. exact Hn. }
    rewrite En. subst x. rewrite firstn_skipn.
    subst sealed. destruct Hc as [O _]. rewrite O. reflexivity.
Qed.

(** ** Blocks *)
Definition good_kind (m : message) (k : kind) : Prop :=
  match k with
  | KWhole raw => raw = build_short m /\ fits_short m
  | KFirstFrag t id x f => id < 2 ^ 32 /\ x < 2 ^ 32 /\ (0 < length f <= 1200)%nat
  | KFollowFrag id num last f => id < 2 ^ 32 /\ num < 128 /\ (0 < length f <= 1200)%nat
  end.

Lemma frag_byte num (last : bool) : num < 128 ->
  N.lor (N.shiftl num 1 mod 256) (if last then 1 else 0) = 2 * num + (if last then 1 else 0).
Proof.
  intros H. rewrite N.shiftl_mul_pow2. change (2 ^ 1) with 2. rewrite N.mod_small by lia.
  destruct last; [|now rewrite N.lor_0_r; lia].
  rewrite N.mul_comm. destruct num; reflexivity.
Qed.

Lemma s_block_kind m k rest : good_kind m k ->
  s_block e (kind_bytes k ++ rest) = Some (piece_block m k, rest).
Proof.
  intros G. unfold s_block. destruct k as [raw|t id x f|id num last f]; cbn [kind_bytes]; rewrite <- ?app_assoc; cbn [app].
  - destruct G as [-> (H1 & H2 & H3 & H4)]. pstep ltac:(apply be_uint1_cons).
    change (3 =? 0) with false. change (3 =? 1) with false. change (3 =? 2) with false.
    change (3 =? 3) with true. cbv iota. unfold s_i2np.
    pstep ltac:(apply short_roundtrip; assumption). reflexivity.
  - destruct G as (H1 & H2 & H3). pstep ltac:(apply be_uint1_cons).
    change (4 =? 0) with false. change (4 =? 1) with false. change (4 =? 2) with false.
    change (4 =? 3) with false. change (4 =? 4) with true. cbv iota. unfold s_first, len.
    pose proof (mtype_small t).
    pnum. pnum. pnum. pnum. rewrite (opt_step _ _ _ _ (mtype_round t)).
    rewrite guard_step by lia. pstep ltac:(apply take_app; lia). reflexivity.
  - destruct G as (H1 & H2 & H3). pstep ltac:(apply be_uint1_cons).
    change (5 =? 0) with false. change (5 =? 1) with false. change (5 =? 2) with false.
    change (5 =? 3) with false. change (5 =? 4) with false. change (5 =? 5) with true.
    cbv iota. unfold s_follow, len. rewrite frag_byte by exact H2.
    pnum. pstep ltac:(apply be1_app; destruct last; lia). pnum.
    rewrite guard_step by lia. pstep ltac:(apply take_app; lia). unfold ret, piece_block.
    assert (E1 : (2 * num + (if last then 1 else 0)) / 2 = num).
    { symmetry. apply N.div_unique with (if last then 1 else 0); destruct last; lia. }
    assert (E2 : (N.land (2 * num + (if last then 1 else 0)) 1 =? 1) = last).
    { change 1 with (N.ones 1) at 2. rewrite N.land_ones. change (2 ^ 1) with 2.
      replace ((2 * num + (if last then 1 else 0)) mod 2) with (if last then 1 else 0)
        by (apply N.mod_unique with num; destruct last; lia).
      now destruct last. }
    now rewrite E1, E2.
Qed.

Lemma pairs_of_concat rs : pairs_of (concat (map (fun r => [fst r; snd r]) rs)) = rs.
Proof. induction rs as [|[a b] rs IH]; cbn; [reflexivity|]. now rewrite IH. Qed.
Lemma pairs_length rs : length (concat (map (fun r : N * N => [fst r; snd r]) rs)) = (2 * length rs)%nat.
Proof. induction rs as [|[a b] rs IH]; cbn [map concat app length] in *; [reflexivity|]. rewrite IH. lia. Qed.

Lemma s_block_ack a rest : ackinfo_ok a ->
  s_block e (ack_bytes a ++ rest) = Some (ack_block a, rest).
Proof.
  destruct a as [[through num] ranges]. intros (H1 & H2 & H3). unfold s_block, ack_bytes, ack_block.
  assert (X : forall (z : bytes) l, be_uint 1 ((12 :: z) ++ l) = Some (12, z ++ l))
    by (intros; apply be_uint1_cons).
  destruct ranges as [rs|]; rewrite <- ?app_assoc.
  - destruct H3 as [B L]. pstep ltac:(apply be_uint1_cons).
    change (12 =? 0) with false. change (12 =? 1) with false. change (12 =? 2) with false.
    change (12 =? 3) with false. change (12 =? 4) with false. change (12 =? 5) with false.
    change (12 =? 6) with false. change (12 =? 12) with true. cbv iota. unfold s_ack.
    pnum. pnum. pnum. cbv zeta.
    replace (5 + N.of_nat (length rs) * 2 - 5) with (N.of_nat (length rs) * 2) by lia.
    rewrite N.mod_mul by lia. change (0 =? 0) with true. cbv iota.
    pstep ltac:(apply take_app; rewrite pairs_length; lia).
    unfold ret. now rewrite pairs_of_concat.
  - pstep ltac:(apply be_uint1_cons).
    change (12 =? 0) with false. change (12 =? 1) with false. change (12 =? 2) with false.
    change (12 =? 3) with false. change (12 =? 4) with false. change (12 =? 5) with false.
    change (12 =? 6) with false. change (12 =? 12) with true. cbv iota. unfold s_ack.
    pnum. pnum. pnum. cbv zeta. change (5 - 5) with 0. change (0 mod 2 =? 0) with true. cbv iota.
    reflexivity.
Qed.

Lemma kind_bytes_pos k : (1 <= length (kind_bytes k))%nat.
Proof. destruct k; cbn [kind_bytes]; rewrite app_length; cbn [length]; lia. Qed.
Lemma ack_bytes_length a : (8 <= length (ack_bytes a))%nat.
Proof. destruct a as [[x y] [rs|]]; cbn [ack_bytes]; rewrite !app_length, !be_bytes_length; cbn [length]; lia. Qed.

Lemma s_parse_payload m k a : good_kind m k -> ackinfo_ok a ->
  s_parse e (data_payload (Some k) (Some a)) = Some [piece_block m k; ack_block a].
Proof.
  intros G A. unfold s_parse, data_payload.
  pose proof (kind_bytes_pos k). pose proof (ack_bytes_length a).
  destruct (length (kind_bytes k ++ ack_bytes a)) as [|f] eqn:L; [rewrite app_length in L; lia|].
  cbn [s_blocks]. rewrite (s_block_kind m) by exact G.
  destruct (ack_bytes a) as [|x t] eqn:E; [cbn in *; lia|]. rewrite <- E.
  destruct f as [|f]; [rewrite app_length in L; cbn [length] in L; lia|].
  rewrite <- (app_nil_r (ack_bytes a)). rewrite s_block_ack by exact A. cbn [option_map].
  destruct f; reflexivity.
Qed.

(** ** Pieces of a message *)
Definition small (m : message) : bool := (length (m_payload m) <=? 1189)%nat.
Definition chunk (m : message) (i : nat) : bytes := nth i (chunks 1200 (m_payload m)) [].
Definition chunk_count (m : message) : nat := length (chunks 1200 (m_payload m)).

Lemma pieces_small m : small m = true -> pieces m = [KWhole (build_short m)].
Proof.
  intros H. unfold pieces, message_kinds, len. rewrite build_short_length. unfold len_short, len, small in *.
  destruct (N.leb_spec (N.of_nat (length (m_payload m)) + 9 + 2) 1200); [reflexivity|lia].
Qed.
Lemma pieces_large m : (0 < length (m_payload m))%nat -> small m = false ->
  length (pieces m) = chunk_count m /\
  nth 0 (pieces m) (KWhole []) = KFirstFrag (m_type m) (m_id m) (secs_of (whole_seconds (m_expiration m))) (chunk m 0) /\
  forall i, (0 < i < chunk_count m)%nat ->
    nth i (pieces m) (KWhole []) =
    KFollowFrag (m_id m) (N.of_nat (i - 1) mod 256 + 1) (i =? chunk_count m - 1)%nat (chunk m i).
Proof.
  intros Hp H. unfold pieces, message_kinds, len. rewrite build_short_length. unfold len_short, len, small in *.
  destruct (N.leb_spec (N.of_nat (length (m_payload m)) + 9 + 2) 1200); [lia|].
  cbn [received m_payload m_id m_type m_expiration]. unfold chunk_count, chunk.
  pose proof (chunks_nonempty 1200 (m_payload m)) as NE.
  destruct (chunks 1200 (m_payload m)) as [|f fs] eqn:E.
  { exfalso. assert (0 < 0)%nat; [|lia]. apply NE. intros X. rewrite X in Hp. cbn in Hp. lia. }
  cbn [length]. rewrite mapi_length. refine (conj eq_refl (conj eq_refl _)).
  intros [|i] Hi; [lia|]. cbn [nth]. rewrite (mapi_nth _ _ _ _ _ []) by lia. cbn [Nat.add].
  replace (S i - 1)%nat with i by lia. f_equal.
  destruct (Nat.eqb_spec i (S (length fs) - 2)), (Nat.eqb_spec (S i) (S (length fs) - 1)); auto; lia.
Qed.
Lemma chunk_count_le m : fits_short m -> (chunk_count m <= 55)%nat.
Proof.
  intros (_ & _ & _ & H). unfold chunk_count, chunks. apply chunks_fuel_count; lia.
Qed.
Lemma chunk_count_large m : (1200 < length (m_payload m))%nat -> (2 <= chunk_count m)%nat.
Proof.
  intros H. unfold chunk_count.
  destruct (le_lt_dec 2 (length (chunks 1200 (m_payload m)))) as [|L]; auto. exfalso.
  pose proof (chunks_concat 1200 (m_payload m) ltac:(lia)) as C.
  pose proof (fun i => chunks_lengths 1200 (m_payload m) i ltac:(lia)) as Ls.
  destruct (chunks 1200 (m_payload m)) as [|f [|g fs]] eqn:E; cbn [length concat] in *; try lia.
  - rewrite <- C in H. cbn in H. lia.
  - rewrite app_nil_r in C. subst f. destruct (Ls 0%nat ltac:(lia)) as [[_ X] _]. cbn [nth] in X. lia.
Qed.
Lemma secs_whole x : secs_of (whole_seconds x) = secs_of x.
Proof.
  rewrite <- whole_seconds_eq. unfold secs_of at 1, of_secs. apply N.div_mul. lia.
Qed.

Lemma pieces_good m i : fits_short m -> (i < length (pieces m))%nat ->
  good_kind m (nth i (pieces m) (KWhole [])).
Proof.
  intros F Hi. pose proof F as (F1 & F2 & F3 & F4). destruct (small m) eqn:S.
  - rewrite (pieces_small m S) in *. cbn [length] in Hi. replace i with 0%nat by lia. cbn. auto.
  - destruct (pieces_large m F3 S) as (L & P0 & Pi). pose proof (chunk_count_le m F).
    pose proof (chunks_lengths 1200 (m_payload m) i ltac:(lia)) as CL.
    fold (chunk_count m) (chunk m i) in CL. rewrite L in Hi.
    destruct (CL Hi) as [CL1 _].
    destruct i as [|i].
    + rewrite P0. cbn [good_kind]. rewrite secs_whole. pose proof (secs_small _ F2). repeat apply conj; auto; lia.
    + rewrite Pi by lia. cbn [good_kind]. rewrite N.mod_small by lia. repeat apply conj; auto; lia.
Qed.

Lemma piece_received m i k dst n a now s : fits_short m -> (i < length (pieces m))%nat ->
  dst < 2 ^ 64 -> n < 2 ^ 32 -> ackinfo_ok a ->
  exists d, build_packet c ks k dst n (data_payload (Some (nth i (pieces m) (KWhole []))) (Some a)) = Some d /\
    receive_datagram e c ks k now s d =
    handle_blocks now n s [piece_block m (nth i (pieces m) (KWhole [])); ack_block a] [].
Proof.
  intros F Hi Hd Hn A. pose proof (pieces_good m i F Hi) as G.
  destruct (build_packet_some k dst n (data_payload (Some (nth i (pieces m) (KWhole []))) (Some a))) as [d E].
  { unfold data_payload. rewrite app_length. pose proof (ack_bytes_length a). lia. }
  exists d. split; [exact E|]. destruct (packet_opens k dst n _ d Hd Hn E) as (d' & H1 & H2 & H3).
  unfold receive_datagram. rewrite H1. unfold handle_packet.
  destruct (Nat.ltb_spec (length d') 16); [lia|]. rewrite H3.
  rewrite (s_parse_payload m) by assumption. reflexivity.
Qed.
End Packets.
