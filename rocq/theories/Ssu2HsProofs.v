(** Proofs about the SSU2 handshake: masks, headers and messages. *)
From Coq Require Import String List NArith Bool Arith Lia ZifyBool ZifyNat ZifyN.
From Verif Require Import ListUtil Bytes NMap PrimModel I2npModel EncModel NoiseModel Ntcp2Model Ssu2Model Ssu2Proofs2
  HandshakeModel HandshakeSpec HandshakeProofs Ssu2HsModel Ssu2HsSpec.
Import ListNotations.
Open Scope N_scope.

Lemma xor8_app m : forall b d, length m = length b -> xor8 m (b ++ d) = xor8 m b ++ d.
Proof.
  induction m as [|x m IH]; intros [|y b] d H; cbn [length] in H; try lia; [destruct d; reflexivity|].
  cbn [xor8 app]. rewrite IH by lia. reflexivity.
Qed.
Lemma mask_at_app from m a b d : length a = from -> length m = length b ->
  mask_at from m (a ++ b ++ d) = a ++ xor8 m b ++ d.
Proof.
  intros <- H. unfold mask_at. rewrite firstn_exact, skipn_exact, xor8_app by exact H. reflexivity.
Qed.
Lemma mask_at_0 m b d : length m = length b -> mask_at 0 m (b ++ d) = xor8 m b ++ d.
Proof. intros H. apply (mask_at_app 0 m [] b d eq_refl H). Qed.
Lemma mask_at_length from m b : length (mask_at from m b) = length b.
Proof. unfold mask_at. rewrite app_length, xor8_length, firstn_length, skipn_length. lia. Qed.
Lemma part_app a b d from n : length a = from -> length b = n -> part from n (a ++ b ++ d) = b.
Proof. intros <- <-. unfold part. now rewrite skipn_exact, firstn_exact. Qed.
Lemma part_0 b d n : length b = n -> part 0 n (b ++ d) = b.
Proof. intros <-. unfold part. cbn [skipn]. apply firstn_exact. Qed.

Definition iv1 (p : bytes) : bytes := firstn 12 (skipn (length p - 24) p).
Definition iv2 (p : bytes) : bytes := skipn (length p - 12) p.
Lemma skipn_tail n (a s : bytes) : (n <= length s)%nat ->
  skipn (length (a ++ s) - n) (a ++ s) = skipn (length s - n) s.
Proof.
  intros H. rewrite app_length, skipn_app. replace (length a + length s - n - length a)%nat with (length s - n)%nat by lia.
  rewrite skipn_all2 by lia. reflexivity.
Qed.
Lemma iv1_app a s : (24 <= length s)%nat -> iv1 (a ++ s) = iv1 s.
Proof. intros H. unfold iv1. now rewrite skipn_tail by lia. Qed.
Lemma iv2_app a s : (24 <= length s)%nat -> iv2 (a ++ s) = iv2 s.
Proof. intros H. unfold iv2. now rewrite skipn_tail by lia. Qed.

Section Proofs.
Variable c : hops.
Variable ks : bytes -> bytes -> nat -> bytes.
Hypothesis P : primitives_ok c.
Hypothesis K : stream_ok ks.

Lemma ks_length k iv n : length (ks k iv n) = n. Proof. apply (proj1 (K k iv n)). Qed.
Hint Resolve ks_length : core.

(** A packet on the wire: the three parts of the header masked, then the rest. *)
Definition wire (k1 k2 h1 h2 h3 s : bytes) : bytes :=
  xor8 (ks k1 (iv1 s) 8) h1 ++ xor8 (ks k2 (iv2 s) 8) h2 ++ xor8 (ks k2 zero_iv (length h3)) h3 ++ s.
Lemma wire_length k1 k2 h1 h2 h3 s : length (wire k1 k2 h1 h2 h3 s) = (length h1 + length h2 + length h3 + length s)%nat.
Proof. unfold wire. rewrite !app_length, !xor8_length. lia. Qed.

Lemma build_wire k1 k2 h1 h2 h3 s : length h1 = 8%nat -> length h2 = 8%nat -> (24 <= length s)%nat ->
  mask_first ks k1 k2 (h1 ++ h2 ++ h3) s = Ok (xor8 (ks k1 (iv1 s) 8) h1 ++ xor8 (ks k2 (iv2 s) 8) h2 ++ h3).
Proof.
  intros L1 L2 Ls. unfold mask_first. destruct (Nat.ltb_spec (length s) 24); [lia|].
  fold (iv1 s). fold (iv2 s). rewrite mask_at_0 by (rewrite ks_length; lia).
  rewrite mask_at_app by (rewrite ?xor8_length, ?ks_length; lia). reflexivity.
Qed.
Lemma rest_wire k h1 h2 h3 : length h1 = 8%nat -> length h2 = 8%nat ->
  mask_rest ks k (h1 ++ h2 ++ h3) = h1 ++ h2 ++ xor8 (ks k zero_iv (length h3)) h3.
Proof.
  intros L1 L2. unfold mask_rest. rewrite !app_length, L1, L2.
  replace (8 + (8 + length h3) - 16)%nat with (length h3) by lia.
  replace (h1 ++ h2 ++ h3) with ((h1 ++ h2) ++ h3 ++ []) by (now rewrite app_nil_r, <- app_assoc).
  rewrite mask_at_app by (rewrite ?app_length, ?ks_length; lia). now rewrite app_nil_r, <- app_assoc.
Qed.
Lemma wire_built k1 k2 h1 h2 h3 s : length h1 = 8%nat -> length h2 = 8%nat -> (24 <= length s)%nat ->
  rbind (mask_first ks k1 k2 (h1 ++ h2 ++ h3) s) (fun h => Ok (mask_rest ks k2 h ++ s)) = Ok (wire k1 k2 h1 h2 h3 s).
Proof.
  intros L1 L2 Ls. rewrite build_wire by assumption. cbn [rbind].
  rewrite rest_wire by (rewrite xor8_length; assumption). unfold wire. now rewrite <- !app_assoc.
Qed.

(** ** Reading *)
Definition rd (k : bytes) (s pkt : bytes) : reader := mkReader k (iv1 s) (iv2 s) pkt.
Lemma reader_new_wire k a s : (24 <= length s)%nat -> reader_new k (a ++ s) = Ok (rd k s (a ++ s)).
Proof.
  intros Ls. unfold reader_new. rewrite app_length at 1.
  destruct (Nat.ltb_spec (length a + length s) 24); [lia|].
  unfold rd. rewrite <- (iv1_app a s Ls), <- (iv2_app a s Ls). reflexivity.
Qed.
Lemma reader_dst_wire k s h1 rest : length h1 = 8%nat ->
  reader_dst ks (rd k s (xor8 (ks k (iv1 s) 8) h1 ++ rest)) = (le_val h1, rd k s (h1 ++ rest)).
Proof.
  intros L1. unfold reader_dst, rd. cbn [hr_key hr_iv1 hr_pkt hr_iv2].
  rewrite mask_at_0 by (rewrite xor8_length, ks_length; lia). rewrite xor8_twice.
  replace (firstn 8 (h1 ++ rest)) with h1 by (rewrite <- L1, firstn_exact; reflexivity). reflexivity.
Qed.

Definition h2_of (num ty : N) (tail : bytes) : bytes := be_bytes 4 num ++ [ty] ++ tail.
Definition parsed (ty num net : N) (p : bytes) : option header_kind :=
  if ty =? 0 then Some (HSessionRequest (part 32 32 p) net num (le_val (part 24 8 p)))
  else if ty =? 1 then Some (HSessionCreated (part 32 32 p) net num)
  else if ty =? 2 then Some (HSessionConfirmed num)
  else if ty =? 6 then Some (HData num)
  else if ty =? 9 then Some (HRetry net num (le_val (part 24 8 p)))
  else if ty =? 10 then Some (HTokenRequest net num (le_val (part 16 8 p)))
  else None.
Lemma nth_app_at {A} (a : list A) x b d n : length a = n -> nth n (a ++ x :: b) d = x.
Proof. intros <-. induction a as [|y a IH]; cbn [app length nth]; [reflexivity|exact IH]. Qed.

(** A long header: the message is recognised if the masks match. *)
Lemma reader_parse_long k1 k2 s h1 num ty net flag h3 rest : length h1 = 8%nat -> num < 2 ^ 32 ->
  In ty [0; 1] /\ length h3 = 48%nat \/ In ty [9; 10] /\ length h3 = 16%nat ->
  reader_parse ks k2 (rd k1 s (h1 ++ xor8 (ks k2 (iv2 s) 8) (h2_of num ty [2; net; flag]) ++
                               xor8 (ks k2 zero_iv (length h3)) h3 ++ rest)) =
  Ok (parsed ty num net (h1 ++ h2_of num ty [2; net; flag] ++ h3 ++ rest),
      rd k1 s (h1 ++ h2_of num ty [2; net; flag] ++ h3 ++ rest)).
Proof.
  intros L1 Hn Hty. unfold reader_parse, rd. cbn [hr_pkt hr_iv2 hr_key hr_iv1].
  assert (L2 : length (h2_of num ty [2; net; flag]) = 8%nat).
  { unfold h2_of. rewrite !app_length, be_bytes_length. reflexivity. }
  rewrite mask_at_app by (rewrite ?xor8_length, ?ks_length; lia). rewrite xor8_twice.
  set (h3m := xor8 (ks k2 zero_iv (length h3)) h3).
  assert (L3 : length h3m = length h3) by apply xor8_length.
  assert (E12 : byte_at 12 (h1 ++ h2_of num ty [2; net; flag] ++ h3m ++ rest) = ty).
  { unfold byte_at, h2_of. rewrite <- !app_assoc, (app_assoc h1). cbn [app]. apply nth_app_at. rewrite app_length, be_bytes_length. lia. }
  assert (E13 : byte_at 13 (h1 ++ h2_of num ty [2; net; flag] ++ h3m ++ rest) = 2).
  { unfold byte_at, h2_of. cbn [app].
    replace (h1 ++ (be_bytes 4 num ++ [ty; 2; net; flag]) ++ h3m ++ rest)
      with ((h1 ++ be_bytes 4 num ++ [ty]) ++ 2 :: [net; flag] ++ h3m ++ rest) by (now rewrite <- !app_assoc).
    apply nth_app_at. rewrite !app_length, be_bytes_length. cbn [length]. lia. }
  assert (E14 : byte_at 14 (h1 ++ h2_of num ty [2; net; flag] ++ h3m ++ rest) = net).
  { unfold byte_at, h2_of. cbn [app].
    replace (h1 ++ (be_bytes 4 num ++ [ty; 2; net; flag]) ++ h3m ++ rest)
      with ((h1 ++ be_bytes 4 num ++ [ty; 2]) ++ net :: [flag] ++ h3m ++ rest) by (now rewrite <- !app_assoc).
    apply nth_app_at. rewrite !app_length, be_bytes_length. cbn [length]. lia. }
  assert (En : be_val (part 8 4 (h1 ++ h2_of num ty [2; net; flag] ++ h3m ++ rest)) = num).
  { unfold h2_of. rewrite <- !app_assoc. rewrite (part_app h1 (be_bytes 4 num)) by (rewrite ?be_bytes_length; lia).
    rewrite be_val_bytes. apply N.mod_small. exact Hn. }
  rewrite E12, E13, E14, En.
  assert (U : forall to, (to = 16 + length h3)%nat ->
            unmask_tail ks k2 to (h1 ++ h2_of num ty [2; net; flag] ++ h3m ++ rest) =
            Ok (h1 ++ h2_of num ty [2; net; flag] ++ h3 ++ rest)).
  { intros to ->. unfold unmask_tail. rewrite !app_length, L1, L2, L3.
    destruct (Nat.ltb_spec (8 + (8 + (length h3 + length rest))) (16 + length h3)); [lia|].
    replace (16 + length h3 - 16)%nat with (length h3) by lia.
    rewrite (app_assoc h1). rewrite mask_at_app by (rewrite ?app_length, ?L3, ?ks_length; lia).
    unfold h3m. rewrite xor8_twice. now rewrite <- app_assoc. }
  unfold parsed.
  change (negb (2 =? 2)) with false. cbv iota.
  destruct Hty as [[[<-|[<-|[]]] L]|[[<-|[<-|[]]] L]].
  - change (0 =? 0) with true. cbv iota. rewrite (U 64%nat) by lia. reflexivity.
  - change (1 =? 0) with false. change (1 =? 1) with true. cbv iota. rewrite (U 64%nat) by lia. reflexivity.
  - change (9 =? 0) with false. change (9 =? 1) with false. change (9 =? 2) with false. change (9 =? 6) with false.
    change (9 =? 9) with true. cbv iota. rewrite (U 32%nat) by lia. reflexivity.
  - change (10 =? 0) with false. change (10 =? 1) with false. change (10 =? 2) with false. change (10 =? 6) with false.
    change (10 =? 9) with false. change (10 =? 10) with true. cbv iota. rewrite (U 32%nat) by lia. reflexivity.
Qed.

(** A short header (SessionConfirmed). *)
Lemma reader_parse_confirmed k1 k2 s h1 num tail rest : length h1 = 8%nat -> num < 2 ^ 32 -> length tail = 3%nat ->
  reader_parse ks k2 (rd k1 s (h1 ++ xor8 (ks k2 (iv2 s) 8) (h2_of num 2 tail) ++ rest)) =
  Ok (Some (HSessionConfirmed num), rd k1 s (h1 ++ h2_of num 2 tail ++ rest)).
Proof.
  intros L1 Hn Lt. unfold reader_parse, rd. cbn [hr_pkt hr_iv2 hr_key hr_iv1].
  assert (L2 : length (h2_of num 2 tail) = 8%nat).
  { unfold h2_of. rewrite !app_length, be_bytes_length, Lt. reflexivity. }
  rewrite mask_at_app by (rewrite ?xor8_length, ?ks_length; lia). rewrite xor8_twice.
  assert (E12 : byte_at 12 (h1 ++ h2_of num 2 tail ++ rest) = 2).
  { unfold byte_at, h2_of. rewrite <- !app_assoc, (app_assoc h1). cbn [app]. apply nth_app_at. rewrite app_length, be_bytes_length. lia. }
  assert (En : be_val (part 8 4 (h1 ++ h2_of num 2 tail ++ rest)) = num).
  { unfold h2_of. rewrite <- !app_assoc. rewrite (part_app h1 (be_bytes 4 num)) by (rewrite ?be_bytes_length; lia).
    rewrite be_val_bytes. apply N.mod_small. exact Hn. }
  rewrite E12, En. change (2 =? 0) with false. change (2 =? 1) with false. change (2 =? 2) with true. reflexivity.
Qed.

(** ** The blocks of handshake messages parse *)
Let e := x_ext (h_ops c).
Lemma s_date_step secs rest : s_block e (date_block secs ++ rest) = Some (SDateTime (secs mod 2 ^ 32), rest).
Proof.
  unfold s_block, date_block. rewrite <- !app_assoc. cbn [app].
  rewrite (bind_step _ _ _ _ _ (be_uint1_cons _ _)). change (0 =? 0) with true. cbv iota. unfold s_date_time.
  erewrite bind_step by (apply be2_app; reflexivity).
  erewrite bind_step by (apply be4_app; apply N.mod_lt; discriminate). reflexivity.
Qed.
Lemma s_padding_step p rest : (length p <= 135)%nat -> s_block e (padding_block p ++ rest) = Some (SPadding p, rest).
Proof.
  intros H. unfold s_block, padding_block. rewrite <- !app_assoc. cbn [app].
  rewrite (bind_step _ _ _ _ _ (be_uint1_cons _ _)).
  change (254 =? 0) with false. change (254 =? 1) with false. change (254 =? 2) with false. change (254 =? 3) with false.
  change (254 =? 4) with false. change (254 =? 5) with false. change (254 =? 6) with false. change (254 =? 12) with false.
  change (254 =? 17) with false. change (254 =? 18) with false. change (254 =? 19) with false. change (254 =? 20) with false.
  change (254 =? 21) with false. change (254 =? 254) with true. cbv iota. unfold s_padding.
  erewrite bind_step by (apply be2_app; unfold len; lia).
  unfold len. rewrite Nat2N.id. erewrite bind_step by (apply take_app; reflexivity). reflexivity.
Qed.
Lemma s_parse_request secs p : (1 <= length p <= 135)%nat ->
  exists bs, s_parse e (date_block secs ++ padding_block p) = Some bs.
Proof.
  intros H. unfold s_parse. rewrite app_length. cbn [Nat.add]. remember (length (padding_block p)) as n eqn:En.
  assert (Hn : (4 <= n)%nat).
  { rewrite En. unfold padding_block. rewrite !app_length, be_bytes_length. cbn [length]. lia. }
  cbn [s_blocks]. rewrite s_date_step.
  destruct (padding_block p) as [|x t] eqn:E; [cbn [length] in En; lia|]. rewrite <- E.
  unfold date_block. rewrite !app_length, !be_bytes_length. cbn [length Nat.add s_blocks].
  rewrite <- (app_nil_r (padding_block p)), s_padding_step by lia. cbn [option_map]. eauto.
Qed.
End Proofs.
