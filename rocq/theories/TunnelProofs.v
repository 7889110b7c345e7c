From Coq Require Import List NArith Bool Arith Lia ZArith ZifyBool ZifyNat ZifyN Sorted.
From Verif Require Import ListUtil Bytes NMap PrimModel EncModel SamProofs I2npModel I2npSpec I2npProofs
  TunnelModel TunnelSpec.
Import ListNotations.
Open Scope N_scope.

(** ** Chunks *)
Lemma chunks_fuel_concat n : (0 < n)%nat -> forall f l, (length l <= f)%nat ->
  concat (chunks_fuel f n l) = l.
Proof.
  intros Hn. induction f; intros l Hl; cbn [chunks_fuel].
  - destruct l; [reflexivity|cbn in Hl; lia].
  - destruct l as [|x l]; [reflexivity|]. cbn [concat]. rewrite IHf.
    + apply firstn_skipn.
    + rewrite skipn_length. cbn [length] in *. lia.
Qed.
Lemma chunks_concat n l : (0 < n)%nat -> concat (chunks n l) = l.
Proof. intros. unfold chunks. apply chunks_fuel_concat; lia. Qed.

(** Every chunk but the last is full, the last is not empty. *)
Lemma chunks_fuel_lengths n : (0 < n)%nat -> forall f l, (length l <= f)%nat ->
  forall i, (i < length (chunks_fuel f n l))%nat ->
  (0 < length (nth i (chunks_fuel f n l) []) <= n)%nat /\
  ((S i < length (chunks_fuel f n l))%nat -> length (nth i (chunks_fuel f n l) []) = n).
Proof.
  intros Hn. induction f; intros l Hl i Hi; cbn [chunks_fuel] in *; [cbn in Hi; lia|].
  destruct l as [|x l]; [cbn in Hi; lia|]. cbn [length] in Hi.
  assert (Hs : (length (skipn n (x :: l)) <= f)%nat) by (rewrite skipn_length; cbn [length] in *; lia).
  destruct i; cbn [nth].
  - rewrite firstn_length. cbn [length]. split; [lia|]. intros H.
    destruct (le_lt_dec n (S (length l))); [lia|].
    rewrite skipn_all2 in H by (cbn [length]; lia).
    destruct f; cbn in H; lia.
  - destruct (IHf _ Hs i ltac:(lia)) as [A B]. split; [exact A|]. intros H. apply B. cbn [length] in H. lia.
Qed.
Lemma chunks_lengths n l i : (0 < n)%nat -> (i < length (chunks n l))%nat ->
  (0 < length (nth i (chunks n l) []) <= n)%nat /\
  ((S i < length (chunks n l))%nat -> length (nth i (chunks n l) []) = n).
Proof. intros. unfold chunks. apply chunks_fuel_lengths; auto. Qed.

Lemma chunks_fuel_count n : (0 < n)%nat -> forall f l, (length l <= f)%nat -> forall k,
  (length l <= k * n)%nat -> (length (chunks_fuel f n l) <= k)%nat.
Proof.
  intros Hn. induction f; intros l Hl k Hk; cbn [chunks_fuel]; [cbn; lia|].
  destruct l as [|x l]; [cbn; lia|]. cbn [length].
  destruct k; [cbn in Hk; lia|].
  assert ((length (chunks_fuel f n (skipn n (x :: l))) <= k)%nat); [|lia].
  apply IHf; rewrite skipn_length; cbn [length Nat.mul] in *; lia.
Qed.
Lemma chunks_nonempty n l : l <> [] -> (0 < length (chunks n l))%nat.
Proof. unfold chunks. destruct l; [easy|]. cbn. lia. Qed.

Lemma mapi_length {A B} (f : nat -> A -> B) l : forall i, length (mapi f i l) = length l.
Proof. induction l; intros; cbn; auto. Qed.
Lemma mapi_nth {A B} (f : nat -> A -> B) l : forall i k d d', (k < length l)%nat ->
  nth k (mapi f i l) d = f (i + k)%nat (nth k l d').
Proof.
  induction l; intros i k d d' H; cbn in H; [lia|]. destruct k; cbn [mapi nth].
  - f_equal. lia.
  - rewrite (IHl (S i) k d d') by lia. f_equal. lia.
Qed.

(** ** One tunnel data message *)
Definition kind_ok (k : msg_kind) : Prop :=
  match k with
  | KUnfragmented d => target_ok d
  | KFirst m d => m < 2 ^ 32 /\ target_ok d
  | KMiddle m s | KLast m s => m < 2 ^ 32 /\ s < 64
  end.

Lemma parse_block_ser k p rest :
  kind_ok k -> N.of_nat (length p) < 65536 ->
  parse_block (ser_kind k ++ be_bytes 2 (len p) ++ p ++ rest) = Some ((k, p), rest).
Proof.
  intros Hk Hp. unfold len.
  assert (Htail : forall i (r : bytes), be_uint 2 (be_bytes 2 (N.of_nat (length p)) ++ p ++ r) = Some (N.of_nat (length p), p ++ r) /\
     take (N.to_nat (N.of_nat (length p))) (p ++ r) = Some (p, r) /\ i = i :> nat).
  { intros i r. repeat apply conj; [apply be2_app; lia|apply take_app; lia|reflexivity]. }
  destruct (Htail O rest) as (Ha & Hb & _).
  unfold parse_block.
  destruct k as [d|m d|m s|m s]; cbn [kind_ok] in Hk.
  - destruct d as [|h|t h]; cbn [ser_kind target_ok app] in *.
    + erewrite bind_step by (apply be_uint1_cons). cbv beta.
      change (0 / 128 =? 1) with false. change ((0/32) mod 4 =? 0) with true. change ((0/8) mod 2 =? 0) with true.
      cbv beta iota zeta. unfold bind at 1 2. unfold ret at 1 2.
      erewrite bind_step by exact Ha. cbv beta. erewrite bind_step by exact Hb. reflexivity.
    + erewrite bind_step by (apply be_uint1_cons). cbv beta.
      change (64 / 128 =? 1) with false. change ((64/32) mod 4 =? 0) with false.
      change ((64/32) mod 4 =? 1) with false. change ((64/32) mod 4 =? 2) with true.
      change ((64/8) mod 2 =? 0) with true. cbv beta iota zeta.
      erewrite bind_step. 2:{ pstep ltac:(apply take_app; exact Hk). reflexivity. }
      cbv beta. unfold bind at 1. unfold ret at 1.
      erewrite bind_step by exact Ha. cbv beta. erewrite bind_step by exact Hb. reflexivity.
    + destruct Hk as [Ht Hh]. rewrite <- app_assoc.
      erewrite bind_step by (apply be_uint1_cons). cbv beta.
      change (32 / 128 =? 1) with false. change ((32/32) mod 4 =? 0) with false.
      change ((32/32) mod 4 =? 1) with true. change ((32/8) mod 2 =? 0) with true. cbv beta iota zeta.
      erewrite bind_step.
      2:{ pnum. pstep ltac:(apply take_app; exact Hh). reflexivity. }
      cbv beta. unfold bind at 1. unfold ret at 1.
      erewrite bind_step by exact Ha. cbv beta. erewrite bind_step by exact Hb. reflexivity.
  - destruct Hk as [Hm Hk]. destruct d as [|h|t h]; cbn [ser_kind target_ok app] in *.
    + erewrite bind_step by (apply be_uint1_cons). cbv beta.
      change (8 / 128 =? 1) with false. change ((8/32) mod 4 =? 0) with true. change ((8/8) mod 2 =? 0) with false.
      cbv beta iota zeta. unfold bind at 1. unfold ret at 1. 
      erewrite bind_step. 2:{ pnum. reflexivity. }
      erewrite bind_step by exact Ha. cbv beta. erewrite bind_step by exact Hb. reflexivity.
    + rewrite <- app_assoc. erewrite bind_step by (apply be_uint1_cons). cbv beta.
      change ((8 + 64) / 128 =? 1) with false. change (((8+64)/32) mod 4 =? 0) with false.
      change (((8+64)/32) mod 4 =? 1) with false. change (((8+64)/32) mod 4 =? 2) with true.
      change (((8+64)/8) mod 2 =? 0) with false. cbv beta iota zeta.
      erewrite bind_step. 2:{ pstep ltac:(apply take_app; exact Hk). reflexivity. }
      cbv beta. erewrite bind_step. 2:{ pnum. reflexivity. }
      erewrite bind_step by exact Ha. cbv beta. erewrite bind_step by exact Hb. reflexivity.
    + destruct Hk as [Ht Hh]. rewrite <- !app_assoc.
      erewrite bind_step by (apply be_uint1_cons). cbv beta.
      change ((8 + 32) / 128 =? 1) with false. change (((8+32)/32) mod 4 =? 0) with false.
      change (((8+32)/32) mod 4 =? 1) with true. change (((8+32)/8) mod 2 =? 0) with false. cbv beta iota zeta.
      erewrite bind_step.
      2:{ pnum. pstep ltac:(apply take_app; exact Hh). reflexivity. }
      cbv beta. erewrite bind_step. 2:{ pnum. reflexivity. }
      erewrite bind_step by exact Ha. cbv beta. erewrite bind_step by exact Hb. reflexivity.
  - destruct Hk as [Hm Hs]. cbn [ser_kind app]. rewrite (N.mod_small s 64) by lia.
    erewrite bind_step by (apply be_uint1_cons). cbv beta.
    assert ((128 + s * 2) / 128 = 1) as -> by (symmetry; apply N.div_unique with (s * 2); lia).
    assert ((128 + s * 2) / 2 = 64 + s) as -> by (symmetry; apply N.div_unique with 0; lia).
    assert ((128 + s * 2) mod 2 = 0) as -> by (symmetry; apply N.mod_unique with (64 + s); lia).
    assert ((64 + s) mod 64 = s) as -> by (symmetry; apply N.mod_unique with 1; lia).
    change (1 =? 1) with true. change (0 =? 0) with true. cbv iota.
    pnum. erewrite bind_step by exact Ha. cbv beta. erewrite bind_step by exact Hb. reflexivity.
  - destruct Hk as [Hm Hs]. cbn [ser_kind app]. rewrite (N.mod_small s 64) by lia.
    erewrite bind_step by (apply be_uint1_cons). cbv beta.
    assert ((128 + s * 2 + 1) / 128 = 1) as -> by (symmetry; apply N.div_unique with (s * 2 + 1); lia).
    assert ((128 + s * 2 + 1) / 2 = 64 + s) as -> by (symmetry; apply N.div_unique with 1; lia).
    assert ((128 + s * 2 + 1) mod 2 = 1) as -> by (symmetry; apply N.mod_unique with (64 + s); lia).
    assert ((64 + s) mod 64 = s) as -> by (symmetry; apply N.mod_unique with 1; lia).
    change (1 =? 1) with true. change (1 =? 0) with false. cbv iota.
    pnum. erewrite bind_step by exact Ha. cbv beta. erewrite bind_step by exact Hb. reflexivity.
Qed.

Lemma ser_kind_nonempty k : (1 <= length (ser_kind k))%nat.
Proof. destruct k as [[| |]|? [| |]| |]; cbn [ser_kind app length]; lia. Qed.

Section Wire.
Variable e : ext.
Hypothesis Hsha : forall b, (4 <= length (sha256 e b))%nat.

Lemma td_checksum_length di m iv : length (td_checksum e di m iv) = 4%nat.
Proof. unfold td_checksum. apply firstn_length_le. apply Hsha. Qed.

Lemma td_pad_no_zero p size off : ~ In 0 p -> ~ In 0 (firstn size (skipn off p)).
Proof.
  intros H X. apply In_firstn in X. apply H. rewrite <- (firstn_skipn off p). apply in_or_app. auto.
Qed.

Lemma td_serialize_shape t iv r di ps m p :
  (forall q, p = Some q -> ~ In 0 q) ->
  exists pad, ~ In 0 pad /\
    td_serialize e t iv r di ps m p =
      be_bytes 4 t ++ iv ++ td_checksum e di m iv ++ pad ++ [0] ++ di ++ be_bytes 2 (len m) ++ m.
Proof.
  intros Hp. unfold td_serialize. destruct p as [q|].
  - eexists. split; [|reflexivity]. apply td_pad_no_zero. auto.
  - exists []. split; [easy|]. reflexivity.
Qed.

Lemma endpoint_one h t iv r k ps m p :
  length iv = 16%nat -> kind_ok k -> N.of_nat (length m) < 65536 ->
  (forall q, p = Some q -> ~ In 0 q) ->
  let w := td_serialize e t iv r (ser_kind k) ps m p in
  firstn 16 (skipn 4 w) = iv /\
  endpoint e h (skipn 20 w) (firstn 16 (skipn 4 w)) = Some (handle_blocks h [(k, m)]).
Proof.
  intros Hiv Hk Hm Hp. destruct (td_serialize_shape t iv r (ser_kind k) ps m p Hp) as (pad & Hpad & E).
  cbv zeta. rewrite E. clear E.
  assert (S4 : forall x, skipn 4 (be_bytes 4 t ++ x) = x).
  { intros x. rewrite <- (be_bytes_length 4 t) at 1. apply skipn_exact. }
  rewrite S4. rewrite (firstn_app_n 16 iv) by exact Hiv.
  assert (S20 : forall x, skipn 20 (be_bytes 4 t ++ iv ++ x) = x).
  { intros x. change 20%nat with (4 + 16)%nat. rewrite <- skipn_add, S4. rewrite <- Hiv. apply skipn_exact. }
  rewrite S20. split; [reflexivity|].
  pose proof (td_checksum_length (ser_kind k) m iv) as Lc.
  set (cs := td_checksum e (ser_kind k) m iv) in *.
  set (body := ser_kind k ++ be_bytes 2 (len m) ++ m).
  assert (Hbody : body <> []).
  { unfold body. pose proof (ser_kind_nonempty k). destruct (ser_kind k); [cbn in *; lia|easy]. }
  unfold endpoint, find_payload_start.
  assert (C4 : forall x, skipn 4 (cs ++ x) = x) by (intros x; rewrite <- Lc; apply skipn_exact).
  change ([0] ++ body) with (0 :: body).
  rewrite C4. change (pad ++ [0] ++ ?x) with (pad ++ 0 :: x).
  rewrite position_here by exact Hpad.
  assert (Sk : skipn (4 + length pad + 1) (cs ++ pad ++ 0 :: body) = body).
  { rewrite <- Nat.add_assoc. rewrite <- skipn_add, C4. rewrite <- skipn_add, skipn_exact. reflexivity. }
  rewrite Sk. rewrite (firstn_app_n 4 cs) by exact Lc.
  assert (Hcs : cs = firstn 4 (sha256 e (body ++ iv))).
  { unfold cs, td_checksum, body. now rewrite <- !app_assoc. }
  rewrite Hcs at 1. rewrite beq_refl.
  rewrite !app_length. cbn [length]. rewrite Lc.
  destruct (Nat.leb_spec (4 + (length pad + S (length body))) (length pad + 1 + 4)) as [Hle|Hle].
  { destruct body; [easy|cbn in Hle; lia]. }
  assert (Sk2 : skipn (length pad + 1 + 4) (cs ++ pad ++ 0 :: body) = body).
  { rewrite <- Sk at 2. f_equal. lia. }
  rewrite Sk2. unfold td_parse.
  pose proof (parse_block_ser k m [] Hk Hm) as P. rewrite app_nil_r in P. fold body in P.
  cbn [parse_blocks]. rewrite P. reflexivity.
Qed.
End Wire.
