(** A small instance of the primitives of NoiseModel.v, used only to show that the hypotheses of
    the theorems can be met and to run the model. *)
From Coq Require Import List NArith Bool Arith Lia.
From Verif Require Import ListUtil Bytes PrimModel PrimProps I2npModel TunnelModel RouteModel NoiseModel TransitModel TransitSpec.
Import ListNotations.
Open Scope N_scope.

Definition mix (l : bytes) : N := fold_left (fun a x => (a * 31 + x + 7) mod 4294967291) l 1.
Fixpoint gen (n : nat) (a : N) : bytes :=
  match n with O => [] | S n => (a / 256) mod 256 :: gen n ((a * 69069 + 12345) mod 4294967296) end.
Lemma gen_length n a : length (gen n a) = n.
Proof. revert a. induction n as [|n IH]; intro a; cbn [gen length]; [reflexivity | now rewrite IH]. Qed.

Fixpoint mul_bytes (a b : bytes) : bytes :=
  match a, b with x :: a', y :: b' => (x * y) mod 251 :: mul_bytes a' b' | _, _ => [] end.
Lemma mul_sym a : forall b, mul_bytes a b = mul_bytes b a.
Proof. induction a as [|x a IH]; intros [|y b]; cbn; try reflexivity. now rewrite IH, (N.mul_comm x y). Qed.

Definition toy_mask (k : bytes) (n : N) (l : nat) : bytes := gen l (mix (n :: k)).
Definition toy_mac (k : bytes) (n : N) (ad ct : bytes) : bytes := gen 16 (mix (k ++ n :: ad ++ 1 :: ct)).
Lemma xor_twice p : forall m, length m = length p -> xor_bytes (xor_bytes p m) m = p.
Proof.
  induction p as [|x p IH]; intros [|y m] H; cbn in *; try lia; [reflexivity|].
  rewrite IH by lia. now rewrite N.lxor_assoc, N.lxor_nilpotent, N.lxor_0_r.
Qed.
Lemma xor_len a : forall b, length b = length a -> length (xor_bytes a b) = length a.
Proof. induction a as [|x a IH]; intros [|y b] H; cbn in *; try lia. now rewrite IH by lia. Qed.

(** 32 bytes of a key *)
Definition pad32 (k : bytes) : bytes := firstn 32 (k ++ repeat 1 32).
Lemma pad32_length k : length (pad32 k) = 32%nat.
Proof. unfold pad32. rewrite firstn_length, app_length, repeat_length. lia. Qed.
Lemma pad32_pad32 k : pad32 (pad32 k) = pad32 k.
Proof. unfold pad32 at 1. rewrite <- (pad32_length k) at 1. apply firstn_exact. Qed.

Definition noise_toy : ops := {|
  x_ext := toy;
  x_pub := pad32;
  x_dh := fun a b => mul_bytes (pad32 a) (pad32 b);
  x_hmac := fun k d => gen 32 (mix (k ++ 1 :: d));
  x_seal := fun k n ad p => let ct := xor_bytes p (toy_mask k n (length p)) in ct ++ toy_mac k n ad ct;
  x_open := fun k n ad b =>
    let l := (length b - 16)%nat in
    if Nat.leb 16 (length b) && beq (skipn l b) (toy_mac k n ad (firstn l b))
    then Some (xor_bytes (firstn l b) (toy_mask k n l)) else None;
  x_stream := fun k n l => gen l (mix (k ++ [n; 2])) |}.

Lemma toy_sizes : crypto_sizes noise_toy.
Proof.
  split; intros; cbn [noise_toy x_seal x_stream].
  - unfold toy_mac, toy_mask. rewrite app_length, gen_length, xor_len by apply gen_length. reflexivity.
  - apply gen_length.
Qed.
Lemma toy_dh a b : x_dh noise_toy a (x_pub noise_toy b) = x_dh noise_toy b (x_pub noise_toy a).
Proof. cbn [noise_toy x_dh x_pub]. rewrite !pad32_pad32. apply mul_sym. Qed.
Lemma toy_open k n ad p : x_open noise_toy k n ad (x_seal noise_toy k n ad p) = Some p.
Proof.
  cbn [noise_toy x_seal x_open]. set (ct := xor_bytes p (toy_mask k n (length p))).
  assert (Lc : length ct = length p) by (apply xor_len, gen_length).
  assert (Lm : length (toy_mac k n ad ct) = 16%nat) by apply gen_length.
  rewrite app_length, Lm. replace (length ct + 16 - 16)%nat with (length ct) by lia.
  destruct (Nat.leb_spec 16 (length ct + 16)); [|lia]. rewrite firstn_exact, skipn_exact, beq_refl. cbn [andb].
  f_equal. unfold ct. rewrite xor_len by apply gen_length. apply xor_twice, gen_length.
Qed.
