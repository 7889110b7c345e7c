(** A toy instance of the primitives of end-to-end sessions, to show that the hypotheses of the
    theorems can be met and to run counterexamples.  It is not meant to be secure. *)
From Coq Require Import String List NArith Bool Arith Lia.
From Coq Require Import ZifyBool ZifyNat ZifyN.
From Verif Require Import Bytes ListUtil NMap GarlicModel RatchetModel RatchetSpec RatchetProofs RatchetProofs2
  RatchetProofs3.
Import ListNotations.
Open Scope N_scope.

Definition tM : N := 16777216.
Definition zeros : bytes := repeat 0 29.
Definition tw (n : N) : bytes :=
  N.land n 255 :: N.land (N.shiftr n 8) 255 :: N.land (N.shiftr n 16) 255 :: zeros.
(** The number in the first three bytes *)
Definition tval (l : bytes) : N :=
  match l with a :: b :: c :: _ => N.land (a + N.shiftl b 8 + N.shiftl c 16) 16777215 | _ => 0 end.
Definition tsum (l : bytes) : N := fold_left N.add l 0.
Definition tmac (k : bytes) (n : N) (ad p : bytes) : bytes :=
  le_bytes 16 (tval k + 3 * n + tval ad + 7 * tsum p).
Definition toy : rcrypt := {|
  hmac := fun k d => tw (tval k + tM - (1 + N.of_nat (length d)));
  sha := fun d => tw (tsum d);
  pubkey := fun a => tw (tval a);
  dh := fun a p => tw (tval a + tval p);
  epub := fun a => tw (tval a);
  represent := fun a _ => tw (tval a);
  unrepresent := fun x => Some x;
  aseal := fun k n ad p => p ++ tmac k n ad p;
  aopen := fun k n ad ct =>
    let p := firstn (length ct - 16) ct in
    if beq (skipn (length ct - 16) ct) (tmac k n ad p) then Some p else None
|}.

Lemma le_bytes_S k n : le_bytes (S k) n = n mod 256 :: le_bytes k (n / 256).
Proof. unfold le_bytes. cbn [be_bytes]. now rewrite rev_app_distr. Qed.
Lemma le_bytes_ok k n : bytes_ok (le_bytes k n).
Proof. apply Forall_rev. apply be_bytes_ok. Qed.
Lemma land_255 n : N.land n 255 = n mod 256.
Proof. change 255 with (N.ones 8). now rewrite N.land_ones. Qed.
Lemma tw_length n : length (tw n) = 32%nat.
Proof. reflexivity. Qed.
Lemma tw_ok n : bytes_ok (tw n).
Proof.
  unfold tw. rewrite !land_255. repeat (constructor; [apply N.mod_lt; lia|]).
  apply Forall_forall. intros x Hx. apply repeat_spec in Hx. subst. unfold byte_ok. lia.
Qed.
Lemma tw_num n : be_val (rev (firstn 8 (tw n))) = n mod tM.
Proof.
  unfold tw. rewrite !land_255, !N.shiftr_div_pow2. unfold zeros. cbn [repeat firstn rev app].
  change (2 ^ 8) with 256. change (2 ^ 16) with (256 * 256). rewrite <- N.div_div by lia.
  unfold be_val. cbn [be_val_from].
  assert (n mod tM = n mod 256 + 256 * ((n / 256) mod 256 + 256 * ((n / 256 / 256) mod 256))) as ->; [|lia].
  change tM with (256 * (256 * 256)). rewrite N.mod_mul_r by lia. rewrite (N.mod_mul_r (n / 256)) by lia. lia.
Qed.
Lemma tval_tw n : tval (tw n) = n mod tM.
Proof.
  unfold tval, tw. rewrite !land_255, !N.shiftr_div_pow2, !N.shiftl_mul_pow2.
  change 16777215 with (N.ones 24). rewrite N.land_ones. change (2 ^ 24) with tM.
  change (2 ^ 8) with 256. change (2 ^ 16) with (256 * 256). rewrite <- N.div_div by lia.
  assert (n mod tM = n mod 256 + 256 * ((n / 256) mod 256 + 256 * ((n / 256 / 256) mod 256))) as H.
  { change tM with (256 * (256 * 256)). rewrite N.mod_mul_r by lia. rewrite (N.mod_mul_r (n / 256)) by lia. lia. }
  assert (n mod tM < tM) as L by (apply N.mod_lt; unfold tM; lia).
  replace (n mod 256 + (n / 256) mod 256 * 256 + (n / 256 / 256) mod 256 * (256 * 256)) with (n mod tM) by lia.
  now apply N.mod_small.
Qed.
Lemma tval_lt l : tval l < tM.
Proof.
  unfold tval. destruct l as [|a [|b [|c l]]]; try (unfold tM; lia).
  change 16777215 with (N.ones 24). rewrite N.land_ones. apply N.mod_lt. discriminate.
Qed.
Lemma tval_tw_tval l : tval (tw (tval l)) = tval l.
Proof. rewrite tval_tw. apply N.mod_small. apply tval_lt. Qed.

Lemma toy_ok : rcrypt_ok toy.
Proof.
  unfold rcrypt_ok, toy. cbn [hmac dh pubkey epub represent unrepresent aseal aopen].
  split; [intros; split; [apply tw_length|apply tw_ok]|].
  split; [intros; rewrite !tval_tw_tval; f_equal; lia|].
  split; [intros; rewrite !tval_tw_tval; f_equal; lia|].
  split; [intros; rewrite !tval_tw_tval; f_equal; lia|].
  split; [intros; apply tw_length|].
  split; [intros; split; [apply tw_length|reflexivity]|].
  split.
  - intros k n ad p. assert (length (tmac k n ad p) = 16)%nat as Hl by apply le_bytes_length.
    rewrite app_length, Hl. replace (length p + 16 - 16)%nat with (length p) by lia.
    rewrite firstn_exact, skipn_exact. now rewrite (proj2 (beq_eq _ _) eq_refl).
  - intros k n ad p. rewrite app_length. f_equal.
Qed.

Lemma toy_const k i : kc_const (nth_ctx toy k i) = kc_const k.
Proof.
  induction i as [|i IH]; [reflexivity|]. cbn [nth_ctx]. unfold ratchet_once. cbn [fst kc_const]. exact IH.
Qed.

(** Going down by [b] *)
Lemma down a b c : a < tM -> b <= tM -> ((a + tM - b) mod tM + c) mod tM = (a + c + (tM - b)) mod tM.
Proof.
  intros Ha Hb. replace (a + tM - b) with (a + (tM - b)) by lia.
  rewrite N.add_mod_idemp_l by (unfold tM; lia). f_equal. lia.
Qed.

Lemma toy_data k i : length (kc_const k) = 32%nat ->
  (tval (kc_data (nth_ctx toy k i)) + 51 * N.of_nat i) mod tM = tval (kc_data k) mod tM.
Proof.
  intro Hc. induction i as [|i IH].
  - cbn [nth_ctx N.of_nat]. now rewrite N.mul_0_r, N.add_0_r.
  - rewrite <- IH. cbn [nth_ctx]. unfold ratchet_once. cbn [fst kc_data hmac toy].
    rewrite !tval_tw. rewrite toy_const, Hc.
    change (N.of_nat (length (str "SessionTagKeyGen"%string ++ [1]))) with 17. change (N.of_nat 32) with 32.
    pose proof (tval_lt (kc_data (nth_ctx toy k i))) as Hlt.
    set (u := tval (kc_data (nth_ctx toy k i))) in *.
    rewrite down; [|apply N.mod_lt; unfold tM; lia|unfold tM; lia].
    replace ((u + tM - (1 + 32)) mod tM + 51 * N.of_nat (S i) + (tM - (1 + 17)))
      with ((u + tM - (1 + 32)) mod tM + (51 * N.of_nat (S i) + (tM - (1 + 17)))) by (unfold tM; lia).
    rewrite down; [|assumption|unfold tM; lia].
    replace (u + (51 * N.of_nat (S i) + (tM - (1 + 17))) + (tM - (1 + 32)))
      with (u + 51 * N.of_nat i + 2 * tM) by (unfold tM; lia).
    apply N.mod_add. unfold tM. lia.
Qed.

Lemma toy_tag k set i : length (kc_const k) = 32%nat ->
  (e_tag (nth_entry toy k set i) + (51 * i + 83)) mod tM = tval (kc_data k) mod tM /\
  e_tag (nth_entry toy k set i) < tM.
Proof.
  intro Hc. unfold nth_entry.
  destruct (ratchet_once toy (nth_ctx toy k (N.to_nat i))) as [k' [key tag]] eqn:E. cbn [e_tag].
  unfold ratchet_once in E. apply pair_equal_spec in E as [_ E]. apply pair_equal_spec in E as [_ <-].
  cbn [hmac toy].
  match goal with |- context [N.of_nat (length (tw ?y ++ _))] => set (z := tw y) in * end.
  rewrite app_length. unfold z. rewrite tw_length.
  change (length (str "SessionTagKeyGen"%string ++ [2])) with 17%nat. change (N.of_nat (32 + 17)) with 49.
  rewrite tw_num. split; [|apply N.mod_lt; unfold tM; lia].
  rewrite tval_tw, toy_const, Hc. change (N.of_nat 32) with 32.
  pose proof (tval_lt (kc_data (nth_ctx toy k (N.to_nat i)))) as Hlt.
  pose proof (toy_data k (N.to_nat i) Hc) as Hd. rewrite N2Nat.id in Hd.
  set (u := tval (kc_data (nth_ctx toy k (N.to_nat i)))) in *. rewrite <- Hd.
  rewrite down; [|apply N.mod_lt; unfold tM; lia|unfold tM; lia].
  rewrite <- N.add_assoc. rewrite down; [|assumption|unfold tM; lia].
  replace (u + (51 * i + 83 + (tM - (1 + 49))) + (tM - (1 + 32))) with (u + 51 * i + 2 * tM) by (unfold tM; lia).
  apply N.mod_add. unfold tM. lia.
Qed.

Lemma toy_distinct k set : length (kc_const k) = 32%nat -> distinct_tags toy k set.
Proof.
  intros Hc i j Hi Hj E.
  destruct (toy_tag k set i Hc) as [H1 L1]. destruct (toy_tag k set j Hc) as [H2 L2]. rewrite E in *.
  set (t := e_tag (nth_entry toy k set j)) in *. rewrite <- H1 in H2. clearbody t. clear - H2 Hi Hj. unfold tM in *.
  pose proof (N.div_mod (t + (51 * i + 83)) 16777216 ltac:(lia)) as D1.
  pose proof (N.div_mod (t + (51 * j + 83)) 16777216 ltac:(lia)) as D2.
  rewrite H2 in D2. set (a := (t + (51 * i + 83)) / 16777216) in *. set (b := (t + (51 * j + 83)) / 16777216) in *.
  set (r := (t + (51 * i + 83)) mod 16777216) in *. clearbody a b r. lia.
Qed.
Lemma toy_distinct_new root key set : distinct_tags toy (key_context toy root key) set.
Proof. apply toy_distinct. apply tw_length. Qed.
