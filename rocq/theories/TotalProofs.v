(** The parsers with panics written out agree with the parsers without. *)
From Coq Require Import List NArith Bool Arith Lia ZArith ZifyBool ZifyNat ZifyN.
From Verif Require Import ListUtil Bytes PrimModel PrimProofs I2npModel GarlicModel EncModel TotalModel.
Import ListNotations.
Open Scope N_scope.
Open Scope cparser_scope.

Lemma bind_agree {A B} (c : cparser A) (p : parser A) (f : A -> cparser B) (g : A -> parser B) i :
  c i = lift p i ->
  (forall a r, p i = Some (a, r) -> f a r = lift (g a) r) ->
  cbind c f i = lift (bind p g) i.
Proof.
  intros E1 E2. unfold cbind, bind, lift in *. rewrite E1.
  destruct (p i) as [[a r]|]; [|reflexivity]. now apply E2.
Qed.
Lemma bind_lift {A B} (p : parser A) (f : A -> cparser B) (g : A -> parser B) i :
  (forall a r, p i = Some (a, r) -> f a r = lift (g a) r) ->
  cbind (lift p) f i = lift (bind p g) i.
Proof. now apply bind_agree. Qed.
Lemma bind_cguard {B} b (f : unit -> cparser B) (g : unit -> parser B) i :
  (b = true -> f tt i = lift (g tt) i) ->
  cbind (cguard b) f i = lift (bind (guard b) g) i.
Proof.
  intros H. unfold cbind, cguard, lift, bind, guard in *. destruct b; [|reflexivity].
  cbn. now apply H.
Qed.
Lemma cslice_step {B} a b l (f : bytes -> cparser B) i :
  (a <= b)%nat -> (b <= length l)%nat -> cbind (cslice a b l) f i = f (slice a b l) i.
Proof.
  intros H1 H2. unfold cslice.
  replace ((a <=? b) && (b <=? length l))%nat with true by (symmetry; lia). reflexivity.
Qed.
Lemma csub_step {B} a b (f : nat -> cparser B) i :
  (b <= a)%nat -> cbind (csub a b) f i = f (a - b)%nat i.
Proof. intros H. unfold csub. replace (b <=? a)%nat with true by (symmetry; lia). reflexivity. Qed.
Lemma carray_step {B} n l (f : bytes -> cparser B) i :
  length l = n -> cbind (carray n l) f i = f l i.
Proof. intros H. unfold carray. replace (length l =? n)%nat with true by (symmetry; lia). reflexivity. Qed.
Lemma cindex_step {B} k l (f : N -> cparser B) i :
  (k < length l)%nat -> cbind (cindex k l) f i = f (nth k l 0) i.
Proof. intros H. unfold cindex. replace (k <? length l)%nat with true by (symmetry; lia). reflexivity. Qed.
Lemma expect_step {A B} (p : parser A) (f : A -> cparser B) i a r :
  p i = Some (a, r) -> cbind (expect p) f i = f a r.
Proof. intros H. unfold cbind, expect. now rewrite H. Qed.
Lemma cret_step {A B} (a : A) (f : A -> cparser B) i : cbind (cret a) f i = f a i.
Proof. reflexivity. Qed.
Lemma ret_agree {A} (a : A) i : cret a i = lift (ret a) i.
Proof. reflexivity. Qed.
Lemma lift_app {A} (p q : parser A) i o : p i = q i -> o = lift q i -> o = lift p i.
Proof. intros H ->. unfold lift. now rewrite H. Qed.
Lemma slice_len a b (l : list N) : (a <= b)%nat -> (b <= length l)%nat -> length (slice a b l) = (b - a)%nat.
Proof. intros H1 H2. unfold slice. rewrite firstn_length, skipn_length. lia. Qed.
Lemma slice_0 b (l : list N) : slice 0 b l = firstn b l.
Proof. unfold slice. rewrite Nat.sub_0_r. reflexivity. Qed.

(** *** DSA *)
Lemma strip_repeat l : exists k, l = repeat 0 k ++ strip l.
Proof.
  induction l as [|a t IH]; [now exists O|]. cbn [strip]. destruct a; [|now exists O].
  destruct IH as [k IH]. exists (S k). cbn. now rewrite <- IH.
Qed.
Lemma rectify_ok l n (i : list N) : length l = n -> (0 < n)%nat -> rectify l n i = Good l i.
Proof.
  intros L Hn. destruct (strip_repeat l) as [k E0].
  assert (Lk : (k + length (strip l) = n)%nat).
  { rewrite <- L. rewrite E0 at 2. rewrite app_length, repeat_length. lia. }
  unfold rectify, big_bytes. destruct (strip l) as [|s t].
  - cbn [length] in *. rewrite app_nil_r in E0.
    replace (n <? 1)%nat with false by (symmetry; lia).
    destruct (Nat.eqb_spec 1 n) as [E1|N1]; cbn.
    + assert (k = 1%nat) as K1 by lia. rewrite K1 in E0. now rewrite E0.
    + assert (k = (n - 1) + 1)%nat as K1 by lia. rewrite K1, repeat_app in E0.
      now rewrite E0.
  - replace (n <? length (s :: t))%nat with false by (symmetry; lia).
    destruct (Nat.eqb_spec (length (s :: t)) n) as [E1|N1].
    + assert (k = 0)%nat as -> by lia. cbn in E0. now rewrite E0.
    + cbn [length Nat.eqb]. unfold cret. rewrite E0.
      replace (n - S (length t))%nat with k by (cbn [length] in Lk; lia). reflexivity.
Qed.

Section WithExt.
Variable e : ext.

Lemma c_dest_key_ok initial kind clen i :
  length initial = 384%nat ->
  c_dest_key e initial kind clen i = lift (dest_key e initial kind clen) i.
Proof.
  intros L. unfold c_dest_key, dest_key. destruct (kind =? 0).
  - rewrite cslice_step by lia. cbv beta.
    unfold cbind at 1. rewrite rectify_ok by (rewrite ?slice_len; lia).
    apply bind_cguard. intros _. apply ret_agree.
  - destruct ((kind =? 5) && (clen =? 4)); [|reflexivity].
    apply bind_lift. intros sk r _. apply bind_lift. intros x r' _.
    destruct (sk =? 7); [|destruct (sk =? 1); [|reflexivity]];
      rewrite cslice_step, carray_step by (rewrite ?slice_len; lia);
      (apply bind_cguard; intros _; apply ret_agree).
Qed.

Lemma take_all (l : list N) : take (length l) l = Some (l, []).
Proof. unfold take. rewrite Nat.leb_refl, firstn_all, skipn_all. reflexivity. Qed.

(** What a destination's length is, is no more than there is. *)
Lemma dest_len_ok initial kind clen i k dl r :
  dest_key e initial kind clen i = Some ((k, dl), r) ->
  dl = 387%nat /\ r = i \/ dl = 391%nat /\ (4 + length r = length i)%nat.
Proof.
  unfold dest_key. destruct (kind =? 0).
  - intros H. apply bind_inv in H as ([] & q & H1 & H). apply guard_inv in H1 as [_ ->].
    apply ret_inv in H as [E0 ->]. injection E0 as _ ->. now left.
  - destruct (_ && _); [|discriminate]. intros H.
    apply bind_inv in H as (sk & q & H1 & H). apply bind_inv in H as (x & q' & H2 & H).
    apply be_uint_length in H1, H2.
    destruct (sk =? 7); [|destruct (sk =? 1); [|discriminate]];
      apply bind_inv in H as ([] & q2 & H3 & H); apply guard_inv in H3 as [_ ->];
      apply ret_inv in H as [E0 ->]; injection E0 as _ ->; right; lia.
Qed.

Lemma c_dest_ok i : c_dest e i = lift (parse_dest e) i.
Proof.
  unfold c_dest. destruct (Nat.ltb_spec (length i) 387) as [L|L].
  { unfold lift, parse_dest. replace (length i <? 387)%nat with true by (symmetry; lia). reflexivity. }
  eapply lift_app.
  { unfold parse_dest. replace (length i <? 387)%nat with false by (symmetry; lia). reflexivity. }
  rewrite csub_step by lia. cbv beta.
  apply bind_lift. intros initial r H. apply take_inv in H as [-> Li].
  assert (Lr : (length (initial ++ r) - 384 = length r)%nat) by (rewrite app_length; lia).
  unfold cbind at 1, lift at 1. rewrite Lr, take_all.
  apply bind_lift. intros kind r1 H1. apply bind_lift. intros clen r2 H2.
  apply bind_agree; [now apply c_dest_key_ok|]. intros [k dl] r3 H3.
  apply be_uint_length in H1, H2. rewrite app_length in L.
  apply dest_len_ok in H3 as [[-> ->]|[-> H3]];
    rewrite !cslice_step by (rewrite ?app_length; lia); rewrite slice_0; reflexivity.
Qed.

Lemma c_ri_ok i : c_ri e i = lift (parse_ri e) i.
Proof.
  unfold c_ri. destruct (Nat.ltb_spec (length i) 391) as [L|L].
  { unfold lift, parse_ri. replace (length i <? 391)%nat with true by (symmetry; lia). reflexivity. }
  eapply lift_app.
  { unfold parse_ri. replace (length i <? 391)%nat with false by (symmetry; lia). reflexivity. }
  rewrite csub_step by lia. cbv beta.
  apply bind_lift. intros initial r H. apply take_inv in H as [-> Li].
  assert (Lr : (length (initial ++ r) - 384 = length r)%nat) by (rewrite app_length; lia).
  unfold cbind at 1, lift at 1. rewrite Lr, take_all.
  apply bind_lift. intros ct r1 H1. apply bind_lift. intros cl r2 H2.
  apply bind_lift. intros sk r3 H3. apply bind_lift. intros pk r4 H4.
  apply bind_cguard. intros Hc.
  destruct (pk =? 4); [|reflexivity].
  assert (G : forall (f : bytes -> cparser router_identity),
    cbind (s <~ cslice 0 32 initial ;; _ <~ cguard (length s =? 32)%nat ;; cret s) f r4
    = f (slice 0 32 initial) r4).
  { intros f. unfold cbind at 1. rewrite cslice_step by lia. unfold cbind, cguard.
    replace (length (slice 0 32 initial) =? 32)%nat with true; [reflexivity|].
    symmetry. apply Nat.eqb_eq. apply slice_len; lia. }
  rewrite G.
  destruct (sk =? 7); [|reflexivity].
  unfold cbind at 1. rewrite cslice_step, carray_step by (rewrite ?slice_len; lia).
  cbv beta. replace (384 - 32)%nat with 352%nat by reflexivity.
  cbn [andb]. destruct (ed_valid e (slice 352 384 initial)); [|reflexivity].
  cbn [cguard]. rewrite cret_step. unfold cret at 1.
  rewrite !cslice_step by (rewrite ?app_length in *; lia). rewrite slice_0. reflexivity.
Qed.

Lemma c_rinfo_ok i : c_rinfo e i = lift (parse_rinfo e) i.
Proof.
  unfold c_rinfo. eapply lift_app; [unfold parse_rinfo; reflexivity|].
  apply bind_agree; [apply c_ri_ok|]. intros id r0 H0.
  assert (L : (391 <= length i)%nat).
  { unfold parse_ri in H0. destruct (Nat.ltb_spec (length i) 391); [discriminate|lia]. }
  do 3 (apply bind_lift; intros ? ? _). apply bind_lift; intros ? ? _.
  apply bind_lift; intros ? ? _. cbv zeta.
  destruct (mget s_caps _); [|reflexivity]. destruct (mget s_netid _); [|reflexivity].
  destruct (parse_dec 255 _); [|reflexivity].
  rewrite csub_step, cslice_step by lia. rewrite slice_0. unfold lift.
  destruct (_ && _); reflexivity.
Qed.

Lemma c_offline_ok key i : c_offline e key i = lift (parse_offline e key) i.
Proof.
  unfold c_offline. eapply lift_app; [unfold parse_offline; reflexivity|].
  apply bind_lift. intros x r1 H1. apply bind_lift. intros kind r2 H2.
  apply be_uint_length in H1, H2.
  apply bind_agree.
  { destruct (kind =? 7); [|destruct (kind =? 1); [|reflexivity]];
      (apply bind_lift; intros b r3 H3; apply take_inv in H3 as [-> L];
       rewrite carray_step by lia; apply bind_cguard; intros _; apply ret_agree). }
  intros [k kl] r3 H3.
  assert (K : (kl <= length r2)%nat).
  { destruct (kind =? 7); [|destruct (kind =? 1); [|discriminate]];
      apply bind_inv in H3 as (b & q & A & H3); apply bind_inv in H3 as ([] & q' & A' & H3);
      apply ret_inv in H3 as [H3 ->]; injection H3 as -> ->;
      apply take_inv in A as [-> L]; rewrite app_length; lia. }
  apply bind_lift. intros sg r4 H4.
  rewrite cslice_step by lia. rewrite slice_0. apply bind_cguard. intros _. apply ret_agree.
Qed.

Lemma c_lsh_ok i : c_lsh e i = lift (parse_lsh e) i.
Proof.
  unfold c_lsh, parse_lsh. apply bind_agree; [apply c_dest_ok|]. intros d r0 _.
  do 3 (apply bind_lift; intros ? ? _). cbv zeta.
  match goal with |- context [N.testbit ?f 0] => destruct (N.testbit f 0) end; [|reflexivity].
  apply bind_agree; [apply c_offline_ok|]. intros. apply ret_agree.
Qed.
Lemma fail_consumes {A} : consumes (@fail A).
Proof. intros i a r H. discriminate. Qed.
Lemma many_consumes {A} (p : parser A) n : consumes p -> consumes (many n p).
Proof.
  intros Hp. induction n; cbn [many]; [apply ret_consumes|].
  apply bind_consumes; auto. intros. apply bind_consumes; auto. intros. apply ret_consumes.
Qed.
Ltac eat := repeat first
  [ apply bind_consumes; [|intros ?] | apply be_uint_consumes | apply take_consumes
  | apply guard_consumes | apply ret_consumes | apply fail_consumes | apply parse_multi_consumes
  | match goal with |- consumes (if ?b then _ else _) => destruct b end ].
Lemma dest_consumes : consumes (parse_dest e).
Proof.
  intros i a r H. unfold parse_dest in H. destruct (Nat.ltb_spec (length i) 387); [discriminate|].
  match type of H with ?p i = _ => assert (C : consumes p) end; [|exact (C i a r H)].
  clear. eat. { apply dest_key_consumes. }
  match goal with |- consumes (match ?x with _ => _ end) => destruct x end. eat.
Qed.
Lemma offline_consumes k : consumes (parse_offline e k).
Proof.
  intros i a r H. unfold parse_offline in H.
  match type of H with ?p i = _ => assert (C : consumes p) end; [|exact (C i a r H)].
  clear. eat.
  match goal with |- consumes (match ?x with _ => _ end) => destruct x end. eat.
Qed.
Lemma lsh_consumes : consumes (parse_lsh e).
Proof. unfold parse_lsh. eat; [apply dest_consumes|apply offline_consumes]. Qed.
Lemma pubkey_consumes : consumes parse_pubkey.
Proof. unfold parse_pubkey. eat. Qed.
Lemma lease2_consumes : consumes parse_lease2.
Proof. unfold parse_lease2. eat. Qed.
Lemma consumes_len {A} (p : parser A) i a r : consumes p -> p i = Some (a, r) -> (length r <= length i)%nat.
Proof. intros C H. apply C in H as [x ->]. rewrite app_length. lia. Qed.

Lemma c_ls_ok i : c_ls e i = lift (parse_ls e) i.
Proof.
  unfold c_ls. eapply lift_app; [unfold parse_ls; reflexivity|].
  apply bind_agree; [apply c_lsh_ok|]. intros h r0 H0.
  apply bind_lift. intros o r1 H1. apply bind_lift. intros nk r2 H2.
  apply bind_lift. intros ks r3 H3. apply bind_cguard. intros _.
  apply bind_lift. intros nl r4 H4. apply bind_cguard. intros _.
  apply bind_lift. intros ls r5 H5.
  assert (L : (length r5 <= length i)%nat).
  { apply (consumes_len _ _ _ _ lsh_consumes) in H0.
    apply (consumes_len _ _ _ _ parse_multi_consumes) in H1.
    apply (consumes_len _ _ _ _ (be_uint_consumes 1)) in H2, H4.
    apply (consumes_len _ _ _ _ (many_consumes _ _ pubkey_consumes)) in H3.
    apply (consumes_len _ _ _ _ (many_consumes _ _ lease2_consumes)) in H5. lia. }
  eapply lift_app; [reflexivity|].
  apply bind_lift. intros sg r6 H6. apply take_inv in H6 as [-> Ls]. rewrite app_length in *.
  rewrite !csub_step by lia. rewrite cslice_step by lia. rewrite slice_0.
  replace (length i - length r6 - signature_len (d_key (h_dest h)))%nat
    with (length i - (length sg + length r6))%nat by lia.
  apply bind_cguard. intros _. apply ret_agree.
Qed.
End WithExt.
