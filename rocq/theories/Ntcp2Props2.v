(** The keys that hide frame lengths (C18), compared with the published derivation: two chained
    HKDFs with the labels "ask" and "siphash", and one that gives a key per direction. *)
From Coq Require Import List NArith Bool String.
From Verif Require Import ListUtil Bytes PrimModel Ntcp2Model EncProps2.
From Verif Require Import Ntcp2Spec Ntcp2Proofs Ntcp2Props.
Import ListNotations.
Open Scope list_scope.
Open Scope N_scope.

(** RFC 5869 with two outputs. *)
Definition hkdf (c : ncrypt) (salt ikm info : bytes) : bytes * bytes :=
  let prk := hmac c salt ikm in
  let o1 := hmac c prk (info ++ [1]) in
  (o1, hmac c prk (o1 ++ info ++ [2])).
Definition published_keys (c : ncrypt) (ck h : bytes) : bytes * bytes :=
  let ask := fst (hkdf c ck [] (text "ask"%string)) in
  let sip_master := fst (hkdf c ask (h ++ text "siphash"%string) []) in
  hkdf c sip_master [] [].
(** The mask of frame [n] for 24 bytes of key: two keys, and an IV which each frame replaces. *)
Fixpoint published_hash (c : ncrypt) (k : bytes) (n : nat) : N :=
  siphash c (le_val (firstn 8 k)) (le_val (firstn 8 (skipn 8 k)))
    (match n with O => firstn 8 (skipn 16 k) | S m => le_bytes 8 (published_hash c k m) end).
Definition published_mask (c : ncrypt) (k : bytes) (n : nat) : N := published_hash c k n mod 65536.

Lemma mask_after : forall c k n,
  siphash c (sip_key1 (sip_after c n (sip_of k))) (sip_key2 (sip_after c n (sip_of k))) (sip_iv (sip_after c n (sip_of k))) =
  published_hash c k n /\
  sip_key1 (sip_after c n (sip_of k)) = le_val (firstn 8 k) /\ sip_key2 (sip_after c n (sip_of k)) = le_val (firstn 8 (skipn 8 k)).
Proof.
  intros c k. induction n as [|n (IH & I1 & I2)].
  - cbn. auto.
  - cbn [sip_after sip_next sip_key1 sip_key2 sip_iv published_hash]. rewrite IH, I1, I2. auto.
Qed.
(** The length of the [n]th frame in each direction is hidden as published, by either side. *)
Theorem C18_published_masks : forall c ck h n len,
  let '(ab, ba) := published_keys c ck h in
  let secret := hmac c ck [] in
  fst (sip_obfuscate c (sip_after c n (sip_send (sip_initiator c secret h))) len) = N.lxor len (published_mask c ab n) /\
  fst (sip_deobfuscate c (sip_after c n (sip_recv (sip_responder c secret h))) len) = N.lxor len (published_mask c ab n) /\
  fst (sip_obfuscate c (sip_after c n (sip_send (sip_responder c secret h))) len) = N.lxor len (published_mask c ba n) /\
  fst (sip_deobfuscate c (sip_after c n (sip_recv (sip_initiator c secret h))) len) = N.lxor len (published_mask c ba n).
Proof.
  intros c ck h n len. unfold published_keys, hkdf. cbn [fst app].
  unfold sip_initiator, sip_responder, sip_derive. cbn [sip_send sip_recv].
  unfold sip_obfuscate, sip_deobfuscate, sip_mask, published_mask. cbn [fst].
  change ascii_ask with (text "ask"%string). change ascii_siphash with (text "siphash"%string).
  match goal with |- context [sip_of ?x] => pose proof (mask_after c x n) as (E1 & _ & _) end.
  rewrite E1. change 65535 with (N.ones 16). rewrite !N.land_ones.
  match goal with |- context [sip_after c n (sip_of ?y)] => pose proof (mask_after c y n) as (E2 & _ & _) end.
  rewrite E2. repeat split; reflexivity.
Qed.
Print Assumptions C18_published_masks.
Example C18_published_example :
  published_mask toy_crypt (fst (published_keys toy_crypt [1; 2] [3])) 2 =
  sip_mask toy_crypt (sip_after toy_crypt 2 (sip_send (sip_initiator toy_crypt (hmac toy_crypt [1; 2] []) [3]))).
Proof. vm_compute. reflexivity. Qed.
