(** Proofs about building a tunnel: the layers put on and taken off the build records. *)
From Coq Require Import List NArith Bool Arith Lia ZifyBool ZifyNat ZifyN.
From Verif Require Import ListUtil Bytes NMap PrimModel I2npModel I2npSpec I2npProofs GarlicModel GarlicProofs TunnelModel TunnelProofs
  NoiseModel RouteModel RouteProofs TransitModel TransitSpec TransitProofs TransitProofs2 TransitProofs3 BuildModel BuildSpec.
Import ListNotations.
Open Scope N_scope.

Definition all218 (l : list bytes) : Prop := Forall (fun r : bytes => length r = 218%nat) l.

(** ** The key stream *)
Lemma xor_invol a : forall b, length b = length a -> xor_bytes (xor_bytes a b) b = a.
Proof.
  induction a as [|x a IH]; intros [|y b] H; cbn in *; try lia; [reflexivity|].
  rewrite IH by lia. now rewrite N.lxor_assoc, N.lxor_nilpotent, N.lxor_0_r.
Qed.
Lemma xor_swap a : forall b d, length b = length a -> length d = length a ->
  xor_bytes (xor_bytes a b) d = xor_bytes (xor_bytes a d) b.
Proof.
  induction a as [|x a IH]; intros [|y b] [|z d] H H'; cbn in *; try lia; [reflexivity|].
  rewrite (IH b d) by lia. f_equal. rewrite !N.lxor_assoc. f_equal. apply N.lxor_comm.
Qed.

Section Proofs.
Variable c : ops.
Hypothesis laws : crypto_laws c.
Let sizes : crypto_sizes c := proj1 laws.

Lemma chacha_invol k n r : chacha c k n (chacha c k n r) = r.
Proof.
  unfold chacha at 1. rewrite (chacha_length c k n r sizes). unfold chacha. apply xor_invol. apply sizes.
Qed.
Lemma chacha_swap k k' n n' r : chacha c k n (chacha c k' n' r) = chacha c k' n' (chacha c k n r).
Proof.
  unfold chacha at 1. rewrite (chacha_length c k' n' r sizes). unfold chacha at 2.
  rewrite (chacha_length c k n r sizes). unfold chacha. apply xor_swap; apply sizes.
Qed.

(** ** Putting on the layers *)
Fixpoint lay (i : nat) (hs : list thop) (j : nat) (r : bytes) : bytes :=
  match hs with
  | [] => r
  | h :: t => lay (S i) t j (if Nat.ltb i j then chacha c (k_reply (th_keys h)) (N.of_nat j) r else r)
  end.
Lemma lay_swap k hs : forall i j r,
  lay i hs j (chacha c k (N.of_nat j) r) = chacha c k (N.of_nat j) (lay i hs j r).
Proof.
  induction hs as [|h t IH]; intros i j r; cbn [lay]; [reflexivity|].
  destruct (Nat.ltb i j); [|apply IH]. rewrite chacha_swap. apply IH.
Qed.
Lemma lay_low hs : forall i j r, (j <= i)%nat -> lay i hs j r = r.
Proof.
  induction hs as [|h t IH]; intros i j r H; cbn [lay]; [reflexivity|].
  destruct (Nat.ltb_spec i j); [lia|]. apply IH. lia.
Qed.
Lemma layer_length hs : forall i recs, length (layer c i hs recs) = length recs.
Proof. induction hs as [|h t IH]; intros i recs; cbn [layer]; [reflexivity|]. now rewrite IH, map_from_length. Qed.
Lemma layer_218 hs : forall i recs, all218 recs -> all218 (layer c i hs recs).
Proof.
  induction hs as [|h t IH]; intros i recs H; cbn [layer]; [exact H|]. apply IH.
  eapply map_from_forall; [exact H|]. intros j r Hr. cbn beta in *. destruct (Nat.ltb i j); [|exact Hr].
  rewrite chacha_length; auto.
Qed.
Lemma layer_nth hs : forall i recs j, (j < length recs)%nat ->
  nth j (layer c i hs recs) [] = lay i hs j (nth j recs []).
Proof.
  induction hs as [|h t IH]; intros i recs j H; cbn [layer lay]; [reflexivity|].
  rewrite IH by (now rewrite map_from_length). rewrite (map_from_nth _ _ _ _ [] []) by exact H. reflexivity.
Qed.

(** ** What the hops do, and taking the layers off again *)
Definition hopf (i : nat) (k : keys) (st : bytes) (a : bool) (S : list bytes) : list bytes :=
  encrypt_records c k st i (set_record i (answer 201 a) S).
Fixpoint pass (i : nat) (hs : list thop) (as_ : list bool) (S : list bytes) : list bytes :=
  match hs, as_ with
  | h :: t, a :: at_ => pass (Datatypes.S i) t at_ (hopf i (th_keys h) (th_state h) a S)
  | _, _ => S
  end.

Lemma hopf_length i k st a S : length (hopf i k st a S) = length S.
Proof. unfold hopf, encrypt_records, set_record. now rewrite !map_from_length. Qed.
Lemma hopf_218 i k st a S : all218 S -> all218 (hopf i k st a S).
Proof.
  intro H. unfold hopf. apply encrypt_records_forall; [exact sizes|]. apply set_record_forall; [exact H|].
  intros r Hr. rewrite answer_length; rewrite Hr; lia.
Qed.
Lemma hopf_nth i k st a S j : (j < length S)%nat ->
  nth j (hopf i k st a S) [] =
  (if Nat.eqb j i then x_seal c (k_reply k) (N.of_nat j) st (firstn 202 (answer 201 a (nth j S [])))
   else chacha c (k_reply k) (N.of_nat j) (nth j S [])).
Proof.
  intro H. unfold hopf, encrypt_records. rewrite (map_from_nth _ _ _ _ [] []) by (unfold set_record; now rewrite map_from_length).
  cbn [Nat.add]. unfold set_record. rewrite (map_from_nth _ _ _ _ [] []) by exact H. cbn [Nat.add].
  destruct (Nat.eqb j i); reflexivity.
Qed.
Lemma pass_length hs : forall i as_ S, length (pass i hs as_ S) = length S.
Proof.
  induction hs as [|h t IH]; intros i [|a at_] S; cbn [pass]; try reflexivity. now rewrite IH, hopf_length.
Qed.
Lemma pass_218 hs : forall i as_ S, all218 S -> all218 (pass i hs as_ S).
Proof.
  induction hs as [|h t IH]; intros i [|a at_] S H; cbn [pass]; auto. apply IH, hopf_218, H.
Qed.

Lemma nth_set_byte i x l d : (i < length l)%nat -> nth i (set_byte i x l) d = x.
Proof.
  intro H. unfold set_byte. rewrite app_nth2; rewrite firstn_length; [|lia].
  replace (i - Nat.min i (length l))%nat with 0%nat by lia. reflexivity.
Qed.
Lemma nth_firstn (l : bytes) n j d : (j < n)%nat -> nth j (firstn n l) d = nth j l d.
Proof.
  revert l j. induction n as [|n IH]; intros l j H; [lia|]. destruct l, j; cbn; try reflexivity. apply IH. lia.
Qed.
Lemma status_byte a r : length r = 218%nat -> nth 201 (firstn 202 (answer 201 a r)) 0 = if a then 0 else 30.
Proof.
  intro H. rewrite nth_firstn by lia. unfold answer. rewrite nth_set_byte; [reflexivity|].
  rewrite !set_byte_length; rewrite ?set_byte_length; lia.
Qed.

Definition verdict_of (a : bool) : option hop_result := Some (if a then HAccepted else HRejected 30).

Lemma unwind hs : forall i as_ S P,
  length as_ = length hs -> all218 S -> (i + length hs <= length S)%nat -> length P = length S ->
  (forall j, (j < i + length hs)%nat -> nth j P [] = nth j (pass i hs as_ S) []) ->
  exists Q, process c i hs P = (Some Q, map verdict_of as_) /\ length Q = length S /\
    (forall j, (j < i)%nat -> nth j Q [] = nth j S []).
Proof.
  induction hs as [|h t IH]; intros i [|a at_] S P La HS Hl LP HP; cbn [length] in *; try lia.
  - exists P. cbn [process map]. split; [reflexivity|]. split; [exact LP|]. intros j Hj. apply HP. lia.
  - cbn [pass] in HP.
    destruct (IH (Datatypes.S i) at_ (hopf i (th_keys h) (th_state h) a S) P) as (Q & E & LQ & HQ).
    + lia.
    + apply hopf_218, HS.
    + rewrite hopf_length. lia.
    + now rewrite hopf_length.
    + intros j Hj. apply HP. lia.
    + rewrite hopf_length in LQ. cbn [process]. rewrite E.
      rewrite HQ by lia. rewrite hopf_nth by lia. rewrite Nat.eqb_refl.
      rewrite (proj1 (proj2 (proj2 laws))). cbv zeta.
      assert (Hi : length (nth i S []) = 218%nat).
      { unfold all218 in HS. rewrite Forall_forall in HS. apply HS, nth_In. lia. }
      rewrite (status_byte a _ Hi).
      eexists. split; [|split].
      * cbn [map]. f_equal. f_equal. unfold verdict_of. now destruct a.
      * now rewrite map_from_length.
      * intros j Hj. rewrite (map_from_nth _ _ _ _ [] []) by lia. cbn [Nat.add].
        destruct (Nat.eqb_spec j i); [lia|]. rewrite HQ by lia. rewrite hopf_nth by lia.
        destruct (Nat.eqb_spec j i); [lia|]. apply chacha_invol.
Qed.

(** ** The record made for a hop, and what the hop reads in it *)
Lemma session_agree h n r :
  x_pub c (no_priv n) = hi_static h ->
  let o := create_outbound c (hi_static h) (hi_eph h) r in
  let s := create_inbound c n (x_pub c (hi_eph h)) in
  i_aead s = o_aead o /\ i_state s = o_state o /\ new_keys c (i_ck s) r = o_keys o.
Proof.
  intros E. cbv zeta. unfold create_outbound, create_inbound. rewrite <- E.
  rewrite (proj1 (proj2 laws) (hi_eph h) (no_priv n)).
  destruct (session_keys c _) as [ck aead]. cbn. auto.
Qed.

Lemma ser_record_length b t x pad : hash_ok (br_next_router b) -> length pad = 96%nat ->
  length (ser_short_record b t x pad) = 154%nat.
Proof.
  intros H Hp. unfold ser_short_record. rewrite !app_length, !be_bytes_length, H, Hp. reflexivity.
Qed.

Definition next_of (t : list hin) (gateway : N) (router : bytes) : N * bytes :=
  match t with h' :: _ => (hi_id h', hi_hash h') | [] => (gateway, router) end.

Lemma find_index_first (A : Type) (f : A -> bool) (d : A) l : forall i, (i < length l)%nat -> f (nth i l d) = true ->
  (forall j, (j < i)%nat -> f (nth j l d) = false) -> find_index f l = Some i.
Proof.
  induction l as [|x l IH]; intros i H T F; cbn in *; [lia|].
  destruct i as [|i]; [now rewrite T|].
  rewrite (F 0%nat) by lia. rewrite (IH i) by (auto; try lia; intros j Hj; apply (F (S j)); lia). reflexivity.
Qed.

Lemma beq_false a b : a <> b -> beq a b = false.
Proof. intro H. destruct (beq a b) eqn:E; [|reflexivity]. apply beq_eq in E. contradiction. Qed.

Lemma nth_concat (rs : list bytes) : all218 rs -> forall j, (j < length rs)%nat ->
  firstn 218 (skipn (218 * j) (concat rs)) = nth j rs [].
Proof.
  unfold all218. induction 1 as [|r rs Hr H IH]; intros j Hj; cbn [length] in Hj; [lia|].
  destruct j as [|j]; cbn [concat nth].
  - rewrite Nat.mul_0_r. cbn [skipn]. rewrite <- Hr. apply firstn_exact.
  - replace (218 * S j)%nat with (length r + 218 * j)%nat by lia.
    rewrite <- skipn_add, skipn_exact. apply IH. lia.
Qed.

Definition records_of (msg : message) (b : N) (S : list bytes) : Prop := m_payload msg = b :: concat S.

Lemma own_record msg b S i hash :
  records_of msg b S -> all218 S -> (i < length S)%nat ->
  firstn 16 (nth i S []) = firstn 16 hash ->
  (forall j, (j < i)%nat -> firstn 16 (firstn 218 (skipn (1 + 218 * j) (m_payload msg))) <> firstn 16 hash) ->
  find_local SHORT_LEN hash (m_payload msg) = Some i /\ chunks SHORT_LEN (skipn 1 (m_payload msg)) = S.
Proof.
  intros R HS Hi Hh Hc. unfold records_of in R.
  assert (E1 : skipn 1 (m_payload msg) = concat S) by (now rewrite R).
  assert (C : chunks SHORT_LEN (concat S) = S) by (apply chunks_records; [unfold SHORT_LEN; lia | exact HS]).
  assert (L : length (m_payload msg) = (1 + length S * 218)%nat).
  { rewrite R. cbn [length]. rewrite (concat_length 218) by exact HS. reflexivity. }
  split; [|now rewrite E1]. unfold find_local. rewrite E1, C, L.
  replace (1 + length S * 218 - 1)%nat with (length S * 218)%nat by lia.
  unfold SHORT_LEN. rewrite Nat.mod_mul by lia. rewrite Nat.eqb_refl.
  destruct (Nat.ltb_spec 218 (1 + length S * 218)); [|lia]. cbn [andb].
  apply (find_index_first _ _ []); [exact Hi | now rewrite Hh, beq_refl |].
  intros j Hj. apply beq_false. specialize (Hc j Hj). rewrite R in Hc.
  change (1 + 218 * j)%nat with (Datatypes.S (218 * j)) in Hc. cbn [skipn] in Hc.
  rewrite nth_concat in Hc by (auto; lia). exact Hc.
Qed.
End Proofs.
