(** Sizes and layered encryption. *)
From Coq Require Import List NArith Bool Arith Lia ZArith ZifyBool ZifyNat ZifyN.
From Verif Require Import ListUtil Bytes NMap PrimModel EncModel I2npModel I2npSpec I2npProofs
  TunnelModel TunnelSpec TunnelProofs TunnelProofs2.
Import ListNotations.
Open Scope N_scope.

Section Len.
Variable e : ext.
Hypothesis Hsha : forall b, (4 <= length (sha256 e b))%nat.

Lemma td_serialize_length t iv r di ps m p :
  length iv = 16%nat -> (length m <= ps <= 1000)%nat ->
  (forall q, p = Some q -> length q = 1028%nat) ->
  length (td_serialize e t iv r di ps m p) =
    (27 + length di + match p with Some _ => ps | None => length m end)%nat.
Proof.
  intros Hiv Hm Hp. unfold td_serialize. rewrite !app_length, !be_bytes_length.
  rewrite (td_checksum_length e Hsha). cbn [length]. destruct p as [q|]; cbn [length]; [|lia].
  rewrite firstn_length, skipn_length, (Hp q eq_refl).
  set (off := N.to_nat (r mod N.of_nat (1028 - (ps - length m)))).
  assert (off < 1028 - (ps - length m))%nat.
  { unfold off. assert (r mod N.of_nat (1028 - (ps - length m)) < N.of_nat (1028 - (ps - length m))) by (apply N.mod_lt; lia). lia. }
  lia.
Qed.

Lemma delivery_ser_len d : target_ok d ->
  length (ser_kind (KUnfragmented d)) = delivery_len d /\
  forall m, length (ser_kind (KFirst m d)) = (delivery_len d + 4)%nat.
Proof.
  intros H. destruct d; cbn [ser_kind delivery_len target_ok] in *; unfold hash_ok in *;
    split; intros; rewrite ?app_length, ?be_bytes_length; cbn [length]; lia.
Qed.

Lemma wires_1028 s : sent_ok s -> Forall (fun w => length w = 1028%nat) (wires e s).
Proof.
  intros Hok. pose proof (tails_count e Hsha s Hok) as Htc.
  pose proof (delivery_len_le e Hsha (s_to s)) as Hdl. pose proof (body_length e s) as Lb.
  destruct Hok as (_ & _ & _ & Hpl & Hmax & Ht & _ & _ & Hiv & Lpad & Hpad).
  destruct (delivery_ser_len (s_to s) Ht) as [Lu Lf].
  assert (Hp : forall q, Some (s_pad s) = Some q -> length q = 1028%nat) by (intros q Hq; assert (s_pad s = q) as <- by congruence; exact Lpad).
  unfold wires, td_build. fold (body e s). cbv zeta.
  destruct (Nat.leb_spec (length (body e s)) (1001 - delivery_len (s_to s))) as [Hle|Hgt].
  - constructor; [|constructor]. destruct (Nat.eqb_spec (1001 - delivery_len (s_to s)) (length (body e s))).
    + rewrite td_serialize_length; auto; try discriminate; lia.
    + rewrite td_serialize_length; auto; lia.
  - assert (Lh : length (firstn (1001 - delivery_len (s_to s) - 4) (body e s)) = (1001 - delivery_len (s_to s) - 4)%nat)
      by (apply firstn_length_le; lia).
    constructor.
    + rewrite td_serialize_length; auto; try discriminate; [|lia]. rewrite Lf, Lh. lia.
    + apply Forall_forall. intros w Hw. fold (head_len s) in Hw. fold (tails e s) in Hw.
      apply (In_nth _ _ []) in Hw as (i & Hi & <-). rewrite mapi_length in Hi.
      rewrite (mapi_nth _ (tails e s) 0 i [] [] Hi). cbn [Nat.add].
      destruct (chunks_lengths 996 (skipn (head_len s) (body e s)) i ltac:(lia) Hi) as [Hc Hfull].
      fold (tails e s) in Hc, Hfull. unfold td_follow_on. rewrite Nat.add_1_r.
      destruct (Nat.eqb_spec (S i) (length (tails e s))).
      * rewrite td_serialize_length by (auto; lia). cbn [ser_kind]. rewrite app_length, be_bytes_length. cbn [length]. lia.
      * rewrite td_serialize_length by (auto; first [discriminate | lia]). cbn [ser_kind].
        rewrite app_length, be_bytes_length. cbn [length]. rewrite Hfull by lia. lia.
Qed.
End Len.

(** ** Layers *)
Section Layers.
Variable c : aes.
Hypothesis Hc : aes_ok c.

Definition good (x : bytes * bytes) : Prop := length (fst x) = 16%nat /\ length (snd x) = 1008%nat.
Lemma good16 (d : bytes) : length d = 1008%nat -> exists n, length d = (16 * n)%nat.
Proof. intros ->. now exists 63%nat. Qed.

Lemma hop_encrypt_good x k : good x -> good (hop_encrypt c x k).
Proof.
  intros [H1 H2]. unfold hop_encrypt, good. cbn [fst snd]. destruct Hc as [He Hd].
  pose proof (He (iv_key k) (fst x) H1) as (L1 & _).
  split; [apply He; exact L1|]. destruct (Hd (layer_key k) _ (snd x) L1 (good16 _ H2)) as (L & _). lia.
Qed.
Lemma hop_decrypt_good x k : good x -> good (hop_decrypt c x k).
Proof.
  intros [H1 H2]. unfold hop_decrypt, good. cbn [fst snd]. destruct Hc as [He Hd].
  pose proof (He (iv_key k) (fst x) H1) as (_ & L1 & _).
  split; [apply He; exact L1|]. destruct (Hd (layer_key k) _ (snd x) L1 (good16 _ H2)) as (_ & L & _). lia.
Qed.
Lemma encrypt_decrypt x k : good x -> hop_encrypt c (hop_decrypt c x k) k = x.
Proof.
  intros [H1 H2]. unfold hop_encrypt, hop_decrypt. cbn [fst snd]. destruct Hc as [He Hd].
  destruct (He (iv_key k) (fst x) H1) as (_ & L1 & _ & E1).
  destruct (He (iv_key k) (ecb_dec c (iv_key k) (fst x)) L1) as (_ & _ & _ & E2). rewrite E2, E1.
  destruct (Hd (layer_key k) _ (snd x) L1 (good16 _ H2)) as (_ & _ & _ & ->). now destruct x.
Qed.
Lemma decrypt_encrypt x k : good x -> hop_decrypt c (hop_encrypt c x k) k = x.
Proof.
  intros [H1 H2]. unfold hop_encrypt, hop_decrypt. cbn [fst snd]. destruct Hc as [He Hd].
  destruct (He (iv_key k) (fst x) H1) as (L1 & _ & E1 & _).
  destruct (He (iv_key k) (ecb_enc c (iv_key k) (fst x)) L1) as (_ & _ & E2 & _). rewrite E2, E1.
  destruct (Hd (layer_key k) _ (snd x) L1 (good16 _ H2)) as (_ & _ & -> & _). now destruct x.
Qed.

Lemma fold_good (f : bytes * bytes -> hop_keys -> bytes * bytes) ks : (forall x k, good x -> good (f x k)) -> forall x, good x -> good (fold_left f ks x).
Proof. intros Hf. induction ks; intros x Hx; cbn [fold_left]; auto. Qed.

Lemma peel ks : forall x, good x -> fold_left (hop_encrypt c) ks (fold_left (hop_decrypt c) (rev ks) x) = x.
Proof.
  induction ks as [|k ks IH]; intros x Hx; [reflexivity|]. cbn [rev fold_left].
  rewrite fold_left_app. cbn [fold_left].
  rewrite encrypt_decrypt by (apply fold_good; auto using hop_decrypt_good). now apply IH.
Qed.
Lemma unpeel ks : forall x, good x -> fold_left (hop_decrypt c) (rev ks) (fold_left (hop_encrypt c) ks x) = x.
Proof.
  induction ks as [|k ks IH]; intros x Hx; [reflexivity|]. cbn [rev fold_left].
  rewrite fold_left_app. cbn [fold_left]. rewrite IH by (now apply hop_encrypt_good).
  now apply decrypt_encrypt.
Qed.

Lemma etd_parse_ok t iv ct : length t = 4%nat -> length iv = 16%nat -> length ct = 1008%nat ->
  etd_parse (t ++ iv ++ ct) = Some (be_val t, iv, ct, []).
Proof.
  intros Ht Hi Hl. unfold etd_parse.
  erewrite bind_step. 2:{ unfold be_uint. rewrite take_app by exact Ht. reflexivity. }
  cbv beta. pstep ltac:(apply take_app; exact Hi). pstep ltac:(apply take_all; exact Hl). reflexivity.
Qed.

Lemma relay_ok parts : forall t x, length t = 4%nat -> good x ->
  exists t', length t' = 4%nat /\
    relay c parts (t ++ fst x ++ snd x) =
      Some (t' ++ fst (fold_left (hop_encrypt c) (map fst parts) x) ++ snd (fold_left (hop_encrypt c) (map fst parts) x)).
Proof.
  induction parts as [|[k next] parts IH]; intros t x Ht Hx; cbn [relay map fold_left fst].
  - now exists t.
  - unfold participant. rewrite (etd_parse_ok t (fst x) (snd x) Ht (proj1 Hx) (proj2 Hx)).
    rewrite <- surjective_pairing. pose proof (hop_encrypt_good x k Hx) as Hg.
    destruct (hop_encrypt c x k) as [iv' ct'] eqn:E. 
    apply (IH (be_bytes 4 next) (iv', ct') (be_bytes_length 4 next) Hg).
Qed.

Lemma split_1028 (w : bytes) : length w = 1028%nat ->
  w = firstn 4 w ++ firstn 16 (skipn 4 w) ++ skipn 20 w /\ length (firstn 4 w) = 4%nat /\
  good (firstn 16 (skipn 4 w), skipn 20 w).
Proof.
  intros H. repeat apply conj; cbn [fst snd].
  - change 20%nat with (4 + 16)%nat. rewrite <- skipn_add, firstn_skipn. now rewrite firstn_skipn.
  - apply firstn_length_le. lia.
  - rewrite firstn_length_le; [reflexivity|]. rewrite skipn_length. lia.
  - rewrite skipn_length. lia.
Qed.

Lemma outbound_layers e parts last h w : length w = 1028%nat ->
  outbound_tunnel e c parts last h w = clear_endpoint e h w.
Proof.
  intros Hw. destruct (split_1028 w Hw) as (_ & Ht & Hg). unfold outbound_tunnel, outbound_prepare.
  set (x := (firstn 16 (skipn 4 w), skipn 20 w)) in *.
  assert (Hy : good (fold_left (hop_decrypt c) (rev (map fst parts ++ [last])) x)) by (apply fold_good; auto using hop_decrypt_good).
  destruct (fold_left (hop_decrypt c) (rev (map fst parts ++ [last])) x) as [iv ct] eqn:E.
  destruct (relay_ok parts (firstn 4 w) (iv, ct) Ht Hy) as (t' & Ht' & R). cbn [fst snd] in R. rewrite R.
  unfold outbound_endpoint.
  pose proof (fold_good (hop_encrypt c) (map fst parts) hop_encrypt_good (iv, ct) Hy) as [G1 G2].
  rewrite (etd_parse_ok t' _ _ Ht' G1 G2). rewrite <- surjective_pairing.
  assert (P : hop_encrypt c (fold_left (hop_encrypt c) (map fst parts) (iv, ct)) last = x).
  { rewrite <- (peel (map fst parts ++ [last]) x Hg), E, fold_left_app. reflexivity. }
  rewrite P. reflexivity.
Qed.

Lemma inbound_layers e first parts h w : length w = 1028%nat ->
  inbound_tunnel e c first parts h (inbound_gateway c first w) = clear_endpoint e h w.
Proof.
  intros Hw. destruct (split_1028 w Hw) as (_ & Ht & Hg). unfold inbound_tunnel, inbound_gateway.
  set (x := (firstn 16 (skipn 4 w), skipn 20 w)) in *.
  pose proof (hop_encrypt_good x first Hg) as Hy.
  destruct (hop_encrypt c x first) as [iv ct] eqn:E.
  destruct (relay_ok parts (firstn 4 w) (iv, ct) Ht Hy) as (t' & Ht' & R). cbn [fst snd] in R. rewrite R.
  unfold inbound_endpoint.
  pose proof (fold_good (hop_encrypt c) (map fst parts) hop_encrypt_good (iv, ct) Hy) as [G1 G2].
  rewrite (etd_parse_ok t' _ _ Ht' G1 G2). rewrite <- surjective_pairing.
  assert (P : fold_left (hop_decrypt c) (rev (first :: map fst parts)) (fold_left (hop_encrypt c) (map fst parts) (iv, ct)) = x).
  { rewrite <- E. change (fold_left (hop_encrypt c) (map fst parts) (hop_encrypt c x first)) with
      (fold_left (hop_encrypt c) (first :: map fst parts) x). now apply unpeel. }
  rewrite P. reflexivity.
Qed.
End Layers.

Lemma receive_by_ext f g ws : forall h,
  (forall h w, In w ws -> f h w = g h w) -> receive_by f h ws = receive_by g h ws.
Proof.
  induction ws as [|w ws IH]; intros h H; [reflexivity|]. cbn [receive_by].
  rewrite (H h w) by (now left). destruct (g h w) as [[h' o]|]; [|reflexivity].
  rewrite (IH h') by (intros; apply H; now right). reflexivity.
Qed.
