(** The keys an SSU2 session ends up with (C60), the masks of long headers, and which dial a
    datagram is taken for (C65), compared with what is published. *)
From Coq Require Import String List NArith Bool Arith Lia.
From Verif Require Import ListUtil Bytes NMap PrimModel PrimSpec I2npModel EncModel NoiseModel Ntcp2Model Ssu2Model
  RouteProofs HandshakeModel Ssu2HsModel EncSpec EncProofs EncProps2.
Import ListNotations.
Open Scope list_scope.
Open Scope N_scope.

(** RFC 5869 with two outputs, over any HMAC. *)
Definition hkdf2 (hmac : bytes -> bytes -> bytes) (salt ikm info : bytes) : bytes * bytes :=
  let prk := hmac salt ikm in
  let o1 := hmac prk (info ++ [1]) in
  (o1, hmac prk (o1 ++ info ++ [2])).

(** Both directions' keys come from the chaining key, and from each of them the data key and the
    header key of that direction; the keys that mask the headers of SessionCreated and
    SessionConfirmed have labels of their own.  NTCP2 uses the first derivation alone (C57). *)
Theorem C60_published_keys : forall c n,
  let h := hkdf2 (x_hmac (h_ops c)) in
  (let '(_, ab, ba) := data_keys c n in (ab, ba)) = h (n_ck n) [] [] /\
  (forall k, direction_keys c k = h k [] (text "HKDFSSU2DataKeys")) /\
  header_key c n "SessCreateHeader" = fst (h (n_ck n) [] (text "SessCreateHeader")) /\
  header_key c n "SessionConfirmed" = fst (h (n_ck n) [] (text "SessionConfirmed")).
Proof.
  intros c n h. unfold h, hkdf2, data_keys, direction_keys, header_key, hmac_of. cbn [fst].
  split; [reflexivity|]. split; [intros k; reflexivity|]. split; reflexivity.
Qed.
Print Assumptions C60_published_keys.

(** The part of a header behind the first 16 bytes is masked with a nonce of twelve zeroes and
    nothing else is touched; masking again, as the receiver does, gives the header back. *)
Theorem C60_rest_of_header : forall (ks : bytes -> bytes -> nat -> bytes) key header, (forall k iv len, length (ks k iv len) = len) -> (16 <= length header)%nat ->
  firstn 16 (mask_rest ks key header) = firstn 16 header /\
  skipn 16 (mask_rest ks key header) =
    xor8 (ks key [0; 0; 0; 0; 0; 0; 0; 0; 0; 0; 0; 0] (length header - 16)%nat) (skipn 16 header) /\
  forall more, unmask_tail ks key (length header) (mask_rest ks key header ++ more) =
    Ok (mask_at 16 (ks key [0; 0; 0; 0; 0; 0; 0; 0; 0; 0; 0; 0] (length header - 16)%nat) (mask_rest ks key header ++ more)).
Proof.
  intros ks key header hk hl. unfold mask_rest, mask_at.
  assert (L : length (firstn 16 header) = 16%nat) by (rewrite firstn_length; lia).
  split; [rewrite firstn_app, L, Nat.sub_diag, firstn_all2, firstn_O, app_nil_r by lia; reflexivity|].
  split; [rewrite skipn_app, L, Nat.sub_diag, skipn_all2 by lia; reflexivity|].
  intros more. unfold unmask_tail. fold (mask_at 16 (ks key zero_iv (length header - 16)%nat) header).
  assert (M : length header = length (mask_at 16 (ks key zero_iv (length header - 16)%nat) header)).
  { unfold mask_at. rewrite app_length, L.
    assert (X : length (xor8 (ks key zero_iv (length header - 16)%nat) (skipn 16 header)) = (length header - 16)%nat).
    { assert (Y : forall a b, length a = length b -> length (xor8 a b) = length b).
      { clear. induction a as [|x a IH]; intros [|y b] h; cbn in *; try discriminate h; [reflexivity|].
        f_equal. apply IH. congruence. }
      rewrite Y; rewrite ?hk, skipn_length; lia. }
    lia. }
  rewrite app_length, <- M.
  destruct (Nat.ltb_spec (length header + length more) (length header)); [lia | reflexivity].
Qed.
Print Assumptions C60_rest_of_header.
Example C60_rest_of_header_ex : (forall k iv len, length ((fun (_ _ : bytes) n => repeat 7 n) k iv len) = len) /\
  mask_rest (fun _ _ n => repeat 7 n) [] (repeat 1 18) = repeat 1 16 ++ [6; 6].
Proof. split; [intros k iv len; apply repeat_length | reflexivity]. Qed.

(** A datagram that answers no session is taken for a dial only if it comes from the very host and
    port that were dialed. *)
Theorem C65_host_and_port : forall a l key, lookup_addr a l = Some key -> In (a, key) l.
Proof.
  intros a l key h. unfold lookup_addr in h. destruct (find _ l) as [[b k]|] eqn:e; [|discriminate h].
  injection h as <-. apply find_some in e as [e1 e2]. cbn [fst] in e2. unfold addr_eqb in e2.
  apply andb_true_iff in e2 as [e2 e3]. apply beq_eq in e2. apply N.eqb_eq in e3.
  destruct a as [h1 p1], b as [h2 p2]. cbn in *. subst. exact e1.
Qed.
Print Assumptions C65_host_and_port.
Example C65_host_and_port_ex :
  lookup_addr ([10; 0; 0; 1], 80) [(([10; 0; 0; 1], 81), [1]); (([10; 0; 0; 2], 80), [2]); (([10; 0; 0; 1], 80), [3])] = Some [3].
Proof. reflexivity. Qed.

(** What a router publishes is what a dial uses: the options "s" and "i" of its addresses, in
    base 64. *)
Theorem C60_published_options : forall r a, rf_ssu2 r = Some a ->
  forall key, bytes_ok key -> length key = 32%nat ->
  (mget (text "i") (ra_options a) = Some (base64_encode key) -> ssu2_intro_key r = Some key) /\
  (mget (text "s") (ra_options a) = Some (base64_encode key) -> ssu2_static_key r = Some key).
Proof.
  intros r a ha key hb hl. unfold ssu2_intro_key, ssu2_static_key, ssu2_key. rewrite ha.
  change s_key_i with (text "i"). change s_key_s with (text "s").
  assert (P : public_from key = Some key) by (unfold public_from; rewrite hl; reflexivity).
  split; intros ->; rewrite base64_round by exact hb; exact P.
Qed.
Print Assumptions C60_published_options.
Theorem C57_published_options : forall r a, rf_ntcp2 r = Some a ->
  (forall key, bytes_ok key -> length key = 32%nat ->
     mget (text "s") (ra_options a) = Some (base64_encode key) -> ntcp2_static_key r = Some key) /\
  (forall iv, bytes_ok iv -> length iv = 16%nat ->
     mget (text "i") (ra_options a) = Some (base64_encode iv) -> ntcp2_iv r = Some iv).
Proof.
  intros r a ha. unfold ntcp2_static_key, ntcp2_iv. rewrite ha.
  change s_key_i with (text "i"). change s_key_s with (text "s"). split.
  - intros key hb hl ->. rewrite base64_round by exact hb. unfold public_from. rewrite hl. reflexivity.
  - intros iv hb hl ->. rewrite base64_round by exact hb. rewrite hl. reflexivity.
Qed.
Print Assumptions C57_published_options.
Example C57_published_options_ex :
  bytes_ok (repeat 7 16) /\ mget (text "i") [(text "i", base64_encode (repeat 7 16))] = Some (base64_encode (repeat 7 16)).
Proof. split; [repeat constructor | reflexivity]. Qed.
