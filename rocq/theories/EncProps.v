(** Property theorems C30 (base64/base32), C41 (I2CP payload envelope), C31 (datagrams), C45
    (SAM datagram commands). *)
From Coq Require Import List NArith Bool Arith Lia ZifyBool ZifyNat ZifyN.
From Verif Require Import ListUtil Bytes PrimModel PrimSpec PrimProofs PrimProps EncModel EncSpec EncProofs.
From Verif Require Import PacketProps.
Import ListNotations.
Open Scope N_scope.

(** ** C30 *)
Theorem C30_base64_roundtrip : forall l, bytes_ok l -> base64_decode (base64_encode l) = Some l.
Proof. exact base64_round. Qed.
Print Assumptions C30_base64_roundtrip.

Theorem C30_base32_roundtrip : forall l, bytes_ok l -> base32_decode (base32_encode l) = Some l.
Proof. exact base32_round. Qed.
Print Assumptions C30_base32_roundtrip.

Theorem C30_encodings_injective :
  forall a b, bytes_ok a -> bytes_ok b ->
    (base64_encode a = base64_encode b -> a = b) /\ (base32_encode a = base32_encode b -> a = b).
Proof.
  intros a b Ha Hb. split; intros E.
  - apply base64_round in Ha, Hb. congruence.
  - apply base32_round in Ha, Hb. congruence.
Qed.
Print Assumptions C30_encodings_injective.

(** A base32 name has exactly one spelling. *)
Theorem C30_base32_canonical :
  forall s l, base32_decode s = Some l -> base32_encode l = s /\ bytes_ok l.
Proof. exact base32_canonical. Qed.
Print Assumptions C30_base32_canonical.

(** A router id, stored as text, always converts back to the bytes it was made from: the
    [expect] in the conversion cannot fail. *)
Theorem C30_router_id_roundtrip :
  forall raw, bytes_ok raw -> router_id_to_vec (router_id_from raw) = Some raw.
Proof. exact base64_round. Qed.
Print Assumptions C30_router_id_roundtrip.

(** Base64 text only contains the alphabet and the padding character: in particular it never
    contains a space or a line break, so it can be embedded in a SAM line. *)
Theorem C30_base64_is_one_word :
  forall l, bytes_ok l -> ~ In 32 (base64_encode l) /\ ~ In 10 (base64_encode l).
Proof. intros l H. split; apply base64_no_char; auto. Qed.
Print Assumptions C30_base64_is_one_word.

Example C30_ex :
  base64_encode [251; 239; 190; 0; 1] = [45; 45; 45; 45; 65; 65; 69; 61] /\
  base32_encode [72; 105] = [106; 98; 117; 113] /\ base32_decode [106; 98; 117; 114] = None.
Proof. vm_compute. auto. Qed.

(** ** C41 *)
Theorem C41_envelope_roundtrip :
  forall g, gzip_ok g -> forall src dst p data w,
  src < 2 ^ 16 -> dst < 2 ^ 16 -> payload_build g src dst p data = Some (Some w) ->
  payload_decompress g w = Some (mkPayload src dst p data) /\
  payload_parameters w = Some (src, dst, p).
Proof.
  intros g Hg src dst p data w Hs Hd. unfold payload_build.
  destruct (gz_compress g data) as [c|] eqn:C; [|discriminate].
  destruct (Hg data c C) as [Lc Dc].
  destruct (Nat.ltb_spec (length c) 10) as [|_]; [lia|].
  intros H. set (w4 := set_range 4 (be_bytes 2 src) c) in *.
  set (w6 := set_range 6 (be_bytes 2 dst) w4) in *.
  assert (w = set_range 9 [protocol_u8 p] w6) as -> by congruence. clear H.
  assert (B2 : forall n, length (be_bytes 2 n) = 2%nat) by (intros; apply be_bytes_length).
  assert (L4 : length w4 = length c) by (apply set_range_length; rewrite B2; lia).
  assert (L6 : length w6 = length c).
  { rewrite <- L4. apply set_range_length. rewrite B2, L4. lia. }
  set (w := set_range 9 [protocol_u8 p] w6).
  assert (Lw : length w = length c).
  { rewrite <- L6. apply set_range_length. cbn [length]. lia. }
  assert (Nw : forall i, nth i w 0 =
    if (i =? 9)%nat then protocol_u8 p
    else if ((6 <=? i) && (i <? 8))%nat then nth (i - 6) (be_bytes 2 dst) 0
    else if ((4 <=? i) && (i <? 6))%nat then nth (i - 4) (be_bytes 2 src) 0
    else nth i c 0).
  { intros i. unfold w. rewrite set_range_nth by (cbn [length]; lia). cbn [length].
    destruct (Nat.eqb_spec i 9) as [-> |H9]; [reflexivity|].
    replace ((9 <=? i) && (i <? 9 + 1))%nat with false by lia.
    unfold w6. rewrite set_range_nth by (rewrite B2; lia). rewrite B2.
    change (6 + 2)%nat with 8%nat.
    destruct ((6 <=? i) && (i <? 8))%nat; [reflexivity|].
    unfold w4. rewrite set_range_nth by (rewrite B2; lia). rewrite B2. reflexivity. }
  assert (S : gz_decompress g w = Some data).
  { apply Dc. split; [now rewrite Lw|]. intros i H4 H9. rewrite Nw.
    replace (i =? 9)%nat with false by lia.
    replace ((6 <=? i) && (i <? 8))%nat with false by lia.
    replace ((4 <=? i) && (i <? 6))%nat with false by lia. reflexivity. }
  assert (V : forall n, n < 2 ^ 16 -> be_val [nth 0 (be_bytes 2 n) 0; nth 1 (be_bytes 2 n) 0] = n).
  { intros n Hn. assert (E : [nth 0 (be_bytes 2 n) 0; nth 1 (be_bytes 2 n) 0] = be_bytes 2 n).
    { pose proof (B2 n) as L. destruct (be_bytes 2 n) as [|x [|y [|]]]; try discriminate L.
      reflexivity. }
    rewrite E, be_val_bytes. apply N.mod_small. exact Hn. }
  unfold payload_decompress, payload_parameters.
  destruct (Nat.ltb_spec (length w) 10) as [|_]; [lia|].
  rewrite S, !two_at by lia. rewrite !Nw. cbn [Nat.eqb Nat.leb Nat.ltb andb Nat.add Nat.sub].
  rewrite protocol_round, !V by assumption. auto.
Qed.
Print Assumptions C41_envelope_roundtrip.

(** Building never panics. *)
Theorem C41_build_total :
  forall g, gzip_ok g -> forall src dst p data, payload_build g src dst p data <> Some None.
Proof.
  intros g Hg src dst p data. unfold payload_build.
  destruct (gz_compress g data) as [c|] eqn:C; [|discriminate].
  destruct (Hg data c C) as [Lc _]. destruct (Nat.ltb_spec (length c) 10); [lia|discriminate].
Qed.
Print Assumptions C41_build_total.

(** A stored-only "gzip" meets the assumption. *)
Definition toy_gzip : gzip :=
  mkGzip (fun d => Some (repeat 31 10 ++ d)) (fun w => Some (skipn 10 w)).
Lemma toy_gzip_ok : gzip_ok toy_gzip.
Proof.
  intros d c H. cbn [gz_compress toy_gzip] in H.
  assert (c = repeat 31 10 ++ d) as -> by congruence. split.
  - rewrite app_length, repeat_length. lia.
  - intros c' [L E]. cbn [gz_decompress toy_gzip]. f_equal.
    apply (nth_ext _ _ 0 0).
    + rewrite skipn_length, <- L, app_length, repeat_length. lia.
    + intros n Hn. rewrite skipn_length in Hn.
      assert (X : nth n (skipn 10 c') 0 = nth (10 + n) c' 0).
      { rewrite <- (firstn_skipn 10 c') at 2.
        assert (L10 : length (firstn 10 c') = 10%nat) by (rewrite firstn_length; lia).
        rewrite app_nth2 by lia. rewrite L10. f_equal. lia. }
      rewrite X, <- E by lia. rewrite app_nth2 by (rewrite repeat_length; lia).
      rewrite repeat_length. f_equal. lia.
Qed.
Example C41_ex :
  exists w, payload_build toy_gzip 7 65535 Anonymous [1; 2; 3] = Some (Some w) /\
    payload_decompress toy_gzip w = Some (mkPayload 7 65535 Anonymous [1; 2; 3]).
Proof.
  eexists. split; [vm_compute; reflexivity|]. vm_compute. reflexivity.
Qed.

(** ** C31 *)
(** Part of the property that holds: a datagram made by a destination is delivered with that
    destination's name and exactly the bytes sent (the receiving session having a valid PORT
    option). Missing: the signature is not checked and the ports are swapped, see below. *)
Theorem C31_delivery_partial :
  forall e, ext_ok e -> forall priv own data src dst port n,
  dest_ok e own -> bytes_ok (ser_dest own) -> parse_dec 65535 port = Some n ->
  exists info,
    on_datagram e (Some port)
      (mkPayload src dst Datagram (make_datagram e priv own data)) =
    DgDelivered n (info ++ [10] ++ data) /\
    (exists tail, info = base64_encode (ser_dest own) ++ [32] ++ tail) /\
    base64_decode (base64_encode (ser_dest own)) = Some (ser_dest own).
Proof.
  intros e He priv own data src dst port n Hd Hb Hp.
  unfold on_datagram, make_datagram. cbn [ip_protocol ip_data ip_src ip_dst].
  pstep ltac:(apply Hd).
  pstep ltac:(apply take_app; apply (sign_len _ He)).
  cbn [ret]. rewrite Hp.
  eexists (base64_encode (ser_dest own) ++ s_from_port ++ show_dec dst ++ s_to_port ++ show_dec src).
  split; [|split].
  - rewrite <- !app_assoc. reflexivity.
  - unfold s_from_port. cbn [app]. eauto.
  - now apply base64_round.
Qed.
Print Assumptions C31_delivery_partial.

(** An anonymous datagram is delivered unchanged. *)
Theorem C31_anonymous_unchanged :
  forall e data src dst port n, parse_dec 65535 port = Some n ->
  on_datagram e (Some port) (mkPayload src dst Anonymous data) = DgDelivered n data.
Proof. intros e data src dst port n H. unfold on_datagram. cbn. now rewrite H. Qed.
Print Assumptions C31_anonymous_unchanged.

(** Finding: a datagram with an invalid signature is delivered in the name of a destination
    that did not sign it. *)
Theorem C31_refuted_forged_datagram :
  exists e, ext_ok e /\ exists victim data sg n m,
    verify e (d_key victim) data sg = false /\
    on_datagram e (Some [56; 48]) (mkPayload 1 2 Datagram (ser_dest victim ++ sg ++ data)) =
      DgDelivered n (base64_encode (ser_dest victim) ++ m).
Proof.
  exists toy. split; [exact toy_ok|].
  exists toy_dest, [1; 2; 3], (repeat 0 64), 80,
    (s_from_port ++ show_dec 2 ++ s_to_port ++ show_dec 1 ++ [10; 1; 2; 3]).
  split; vm_compute; reflexivity.
Qed.
Print Assumptions C31_refuted_forged_datagram.

(** Finding: the port reported as the sender's (FROM_PORT) is the destination port. *)
Theorem C31_refuted_ports_swapped :
  exists e, ext_ok e /\ exists own data m,
    on_datagram e (Some [56; 48]) (mkPayload 1111 2222 Datagram (make_datagram e [1; 2] own data)) =
      DgDelivered 80 (base64_encode (ser_dest own) ++ s_from_port ++ [50; 50; 50; 50] ++ m).
Proof.
  exists toy. split; [exact toy_ok|].
  exists toy_dest, [5], (s_to_port ++ [49; 49; 49; 49; 10; 5]). vm_compute. reflexivity.
Qed.
Print Assumptions C31_refuted_ports_swapped.

(** ** C45 *)
Lemma position_app c a l : ~ In c a -> position c (a ++ c :: l) = Some (length a).
Proof.
  induction a as [|x a IH]; intros H; cbn [position app length].
  - now rewrite N.eqb_refl.
  - destruct (N.eqb_spec x c) as [-> |_]; [exfalso; apply H; now left|].
    rewrite IH; [reflexivity|]. intros X. apply H. now right.
Qed.
Lemma ascii_utf8 l : Forall (fun c => c < 128) l -> utf8_ok l = true.
Proof.
  induction 1 as [|c l Hc _ IH]; [reflexivity|]. cbn [utf8_ok].
  replace (c <=? 127) with true by lia. exact IH.
Qed.
Lemma base64_ascii l : bytes_ok l -> Forall (fun c => c < 128) (base64_encode l).
Proof.
  intros Hl. apply Forall_forall. intros c H. apply base64_chars in H as [H| ->]; auto; [|reflexivity].
  assert (F : forallb (fun c => c <? 128) alpha64 = true) by reflexivity.
  rewrite forallb_forall in F. specialize (F c H). lia.
Qed.

(** The header line "3.x <nickname> <destination>" of a datagram is split off exactly: session,
    destination and payload reach the router unchanged, whatever bytes the payload contains. *)
Theorem C45_datagram_command :
  forall e a b c d nick own data,
  dest_ok e own -> bytes_ok (ser_dest own) -> ~ In 32 nick -> utf8_ok nick = true ->
  dgram_parse e ([a; b; c; d] ++ nick ++ [32] ++ base64_encode (ser_dest own) ++ [10] ++ data) =
  Some (Some (nick, own, data)).
Proof.
  intros e a b c d nick own data Hd Hb Hn Hu. unfold dgram_parse. cbn [app length Nat.ltb Nat.leb skipn].
  rewrite position_app by exact Hn.
  set (name := base64_encode (ser_dest own)).
  assert (S5 : skipn (length nick + 5) (a :: b :: c :: d :: nick ++ 32 :: name ++ 10 :: data) =
               name ++ 10 :: data).
  { replace (length nick + 5)%nat with (4 + (length nick + 1))%nat by lia.
    rewrite <- skipn_add. cbn [skipn]. rewrite <- skipn_add, skipn_exact. reflexivity. }
  rewrite S5. rewrite position_app by (now apply C30_base64_is_one_word).
  rewrite firstn_exact, firstn_exact, Hu.
  unfold name at 1. rewrite ascii_utf8 by (now apply base64_ascii). cbn [andb].
  unfold name at 1. rewrite base64_round by exact Hb.
  pose proof (Hd []) as P. rewrite app_nil_r in P. rewrite P. do 3 f_equal.
  replace (length nick + length name + 6)%nat with ((length nick + 5) + (length name + 1))%nat by lia.
  rewrite <- skipn_add, S5, <- skipn_add, skipn_exact. reflexivity.
Qed.
Print Assumptions C45_datagram_command.

Theorem C42_sam_datagram_total_partial :
  forall e i, (4 <= length i)%nat -> dgram_parse e i <> None.
Proof. intros e i H. unfold dgram_parse. destruct (Nat.ltb_spec (length i) 4); [lia|discriminate]. Qed.
Print Assumptions C42_sam_datagram_total_partial.

(** Finding: a UDP datagram of less than four bytes sent to the SAM port panics the router. *)
Theorem C42_refuted_short_sam_datagram : forall e i, (length i < 4)%nat -> dgram_parse e i = None.
Proof. intros e i H. unfold dgram_parse. destruct (Nat.ltb_spec (length i) 4); [reflexivity|lia]. Qed.
Print Assumptions C42_refuted_short_sam_datagram.

Example C45_ex : dest_ok toy toy_dest /\ bytes_ok (ser_dest toy_dest) /\ ~ In 32 [97; 98].
Proof.
  split; [exact toy_dest_ok|]. split.
  - apply Forall_forall. assert (F : forallb (fun c => c <? 256) (ser_dest toy_dest) = true)
      by (vm_compute; reflexivity).
    rewrite forallb_forall in F. intros x Hx. specialize (F x Hx). unfold byte_ok. lia.
  - cbn [In]. lia.
Qed.
