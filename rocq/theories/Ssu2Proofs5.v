(** What [send_message] writes, and messages that are never put together. *)
From Coq Require Import List NArith Bool Arith Lia ZArith ZifyBool ZifyNat ZifyN Sorting.Sorted.
From Verif Require Import ListUtil Bytes NMap PrimModel I2npModel I2npSpec I2npProofs Ntcp2Model Ntcp2Spec
  Ntcp2Proofs TunnelModel TunnelSpec TunnelProofs TunnelProofs2 Ssu2Model Ssu2Spec Ssu2Proofs Ssu2Proofs2
  Ssu2Proofs3 Ssu2Proofs4.
Import ListNotations.
Open Scope N_scope.

Lemma ack_pairs_bytes : forall n l, (length l <= n)%nat -> Forall byte_pair (ack_pairs l).
Proof.
  induction n as [|n IH]; intros [|a [|b l]] H; cbn [ack_pairs]; try constructor; cbn [length] in H; try lia.
  - unfold byte_pair. cbn [fst snd]. lia.
  - constructor.
  - unfold byte_pair. cbn [fst snd]. lia.
  - apply IH. lia.
Qed.
Lemma ack_info_ok a : highest_seen a < 2 ^ 32 ->
  (match snd (ack_info a) with Some rs => N.of_nat (length rs) <= 32765 | None => True end) ->
  ackinfo_ok (ack_info a).
Proof.
  intros H L. unfold ack_info in *. destruct (past_missing (rev (packets a))) as [t|]; cbn [snd ackinfo_ok] in *.
  - repeat apply conj; auto; [lia|]. eapply ack_pairs_bytes. apply Nat.le_refl.
  - repeat apply conj; auto. lia.
Qed.

Section Send.
Variable e : ext.
Variable c : ncrypt.
Variable ks : bytes -> bytes -> bytes.
Hypothesis Hc : aead_ok c.
Variable k : skeys.
Variable dst : N.
Hypothesis Hdst : dst < 2 ^ 64.

Lemma build_packets_correct a : ackinfo_ok a -> forall kinds n m,
  (forall i, (i < length kinds)%nat -> good_kind m (nth i kinds (KWhole []))) ->
  n + N.of_nat (length kinds) <= 2 ^ 32 ->
  exists ps, build_packets c ks k dst n a kinds = Some ps /\ length ps = length kinds /\
    forall i, (i < length ps)%nat ->
      exists d, socket_header ks (k_intro k) (nth i ps []) = Some (dst, d) /\
        open_packet e c ks k d =
        Some (n + N.of_nat i, [piece_block m (nth i kinds (KWhole [])); ack_block a]).
Proof.
  intros A. induction kinds as [|x kinds IH]; intros n m G Hn.
  - exists []. repeat apply conj; auto. intros i Hi. cbn in Hi. lia.
  - cbn [length] in Hn. pose proof (G 0%nat ltac:(cbn; lia)) as G0. cbn [nth] in G0.
    destruct (build_packet_some c ks Hc k dst n (data_payload (Some x) (Some a))) as [d E].
    { unfold data_payload. rewrite app_length. pose proof (ack_bytes_length a). lia. }
    destruct (IH (n + 1) m) as (ps & E2 & L & P).
    { intros i Hi. apply (G (S i)). cbn. lia. }
    { lia. }
    exists (d :: ps). change (build_packets c ks k dst n a (x :: kinds)) with (match build_packet c ks k dst n (data_payload (Some x) (Some a)), build_packets c ks k dst (n + 1) a kinds with Some p, Some ps => Some (p :: ps) | _, _ => None end). rewrite E, E2. split; [reflexivity|]. cbn [length].
    split; [lia|]. intros [|i] Hi; cbn [nth].
    + destruct (packet_opens e c ks Hc k dst n _ d Hdst ltac:(lia) E) as (d' & H1 & _ & H3).
      exists d'. split; [exact H1|]. rewrite H3, (s_parse_payload e ks m) by assumption.
      rewrite N.add_0_r. reflexivity.
    + destruct (P i ltac:(lia)) as (d' & H1 & H2). exists d'. split; [exact H1|]. rewrite H2.
      do 2 f_equal. lia.
Qed.

Lemma send_message_correct s m : fits_short m -> ackinfo_ok (ack_info (ss_ack s)) ->
  ss_pkt_num s + N.of_nat (length (pieces m)) <= 2 ^ 32 ->
  exists ps, send_message c ks k dst s (build_short m) =
      Some (mkSsu2 (ss_pkt_num s + N.of_nat (length (pieces m))) (ss_ack s) (ss_dup s) (ss_frag s), ps) /\
    length ps = length (pieces m) /\
    forall i, (i < length ps)%nat ->
      exists d, socket_header ks (k_intro k) (nth i ps []) = Some (dst, d) /\
        open_packet e c ks k d =
        Some (ss_pkt_num s + N.of_nat i,
              [piece_block m (nth i (pieces m) (KWhole [])); ack_block (ack_info (ss_ack s))]).
Proof.
  intros F A Hn. pose proof F as (F1 & F2 & F3 & F4). unfold send_message.
  pose proof (short_roundtrip m [] F1 F2 F3 F4) as P. rewrite app_nil_r in P. rewrite P. cbv zeta iota beta.
  assert (X : message_kinds (build_short m) (mkMsg (m_type m) (m_id m) (whole_seconds (m_expiration m)) (m_payload m)) = pieces m) by reflexivity.
  rewrite ?X.
  destruct (build_packets_correct (ack_info (ss_ack s)) A (pieces m) (ss_pkt_num s) m) as (ps & E & L & Q).
  { intros i Hi. apply (pieces_good ks); auto. }
  { exact Hn. }
  exists ps. fold (received m). fold (pieces m). rewrite E. auto.
Qed.

(** ** Payloads of 1190 to 1200 bytes *)
Variable m : message.
Hypothesis Hfit : fits_short m.
Hypothesis Hlen : (1190 <= length (m_payload m) <= 1200)%nat.

Lemma lone_piece : pieces m = [KFirstFrag (m_type m) (m_id m) (secs_of (whole_seconds (m_expiration m))) (chunk m 0)].
Proof.
  pose proof Hfit as (F1 & F2 & F3 & F4).
  assert (S : small m = false) by (unfold small; lia).
  destruct (pieces_large ks m F3 S) as (L & P0 & _).
  assert (chunk_count m = 1%nat) as L1.
  { unfold chunk_count, chunks. pose proof (chunks_fuel_count 1200 ltac:(lia) _ (m_payload m) (Nat.le_refl _) 1 ltac:(lia)) as X.
    pose proof (chunks_concat 1200 (m_payload m) ltac:(lia)) as C. unfold chunks in C.
    destruct (chunks_fuel (length (m_payload m)) 1200 (m_payload m)) as [|y l]; [|cbn [length] in *; lia].
    cbn [concat] in C. rewrite <- C in F3. cbn in F3. lia. }
  rewrite L1 in L. destruct (pieces m) as [|p [|q t]]; cbn [length] in L; try lia. cbn [nth] in P0. now rewrite P0.
Qed.

Definition no_num (h : fraghandler) : Prop := Forall (fun x => f_num (snd x) = None) (fh_messages h).
Lemma lone_trace : forall xs s hist, Forall (arrival_ok [m]) xs -> no_num (ss_frag s) ->
  ack_inv hist (ss_ack s) -> highest_seen (ss_ack s) < 2 ^ 32 - 1 ->
  sess_trace e c ks k s (map (op_of c ks k dst [m]) xs) = [].
Proof.
  induction xs as [|[t x] xs IH]; intros s hist OK NN RA RH; [reflexivity|].
  inversion OK as [|? ? OK1 OK2]; subst. cbn [map sess_trace].
  destruct x as [j i n ai|].
  - destruct OK1 as (Hj & Hi & Hn & Ha). cbn [length] in Hj. replace j with 0%nat in * by lia.
    unfold piece_count, msg_at in Hi. cbn [nth] in Hi.
    unfold op_of, msg_at. cbn [fst snd nth].
    destruct (piece_received e c ks Hc m i k dst n ai t s Hfit Hi Hdst) as (d & Ed & Er); auto; [lia|].
    rewrite Ed. unfold sess_step. cbn [snd fst]. rewrite Er. clear Er Ed d.
    rewrite lone_piece in *. cbn [length] in Hi. replace i with 0%nat by lia. cbn [nth piece_block].
    destruct (register_inv hist (ss_ack s) n RA RH Hn) as (a1 & E1 & I1 & M1).
    destruct (register_inv _ a1 n I1) as (a2 & E2 & I2 & M2); [lia|lia|].
    cbn [handle_blocks]. rewrite E1. unfold first_fragment. cbv zeta. unfold finish, is_ready.
    cbn [f_num f_info].
    assert (X : f_num (entry t (m_id m) (ss_frag s)) = None).
    { unfold entry. destruct (nget (m_id m) (fh_messages (ss_frag s))) as [f|] eqn:Eg; [|reflexivity].
      apply nget_In in Eg. unfold no_num in NN. rewrite Forall_forall in NN. now apply (NN (m_id m, f)). }
    rewrite X. cbn [deliver_opt app ss_ack]. rewrite E2.
    destruct ai as [[th nu] ra]. cbn [ack_block map app].
    apply (IH _ (n :: n :: hist)); auto; cbn [ss_frag ss_ack].
    + unfold no_num. cbn [fh_messages]. apply Forall_nput; auto.
    + lia.
  - unfold op_of, sess_step. cbn [snd fst app]. apply (IH _ hist); auto.
    unfold ss_poll. cbn [ss_frag]. unfold fh_poll, no_num in *. destruct (t <? fh_timer (ss_frag s)); [exact NN|].
    cbn [fh_messages]. rewrite Forall_forall in *. intros x Hx. apply filter_In in Hx as [Hx _]. auto.
Qed.
End Send.
