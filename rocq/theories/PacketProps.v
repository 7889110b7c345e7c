(** Property theorems C07 (streaming packet codec) and C44 (who opens a stream). *)
From Coq Require Import List NArith Bool Arith Lia.
From Verif Require Import ListUtil Bytes PrimModel PrimSpec PrimProofs PrimProps PacketModel PacketSpec PacketProofs.
Import ListNotations.
Open Scope N_scope.

(** ** C07 *)
(** An unsigned packet is built without panicking and read back with every field as asked. *)
Theorem C07_unsigned_roundtrip :
  forall e b, builder_ok e b -> b_sig b = false -> b_send b <> None ->
  exists w p, build b = Some w /\ parse_packet e w = Some p /\ says p b /\
    f_sig (p_flags p) = None.
Proof. exact build_parses. Qed.
Print Assumptions C07_unsigned_roundtrip.

(** A signed packet is read back with every field as asked, and with a signature that the
    receiver's check accepts. *)
Theorem C07_signed_roundtrip :
  forall e, ext_ok e -> forall priv b d, builder_ok e b -> b_sig b = true -> b_send b <> None ->
  b_dest b = Some d -> d_key d = Ed25519 (ed_public e priv) ->
  exists w p, build_and_sign e priv b = Some w /\ parse_packet e w = Some p /\ says p b /\
    verify_syn e w = inl p.
Proof.
  intros e He priv b d H1 H2 H3 H4 H5.
  destruct (signed_parses e He priv b d H1 H2 H3 H4 H5) as (w & p & A & B & C & D).
  exists w, p. auto.
Qed.
Print Assumptions C07_signed_roundtrip.

(** The cheap header peek used to dispatch packets agrees with the full parser wherever the
    full parser accepts. *)
Theorem C07_peek_agrees :
  forall e i p, parse_packet e i = Some p ->
  exists k, peek i = Some k /\ pk_send k = p_send p /\ pk_recv k = p_recv p /\
    pk_seq k = p_seq p /\ pk_flags k = f_word (p_flags p).
Proof. intros e i p H. rewrite (peek_agrees e i p H). eauto 8. Qed.
Print Assumptions C07_peek_agrees.

(** The payload is the unparsed end of the packet: nothing is dropped or invented. *)
Theorem C07_payload_is_suffix :
  forall e i p, parse_packet e i = Some p -> exists h, i = h ++ p_payload p.
Proof. exact packet_payload_suffix. Qed.
Print Assumptions C07_payload_is_suffix.

(** Findings.  A signature sent without a destination is read as the empty signature. *)
Definition no_dest_sig : builder :=
  mkBuilder (Some 1) 2 3 4 None 0 false true false true None None None false false None.
Theorem C07_refuted_signature_without_destination :
  exists w p, build_and_sign toy [1; 2] no_dest_sig = Some w /\ parse_packet toy w = Some p /\
    f_sig (p_flags p) = Some [] /\ ed_sign toy [1; 2] [] <> [].
Proof. do 2 eexists. repeat apply conj; [vm_compute; reflexivity..|discriminate]. Qed.
Print Assumptions C07_refuted_signature_without_destination.

(** A packet with 256 NACKs is built, but says something else (the count byte wraps). *)
Definition many_nacks : builder :=
  mkBuilder (Some 1) 2 3 4 (Some (repeat 7 256)) 0 false false false false None None None
    false false None.
Theorem C07_refuted_256_nacks :
  exists w, build many_nacks = Some w /\
    forall p, parse_packet toy w = Some p -> p_nacks p = [].
Proof.
  eexists. split; [vm_compute; reflexivity|]. intros p H.
  apply (f_equal (option_map p_nacks)) in H. vm_compute in H. congruence.
Qed.
Print Assumptions C07_refuted_256_nacks.

Definition toy_dest : destination := dest_new toy (repeat 5 352) (ed_public toy [1; 2]).
Lemma toy_dest_ok : dest_ok toy toy_dest.
Proof.
  intros r. apply dest_new_parses; try reflexivity.
Qed.
Example C07_ex_builder :
  let b := mkBuilder (Some 77) 78 3 2 (Some [0; 1]) 9 true false false false (Some toy_dest)
             (Some 500) (Some 1812) true false (Some [1; 2; 3]) in
  builder_ok toy b /\ b_sig b = false /\ b_send b <> None.
Proof.
  repeat apply conj; try reflexivity; try discriminate; cbn; try lia; [repeat constructor|].
  exact toy_dest_ok.
Qed.

(** ** C44 *)
(** A SYN that opens an inbound stream names a destination [d], is attributed to it, is signed
    by [d] (or by a key that [d] signed) over the whole packet with the signature field
    blanked, and names this destination in its replay-protection field. *)
Theorem C44_inbound_syn_authentic :
  forall e local pending i recv remote payload,
  on_synchronize e local pending i = SynOpens recv remote payload ->
  exists p d sg, parse_packet e i = Some p /\ p_recv p = recv /\ p_payload p = payload /\
    f_dest (p_flags p) = Some d /\ d_hash d = remote /\ f_sig (p_flags p) = Some sg /\
    flat_map (be_bytes 4) (p_nacks p) = local /\
    exists key a z,
      i = a ++ z ++ payload /\ length z = signature_len key /\
      verify e key (a ++ repeat 0 (length z) ++ payload) sg = true /\
      (key = d_key d \/
       exists u v m s, i = u ++ m ++ s ++ v /\ verify e (d_key d) m s = true /\
         exists hd k, m = hd ++ k /\ length hd = 6%nat /\ (key = Ed25519 k \/ key = P256 k)).
Proof.
  intros e local pending i recv remote payload. unfold on_synchronize.
  destruct (verify_syn e i) as [p|] eqn:V; [|discriminate].
  destruct (pending (p_send p)); [discriminate|].
  unfold check_inbound_syn. rewrite V.
  destruct (negb _); [discriminate|].
  destruct (beq _ local) eqn:R; [|discriminate]. apply beq_eq in R.
  destruct (f_dest (p_flags p)) as [d|] eqn:D; [|discriminate].
  intros H.
  assert (p_recv p = recv /\ d_hash d = remote /\ p_payload p = payload) as (<- & <- & <-)
    by (split; [|split]; congruence).
  destruct (verify_syn_authentic e i p V) as (P & d' & sg & a & z & b & D' & S & X).
  cbv zeta in X. destruct X as (Hi & Lz & Hb & Hv).
  assert (d' = d) as -> by congruence. subst b.
  exists p, d, sg. repeat apply conj; auto.
  exists (match f_offline (p_flags p) with None => d_key d | Some k => k end), a, z.
  rewrite Lz. repeat apply conj; auto.
  destruct (f_offline (p_flags p)) as [k|] eqn:O; [right|now left].
  exact (packet_offline e i p d k P D O).
Qed.
Print Assumptions C44_inbound_syn_authentic.

Lemma open_syn_ok e recv remote own : dest_ok e own -> recv < 2 ^ 32 ->
  length remote = 32%nat -> bytes_ok remote -> builder_ok e (open_syn recv remote own).
Proof.
  intros Hd Hr Lr Hb. destruct (chunks4_back 8 remote Lr Hb) as (C1 & C2 & C3).
  unfold builder_ok, open_syn, u32, replay_nacks.
  cbn [b_send b_recv b_seq b_ack b_nacks b_resend b_delay b_max b_dest opt_all].
  rewrite C2. repeat apply conj; auto; lia.
Qed.

(** The SYN this router sends to open a stream is accepted by the destination it is for, opens
    a stream there, and is attributed to the sender. *)
Theorem C44_own_syn_accepted :
  forall e, ext_ok e -> forall priv own recv remote pending,
  dest_ok e own -> d_key own = Ed25519 (ed_public e priv) -> recv < 2 ^ 32 ->
  length remote = 32%nat -> bytes_ok remote -> pending 0 = None ->
  exists w, build_and_sign e priv (open_syn recv remote own) = Some w /\
    on_synchronize e remote pending w = SynOpens recv (d_hash own) [].
Proof.
  intros e He priv own recv remote pending Hd Hk Hr Lr Hb Hp.
  destruct (chunks4_back 8 remote Lr Hb) as (C1 & C2 & C3).
  destruct (signed_parses e He priv (open_syn recv remote own) own) as (w & p & W & V & S & _).
  - now apply open_syn_ok.
  - reflexivity.
  - discriminate.
  - reflexivity.
  - exact Hk.
  - exists w. split; [exact W|]. unfold on_synchronize, check_inbound_syn. rewrite V.
    destruct S as (S1 & S2 & _ & _ & S5 & _ & S7 & _ & _ & _ & _ & _ & S13 & _).
    cbn [open_syn b_send b_recv b_nacks b_payload b_dest] in *.
    assert (p_send p = 0) as -> by congruence. rewrite Hp, S5. unfold replay_nacks.
    rewrite C2, C1, beq_refl, S13. cbn [Nat.eqb negb]. rewrite S2, S7. reflexivity.
Qed.
Print Assumptions C44_own_syn_accepted.

(** ... and it is rejected by every other destination (replay protection). *)
Theorem C44_replayed_syn_rejected :
  forall e, ext_ok e -> forall priv own recv remote other pending w,
  dest_ok e own -> d_key own = Ed25519 (ed_public e priv) -> recv < 2 ^ 32 ->
  length remote = 32%nat -> bytes_ok remote -> other <> remote -> pending 0 = None ->
  build_and_sign e priv (open_syn recv remote own) = Some w ->
  on_synchronize e other pending w = SynRejected SynReplay.
Proof.
  intros e He priv own recv remote other pending w Hd Hk Hr Lr Hb Ho Hp W.
  destruct (chunks4_back 8 remote Lr Hb) as (C1 & C2 & C3).
  destruct (signed_parses e He priv (open_syn recv remote own) own) as (w' & p & W' & V & S & _).
  - now apply open_syn_ok.
  - reflexivity.
  - discriminate.
  - reflexivity.
  - exact Hk.
  - assert (w' = w) as -> by congruence. unfold on_synchronize, check_inbound_syn. rewrite V.
    destruct S as (S1 & S2 & _ & _ & S5 & _ & S7 & _ & _ & _ & _ & _ & S13 & _).
    cbn [open_syn b_send b_recv b_nacks b_payload b_dest] in *.
    assert (p_send p = 0) as -> by congruence. rewrite Hp, S5. unfold replay_nacks.
    rewrite C2, C1. cbn [Nat.eqb negb]. destruct (beq remote other) eqn:E; [|reflexivity].
    apply beq_eq in E. congruence.
Qed.
Print Assumptions C44_replayed_syn_rejected.

(** The answer to a SYN completes exactly the stream it answers. *)
Theorem C44_answer_accepted :
  forall e, ext_ok e -> forall priv own send recv remote local pending,
  dest_ok e own -> d_key own = Ed25519 (ed_public e priv) -> recv < 2 ^ 32 -> send < 2 ^ 32 ->
  pending recv = Some remote ->
  exists w, build_and_sign e priv (answer_syn send recv own) = Some w /\
    on_synchronize e local pending w = SynAnswers send recv remote [].
Proof.
  intros e He priv own send recv remote local pending Hd Hk Hr Hs Hp.
  destruct (signed_parses e He priv (answer_syn send recv own) own) as (w & p & W & V & S & _);
    try reflexivity; try discriminate; auto.
  - unfold builder_ok, answer_syn, u32.
    cbn [b_send b_recv b_seq b_ack b_nacks b_resend b_delay b_max b_dest opt_all].
    repeat apply conj; auto; lia.
  - exists w. split; [exact W|]. unfold on_synchronize. rewrite V.
    destruct S as (S1 & S2 & _ & _ & S5 & _ & S7 & _ & _ & _ & _ & _ & S13 & _).
    cbn [answer_syn b_send b_recv b_nacks b_payload b_dest] in *.
    assert (p_send p = recv) as -> by congruence. rewrite Hp, S2, S7. reflexivity.
Qed.
Print Assumptions C44_answer_accepted.

(** Finding: the answer need not come from the destination that was dialed: a stream opened to
    one destination is completed, and attributed to it, by a packet signed by another. *)
Theorem C44_refuted_answer_from_another_destination :
  exists e, ext_ok e /\ exists other priv local pending dialed w,
    d_key other = Ed25519 (ed_public e priv) /\ dest_ok e other /\
    build_and_sign e priv (answer_syn 8 9 other) = Some w /\
    dialed <> d_hash other /\
    on_synchronize e local pending w = SynAnswers 8 9 dialed [].
Proof.
  exists toy. split; [exact toy_ok|].
  exists toy_dest, [1; 2], (repeat 1 32), (fun n => if n =? 9 then Some (repeat 2 32) else None),
    (repeat 2 32).
  eexists. repeat apply conj.
  - reflexivity.
  - exact toy_dest_ok.
  - vm_compute. reflexivity.
  - intros E. apply (f_equal (fun l => nth 31 l 0)) in E. vm_compute in E. discriminate.
  - vm_compute. reflexivity.
Qed.
Print Assumptions C44_refuted_answer_from_another_destination.

Example C44_ex :
  exists w, build_and_sign toy [1; 2] (open_syn 5 (repeat 3 32) toy_dest) = Some w /\
    on_synchronize toy (repeat 3 32) (fun _ => None) w = SynOpens 5 (d_hash toy_dest) [].
Proof.
  apply C44_own_syn_accepted; try reflexivity; try lia.
  - exact toy_ok.
  - exact toy_dest_ok.
  - apply Forall_forall. intros x H. apply repeat_spec in H. subst. reflexivity.
Qed.
