(** Property theorems C01, C02, C03, C04, C06 (streams).  Nothing but statements, each closed
    by a lemma, with witnesses that the hypotheses are met. *)
From Coq Require Import List NArith Bool Lia.
From Verif Require Import NMap StreamModel StreamSpec StreamProofs StreamOutProofs
  StreamSendProofs.
Import ListNotations.
Open Scope N_scope.

(** Test vocabulary *)
Definition data (seq : N) (b : bytes) : packet := mkPacket seq 0 [] false false false true false b.
Definition close_at (seq : N) : packet := mkPacket seq 0 [] false true false true false [].

(** ** C01: in order, exactly once, nothing missing *)
Theorem C01_delivered_is_prefix :
  forall (base : N) (cs : list bytes) (initial : option bytes) (es : list event) (s : stream)
         (o : list out),
    Forall (carries base cs) (taken (stream_new base initial) es) ->
    run (stream_new base initial) es = (s, o) ->
    prefix (client_bytes o) (initial_bytes initial ++ concat cs).
Proof. exact stream_prefix. Qed.
Print Assumptions C01_delivered_is_prefix.

Theorem C01_all_arrived_is_delivered :
  forall (base : N) (cs : list bytes) (initial : option bytes),
    Forall (fun c => c <> []) cs ->
    forall (es : list event) (s : stream) (o : list out) (n : nat),
    initial <> Some [] ->
    Forall (carries base cs) (taken (stream_new base initial) es) ->
    run (stream_new base initial) es = (s, o) ->
    s_done s = false -> s_write s <> WClosed ->
    (forall j, (j < n)%nat ->
       arrived (base + 1 + N.of_nat j) (taken (stream_new base initial) es)) ->
    exists es2 s2 o2,
      Forall handing_over es2 /\ run s es2 = (s2, o2) /\
      prefix (initial_bytes initial ++ concat (firstn n cs)) (client_bytes (o ++ o2)).
Proof. exact stream_complete. Qed.
Print Assumptions C01_all_arrived_is_delivered.

Theorem C01_packet_within_lookahead_survives :
  forall base initial es s o p ok,
    run (stream_new base initial) es = (s, o) ->
    can_take s = true -> s_close_req s = false ->
    p_syn p = false -> p_reset p = false ->
    (p_seq p <= base + 513 \/
     exists n, arrived n (taken (stream_new base initial) es) /\ p_seq p <= n + 513) ->
    s_done (fst (step s (EPacket p ok))) = false.
Proof. exact data_packet_survives. Qed.
Print Assumptions C01_packet_within_lookahead_survives.

(** Four payloads arriving as 3, 1, 3, 4, 2, 1 with partial writes in between. *)
Definition ex_cs : list bytes := [[10; 11]; [20]; [30; 31]; [40]].
Definition ex_es : list event :=
  [EPacket (data 3 [30; 31]) true; EPacket (data 1 [10; 11]) true; EWrote 1;
   EPacket (data 9 [1]) true;            (* not taken: a write is in progress *)
   EWrote 1; EPacket (data 3 [30; 31]) true; EPacket (data 4 [40]) true;
   EPacket (data 2 [20]) true; EWrote 1; EIdle; EWrote 2; EPacket (data 1 [10; 11]) true; EIdle;
   EWrote 1].
Example C01_ex :
  Forall (carries 0 ex_cs) (taken (stream_new 0 None) ex_es) /\
  client_bytes (trace 0 None ex_es) = concat ex_cs /\
  (forall j, (j < 4)%nat -> arrived (0 + 1 + N.of_nat j) (taken (stream_new 0 None) ex_es)) /\
  s_done (fst (run (stream_new 0 None) ex_es)) = false /\
  s_write (fst (run (stream_new 0 None) ex_es)) <> WClosed.
Proof.
  assert (Ht : taken (stream_new 0 None) ex_es =
    [data 3 [30; 31]; data 1 [10; 11]; data 3 [30; 31]; data 4 [40]; data 2 [20]; data 1 [10; 11]])
    by (vm_compute; reflexivity).
  rewrite Ht. repeat apply conj.
  - repeat apply Forall_cons; try apply Forall_nil; right; right; vm_compute; reflexivity.
  - vm_compute. reflexivity.
  - intros j Hj. destruct j as [|[|[|[|j]]]]; [| | | |lia].
    + exists (data 1 [10; 11]). repeat apply conj; [cbn [In]; auto 8|reflexivity|discriminate].
    + exists (data 2 [20]). repeat apply conj; [cbn [In]; auto 8|reflexivity|discriminate].
    + exists (data 3 [30; 31]). repeat apply conj; [cbn [In]; auto 8|reflexivity|discriminate].
    + exists (data 4 [40]). repeat apply conj; [cbn [In]; auto 8|reflexivity|discriminate].
  - vm_compute. reflexivity.
  - vm_compute. discriminate.
Qed.

(** ** C02: an acknowledgement covers only what arrived *)
(** Full property: [forall p in sent o, forall n, base < n -> acks p n -> arrived n ...].
    It is false ([C02_refuted_nack_overflow], [C02_refuted_close]).  The theorem adds: the NACK
    list is not at its 255-entry limit, and the packet is not the CLOSE a stream sends for
    itself (the one CLOSE with a sequence number). *)
Theorem C02_ack_truthful_partial :
  forall (base : N) (initial : option bytes) (es : list event) (s : stream) (o : list out)
         (p : packet) (n : N),
    run (stream_new base initial) es = (s, o) -> In p (sent o) ->
    (length (p_nacks p) < 255)%nat -> (p_close p = true -> p_seq p = 0) ->
    base < n -> acks p n -> arrived n (taken (stream_new base initial) es).
Proof. exact acks_truthful. Qed.
Print Assumptions C02_ack_truthful_partial.

Example C02_ex :
  exists p, In p (sent (trace 0 None [EPacket (data 1 [1]) true; EWrote 1;
                                      EPacket (data 4 [4]) true; EAckTimer true])) /\
            (length (p_nacks p) < 255)%nat /\ (p_close p = true -> p_seq p = 0) /\
            acks p 1 /\ ~ acks p 2 /\ ~ acks p 3 /\ acks p 4.
Proof.
  eexists. split; [vm_compute; left; reflexivity|]. vm_compute. repeat apply conj; try discriminate; auto.
  - repeat constructor.
  - intuition discriminate.
  - tauto.
  - tauto.
  - intuition discriminate.
Qed.

(** One packet 400 ahead: 399 packets are missing but only 255 fit in the NACK list. *)
Theorem C02_refuted_nack_overflow :
  exists es p, In p (sent (trace 0 None es)) /\ p_close p = false /\ acks p 300 /\
               ~ arrived 300 (taken (stream_new 0 None) es).
Proof.
  exists [EPacket (data 400 [4]) true; EAckTimer true]. eexists.
  split; [vm_compute; left; reflexivity|]. repeat apply conj.
  - reflexivity.
  - reflexivity.
  - vm_compute. discriminate.
  - intros H. apply smem_In in H. vm_compute in H. discriminate.
  - intros (q & Hq & Hs & _). vm_compute in Hq. destruct Hq as [<-|[]]. discriminate.
Qed.
Print Assumptions C02_refuted_nack_overflow.

(** The CLOSE packet carries [ack_through] without the NACK list. *)
Theorem C02_refuted_close :
  exists es p, In p (sent (trace 0 None es)) /\ acks p 1 /\
               ~ arrived 1 (taken (stream_new 0 None) es).
Proof.
  exists [EPacket (data 2 [2]) true; EReadEof true]. eexists.
  split; [vm_compute; left; reflexivity|]. split.
  - vm_compute. repeat apply conj; auto; discriminate.
  - intros (q & Hq & Hs & _). vm_compute in Hq. destruct Hq as [<-|[]]. discriminate.
Qed.
Print Assumptions C02_refuted_close.

(** ** C03: the sender forgets nothing that was not acknowledged *)
Theorem C03_sender_retains :
  forall (base : N) (initial : option bytes) (es : list event) (s : stream) (o : list out),
    run (stream_new base initial) es = (s, o) ->
    let T := taken (stream_new base initial) es in
    exists cs : list bytes,
      concat cs = accepted (stream_new base initial) es /\
      Forall (fun c => c <> [] /\ (length c <= 1812)%nat) cs /\
      (forall j c, nth_error cs j = Some c ->
         let n := 1 + N.of_nat j in
         (exists p, (nget n (s_unacked s) = Some p \/ nget n (s_pending s) = Some p) /\
                    p_seq p = n /\ p_payload p = c) \/
         (exists q, In q T /\ acks q n)) /\
      (forall p, In p (sent o) -> p_payload p <> [] ->
         1 <= p_seq p /\ nth_error cs (N.to_nat (p_seq p - 1)) = Some (p_payload p)) /\
      (length (s_unacked s) <= 128)%nat.
Proof. exact sender_keeps. Qed.
Print Assumptions C03_sender_retains.

Theorem C03_bogus_ack_ignored :
  forall s a n, s_next s < a -> handle_acks s a n = s.
Proof. exact bogus_ack_ignored. Qed.
Print Assumptions C03_bogus_ack_ignored.

Theorem C03_retransmits :
  forall s n oks k p,
    s_done s = false -> s_rto s = true -> (1 <= n)%nat -> (1 <= s_window s)%nat ->
    s_unacked s = (k, p) :: tl (s_unacked s) -> hd true oks = true ->
    In (OSend p) (snd (step s (ERto n true oks))).
Proof. exact rto_resends. Qed.
Print Assumptions C03_retransmits.

(** Two writes; the first packet is acknowledged, the second is sent, lost and sent again. *)
Definition ex_send : list event :=
  [ERead [1; 2; 3] []; ERead [4; 5] []; EFlush []; 
   EPacket (mkPacket 0 1 [] false false false false false []) true; EFlush [];
   ERto 1 true []].
Example C03_ex :
  accepted (stream_new 0 None) ex_send = [1; 2; 3; 4; 5] /\
  map (fun p => (p_seq p, p_payload p)) (sent (trace 0 None ex_send)) =
    [(1, [1; 2; 3]); (2, [4; 5]); (2, [4; 5])] /\
  nkeys (s_unacked (fst (run (stream_new 0 None) ex_send))) = [2].
Proof. vm_compute. auto. Qed.

(** ** C04: end to end *)
Theorem C04_end_to_end :
  forall (ia ib : option bytes) (ea eb : list event),
    joint ia ib ea eb ->
    prefix (client_bytes (trace 0 ib eb)) (initial_bytes ib ++ accepted (stream_new 0 ia) ea) /\
    prefix (client_bytes (trace 0 ia ea)) (initial_bytes ia ++ accepted (stream_new 0 ib) eb).
Proof. split; [now apply joint_prefix | now apply joint_prefix, joint_sym]. Qed.
Print Assumptions C04_end_to_end.

(** A writes [1;2]; the packet is duplicated by the network, B reads it and acknowledges; A
    writes [3]. *)
Definition p1 : packet := mkPacket 1 0 [] false false false false false [1; 2].
Definition p2 : packet := mkPacket 2 0 [] false false false false false [3].
Definition ack1 : packet := mkPacket 0 1 [] false false false false false [].
Definition ex_ea : list event :=
  [ERead [1; 2] []; ERto 1 true []; EPacket ack1 true; ERead [3] []].
Definition ex_eb : list event :=
  [EPacket p1 true; EWrote 2; EPacket p1 true; EAckTimer true; EPacket p2 true; EWrote 1].
Lemma ex_joint : joint None None ex_ea ex_eb.
Proof.
  assert (J1 : joint None None [ERead [1; 2] []] []).
  { apply (joint_a None None [] []); [constructor|exact I]. }
  assert (J2 : joint None None [ERead [1; 2] []; ERto 1 true []] []).
  { apply (joint_a None None [_] []); [exact J1|exact I]. }
  assert (J3 : joint None None [ERead [1; 2] []; ERto 1 true []] [EPacket p1 true]).
  { apply (joint_b None None [_; _] []); [exact J2|]. vm_compute. auto. }
  assert (J4 : joint None None [ERead [1; 2] []; ERto 1 true []]
                 [EPacket p1 true; EWrote 2; EPacket p1 true; EAckTimer true]).
  { apply (joint_b None None [_; _] [_; _; _]); [|exact I].
    apply (joint_b None None [_; _] [_; _]); [|vm_compute; auto].
    apply (joint_b None None [_; _] [_]); [|exact I]. exact J3. }
  assert (J5 : joint None None ex_ea
                 [EPacket p1 true; EWrote 2; EPacket p1 true; EAckTimer true]).
  { apply (joint_a None None [_; _; _] _); [|exact I].
    apply (joint_a None None [_; _] _); [exact J4|]. vm_compute. auto. }
  apply (joint_b None None _ [_; _; _; _; _]); [|exact I].
  apply (joint_b None None _ [_; _; _; _]); [exact J5|]. vm_compute. auto.
Qed.
Example C04_ex :
  joint None None ex_ea ex_eb /\ client_bytes (trace 0 None ex_eb) = [1; 2; 3] /\
  accepted (stream_new 0 None) ex_ea = [1; 2; 3].
Proof. split; [exact ex_joint|]. vm_compute. auto. Qed.

(** ** C06: CLOSE after the data *)
(** Full property: the stream finishes on CLOSE only after all [n] payloads were handed over.
    Proved when the last payload arrived and the client is not behind; both conditions are
    needed ([C06_refuted_early_close], [C06_refuted_slow_client]). *)
Theorem C06_close_complete_partial :
  forall base cs initial es s o ok n,
    Forall (carries base cs) (taken (stream_new base initial) es) ->
    run (stream_new base initial) es = (s, o) ->
    s_done s = false -> s_done (fst (step s (EAckTimer ok))) = true ->
    s_write s = WGet -> i_ready (s_in s) = [] ->
    (n <= length cs)%nat ->
    (n = 0%nat \/ arrived (base + N.of_nat n) (taken (stream_new base initial) es)) ->
    prefix (initial_bytes initial ++ concat (firstn n cs)) (client_bytes o).
Proof. exact close_complete. Qed.
Print Assumptions C06_close_complete_partial.

(** CLOSE arrives before packet 2 is received: CLOSE is reordered ahead of 2 and 1. *)
Definition ex_close : list event :=
  [EPacket (close_at 3) true; EPacket (data 2 [2]) true; EPacket (data 1 [1]) true; EWrote 1;
   EIdle; EWrote 1].
Example C06_ex :
  s_done (fst (run (stream_new 0 None) ex_close)) = false /\
  s_done (fst (step (fst (run (stream_new 0 None) ex_close)) (EAckTimer true))) = true /\
  client_bytes (trace 0 None ex_close) = [1; 2].
Proof. vm_compute. auto. Qed.

(** The remote wrote two packets and closed; packet 2 is late, CLOSE overtakes it and the
    stream finishes without it. *)
Theorem C06_refuted_early_close :
  exists es, taken (stream_new 0 None) es = [data 1 [1]; close_at 3] /\
             s_done (fst (run (stream_new 0 None) es)) = true /\
             client_bytes (trace 0 None es) = [1].
Proof.
  exists [EPacket (data 1 [1]) true; EWrote 1; EPacket (close_at 3) true; EAckTimer true].
  vm_compute. auto.
Qed.
Print Assumptions C06_refuted_early_close.

(** Everything arrived, but the client had not taken the data when the ACK timer fired. *)
Theorem C06_refuted_slow_client :
  exists es, taken (stream_new 0 None) es = [data 2 [2]; close_at 3; data 1 [1]] /\
             s_done (fst (run (stream_new 0 None) es)) = true /\
             client_bytes (trace 0 None es) = [].
Proof.
  exists [EPacket (data 2 [2]) true; EPacket (close_at 3) true; EPacket (data 1 [1]) true;
          EAckTimer true].
  vm_compute. auto.
Qed.
Print Assumptions C06_refuted_slow_client.
