(** Property theorems C18, C19 and C48 (NTCP2 sessions). *)
From Coq Require Import List NArith Bool Lia Arith ZifyBool ZifyNat ZifyN.
From Verif Require Import ListUtil Bytes PrimModel I2npModel I2npSpec I2npProofs I2cpModel I2cpSpec I2cpProofs
  Ntcp2Model Ntcp2Spec Ntcp2Proofs.
Import ListNotations.
Open Scope N_scope.

Lemma toy_crypt_ok : aead_ok toy_crypt.
Proof.
  assert (forall k n, length (toy_tag k n) = 16%nat) as Hl.
  { intros. unfold toy_tag. rewrite firstn_length, !app_length, repeat_length. lia. }
  split; intros k n ad p; cbn [open seal toy_crypt].
  - rewrite app_length, Hl. replace (length p + 16 - 16)%nat with (length p) by lia.
    rewrite firstn_exact, beq_refl. reflexivity.
  - rewrite app_length, Hl. reflexivity.
Qed.

(** ** C18 *)
(** Both directions of a session whose two ends derived their length keys from the same
    secrets ([sip_secret], [h]): whatever the way the kernel accepts the written bytes and cuts
    them into reads, the receiver obtains the messages sent so far, in order, each once; and
    all of them once everything has been written and read. *)
Theorem C18_messages_in_order :
  forall c, aead_ok c -> forall sip_secret h key ms written w read out r,
    Forall fits_frame ms -> N.of_nat (length ms) < 2 ^ 64 - 1 ->
    nwrote c (nwriter_new (sip_send (sip_initiator c sip_secret h)) key)
      (map build_short ms) written w ->
    prefix_of read written ->
    socket_reads nr_room (nr_on_read c)
      (nreader_new (sip_recv (sip_responder c sip_secret h)) key) read out r ->
    prefix_of out (map received ms) /\
    (nidle w -> read = written -> out = map received ms).
Proof.
  intros c Hc ss h key ms written w read out r. 
  apply (end_to_end c Hc).
Qed.
Print Assumptions C18_messages_in_order.

Theorem C18_messages_in_order_reverse :
  forall c, aead_ok c -> forall sip_secret h key ms written w read out r,
    Forall fits_frame ms -> N.of_nat (length ms) < 2 ^ 64 - 1 ->
    nwrote c (nwriter_new (sip_send (sip_responder c sip_secret h)) key)
      (map build_short ms) written w ->
    prefix_of read written ->
    socket_reads nr_room (nr_on_read c)
      (nreader_new (sip_recv (sip_initiator c sip_secret h)) key) read out r ->
    prefix_of out (map received ms) /\
    (nidle w -> read = written -> out = map received ms).
Proof.
  intros c Hc ss h key ms written w read out r.
  apply (end_to_end c Hc).
Qed.
Print Assumptions C18_messages_in_order_reverse.

(** The same bytes read in two different ways give the same messages. *)
Theorem C18_segmentation_irrelevant :
  forall c, aead_ok c -> forall x key ms written w read out1 r1 out2 r2,
    Forall fits_frame ms -> N.of_nat (length ms) < 2 ^ 64 - 1 ->
    nwrote c (nwriter_new x key) (map build_short ms) written w ->
    prefix_of read written ->
    socket_reads nr_room (nr_on_read c) (nreader_new x key) read out1 r1 ->
    socket_reads nr_room (nr_on_read c) (nreader_new x key) read out2 r2 ->
    out1 = out2.
Proof. exact segmentation_irrelevant. Qed.
Print Assumptions C18_segmentation_irrelevant.

(** The obfuscated lengths stay in step for any sequence of lengths, in both directions. *)
Theorem C18_lengths_in_step :
  forall c secret h ls,
    lengths_through c (sip_send (sip_initiator c secret h)) (sip_recv (sip_responder c secret h)) ls = ls /\
    lengths_through c (sip_send (sip_responder c secret h)) (sip_recv (sip_initiator c secret h)) ls = ls.
Proof. exact lengths_in_step. Qed.
Print Assumptions C18_lengths_in_step.

(** Any unfinished write can be finished: a kernel that accepts at least one byte each time
    empties the queue, so the completeness half of the theorems above is not vacuous. *)
Theorem C18_queue_drains :
  forall c, aead_ok c -> forall x key ms written w,
    nwrote c (nwriter_new x key) ms written w -> nw_state w <> NWPoisoned ->
    N.of_nat (length ms) < 2 ^ 64 - 1 ->
    exists written' w', nwrote c (nwriter_new x key) ms (written ++ written') w' /\ nidle w'.
Proof. exact queue_drains. Qed.
Print Assumptions C18_queue_drains.

(** A frame that is authentic but holds a block this version does not know is not skipped:
    the reader stays in the middle of it, so the next, valid frame is lost and the session
    ends. *)
Definition toy_msg : message := mkMsg TunnelData 99 (5 * 1000000000) [1; 2; 3].
Definition toy_ctx : sipctx := mkSip 1 2 [3; 4; 5; 6; 7; 8; 9; 10].
Definition toy_key : list N := repeat 9 32.
Definition unknown_block : list N := [42; 0; 1; 7].
Theorem C18_refuted_unknown_block :
  exists stream r,
    stream = frame1 toy_crypt toy_ctx toy_key 0 unknown_block ++
             frame1 toy_crypt (sip_next toy_crypt toy_ctx) toy_key 1
               (new_i2np_message (build_short toy_msg)) /\
    socket_reads nr_room (nr_on_read toy_crypt) (nreader_new toy_ctx toy_key)
      (firstn 42 stream) [] r /\ nr_state r = NRClosed NAead.
Proof.
  eexists.
  match goal with |- exists r, ?x = ?y /\ _ => set (s0 := y) end.
  destruct (feed nr_room (nr_on_read toy_crypt) (nreader_new toy_ctx toy_key)
    [firstn 2 s0; firstn 20 (skipn 2 s0); firstn 20 (skipn 22 s0)]) as [[r out]|] eqn:E.
  - exists r. split; [reflexivity|].
    assert (out = [] /\ nr_state r = NRClosed NAead) as [-> Hs].
    { apply (f_equal (option_map (fun x => (nr_state (fst x), snd x)))) in E.
      vm_compute in E. injection E as E1 E2. now split. }
    split; [|exact Hs]. apply feed_reads in E.
    assert (concat [firstn 2 s0; firstn 20 (skipn 2 s0); firstn 20 (skipn 22 s0)] = firstn 42 s0)
      as Ec by (vm_compute; reflexivity).
    rewrite Ec in E. exact E.
  - apply (f_equal (option_map (fun x => snd x))) in E. vm_compute in E. discriminate E.
Qed.
Print Assumptions C18_refuted_unknown_block.

(** Messages of 65508 to 65526 bytes are valid I2NP and accepted for sending, but the length
    written in front of their frame is not the length of the frame. *)
Theorem C18_refuted_large_message :
  forall c, aead_ok c -> forall x key m,
    65508 <= N.of_nat (length (m_payload m)) <= 65526 ->
    exists s data w,
      nw_iter c (nw_send (nwriter_new x key) (build_short m)) WrPending = (w, [], WContinue) /\
      nw_state w = NWSize 0 s data /\
      fst (sip_deobfuscate c x (be_val s)) <> N.of_nat (length data) /\
      fst (sip_deobfuscate c x (be_val s)) < 19.
Proof. exact large_message. Qed.
Print Assumptions C18_refuted_large_message.

Definition toy_msgs : list message := [toy_msg; mkMsg Garlic 7 1000000000 [5]].
Example C18_fits : Forall fits_frame toy_msgs.
Proof. repeat constructor; vm_compute; try reflexivity; discriminate. Qed.
(** Two messages, written in three pieces and read in another four. *)
Example C18_example :
  exists written w out r,
    nwrote toy_crypt (nwriter_new toy_ctx toy_key) (map build_short toy_msgs) written w /\
    nidle w /\
    socket_reads nr_room (nr_on_read toy_crypt) (nreader_new toy_ctx toy_key) written out r /\
    out = map received toy_msgs.
Proof.
  set (w0 := nwriter_new toy_ctx toy_key).
  set (a := nth 0 (map build_short toy_msgs) []). set (b := nth 1 (map build_short toy_msgs) []).
  assert (nwrote toy_crypt w0 (map build_short toy_msgs) [] (nw_send (nw_send w0 a) b)) as H0.
  { change (map build_short toy_msgs) with (([] ++ [a]) ++ [b]). repeat constructor. }
  assert (exists w3 o3, nwrote toy_crypt w0 (map build_short toy_msgs) o3 w3 /\ nidle w3 /\
            exists out r, socket_reads nr_room (nr_on_read toy_crypt) (nreader_new toy_ctx toy_key) o3 out r /\
                          out = map received toy_msgs) as G.
  { eexists. eexists. split; [|split].
    - eapply nwrote_iter with (r := WrOk 29).
      eapply nwrote_iter with (r := WrOk 2).
      eapply nwrote_iter with (r := WrPending).
      eapply nwrote_iter with (r := WrOk 21).
      eapply nwrote_iter with (r := WrOk 10).
      eapply nwrote_iter with (r := WrOk 2).
      eapply nwrote_iter with (r := WrPending).
      exact H0.
      all: vm_compute; try exact I; repeat constructor.
    - vm_compute. split; reflexivity.
    - match goal with |- exists out r, socket_reads _ _ _ ?x out r /\ _ => set (s := x) end.
      set (cs := [firstn 1 s; firstn 1 (skipn 1 s); firstn 5 (skipn 2 s); firstn 26 (skipn 7 s);
                  firstn 2 (skipn 33 s); skipn 35 s]).
      destruct (feed nr_room (nr_on_read toy_crypt) (nreader_new toy_ctx toy_key) cs)
        as [[r out]|] eqn:E.
      + exists out, r. split.
        * assert (s = concat cs) as Ec by (vm_compute; reflexivity). rewrite Ec.
          exact (feed_reads _ _ _ _ _ _ E).
        * apply (f_equal (option_map snd)) in E. vm_compute in E. injection E as <-. reflexivity.
      + apply (f_equal (option_map snd)) in E. vm_compute in E. discriminate E. }
  destruct G as (w3 & o3 & H1 & H2 & out & r & H3 & H4). exists o3, w3, out, r. auto.
Qed.

(** ** C19 *)
(** The [i]-th encryption made with a cipher instance uses nonce number [n + i], and
    encryption fails, rather than repeat a nonce, once 2^64 - 1 is reached; nonces with
    different numbers are different byte strings. *)
Theorem C19_nonces_never_repeat :
  forall c key n ps, n <= 2 ^ 64 - 1 ->
    (forall i p, nth_error ps i = Some p ->
       nth_error (fst (encrypt_all c (with_nonce key n) ps)) i =
       Some (if n + N.of_nat i <? 2 ^ 64 - 1
             then Some (seal c key (nonce_bytes (n + N.of_nat i)) [] p) else None)) /\
    (forall a b, a < 2 ^ 64 -> b < 2 ^ 64 -> nonce_bytes a = nonce_bytes b -> a = b).
Proof. exact nonces_never_repeat. Qed.
Print Assumptions C19_nonces_never_repeat.

(** What one side encrypts, in order, the other side decrypts, in order. *)
Theorem C19_ciphers_in_step :
  forall c, aead_ok c -> forall key n ps, n + N.of_nat (length ps) < 2 ^ 64 ->
    exists cs, fst (encrypt_all c (with_nonce key n) ps) = map Some cs /\
      fst (decrypt_all c (with_nonce key n) cs) = map Some ps.
Proof. intros c Hc key n ps. exact (ciphers_in_step c Hc key ps n). Qed.
Print Assumptions C19_ciphers_in_step.

Example C19_example :
  fst (encrypt_all toy_crypt (with_nonce toy_key (2 ^ 64 - 2)) [[1]; [2]]) =
  [Some ([1] ++ firstn 16 ([0; 0; 0; 0; 254; 255; 255; 255; 255; 255; 255; 255] ++ repeat 9 4)); None].
Proof. vm_compute. reflexivity. Qed.

(** ** C48: blocks of a frame *)
Theorem C48_blocks_roundtrip :
  forall bs, bs <> [] -> Forall block_ok bs ->
    parse_multiple (concat (map wire_block bs)) = Some bs.
Proof. exact parse_multiple_wire. Qed.
Print Assumptions C48_blocks_roundtrip.

(** The two blocks the router writes itself are blocks of the protocol. *)
Theorem C48_written_blocks :
  (forall m, m_id m < 2 ^ 32 -> m_expiration m < 1000000000 * 2 ^ 32 ->
     N.of_nat (length (m_payload m)) <= 65526 ->
     new_i2np_message (build_short m) = wire_block (BI2np m)) /\
  (forall ri, N.of_nat (length ri) < 65535 ->
     new_router_info ri = Some (wire_block (BRouterInfo false ri))).
Proof. exact written_blocks. Qed.
Print Assumptions C48_written_blocks.

Example C48_example : exists bs, (length bs = 6)%nat /\ Forall block_ok bs /\
  In (BI2np toy_msg) bs /\ parse_multiple (concat (map wire_block bs)) = Some bs.
Proof.
  exists [BDateTime 77; BOptions 1 2 3 4 500 600 700 800; BRouterInfo true [8; 9]; BI2np toy_msg;
          BTermination 3 4; BPadding [1; 1]].
  split; [reflexivity|]. split.
  - repeat constructor; vm_compute; try reflexivity; discriminate.
  - split; [cbn; auto 8|]. vm_compute. reflexivity.
Qed.
