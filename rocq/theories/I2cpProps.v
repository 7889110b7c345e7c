(** Property theorems C09 (I2CP framing), C11 (socket writes), C46 (I2CP requests) and C47
    (I2CP replies). *)
From Coq Require Import List NArith Bool Lia Arith ZArith ZifyBool ZifyNat ZifyN.
From Verif Require Import ListUtil Bytes PrimModel PrimSpec PrimProofs PrimProps PacketProps EncModel
  I2cpModel I2cpSpec I2cpProofs.
Import ListNotations.
Open Scope N_scope.

(** ** C46: requests are decoded as the client wrote them *)
Theorem C46_requests_decoded :
  forall e f m, requests e f m -> i2cp_parse e (fst f) (snd f) = Some m.
Proof. exact requests_decoded. Qed.
Print Assumptions C46_requests_decoded.

(** A session is only created for a destination whose key signed the request. *)
Theorem C46_create_session_authentic :
  forall e body d date o,
    i2cp_parse e 1 body = Some (MCreateSession d date o) ->
    exists mid sg tail, body = ser_dest d ++ mid ++ sg ++ tail /\ length sg = 64%nat /\
      verify e (d_key d) (firstn (length body - 64) body) sg = true /\
      (tail = [] -> verify e (d_key d) (ser_dest d ++ mid) sg = true).
Proof.
  intros e body d date o H.
  change (i2cp_parse e 1 body) with (parsed (parse_create_session e body)) in H.
  unfold parsed in H. destruct (parse_create_session e body) as [[m r]|] eqn:E; [|discriminate].
  assert (Hm : m = MCreateSession d date o) by congruence. subst m. clear H.
  unfold parse_create_session in E.
  apply bind_inv in E as (d' & r1 & H1 & E). apply bind_inv in E as (o' & r2 & H2 & E).
  apply bind_inv in E as (date' & r3 & H3 & E). apply bind_inv in E as (sg & r4 & H4 & E).
  apply bind_inv in E as (u & r5 & H5 & E). apply guard_inv in H5 as [V ->].
  apply ret_inv in E as [E _]. injection E as -> -> ->.
  apply parse_dest_inv in H1 as (-> & _ & _ & _).
  apply parse_multi_consumes in H2 as [a ->]. apply be_uint_consumes in H3 as [b ->].
  apply take_inv in H4 as [-> Hl].
  exists (a ++ b), sg, r4. repeat apply conj; auto.
  - now rewrite <- !app_assoc.
  - intros ->. rewrite app_nil_r in V.
    replace (ser_dest d' ++ a ++ b ++ sg) with ((ser_dest d' ++ a ++ b) ++ sg) in V
      by now rewrite <- !app_assoc.
    rewrite firstn_app_n in V; [exact V|]. rewrite !app_length. lia.
Qed.
Print Assumptions C46_create_session_authentic.

Definition toy_payload : list N := [1; 2; 3; 4; 0; 80; 1; 187; 9; 6; 70; 71].
Example C46_ex_send :
  requests toy (send_message_frame 7 toy_dest toy_payload 11 0 1700000000000)
    (MSendMessageExpires 7 toy_dest (80, 443, Streaming) toy_payload 11 0 1700000000000).
Proof.
  apply rq_send; [reflexivity|exact toy_dest_ok|reflexivity|reflexivity|reflexivity| |reflexivity..].
  exists [1; 2; 3; 4], 9, [70; 71]. split; reflexivity.
Qed.
Example C46_ex_create :
  let o := [([105], [49])] in
  requests toy (create_session_frame toy_dest o 5 (toy_sign (create_session_body toy_dest o 5)))
    (MCreateSession toy_dest 5 o).
Proof.
  cbv zeta. apply rq_create_session.
  - exact toy_dest_ok.
  - apply Forall_cons; [|apply Forall_nil]. split; apply ascii_ok; cbn; try lia;
      apply Forall_cons; try apply Forall_nil; lia.
  - constructor; constructor.
  - vm_compute; reflexivity.
  - vm_compute; reflexivity.
  - apply be_bytes_length.
  - apply beq_refl.
Qed.

(** ** C09: framing does not depend on segmentation *)

(** Whatever frames a client sends and however TCP cuts them into reads, the server sees
    exactly the valid messages among them, in order; a frame of unknown type or that does not
    parse is skipped and does not affect the others.  [p] is the beginning of a frame that has
    not arrived completely. *)
Theorem C09_frames_in_order :
  forall e fs p out r,
    Forall frame_ok fs -> Forall (fun f => bytes_ok (snd f)) fs -> bytes_ok p ->
    (forall f t, frame_ok f -> p <> frame f ++ t) ->
    socket_reads i2cp_room (i2cp_on_read e) i2cp_reader_new (flat_map frame fs ++ p) out r ->
    out = flat_map (fun f => match i2cp_parse e (fst f) (snd f) with
                             | Some m => [m] | None => [] end) fs.
Proof.
  intros e fs p out r Hf Hb Hp Hi H.
  assert (Hs : bytes_ok (flat_map frame fs ++ p)).
  { apply bytes_ok_app. split; [|exact Hp]. clear - Hf Hb.
    induction fs as [|f fs IH]; [constructor|]. inversion Hf; inversion Hb; subst.
    cbn [flat_map]. apply bytes_ok_app. split; [|auto]. unfold frame.
    apply bytes_ok_app. split; [apply be_bytes_ok|]. apply bytes_ok_app. split; [|assumption].
    repeat constructor. destruct H1. assumption. }
  destruct (reads_cut e _ _ _ _ H [] held_new Hs) as (gs & q & E & Hg & -> & Hq).
  cbn [app] in E. apply cut_unique in E as [-> _]; auto.
  now apply (held_incomplete r).
Qed.
Print Assumptions C09_frames_in_order.

(** A client that writes requests [fs] standing for [ms] is understood as [ms]. *)
Theorem C09_requests_in_order :
  forall e fs ms out r,
    Forall2 (requests e) fs ms -> Forall frame_ok fs ->
    Forall (fun f => bytes_ok (snd f)) fs ->
    socket_reads i2cp_room (i2cp_on_read e) i2cp_reader_new (flat_map frame fs) out r ->
    out = ms.
Proof.
  intros e fs ms out r Hr Hf Hb H. rewrite <- (app_nil_r (flat_map frame fs)) in H.
  rewrite (C09_frames_in_order e fs [] out r Hf Hb); auto; [|constructor|exact incomplete_nil].
  clear - Hr. induction Hr as [|f m fs ms H Hr IH]; [reflexivity|]. cbn [flat_map].
  rewrite (requests_decoded _ _ _ H), IH. reflexivity.
Qed.
Print Assumptions C09_requests_in_order.

(** Two ways of cutting the same bytes, whatever they are, give the same messages. *)
Theorem C09_segmentation_irrelevant :
  forall e s out1 r1 out2 r2, bytes_ok s ->
    socket_reads i2cp_room (i2cp_on_read e) i2cp_reader_new s out1 r1 ->
    socket_reads i2cp_room (i2cp_on_read e) i2cp_reader_new s out2 r2 ->
    out1 = out2.
Proof.
  intros e s out1 r1 out2 r2 Hs H1 H2.
  destruct (reads_cut e _ _ _ _ H1 [] held_new Hs) as (f1 & p1 & E1 & G1 & -> & Q1).
  destruct (reads_cut e _ _ _ _ H2 [] held_new Hs) as (f2 & p2 & E2 & G2 & -> & Q2).
  cbn [app] in *. rewrite E1 in E2.
  apply cut_unique in E2 as [-> _]; auto; eapply held_incomplete; eauto.
Qed.
Print Assumptions C09_segmentation_irrelevant.

(** The reader never refuses bytes, except after the header of a frame longer than its
    buffer. *)
Theorem C09_reads_on :
  forall e s out r, bytes_ok s ->
    socket_reads i2cp_room (i2cp_on_read e) i2cp_reader_new s out r ->
    (exists k, i2cp_room r = Some k /\ (1 <= k)%nat) \/
    exists a size ty, s = a ++ be_bytes 4 size ++ [ty] /\ 65535 < size /\ i2cp_room r = None.
Proof.
  intros e s out r Hs H.
  destruct (reads_cut e _ _ _ _ H [] held_new Hs) as (fs & p & E & _ & _ & Hb & _ & Hh).
  cbn [app] in E. unfold i2cp_room. destruct (rd_state r) as [off|size ty off] eqn:Es.
  - left. eexists. split; [reflexivity|]. lia.
  - destruct Hh as (q & Hq & Hsz & Hl & Ho & Hf). destruct (N.ltb_spec 65535 size) as [L|L].
    + right. exists (flat_map frame fs), size, ty. split; [|split; [assumption|reflexivity]].
      assert (off = 0%nat) as ->.
      { (* bytes of an oversized frame are never read: every state with a positive offset was
           left by a successful read *)
        assert (G : forall r s out r', socket_reads i2cp_room (i2cp_on_read e) r s out r' ->
          (forall size ty off, rd_state r = RFrame size ty off -> 65535 < size -> off = 0%nat) ->
          forall size ty off, rd_state r' = RFrame size ty off -> 65535 < size -> off = 0%nat);
          [|exact (G _ _ _ _ H ltac:(intros ? ? ? X; discriminate X) _ _ _ Es L)].
        clear. induction 1 as [r|r k chunk rest out r' Hk Hne Hl H IH]; intros Hr; [exact Hr|].
        apply IH. intros size ty off. unfold i2cp_on_read, i2cp_room in *.
        destruct (rd_state r) as [o|sz t o].
        - destruct (negb _); cbn [fst rd_state]; [discriminate|].
          destruct (_ =? 0); cbn [fst rd_state]; [discriminate|]. intros E _. congruence.
        - destruct (N.ltb_spec 65535 sz); [discriminate|].
          destruct (_ <? _)%nat; cbn [fst rd_state]; [|discriminate]. intros E L.
          injection E as <- <- <-. lia. }
      destruct q; [|discriminate]. rewrite E, Hq, app_nil_r. reflexivity.
    + left. eexists. split; [reflexivity|]. lia.
Qed.
Print Assumptions C09_reads_on.

(** Finding: a header announcing more than 65535 bytes makes the next read slice the buffer
    out of range: the task panics, so five bytes from a client end the connection handler. *)
Theorem C09_refuted_frame_too_large :
  exists s r, bytes_ok s /\ length s = 5%nat /\
    socket_reads i2cp_room (i2cp_on_read toy) i2cp_reader_new s [] r /\ i2cp_room r = None.
Proof.
  exists [0; 1; 0; 0; 36], (fst (i2cp_on_read toy i2cp_reader_new [0; 1; 0; 0; 36])).
  split; [repeat constructor; vm_compute; reflexivity|]. split; [reflexivity|]. split.
  - change (@nil i2cp_msg) with (snd (i2cp_on_read toy i2cp_reader_new [0; 1; 0; 0; 36]) ++ []) at 1.
    change [0; 1; 0; 0; 36] with ([0; 1; 0; 0; 36] ++ []) at 1.
    apply reads_some with (k := 5%nat); [reflexivity|discriminate|cbn; lia|constructor].
  - vm_compute. reflexivity.
Qed.
Print Assumptions C09_refuted_frame_too_large.

(** Three requests delivered in pieces that do not respect frame boundaries. *)
Example C09_ex :
  let s := flat_map frame [destroy_frame 7; (99, [1; 2]); bandwidth_frame] in
  exists r, s = [0;0;0;2;3; 0;7; 0;0;0;2;99; 1;2; 0;0;0;0;8] /\
    socket_reads i2cp_room (i2cp_on_read toy) i2cp_reader_new s
      [MDestroySession 7; MGetBandwidthLimits] r.
Proof.
  cbv zeta.
  destruct (feed i2cp_room (i2cp_on_read toy) i2cp_reader_new
    [[0;0;0]; [2;3]; [0]; [7]; [0;0;0;2;99]; [1;2]; [0;0;0;0;8]]) as [[r out]|] eqn:E.
  - exists r. split; [reflexivity|].
    assert (out = [MDestroySession 7; MGetBandwidthLimits]) as ->.
    { apply (f_equal (option_map snd)) in E. vm_compute in E. now injection E as <-. }
    apply feed_reads in E. exact E.
  - apply (f_equal (option_map snd)) in E. vm_compute in E. discriminate E.
Qed.

(** ** C11: queued messages are written completely and in order *)
Theorem C11_written_is_prefix :
  forall queued written w, wrote queued written w ->
    (exists rest, concat queued = written ++ rest) /\
    (idle w -> written = concat queued).
Proof.
  intros q o w H. destruct (wrote_inv q o w H) as (_ & Hw & He & Hr). split; [exact Hr|].
  intros [Hp Hs]. rewrite He by (rewrite Hs; discriminate). unfold w_rest. rewrite Hs, Hp.
  cbn [concat]. now rewrite app_nil_r.
Qed.
Print Assumptions C11_written_is_prefix.

(** As long as the kernel keeps taking bytes, everything queued is eventually written. *)
Theorem C11_queue_drains :
  forall queued written w kernel, wrote queued written w -> ~ failed w ->
    takes_some kernel ->
    exists bound, forall n, (bound <= n)%nat ->
      idle (fst (pump n kernel w)) /\ written ++ snd (pump n kernel w) = concat queued.
Proof.
  intros q o w kernel H Hf K. destruct (wrote_inv q o w H) as (_ & Hw & He & _).
  exists (w_measure w). intros n Hn.
  assert (P := pump_drains kernel K n w Hw Hf Hn). destruct (pump n kernel w) as [w' out].
  destruct P as [I ->]. cbn [fst snd]. split; [exact I|]. now rewrite <- He.
Qed.
Print Assumptions C11_queue_drains.

(** [write_all] (used for blocking SAM replies and stream data). *)
Theorem C11_write_all :
  forall b left written closed, writing_all b left written closed ->
    b = written ++ left /\ (left = [] -> written = b).
Proof.
  intros b l o c H. apply writing_all_inv in H. split; [exact H|]. intros ->.
  now rewrite app_nil_r in H.
Qed.
Print Assumptions C11_write_all.

Example C11_ex :
  wrote [[1; 2; 3]; [4; 5]] [1; 2] (mkWriter [[4; 5]] (WSend 2 [1; 2; 3])) /\
  ~ failed (mkWriter [[4; 5]] (WSend 2 [1; 2; 3])).
Proof.
  split; [|discriminate].
  assert (H1 := wrote_queue _ _ _ [1; 2; 3] wrote_start ltac:(discriminate)).
  assert (H2 := wrote_queue _ _ _ [4; 5] H1 ltac:(discriminate)).
  assert (H3 := wrote_iter _ _ _ WrPending H2 I).
  assert (H4 := wrote_iter _ _ _ (WrOk 2) H3 ltac:(cbn; lia)). exact H4.
Qed.
Example C11_ex_kernel :
  takes_some (fun w => match w_state w with WSend off m => (length m - off)%nat | _ => 0%nat end).
Proof. intros w off m H L. rewrite H. lia. Qed.

(** ** C47: replies are framed as the protocol says *)
Theorem C47_replies_framed_partial :
  forall r,
    match r with
    | RpBandwidthLimits => True
    | RpMessagePayload _ _ p => N.of_nat (length p) + 10 < 2 ^ 32
    | RpSessionStatus _ _ => True
    | RpSetDate _ v => (length v < 256)%nat
    | RpHostReply _ _ _ | RpRequestVariableLeaseSet _ _ => False
    end ->
    i2cp_build r = Some (frame (reply_frame r)).
Proof.
  intros r H. unfold frame. destruct r as [| | |s m p|s k|d v]; try easy; cbn [i2cp_build reply_frame fst snd].
  - f_equal. f_equal. rewrite !app_length, !be_bytes_length. f_equal. unfold len. lia.
  - f_equal. f_equal. now destruct k.
  - f_equal. f_equal.
    + f_equal. unfold len, ser_str. rewrite !app_length, !be_bytes_length. lia.
Qed.
Print Assumptions C47_replies_framed_partial.

(** Finding: every host reply announces a body one byte shorter than the one it carries. *)
Theorem C47_refuted_host_reply :
  forall session request kind, hr_len kind < 4294967000 ->
    exists m ty body, i2cp_build (RpHostReply session request kind) = Some m /\
      reply_frame (RpHostReply session request kind) = (ty, body) /\
      m = be_bytes 4 (N.of_nat (length body) - 1) ++ [ty] ++ body /\ ~ well_framed m.
Proof.
  intros s q k Hk. eexists _, _, _. split; [reflexivity|]. split; [reflexivity|].
  cbn [reply_frame].
  set (body := be_bytes 2 s ++ be_bytes 4 q ++ match k with
    | HrSuccess d => [0] ++ d | HrFailure => [1] | HrPassword => [2] | HrPrivateKey => [3]
    | HrBoth => [4] | HrDecryption => [5] end).
  assert (Lb : N.of_nat (length body) = 6 + hr_len k).
  { unfold body. rewrite !app_length, !be_bytes_length. destruct k; cbn [length app hr_len]; unfold len; lia. }
  assert (E : be_bytes 4 (2 + 3 + hr_len k) ++ be_bytes 1 39 ++ be_bytes 2 s ++ be_bytes 4 q ++
            be_bytes 1 (hr_code k) ++ match k with HrSuccess d => d | _ => [] end
            = be_bytes 4 (N.of_nat (length body) - 1) ++ [39] ++ body).
  { f_equal; [f_equal; lia|]. unfold body. destruct k; reflexivity. }
  split; [exact E|]. rewrite E. intros (ty & b & W). unfold frame in W. cbn [fst snd] in W.
  apply app_inj_len in W as [W1 W2]; [|now rewrite !be_bytes_length].
  cbn [app] in W2. injection W2 as _ <-. apply be_bytes_inj in W1;
    [lia|change (256 ^ N.of_nat 4) with 4294967296; lia..].
Qed.
Print Assumptions C47_refuted_host_reply.

(** Finding: every lease set request announces a body two bytes too short. *)
Theorem C47_refuted_lease_set_request :
  forall session leases, leases <> [] -> (length leases < 256)%nat ->
    Forall (fun l => length (l_router l) = 32%nat) leases ->
    exists m ty body, i2cp_build (RpRequestVariableLeaseSet session leases) = Some m /\
      reply_frame (RpRequestVariableLeaseSet session leases) = (ty, body) /\
      m = be_bytes 4 (N.of_nat (length body) - 2) ++ [ty] ++ body /\ ~ well_framed m.
Proof.
  intros s ls Hne Hl Hr. destruct ls as [|l0 ls0] eqn:El; [easy|]. rewrite <- El in *.
  eexists _, _, _. split; [rewrite El; reflexivity|]. split; [reflexivity|].
  set (body := be_bytes 2 s ++ be_bytes 1 (N.of_nat (length ls)) ++
           flat_map (fun l => l_router l ++ be_bytes 4 (l_tunnel l) ++ be_bytes 8 (l_expires_ms l)) ls).
  assert (Lb : N.of_nat (length body) = 3 + N.of_nat (length ls) * 44).
  { unfold body. rewrite !app_length, !be_bytes_length.
    assert (F : length (flat_map (fun l => l_router l ++ be_bytes 4 (l_tunnel l) ++
      be_bytes 8 (l_expires_ms l)) ls) = (length ls * 44)%nat); [|lia].
    clear - Hr. induction Hr as [|l ls Hx Hr IH]; [reflexivity|]. cbn [flat_map length].
    rewrite !app_length, !be_bytes_length, IH. lia. }
  assert (E : be_bytes 4 (1 + N.of_nat (length ls) * 44) ++ be_bytes 1 37 ++ be_bytes 2 s ++
      be_bytes 1 (N.of_nat (length ls)) ++ flat_map ser_lease ls
      = be_bytes 4 (N.of_nat (length body) - 2) ++ [37] ++ body).
  { f_equal. f_equal. lia. }
  split; [exact E|]. rewrite E. intros (ty & b & W). unfold frame in W. cbn [fst snd] in W.
  apply app_inj_len in W as [W1 W2]; [|now rewrite !be_bytes_length].
  cbn [app] in W2. injection W2 as _ <-. apply be_bytes_inj in W1;
    [lia|change (256 ^ N.of_nat 4) with 4294967296; lia..].
Qed.
Print Assumptions C47_refuted_lease_set_request.
