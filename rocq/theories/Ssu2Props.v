(** C14, C15, C16, C17, C51: SSU2 sessions and the Bloom filter. *)
From Coq Require Import List NArith Bool Arith Lia ZArith ZifyBool ZifyNat ZifyN.
From Verif Require Import ListUtil Bytes NMap PrimModel PrimProps I2npModel I2npSpec I2npProofs Ntcp2Model Ntcp2Spec
  Ntcp2Proofs Ntcp2Props TunnelModel TunnelSpec TunnelProps Ssu2Model Ssu2Spec Ssu2Proofs Ssu2Proofs2
  Ssu2Proofs3 Ssu2Proofs4 Ssu2Proofs5.
Import ListNotations.
Open Scope N_scope.

Definition toy_ks (key iv : list N) : list N := firstn 8 (map (fun x => (x + 3) mod 256) (iv ++ key)).
Definition toy_keys : skeys := mkKeys (repeat 1 32) (repeat 2 32) (repeat 3 32).
Definition sec : N := 1000000000.

(** ** C14: fragmentation and reassembly *)
(** The packets of the messages [ms] arrive in any order, any number of times, some never;
    every message handed on is one of [ms], whole and unchanged (expiration in whole seconds),
    and all of its pieces have arrived. *)
Theorem C14_only_complete_messages :
  forall e c ks k dst ms start xs t m,
    aead_ok c -> dst < 2 ^ 64 -> Forall sendable ms -> NoDup (map m_id ms) ->
    Forall (arrival_ok ms) xs ->
    In (t, m) (sess_trace e c ks k (ss_new start) (map (op_of c ks k dst ms) xs)) ->
    exists j pre x post,
      (j < length ms)%nat /\ m = received (msg_at ms j) /\
      xs = pre ++ x :: post /\ fst x = t /\
      forall i, (i < piece_count ms j)%nat ->
        exists t' n a, In (t', APiece j i n a) (pre ++ [x]).
Proof.
  intros e c ks k dst ms start xs t m Hc Hd Hm Hi OK H.
  exact (trace_safe e c ks Hc k dst Hd ms Hm Hi xs [] (ss_new start) (start + gc_interval, fun _ => None) t m
           (repr_new dst Hd ms start) (fun _ _ X => match X with end) OK H).
Qed.
Print Assumptions C14_only_complete_messages.

(** If every piece of a message arrives, and all its arrivals are within half a minute and
    before the message expires, then it is handed on exactly once, whatever else arrives,
    in whatever order, and however often. *)
Theorem C14_exactly_once :
  forall e c ks k dst ms start xs j t0,
    aead_ok c -> dst < 2 ^ 64 -> Forall sendable ms -> NoDup (map m_id ms) ->
    Forall (arrival_ok ms) xs -> monotone start xs ->
    (j < length ms)%nat ->
    (forall i, (i < piece_count ms j)%nat -> exists t n a, In (t, APiece j i n a) xs) ->
    (forall t i n a, In (t, APiece j i n a) xs -> t0 <= t < t0 + half_minute) ->
    t0 + half_minute <= m_expiration (received (msg_at ms j)) ->
    exists t, t0 <= t < t0 + half_minute /\
      filter (fun x => m_id (snd x) =? m_id (msg_at ms j))
        (sess_trace e c ks k (ss_new start) (map (op_of c ks k dst ms) xs)) =
      [(t, received (msg_at ms j))].
Proof.
  intros e c ks k dst ms start xs j t0 Hc Hd Hm Hi OK M Hj Ha Hw Hx.
  exact (exactly_once e c ks Hc k dst Hd ms Hm Hi j Hj t0 Hx start xs OK M Hw Ha).
Qed.
Print Assumptions C14_exactly_once.

(** Pieces of incomplete messages are not kept: right after a poll at time [t], whatever
    datagrams arrived before, all that is held began to arrive less than 330 seconds ago. *)
Theorem C14_incomplete_dropped :
  forall e c ks k start ops t s,
    monotone start (ops ++ [(t, SPoll)]) ->
    sess_state e c ks k (ss_new start) (ops ++ [(t, SPoll)]) = Some s ->
    Forall (fun x => t < f_created (snd x) + 330 * 1000000000) (fh_messages (ss_frag s)).
Proof.
  intros e c ks k start ops t s M E.
  eapply Forall_impl; [|exact (dropped_after_poll e c ks k start ops t s M E)].
  intros x Hx. unfold half_minute, gc_interval in Hx. lia.
Qed.
Print Assumptions C14_incomplete_dropped.

(** Finding: a payload of 1190 to 1200 bytes is sent as a lone first fragment, and is never
    delivered, however often it arrives. *)
Theorem C14_refuted_lone_fragment :
  forall e c ks k dst m start xs,
    aead_ok c -> dst < 2 ^ 64 -> fits_short m -> (1190 <= length (m_payload m) <= 1200)%nat ->
    Forall (arrival_ok [m]) xs ->
    length (pieces m) = 1%nat /\
    sess_trace e c ks k (ss_new start) (map (op_of c ks k dst [m]) xs) = [].
Proof.
  intros e c ks k dst m start xs Hc Hd Hf Hl OK. split.
  - now rewrite (lone_piece ks dst Hd m Hf Hl).
  - apply (lone_trace e c ks Hc k dst Hd m Hf Hl xs (ss_new start) []); auto.
    + constructor.
    + apply ack_inv_new.
    + cbn. lia.
Qed.
Print Assumptions C14_refuted_lone_fragment.

(** A message of three pieces and one of one piece; pieces out of order and repeated. *)
Definition toy_m0 : message := mkMsg TunnelData 9 (100 * sec) (repeat 5 2500).
Definition toy_m1 : message := mkMsg Garlic 8 (100 * sec) [1; 2; 3].
Definition toy_ms : list message := [toy_m0; toy_m1].
Definition toy_xs : list (N * arrival) :=
  [(11 * sec, APiece 0 2 4 (0, 0, None)); (12 * sec, APoll); (12 * sec, APiece 0 0 2 (3, 1, Some [(1, 2)]));
   (13 * sec, APiece 1 0 5 (0, 0, None)); (13 * sec, APiece 0 2 4 (0, 0, None));
   (14 * sec, APiece 0 1 3 (0, 0, None)); (14 * sec, APiece 0 1 3 (0, 0, None));
   (15 * sec, APiece 0 0 9 (0, 0, None)); (16 * sec, APiece 0 2 9 (0, 0, None)); (500 * sec, APoll)].
Lemma toy_m0_fits : fits_short toy_m0.
Proof. unfold fits_short, toy_m0, sec. cbn [m_payload m_id m_expiration]. rewrite repeat_length. lia. Qed.
Example C14_hypotheses :
  Forall sendable toy_ms /\ NoDup (map m_id toy_ms) /\ Forall (arrival_ok toy_ms) toy_xs /\
  monotone (10 * sec) toy_xs /\ piece_count toy_ms 0 = 3%nat /\
  (forall i, (i < 3)%nat -> exists t n a, In (t, APiece 0 i n a) toy_xs) /\
  (forall t i n a, In (t, APiece 0 i n a) toy_xs -> 11 * sec <= t < 11 * sec + half_minute).
Proof.
  assert (P : piece_count toy_ms 0 = 3%nat) by (vm_compute; reflexivity).
  assert (P1 : piece_count toy_ms 1 = 1%nat) by (vm_compute; reflexivity).
  refine (conj _ (conj _ (conj _ (conj _ (conj P (conj _ _)))))).
  - repeat apply Forall_cons; [| |constructor]; split.
    + exact toy_m0_fits.
    + right. unfold toy_m0. cbn [m_payload]. rewrite repeat_length. lia.
    + unfold fits_short, toy_m1, sec. cbn [m_payload m_id m_expiration length]. lia.
    + left. cbn. lia.
  - repeat constructor; cbn; intuition discriminate.
  - unfold toy_xs.
    repeat (apply Forall_cons; [unfold arrival_ok; cbn [snd]; try exact I; rewrite ?P, ?P1;
      (split; [cbn [toy_ms length]; lia|split; [lia|split; [lia|]]]);
      unfold ackinfo_ok; (split; [lia|split; [lia|]]); try exact I; (split; [repeat constructor|cbn [length]; lia])|]).
    apply Forall_nil.
  - cbn [toy_xs monotone]. unfold sec. lia.
  - intros i Hi. destruct i as [|[|[|i]]]; [| | |lia]; do 3 eexists; cbn; eauto 12.
  - intros t i n a H. unfold half_minute, sec. cbn [toy_xs In] in H.
    repeat (destruct H as [H|H]; [apply pair_equal_spec in H as [<- H]; try discriminate; unfold sec; lia|]).
    destruct H.
Qed.
Example C14_example :
  map (fun x => (fst x / sec, m_id (snd x), length (m_payload (snd x))))
    (sess_trace toy_fast toy_crypt toy_ks toy_keys (ss_new (10 * sec))
       (map (op_of toy_crypt toy_ks toy_keys 77 toy_ms) toy_xs)) =
  [(13, 8, 3%nat); (14, 9, 2500%nat)].
Proof. vm_compute. reflexivity. Qed.
Example C14_lone_example :
  exists m, fits_short m /\ (1190 <= length (m_payload m) <= 1200)%nat /\
    Forall (arrival_ok [m]) [(11 * sec, APiece 0 0 1 (0, 0, None))].
Proof.
  exists (mkMsg TunnelData 9 (100 * sec) (repeat 5 1195)). unfold fits_short. cbn [m_payload m_id m_expiration].
  rewrite repeat_length. repeat apply conj; try (unfold sec; lia). repeat constructor; vm_compute; reflexivity.
Qed.

(** ** C15: acknowledgements *)
(** Whatever packets were received (in any order, repeated, with gaps), and as long as no run
    of received or missing packets above a missing one exceeds 255: the session does not
    panic, what it acknowledges was received, and above the lowest missing packet it
    acknowledges everything it received.  Without the limit on runs the claim fails, see
    C15_refuted_long_runs. *)
Theorem C15_acks_only_received_partial :
  forall hist, Forall (fun n => n < 2 ^ 32 - 1) hist ->
    exists a, register_all ack_new hist = Some a /\
      (short_runs hist (highest_seen a) ->
       (forall p, ack_says (ack_info a) p = true -> got hist p) /\
       (forall p q, q < p -> ~ got hist q -> got hist p -> ack_says (ack_info a) p = true)).
Proof.
  intros hist F. destruct (register_all_inv [] hist ack_new ack_inv_new ltac:(cbn; lia) F) as (a & E & I & H).
  exists a. split; [exact E|]. intros SR. rewrite app_nil_r in I.
  assert (G : forall p, got (rev hist) p <-> got hist p) by (intros p; unfold got; now rewrite <- in_rev).
  destruct (ack_info_sound (rev hist) a I) as [S1 S2].
  { intros q x Hq H1 H2. rewrite G in Hq. destruct (SR q x Hq H1 H2) as [(p1 & B1 & R1) (p2 & B2 & R2)].
    split; [exists p1|exists p2]; rewrite G; auto. }
  split.
  - intros p Hp. apply G. auto.
  - intros p q Hlt Hq Hp. rewrite <- G in Hq, Hp. apply (S2 p q); auto.
    destruct I as (_ & Hh & _). destruct Hp as [->|Hp]; [lia|]. now apply Hh.
Qed.
Print Assumptions C15_acks_only_received_partial.

(** The highest acknowledged packet, and the count of packets below it, are always truthful. *)
Theorem C15_first_range_truthful :
  forall hist through num ranges, Forall (fun n => n < 2 ^ 32 - 1) hist ->
    exists a, register_all ack_new hist = Some a /\
      (ack_info a = (through, num, ranges) ->
       num <= 255 /\ (forall p, In p hist -> p <= through) /\
       forall p, through - num <= p <= through -> got hist p).
Proof.
  intros hist through num ranges F.
  destruct (register_all_inv [] hist ack_new ack_inv_new ltac:(cbn; lia) F) as (a & E & I & H).
  exists a. split; [exact E|]. intros Ea. rewrite app_nil_r in I.
  destruct (ack_info_first (rev hist) a through num ranges I Ea) as (A1 & A2 & A3 & A4).
  repeat apply conj; auto.
  - intros p Hp. rewrite A1. destruct I as (_ & Hh & _). apply Hh. now apply -> in_rev.
  - intros p Hp. destruct (A4 p Hp) as [->|G]; [now left|right]. now apply in_rev.
Qed.
Print Assumptions C15_first_range_truthful.

(** Finding: with 256 or more packets received above a missing one, the ranges that follow
    are read relative to the wrong packet, and packets never received are acknowledged. *)
Definition gap_hist : list N := nseq 1 39 ++ nseq 41 260.
Theorem C15_refuted_long_runs :
  exists hist a p, Forall (fun n => n < 2 ^ 32 - 1) hist /\
    register_all ack_new hist = Some a /\ ack_says (ack_info a) p = true /\ ~ got hist p.
Proof.
  assert (E : exists a, register_all ack_new gap_hist = Some a /\ ack_says (ack_info a) 40 = true).
  { eexists. split; vm_compute; reflexivity. }
  destruct E as (a & E1 & E2). exists gap_hist, a, 40. repeat apply conj; auto.
  - apply Forall_forall. intros x Hx. assert (X : forallb (fun n => n <? 2 ^ 32 - 1) gap_hist = true) by (vm_compute; reflexivity).
    rewrite forallb_forall in X. specialize (X x Hx). lia.
  - intros [G|G]; [discriminate|]. rewrite <- smem_In in G.
    assert (X : smem 40 gap_hist = false) by (vm_compute; reflexivity). congruence.
Qed.
Print Assumptions C15_refuted_long_runs.

Example C15_example :
  option_map ack_info (register_all ack_new [1; 2; 5; 9; 3; 8]) = Some (9, 1, Some [(2, 1); (1, 4)]) /\
  map (ack_says (9, 1, Some [(2, 1); (1, 4)])) [0; 1; 2; 3; 4; 5; 6; 7; 8; 9; 10] =
    [true; true; true; true; false; true; false; false; true; true; false] /\
  short_runs [1; 2; 5; 9; 3; 8] 9.
Proof.
  repeat apply conj; [vm_compute; reflexivity|vm_compute; reflexivity|].
  intros q a _ _ H. lia.
Qed.

(** ** C16: duplicate filter *)
(** Once let through, a message id is reported as a duplicate for at least a minute: until the
    filter is polled a minute or more later. *)
Theorem C16_rejects_within_a_minute :
  forall start pre t id mid,
    monotone start (pre ++ (t, DInsert id) :: mid) ->
    lets_through start pre id = true ->
    (forall p, In (p, DPoll) mid -> p < t + minute) ->
    lets_through start (pre ++ (t, DInsert id) :: mid) id = false.
Proof. exact dup_keeps. Qed.
Print Assumptions C16_rejects_within_a_minute.

(** An id reported as a duplicate was let through before, and since then the filter was not
    polled twice, a minute after the insertion and a minute after that. *)
Theorem C16_rejects_only_recent :
  forall start ops id, monotone start ops -> lets_through start ops id = false ->
    exists pre t mid, ops = pre ++ (t, DInsert id) :: mid /\ lets_through start pre id = true /\
      ~ polled_twice t mid.
Proof. exact dup_reject_why. Qed.
Print Assumptions C16_rejects_only_recent.

(** A session that receives any datagrams hands on messages with the same id only if they are a
    minute or more apart. *)
Theorem C16_session_duplicates :
  forall e c ks k s now ops, monotone now ops ->
    forall a x b y d, sess_trace e c ks k s ops = a ++ x :: b ++ y :: d ->
      m_id (snd x) = m_id (snd y) -> fst x + minute <= fst y.
Proof. intros e c ks k s now ops M. exact (trace_spaced e c ks k ops s now M). Qed.
Print Assumptions C16_session_duplicates.

Example C16_example :
  let ops := [(1 * sec, DInsert 7); (2 * sec, DInsert 8); (59 * sec, DPoll); (60 * sec, DPoll); (70 * sec, DInsert 7)] in
  monotone 0 ops /\ lets_through 0 ops 7 = false /\ lets_through 0 ops 9 = true /\
  lets_through 0 (ops ++ [(130 * sec, DPoll)]) 7 = true.
Proof. split; [cbn; unfold sec; lia|]. vm_compute. auto. Qed.

(** ** C17: Bloom filter *)
(** For every hash function: an item that was inserted as new is reported as seen until the
    filter decayed twice. *)
Theorem C17_seen_until_decayed_twice :
  forall bits before x after,
    is_new bits before x = true -> (decays after <= 1)%nat ->
    is_new bits (before ++ BInsert x :: after) x = false.
Proof. exact (fun bits a x b => bloom_keeps bits a b x). Qed.
Print Assumptions C17_seen_until_decayed_twice.

(** An item is only reported as seen if each of its bits was set by an item that was inserted
    as new, and at most one decay ago. *)
Theorem C17_seen_only_if_covered :
  forall bits ops x, is_new bits ops x = false ->
    forall b, In b (bits x) ->
      exists pre y mid, ops = pre ++ BInsert y :: mid /\ is_new bits pre y = true /\
        (decays mid <= 1)%nat /\ In b (bits y).
Proof. exact bloom_seen_why. Qed.
Print Assumptions C17_seen_only_if_covered.

Definition toy_bits (x : list N) : list N := map (fun b => b mod 5) x.
Example C17_example :
  is_new toy_bits [] [1; 2] = true /\ is_new toy_bits [BInsert [1; 2]] [2; 6] = false /\
  is_new toy_bits [BInsert [1; 2]; BDecay; BInsert [3]] [1; 2] = false /\
  is_new toy_bits [BInsert [1; 2]; BDecay; BInsert [3]; BDecay] [1; 2] = true.
Proof. vm_compute. auto. Qed.

(** ** C51: packets *)
(** Every message that fits the short form is sent as packets with consecutive, never used
    numbers, each of which the receiving socket assigns to the right connection and opens to
    one piece of the message and the sender's acknowledgement. *)
Theorem C51_packets_carry_what_was_sent :
  forall e c ks k dst s m,
    aead_ok c -> dst < 2 ^ 64 -> fits_short m -> ackinfo_ok (ack_info (ss_ack s)) ->
    ss_pkt_num s + N.of_nat (length (pieces m)) <= 2 ^ 32 ->
    exists s' ps,
      send_message c ks k dst s (build_short m) = Some (s', ps) /\
      ss_pkt_num s' = ss_pkt_num s + N.of_nat (length ps) /\
      length ps = length (pieces m) /\
      forall i, (i < length ps)%nat ->
        exists d, socket_header ks (k_intro k) (nth i ps []) = Some (dst, d) /\
          open_packet e c ks k d =
          Some (ss_pkt_num s + N.of_nat i,
                [piece_block m (nth i (pieces m) (KWhole [])); ack_block (ack_info (ss_ack s))]).
Proof.
  intros e c ks k dst s m Hc Hd F A Hn.
  destruct (send_message_correct e c ks Hc k dst Hd s m F A Hn) as (ps & E & L & P).
  eexists. exists ps. rewrite L. repeat apply conj; eauto. now rewrite <- L.
Qed.
Print Assumptions C51_packets_carry_what_was_sent.

(** What [ack_info] says can always be written down, up to 32765 ranges. *)
Theorem C51_acks_can_be_written :
  forall hist, Forall (fun n => n < 2 ^ 32 - 1) hist ->
    exists a, register_all ack_new hist = Some a /\
      (match snd (ack_info a) with Some rs => N.of_nat (length rs) <= 32765 | None => True end ->
       ackinfo_ok (ack_info a)).
Proof.
  intros hist F. destruct (register_all_inv [] hist ack_new ack_inv_new ltac:(cbn; lia) F) as (a & E & I & H).
  exists a. split; [exact E|]. apply ack_info_ok. lia.
Qed.
Print Assumptions C51_acks_can_be_written.

(** Finding: the packet that tells the peer that the session ended is never sent: building it
    panics, because its payload is empty. *)
Theorem C51_refuted_termination_never_sent :
  forall c ks k dst n, aead_ok c -> termination_packet c ks k dst n = None.
Proof.
  intros c ks k dst n [_ L]. unfold termination_packet, build_packet, data_payload. rewrite L. reflexivity.
Qed.
Print Assumptions C51_refuted_termination_never_sent.

Example C51_example :
  exists s' ps, send_message toy_crypt toy_ks toy_keys 77 (ss_new 0) (build_short toy_m0) = Some (s', ps) /\
    length ps = 3%nat /\ ss_pkt_num s' = 4 /\ fits_short toy_m0 /\ ackinfo_ok (ack_info (ss_ack (ss_new 0))).
Proof.
  eexists. eexists. split; [vm_compute; reflexivity|]. split; [reflexivity|]. split; [reflexivity|].
  split; [exact toy_m0_fits|]. cbn. repeat apply conj; lia.
Qed.
