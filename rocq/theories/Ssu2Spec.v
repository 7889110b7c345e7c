(** What the SSU2 session properties talk about. *)
From Coq Require Import List NArith Bool.
From Verif Require Import Bytes NMap PrimModel I2npModel I2npSpec Ntcp2Model Ntcp2Spec TunnelModel Ssu2Model.
Import ListNotations.
Open Scope N_scope.

(** ** Acknowledgements *)
(** How https://geti2p.net/spec/ssu2 (ACK block) reads an ACK: [through] and the [num] packets
    right below it are acknowledged; each range then says how many packets below that are not
    acknowledged, and how many below those are.  [top] is the lowest packet covered so far. *)
Fixpoint in_ranges (top : N) (ranges : list (N * N)) (p : N) : bool :=
  match ranges with
  | [] => false
  | (nack, ack) :: t =>
      ((top - nack - ack <=? p) && (p <? top - nack)) || in_ranges (top - nack - ack) t p
  end.
Definition ack_says (a : N * N * option (list (N * N))) (p : N) : bool :=
  let '(through, num, ranges) := a in
  ((through - num <=? p) && (p <=? through)) ||
  in_ranges (through - num) (match ranges with Some r => r | None => [] end) p.

(** The manager after it was told about the packets [hist], in that order; [None] if it
    panicked. *)
Fixpoint register_all (a : ackmgr) (hist : list N) : option ackmgr :=
  match hist with
  | [] => Some a
  | n :: t => match register_pkt a n with Some a' => register_all a' t | None => None end
  end.
(** Packet 0 counts as received (it is the last message of the handshake). *)
Definition got (hist : list N) (p : N) : Prop := p = 0 \/ In p hist.
(** Above the lowest missing packet there is no run of 256 packets that were all received or
    that are all missing. *)
Definition short_runs (hist : list N) (high : N) : Prop :=
  forall q a, ~ got hist q -> q <= a -> a + 255 <= high ->
    (exists p, a <= p <= a + 255 /\ got hist p) /\ (exists p, a <= p <= a + 255 /\ ~ got hist p).

(** ** Duplicate filter *)
Inductive dop : Type := DInsert (id : N) | DPoll.
Definition dup_step (d : dupfilter) (o : N * dop) : dupfilter :=
  match snd o with
  | DInsert id => fst (dup_insert d id)
  | DPoll => dup_poll d (fst o)
  end.
Definition dup_run (d : dupfilter) (ops : list (N * dop)) : dupfilter := fold_left dup_step ops d.
(** Is a message with this id let through, after [ops]? *)
Definition lets_through (start : N) (ops : list (N * dop)) (id : N) : bool :=
  snd (dup_insert (dup_run (dup_new start) ops) id).
(** Times never go back, from [start] on. *)
Fixpoint monotone {A} (start : N) (ops : list (N * A)) : Prop :=
  match ops with [] => True | (t, _) :: r => start <= t /\ monotone t r end.
Definition minute : N := 60 * 1000000000.
(** The filter was polled at a minute or more after [t], and again a minute or more later. *)
Definition polled_twice (t : N) (ops : list (N * dop)) : Prop :=
  exists a p1 b p2 c, ops = a ++ (p1, DPoll) :: b ++ (p2, DPoll) :: c /\
    t + minute <= p1 /\ p1 + minute <= p2.

(** ** Bloom filter *)
Inductive bop : Type := BInsert (x : list N) | BDecay.
Section BloomSpec.
Variable bits : list N -> list N.
Definition bloom_step (b : bloom) (o : bop) : bloom :=
  match o with BInsert x => fst (bloom_insert bits b x) | BDecay => bloom_decay b end.
Definition bloom_run (b : bloom) (ops : list bop) : bloom := fold_left bloom_step ops b.
Definition is_new (ops : list bop) (x : list N) : bool := snd (bloom_insert bits (bloom_run bloom_new ops) x).
End BloomSpec.
Definition decays (ops : list bop) : nat :=
  length (filter (fun o => match o with BDecay => true | _ => false end) ops).

(** ** Packets *)
Definition ackinfo : Type := N * N * option (list (N * N)).
Definition byte_pair (r : N * N) : Prop := fst r < 256 /\ snd r < 256.
Definition ackinfo_ok (a : ackinfo) : Prop :=
  let '(through, num, ranges) := a in
  through < 2 ^ 32 /\ num < 256 /\
  match ranges with Some rs => Forall byte_pair rs /\ N.of_nat (length rs) <= 32765 | None => True end.
Definition ack_block (a : ackinfo) : block :=
  let '(through, num, ranges) := a in
  SAck through num (match ranges with Some r => r | None => [] end).

(** I2NP messages the short form can carry. *)
Definition fits_short (m : message) : Prop :=
  m_id m < 2 ^ 32 /\ m_expiration m < 1000000000 * 2 ^ 32 /\
  (0 < length (m_payload m))%nat /\ N.of_nat (length (m_payload m)) <= 65526.
(** The packets of a message: what it is cut into, one piece per packet. *)
Definition pieces (m : message) : list kind := message_kinds (build_short m) (received m).
(** The block a piece is written as; [received m] is the message with whole seconds. *)
Definition piece_block (m : message) (k : kind) : block :=
  match k with
  | KWhole _ => SI2np (received m)
  | KFirstFrag t id x f => SFirst t id x f
  | KFollowFrag id num last f => SFollow last id num f
  end.

(** ** A session receiving datagrams *)
Inductive sop : Type := SDatagram (d : list N) | SPoll.
Section Run.
Variable e : ext.
Variable c : ncrypt.
Variable ks : list N -> list N -> list N.
Variable k : skeys.
(** One event: the session afterwards ([None] if it ended), and the messages handed on. *)
Definition sess_step (s : ssu2) (o : N * sop) : option ssu2 * list (N * message) :=
  match snd o with
  | SPoll => (Some (ss_poll (fst o) s), [])
  | SDatagram d =>
      match receive_datagram e c ks k (fst o) s d with
      | Handled s' out => (Some s', map (pair (fst o)) out)
      | Rejected s' => (Some s', [])
      | Terminated _ out _ => (None, map (pair (fst o)) out)
      | Panicked => (None, [])
      end
  end.
Fixpoint sess_trace (s : ssu2) (ops : list (N * sop)) : list (N * message) :=
  match ops with
  | [] => []
  | o :: r =>
      let '(s', out) := sess_step s o in
      out ++ match s' with Some s' => sess_trace s' r | None => [] end
  end.
Fixpoint sess_state (s : ssu2) (ops : list (N * sop)) : option ssu2 :=
  match ops with
  | [] => Some s
  | o :: r => match fst (sess_step s o) with Some s' => sess_state s' r | None => None end
  end.

(** What arrives: piece [i] of message [j], in a packet with number [n] that also carries the
    acknowledgement [a]; or the session is only polled. *)
Inductive arrival : Type := APiece (j i : nat) (n : N) (a : ackinfo) | APoll.
Variable dst : N.
Variable ms : list message.
Definition no_msg : message := mkMsg Data 0 0 [].
Definition msg_at (j : nat) : message := nth j ms no_msg.
Definition piece_count (j : nat) : nat := length (pieces (msg_at j)).
Definition op_of (x : N * arrival) : N * sop :=
  (fst x,
   match snd x with
   | APoll => SPoll
   | APiece j i n a =>
       SDatagram (match build_packet c ks k dst n
                          (data_payload (Some (nth i (pieces (msg_at j)) (KWhole []))) (Some a)) with
                  | Some p => p
                  | None => []
                  end)
   end).
Definition arrival_ok (x : N * arrival) : Prop :=
  match snd x with
  | APoll => True
  | APiece j i n a =>
      (j < length ms)%nat /\ (i < piece_count j)%nat /\ n < 2 ^ 32 - 1 /\ ackinfo_ok a
  end.
End Run.
(** Messages that are cut into pieces that can be put together again: this leaves out payloads
    of 1190 to 1200 bytes, see C14_refuted_lone_fragment. *)
Definition sendable (m : message) : Prop :=
  fits_short m /\ (length (m_payload m) <= 1189 \/ 1200 < length (m_payload m))%nat.
Definition half_minute : N := 30 * 1000000000.
