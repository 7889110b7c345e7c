(** Model of an established SAM/I2CP stream.
    Source: /repo/emissary-core/src/sam/protocol/streaming/stream/active.rs.

    The functions below are total.  One [event] is one interaction of
    [Stream::poll] (active.rs:1148-1436) with its environment (command channel, client
    socket, event channel, timers); [poll] performs a sequence of such interactions in a
    fixed order.  The model lets them occur in ANY order, so everything proved for all
    event lists holds for the orders [poll] produces. *)
From Coq Require Import List NArith Lia Bool.
From Verif Require Import NMap.
Import ListNotations.
Open Scope N_scope.

Definition bytes := list N.

(** active.rs:54-91 (constants) *)
Definition MAX_WINDOW_SIZE : nat := 128.
Definition MAX_WINDOW_LOOKAHEAD : N := 512.
Definition MAX_NACKS : nat := 255.
Definition MTU_SIZE : nat := 1812.
Definition READ_BUFFER_SIZE : N := 65535.
Definition EXP_GROWTH_STOP_THRESHOLD : nat := 64.
Definition INITIAL_WINDOW_SIZE : nat := 1.
Definition PLAIN_ACK : N := 0.

(** packet.rs:319-343 [Packet].  Simplified: stream ids, resend delay, the embedded
    destination and the signature are dropped (the codec is modelled in PacketModel.v);
    of the flags only those [on_packet] looks at are kept, plus the choking delay. *)
Record packet := mkPacket {
  p_seq : N;
  p_ack : N;
  p_nacks : list N;
  p_syn : bool;
  p_close : bool;
  p_reset : bool;
  p_no_ack : bool;
  p_choke : bool;
  p_payload : bytes
}.

(** active.rs:305-343 [InboundContext].  Simplified: the RTT is dropped, the ACK timer is
    a flag "armed". *)
Record inbound := mkIn {
  i_missing : list N;           (* BTreeSet<u32> *)
  i_pending : nmap bytes;       (* BTreeMap<u32, Vec<u8>> *)
  i_ready : list bytes;         (* VecDeque<Vec<u8>> *)
  i_seq : N;                    (* highest sequence number seen *)
  i_close : bool;
  i_timer : bool
}.

(** active.rs:348-366 [InboundContext::new] *)
Definition inbound_new (highest : N) : inbound :=
  mkIn [] [] [] highest false false.

(** active.rs:432-437: [while let Some(payload) = self.pending.remove(&next_seq)].
    Every iteration removes an entry, so [length pending] iterations of fuel always
    suffice (proved as [drain_stops]). *)
Fixpoint drain (fuel : nat) (next : N) (pend : nmap bytes) (ready : list bytes)
  : nmap bytes * list bytes :=
  match fuel with
  | O => (pend, ready)
  | S f =>
      match nget next pend with
      | None => (pend, ready)
      | Some p => drain f (next + 1) (ndel next pend) (ready ++ [p])
      end
  end.

(** active.rs:405-415: the sequence numbers in a gap become missing unless buffered *)
Definition mark_missing (gap : list N) (pend : nmap bytes) (missing : list N) : list N :=
  fold_left (fun ms s => if nhas s pend then ms else sadd s ms) gap missing.

(** active.rs:371-451 [InboundContext::handle_packet].  [None] is
    [Err(SequenceNumberTooHigh)], on which [poll] ends the stream.  Simplified: sequence
    numbers are unbounded (the code uses u32; [self.seq_nro + 1] would overflow only
    after sequence number 2^32-1 was received). *)
Definition handle_packet (i : inbound) (seq : N) (payload : bytes) : option inbound :=
  if seq =? i_seq i + 1 then
    let missing := sdel seq (i_missing i) in
    match missing with
    | [] => Some (mkIn missing (i_pending i) (i_ready i ++ [payload]) seq (i_close i) true)
    | _ => Some (mkIn missing (nput seq payload (i_pending i)) (i_ready i) seq (i_close i) true)
    end
  else if i_seq i + 1 <? seq then
    if MAX_WINDOW_LOOKAHEAD <? seq - i_seq i - 1 then None
    else
      let gap := nseq (i_seq i + 1) (N.to_nat (seq - i_seq i - 1)) in
      let missing := mark_missing gap (i_pending i) (i_missing i) in
      Some (mkIn (sdel seq missing) (nput seq payload (i_pending i)) (i_ready i) seq
                 (i_close i) true)
  else
    match i_missing i with
    | first :: _ =>
        if first =? seq then
          let '(pend, ready) :=
            drain (length (i_pending i)) (seq + 1) (i_pending i) (i_ready i ++ [payload]) in
          Some (mkIn (sdel seq (i_missing i)) pend ready (i_seq i) (i_close i) true)
        else
          Some (mkIn (sdel seq (i_missing i)) (nput seq payload (i_pending i)) (i_ready i)
                     (i_seq i) (i_close i) true)
    | [] =>
        Some (mkIn [] (nput seq payload (i_pending i)) (i_ready i) (i_seq i) (i_close i) true)
    end.

(** active.rs:453-455 [pop_message] *)
Definition pop_message (i : inbound) : option (bytes * inbound) :=
  match i_ready i with
  | [] => None
  | m :: t => Some (m, mkIn (i_missing i) (i_pending i) t (i_seq i) (i_close i) (i_timer i))
  end.

(** active.rs:457-463 [close] *)
Definition in_close (i : inbound) : inbound :=
  mkIn (i_missing i) (i_pending i) (i_ready i) (i_seq i) true true.

(** active.rs:465-467 [can_close] *)
Definition can_close (i : inbound) : bool :=
  i_close i && match i_missing i with [] => true | _ => false end.

(** active.rs:130-160 [WriteState] *)
Inductive wstate :=
| WGet
| WWrite (offset : nat) (message : bytes)
| WClosed.

(** active.rs:494-562 [Stream].  Simplified: RTT/RTO estimators and routing path are
    dropped; [PendingPacket] keeps only the packet (its send time is the environment's
    choice in [EResend]); the transient read state [SendMessage] is merged into [ERead]. *)
Record stream := mkStream {
  s_in : inbound;
  s_next : N;                    (* next_seq_nro *)
  s_unacked : nmap packet;
  s_pending : nmap packet;
  s_window : nat;
  s_close_req : bool;
  s_read_closed : bool;
  s_write : wstate;
  s_rto : bool;                  (* rto_timer armed *)
  s_done : bool                  (* poll returned Ready *)
}.

(** active.rs:566-717 [Stream::new]: [highest] is 0, or the last sequence number of the
    pending stream; [initial] the bytes to be written to the client first. *)
Definition stream_new (highest : N) (initial : option bytes) : stream :=
  mkStream (inbound_new highest) 1 [] [] INITIAL_WINDOW_SIZE false false
    (match initial with None => WGet | Some m => WWrite 0 m end) false false.

(** Observable effects *)
Inductive out :=
| OSend (p : packet)          (* packet handed to the session for transmission *)
| OClient (b : bytes).        (* bytes written to the client's socket *)

Definition set_in (s : stream) (i : inbound) : stream :=
  mkStream i (s_next s) (s_unacked s) (s_pending s) (s_window s) (s_close_req s)
    (s_read_closed s) (s_write s) (s_rto s) (s_done s).
Definition set_write (s : stream) (w : wstate) : stream :=
  mkStream (s_in s) (s_next s) (s_unacked s) (s_pending s) (s_window s) (s_close_req s)
    (s_read_closed s) w (s_rto s) (s_done s).
Definition set_read_closed (s : stream) : stream :=
  mkStream (s_in s) (s_next s) (s_unacked s) (s_pending s) (s_window s) (s_close_req s)
    true (s_write s) (s_rto s) (s_done s).
Definition set_done (s : stream) : stream :=
  mkStream (s_in s) (s_next s) (s_unacked s) (s_pending s) (s_window s) (s_close_req s)
    (s_read_closed s) (s_write s) (s_rto s) true.
Definition set_rto (s : stream) (b : bool) : stream :=
  mkStream (s_in s) (s_next s) (s_unacked s) (s_pending s) (s_window s) (s_close_req s)
    (s_read_closed s) (s_write s) b (s_done s).
Definition set_window (s : stream) (w : nat) : stream :=
  mkStream (s_in s) (s_next s) (s_unacked s) (s_pending s) w (s_close_req s)
    (s_read_closed s) (s_write s) (s_rto s) (s_done s).

(** active.rs:764-770: window growth per acknowledged packet *)
Definition grow_window (w : nat) : nat :=
  if Nat.ltb w EXP_GROWTH_STOP_THRESHOLD then (w * 2)%nat
  else if Nat.ltb w MAX_WINDOW_SIZE then (w + 1)%nat
  else w.

(** active.rs:750-755: is [seq] covered by this acknowledgement *)
Definition acked_by (ack : N) (nacks : list N) (seq : N) : bool :=
  (seq <=? ack) && negb (existsb (fun n => n =? seq) nacks).

(** active.rs:720-773 [handle_acks] *)
Definition handle_acks (s : stream) (ack : N) (nacks : list N) : stream :=
  if s_next s <? ack then s
  else
    let acked := filter (acked_by ack nacks) (nkeys (s_unacked s)) in
    let unacked := fold_left (fun m k => ndel k m) acked (s_unacked s) in
    let window := fold_left (fun w _ => grow_window w) acked (s_window s) in
    mkStream (s_in s) (s_next s) unacked (s_pending s) window (s_close_req s)
      (s_read_closed s) (s_write s) (s_rto s) (s_done s).

(** active.rs:787-796: the SYN-ACK repeated when a SYN arrives on an active stream.
    [ack_through] defaults to 0 (packet.rs:596-607). *)
Definition syn_ack : packet := mkPacket 0 0 [] true false false false false [].

(** active.rs:776-869 [on_packet]; [None] is an error on which [poll] ends the stream
    ([Closed] or [SequenceNumberTooHigh]).  [try_send(..).unwrap()] (active.rs:808) is
    taken to succeed: [syn_ok] says the event channel had room, and the model ends the
    stream when it had not (the code panics). *)
Definition on_packet (s : stream) (p : packet) (syn_ok : bool) : option stream * list out :=
  let outs := if p_syn p && syn_ok then [OSend syn_ack] else [] in
  if p_syn p && negb syn_ok then (None, [])
  else if p_reset p then (None, outs)
  else
    let s1 := if p_close p then set_read_closed (set_in s (in_close (s_in s))) else s in
    let s2 := if p_no_ack p then s1 else handle_acks s1 (p_ack p) (p_nacks p) in
    let s3 :=
      match p_payload p with
      | [] => Some s2
      | _ =>
          match handle_packet (s_in s2) (p_seq p) (p_payload p) with
          | None => None
          | Some i => Some (set_in s2 i)
          end
      end in
    match s3 with
    | None => (None, outs)
    | Some s3 =>
        if s_close_req s3
           && match s_unacked s3 with [] => true | _ => false end
           && match s_pending s3 with [] => true | _ => false end
        then (None, outs)
        else (Some s3, outs)
    end.

(** slice::chunks (std): [chunks n l] splits [l] in pieces of [n] (last one shorter). *)
Fixpoint chunks_aux (fuel n : nat) (l : bytes) : list bytes :=
  match fuel with
  | O => []
  | S f => match l with [] => [] | _ => firstn n l :: chunks_aux f n (skipn n l) end
  end.
Definition chunks (n : nat) (l : bytes) : list bytes := chunks_aux (length l) n l.

(** active.rs:880-917: the data packet built for one chunk *)
Definition data_packet (i : inbound) (seq : N) (chunk : bytes) : packet :=
  mkPacket seq (i_seq i) (firstn MAX_NACKS (i_missing i)) false false false false
    (Nat.leb MAX_NACKS (length (i_missing i))) chunk.

Fixpoint number_packets (i : inbound) (seq : N) (cs : list bytes) : list packet :=
  match cs with
  | [] => []
  | c :: t => data_packet i seq c :: number_packets i (seq + 1) t
  end.

(** active.rs:930-951: transmit one freshly built packet, or queue it when the window is
    full or [try_send] fails ([ok = false]) *)
Definition enqueue (s : stream) (p : packet) (ok : bool) : stream * list out :=
  if Nat.leb (s_window s) (length (s_unacked s)) || negb ok then
    (mkStream (s_in s) (s_next s) (s_unacked s) (nput (p_seq p) p (s_pending s)) (s_window s)
       (s_close_req s) (s_read_closed s) (s_write s) (s_rto s) (s_done s), [])
  else
    (mkStream (s_in s) (s_next s) (nput (p_seq p) p (s_unacked s)) (s_pending s) (s_window s)
       (s_close_req s) (s_read_closed s) (s_write s) (s_rto s) (s_done s), [OSend p]).

Fixpoint enqueue_all (s : stream) (ps : list packet) (oks : list bool) : stream * list out :=
  match ps with
  | [] => (s, [])
  | p :: t =>
      let '(s1, o1) := enqueue s p (hd true oks) in
      let '(s2, o2) := enqueue_all s1 t (tl oks) in
      (s2, o1 ++ o2)
  end.

(** active.rs:871-956 [packetize] *)
Definition packetize (s : stream) (data : bytes) (oks : list bool) : stream * list out :=
  let ps := number_packets (s_in s) (s_next s) (chunks MTU_SIZE data) in
  let s0 := mkStream (s_in s) (s_next s + N.of_nat (length ps)) (s_unacked s) (s_pending s)
              (s_window s) (s_close_req s) (s_read_closed s) (s_write s) (s_rto s) (s_done s) in
  let '(s1, o) := enqueue_all s0 ps oks in
  (set_rto s1 true, o).

(** active.rs:959-1048 [resend].  [expired] is how many packets at the front of [unacked]
    are older than the RTO (the clock is the environment's), [path] whether a routing path
    exists, [oks] the [try_send] results.  The stored packet bytes are re-sent. *)
Fixpoint send_some (ps : list packet) (oks : list bool) : list out :=
  match ps with
  | [] => []
  | p :: t => (if hd true oks then [OSend p] else []) ++ send_some t (tl oks)
  end.

Definition resend (s : stream) (expired : nat) (path : bool) (oks : list bool)
  : stream * list out :=
  match s_unacked s with
  | [] => (set_rto s false, [])
  | _ =>
      let exp := firstn (s_window s) (firstn expired (map snd (s_unacked s))) in
      match exp with
      | [] => (s, [])
      | _ =>
          if path then
            let w := if Nat.ltb 1 (s_window s) then (s_window s - 1)%nat else s_window s in
            (set_window s w, send_some exp oks)
          else (s, [])
      end
  end.

(** active.rs:1070-1087: the CLOSE packet.  It carries [ack_through] but no NACK list. *)
Definition close_packet (i : inbound) (seq : N) : packet :=
  mkPacket seq (i_seq i) [] false true false false false [].

(** active.rs:1051-1142 [shutdown] *)
Definition shutdown (s : stream) (ok : bool) : stream * list out :=
  if s_close_req s then (s, [])
  else
    let p := close_packet (s_in s) (s_next s) in
    let rto := s_rto s || negb (Nat.leb (s_window s) (length (s_unacked s))) in
    let s0 := mkStream (s_in s) (s_next s + 1) (s_unacked s) (s_pending s) (s_window s) true
                (s_read_closed s) (s_write s) rto (s_done s) in
    enqueue s0 p ok.

(** active.rs:1300-1344: transmit queued packets when the window opens *)
Fixpoint flush_keys (s : stream) (keys : list N) (oks : list bool) : stream * list out :=
  match keys with
  | [] => (s, [])
  | k :: t =>
      match nget k (s_pending s) with
      | None => flush_keys s t oks            (* unreachable: keys come from [pending] *)
      | Some p =>
          let '(s1, o1) :=
            if hd true oks then
              (mkStream (s_in s) (s_next s) (nput k p (s_unacked s)) (ndel k (s_pending s))
                 (s_window s) (s_close_req s) (s_read_closed s) (s_write s) (s_rto s) (s_done s),
               [OSend p])
            else (s, []) in
          let '(s2, o2) := flush_keys s1 t (tl oks) in
          (s2, o1 ++ o2)
      end
  end.

Definition flush (s : stream) (oks : list bool) : stream * list out :=
  let available := (s_window s - length (s_unacked s))%nat in
  let keys := firstn available (nkeys (s_pending s)) in
  let '(s1, o) := flush_keys s keys oks in
  (set_rto s1 (s_rto s1 || match o with [] => false | _ => true end), o).

(** active.rs:1384-1402: the plain ACK, with CLOSE when the inbound side can close *)
Definition plain_ack (i : inbound) : packet :=
  mkPacket PLAIN_ACK (i_seq i) (firstn MAX_NACKS (i_missing i)) false (can_close i) false false
    (Nat.leb MAX_NACKS (length (i_missing i))) [].

Inductive event :=
| EPacket (p : packet) (syn_ok : bool)   (* cmd_rx yields a packet *)
| EMalformed                             (* cmd_rx yields bytes that do not parse *)
| EIdle                                  (* cmd_rx pending: pop a ready message *)
| EShutdownCmd (ok : bool)               (* cmd_rx yields ShutDown *)
| EHangup                                (* cmd_rx closed or routing path handle exited *)
| EWrote (n : nat)                       (* client socket accepted n >= 1 bytes *)
| EWriteErr (ok : bool)                  (* client socket error or 0 bytes *)
| ERead (data : bytes) (oks : list bool) (* client sent data *)
| EReadEof (ok : bool)
| EFlush (oks : list bool)
| ERto (expired : nat) (path : bool) (oks : list bool)
| EAckTimer (ok : bool).

(** Client socket closed: active.rs:1216-1221, 1362-1367 *)
Definition client_closed (s : stream) (ok : bool) : stream * list out :=
  let s1 := set_read_closed (set_write s WClosed) in
  shutdown s1 ok.

(** active.rs:1148-1436 [poll], one environment interaction.  Events that [poll] would not
    perform in the current state (for example reading the client socket while packets are
    queued, active.rs:1284) leave the state unchanged. *)
Definition step (s : stream) (e : event) : stream * list out :=
  if s_done s then (s, [])
  else
    match e with
    | EPacket p syn_ok =>
        match s_write s with
        | WGet =>
            match on_packet s p syn_ok with
            | (None, o) => (set_done s, o)
            | (Some s1, o) =>
                match pop_message (s_in s1) with
                | Some (m, i) => (set_write (set_in s1 i) (WWrite 0 m), o)
                | None => (s1, o)
                end
            end
        | WClosed =>
            match on_packet s p syn_ok with
            | (None, o) => (set_done s, o)
            | (Some s1, o) => (s1, o)
            end
        | WWrite _ _ => (s, [])
        end
    | EMalformed => (s, [])
    | EIdle =>
        match s_write s with
        | WGet =>
            match pop_message (s_in s) with
            | Some (m, i) => (set_write (set_in s i) (WWrite 0 m), [])
            | None => (s, [])
            end
        | _ => (s, [])
        end
    | EShutdownCmd ok =>
        match s_write s with
        | WGet => client_closed s ok
        | WClosed => (set_read_closed s, [])
        | WWrite _ _ => (s, [])
        end
    | EHangup => (set_done s, [])
    | EWrote n =>
        match s_write s with
        | WWrite off m =>
            if (Nat.leb 1 n && Nat.leb (off + n) (length m))%bool then
              (set_write s (if Nat.eqb (n + off) (length m) then WGet else WWrite (off + n) m),
               [OClient (firstn n (skipn off m))])
            else (s, [])
        | _ => (s, [])
        end
    | EWriteErr ok =>
        match s_write s with
        | WWrite _ _ => client_closed s ok
        | _ => (s, [])
        end
    | ERead data oks =>
        match s_pending s with
        | [] =>
            if s_read_closed s then (s, [])
            else if ((N.of_nat (length data) <=? READ_BUFFER_SIZE)
                     && match data with [] => false | _ => true end)%bool
            then packetize s data oks
            else (s, [])
        | _ => (s, [])
        end
    | EReadEof ok =>
        match s_pending s with
        | [] => if s_read_closed s then (s, []) else client_closed s ok
        | _ => (s, [])
        end
    | EFlush oks => flush s oks
    | ERto expired path oks =>
        if s_rto s then resend s expired path oks else (s, [])
    | EAckTimer ok =>
        if i_timer (s_in s) then
          let i := s_in s in
          let i1 := mkIn (i_missing i) (i_pending i) (i_ready i) (i_seq i) (i_close i) false in
          let o := if ok then [OSend (plain_ack i)] else [] in
          if can_close i then (set_done (set_in s i1), o) else (set_in s i1, o)
        else (s, [])
    end.

(** A run of the stream: final state and the trace of observable effects. *)
Fixpoint run (s : stream) (es : list event) : stream * list out :=
  match es with
  | [] => (s, [])
  | e :: t =>
      let '(s1, o1) := step s e in
      let '(s2, o2) := run s1 t in
      (s2, o1 ++ o2)
  end.
