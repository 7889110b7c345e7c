(** Model of an established SSU2 session: /repo/emissary-core/src/transport/ssu2/session/active/
    (mod.rs, ack.rs, duplicate.rs, fragment.rs), the data-phase part of
    transport/ssu2/message.rs, the header handling of transport/ssu2/socket.rs, and the Bloom
    filter of /repo/emissary-core/src/bloom.rs.  Times are nanoseconds. *)
From Coq Require Import List NArith Bool Arith.
From Verif Require Import Bytes NMap PrimModel I2npModel Ntcp2Model TunnelModel.
Import ListNotations.
Open Scope N_scope.
Open Scope parser_scope.

(** ** session/active/ack.rs *)
(** ack.rs:34-75 [Packet], 77-83 [RemoteAckManager].  The BTreeSet of [Reverse(Packet)] orders
    packets by number only: it is a map from the number to "received" (true) or "missing"
    (false), iterated from the highest number down. *)
Record ackmgr : Type := mkAck { highest_seen : N; packets : nmap bool }.
(** ack.rs:87-92 [new] *)
Definition ack_new : ackmgr := mkAck 0 [].
(** BTreeSet::insert does not replace an equal element, and two packets are equal when their
    numbers are. *)
Definition set_insert (n : N) (received : bool) (m : nmap bool) : nmap bool :=
  if nhas n m then m else nput n received m.
(** ack.rs:97-124 [register_pkt]; the test at 111 is the one [set_insert] makes.  [None] is the
    overflow of [highest_seen + 1] (a panic with overflow checks). *)
Definition register_pkt (a : ackmgr) (n : N) : option ackmgr :=
  let h := highest_seen a in
  if h =? 2 ^ 32 - 1 then None
  else if h + 1 =? n then
    Some (mkAck n (set_insert n true (set_insert h true (packets a))))
  else
    let a' :=
      if h + 1 <? n then
        mkAck n (set_insert h true
                   (fold_left (fun m p => set_insert p false m)
                      (nseq (h + 1) (N.to_nat (n - (h + 1)))) (packets a)))
      else a in
    if highest_seen a' =? 2 ^ 32 - 1 then None
    else if n <? highest_seen a' + 1 then
      Some (mkAck (highest_seen a') (set_insert n true (ndel n (packets a'))))
    else Some a'.

(** ack.rs:132-144: the packets right below the highest that were received. *)
Fixpoint count_acks (hs i : N) (l : list (N * bool)) : N :=
  match l with
  | (v, true) :: t => if hs =? v + i + 1 then 1 + count_acks hs (i + 1) t else 0
  | _ => 0
  end.
(** ack.rs:148-150 [iter.any]: what is left after the first missing packet. *)
Fixpoint past_missing (l : list (N * bool)) : option (list (N * bool)) :=
  match l with
  | [] => None
  | (_, false) :: t => Some t
  | _ :: t => past_missing t
  end.
(** ack.rs:165-184: lengths of the runs of equal packets.  The vector built by the fold is
    [cur], the element at its end, followed by what the rest of the iteration appends. *)
Fixpoint run_lengths (cur : N) (received : bool) (l : list (N * bool)) : list N :=
  match l with
  | [] => [cur]
  | (_, r) :: t =>
      if Bool.eqb r received then run_lengths (cur + 1) received t
      else cur :: run_lengths 1 r t
  end.
(** ack.rs:186-193: pad to even length, group in pairs, clamp to a byte. *)
Fixpoint ack_pairs (l : list N) : list (N * N) :=
  match l with
  | [] => []
  | [a] => [(N.min a 255, 0)]
  | a :: b :: t => (N.min a 255, N.min b 255) :: ack_pairs t
  end.
(** ack.rs:132-196 [ack_info] *)
Definition ack_info (a : ackmgr) : N * N * option (list (N * N)) :=
  let l := rev (packets a) in
  let n := N.min (count_acks (highest_seen a) 0 (skipn 1 l)) 255 in
  match past_missing l with
  | None => (highest_seen a, n, None)
  | Some t => (highest_seen a, n, Some (ack_pairs (run_lengths 1 false t)))
  end.

(** ** session/active/duplicate.rs *)
(** duplicate.rs:39-52 [DuplicateFilter]; the timer is the time at which it fires. *)
Record dupfilter : Type := mkDup { d_current : list N; d_previous : list N; d_timer : N }.
(** duplicate.rs:37; 56-63 [new] *)
Definition decay_interval : N := 60 * 1000000000.
Definition dup_new (now : N) : dupfilter := mkDup [] [] (now + decay_interval).
(** duplicate.rs:68-75 [insert] *)
Definition dup_insert (d : dupfilter) (id : N) : dupfilter * bool :=
  if smem id (d_current d) || smem id (d_previous d) then (d, false)
  else (mkDup (sadd id (d_current d)) (d_previous d) (d_timer d), true).
(** duplicate.rs:78-80, 86-102 [poll]: decay when the timer has fired. *)
Definition dup_poll (d : dupfilter) (now : N) : dupfilter :=
  if now <? d_timer d then d else mkDup [] (d_current d) (now + decay_interval).

(** ** session/active/fragment.rs *)
(** fragment.rs:48-67 [Fragment]; [total_size] only sizes an allocation and is left out. *)
Record fragment : Type := mkFrag {
  f_frags : nmap bytes;
  f_num : option N;
  f_info : option (mtype * N * N);   (** type, message id, expiration in seconds *)
  f_created : N
}.
(** fragment.rs:69-79 [default] *)
Definition frag_default (now : N) : fragment := mkFrag [] None None now.
(** fragment.rs:83-87 [is_ready] *)
Definition is_ready (f : fragment) : bool :=
  match f_num f, f_info f with
  | Some n, Some _ => n =? N.of_nat (length (f_frags f))
  | _, _ => false
  end.
(** fragment.rs:90-106 [construct] *)
Definition construct (f : fragment) : option message :=
  match f_info f with
  | None => None
  | Some (t, id, x) => Some (mkMsg t id (of_secs x) (concat (map snd (f_frags f))))
  end.
(** fragment.rs:110-116 [FragmentHandler], 120-125 [new] *)
Record fraghandler : Type := mkFh { fh_messages : nmap fragment; fh_timer : N }.
Definition gc_interval : N := 5 * 60 * 1000000000.
Definition msg_expiration_threshold : N := 30 * 1000000000.
Definition fh_new (now : N) : fraghandler := mkFh [] (now + gc_interval).
Definition entry (now id : N) (h : fraghandler) : fragment :=
  match nget id (fh_messages h) with Some f => f | None => frag_default now end.
(** fragment.rs:142-146, 168-172: the end of both functions. *)
Definition finish (id : N) (f : fragment) (h : fraghandler) : fraghandler * option message :=
  if is_ready f
  then (mkFh (ndel id (fh_messages h)) (fh_timer h), construct f)
  else (mkFh (nput id f (fh_messages h)) (fh_timer h), None).
(** fragment.rs:130-147 [first_fragment] *)
Definition first_fragment (now : N) (h : fraghandler) (t : mtype) (id x : N) (payload : bytes)
  : fraghandler * option message :=
  let f := entry now id h in
  finish id (mkFrag (nput 0 payload (f_frags f)) (f_num f) (Some (t, id, x)) (f_created f)) h.
(** fragment.rs:152-173 [follow_on_fragment] *)
Definition follow_on_fragment (now : N) (h : fraghandler) (id sequence : N) (last : bool)
  (payload : bytes) : fraghandler * option message :=
  let f := entry now id h in
  finish id (mkFrag (nput sequence payload (f_frags f))
               (if last then Some (sequence + 1) else f_num f) (f_info f) (f_created f)) h.
(** fragment.rs:179-197 [poll] *)
Definition fh_poll (h : fraghandler) (now : N) : fraghandler :=
  if now <? fh_timer h then h
  else mkFh (filter (fun x => now - f_created (snd x) <? msg_expiration_threshold)
               (fh_messages h)) (now + gc_interval).

(** ** message.rs: blocks *)
(** message.rs:171-338 [Block], the ones that can be parsed; 165-169 [BlockType] numbers. *)
Inductive block : Type :=
| SDateTime (timestamp : N)
| SOptions
| SRouterInfo (info : router_info)
| SI2np (m : message)
| SFirst (t : mtype) (id expiration : N) (frag : bytes)
| SFollow (last : bool) (id num : N) (frag : bytes)
| STermination (num_valid reason : N)
| SAck (through num : N) (ranges : list (N * N))
| SNewToken (expires token : N)
| SPathChallenge (c : bytes)
| SPathResponse (r : bytes)
| SFirstPacketNumber (n : N)
| SCongestion (flag : N)
| SPadding (p : bytes)
| SUnsupported.

Section Parse.
Variable e : ext.

(** message.rs:435-440 *)
Definition s_date_time : parser block := _ <- be_uint 2 ;; t <- be_uint 4 ;; ret (SDateTime t).
(** message.rs:443-474; the values are not used by the session. *)
Definition s_options : parser block :=
  size <- be_uint 2 ;; _ <- take 12 ;; _ <- skip_over 12 size ;; ret SOptions.
(** message.rs:477-514.  [size - 2] underflows for size 1: a panic with overflow checks,
    otherwise [take] asks for 65535 bytes. *)
Definition s_router_info : parser block :=
  size <- be_uint 2 ;;
  _ <- guard (negb (size =? 0)) ;;
  flag <- be_uint 1 ;; _ <- be_uint 1 ;;
  info <- take (N.to_nat (if size =? 1 then 65535 else size - 2)) ;;
  _ <- guard (N.land (flag / 2) 1 =? 0) ;;
  r <- opt (match parse_rinfo e info with Some (r, _) => Some r | None => None end) ;;
  ret (SRouterInfo r).
(** message.rs:517-521 *)
Definition s_i2np : parser block := m <- parse_short ;; ret (SI2np m).
(** message.rs:524-543 *)
Definition s_termination : parser block :=
  size <- be_uint 2 ;; v <- be_uint 8 ;; r <- be_uint 1 ;; _ <- skip_over 9 size ;;
  ret (STermination v r).
(** message.rs:546-556 *)
Definition s_padding : parser block :=
  size <- be_uint 2 ;; p <- take (N.to_nat size) ;; ret (SPadding p).
(** message.rs:559-600 *)
Definition s_first : parser block :=
  size <- be_uint 2 ;; t <- be_uint 1 ;; id <- be_uint 4 ;; x <- be_uint 4 ;;
  ty <- opt (mtype_of t) ;;
  _ <- guard (negb (size - 9 =? 0)) ;;
  f <- take (N.to_nat (size - 9)) ;;
  ret (SFirst ty id x f).
(** message.rs:603-635 *)
Definition s_follow : parser block :=
  size <- be_uint 2 ;; fr <- be_uint 1 ;; id <- be_uint 4 ;;
  _ <- guard (negb (size - 5 =? 0)) ;;
  f <- take (N.to_nat (size - 5)) ;;
  ret (SFollow (N.land fr 1 =? 1) id (fr / 2) f).
(** message.rs:638-673.  A block whose ranges are not pairs leaves them unread (and fails a
    debug assertion). *)
Fixpoint pairs_of (l : bytes) : list (N * N) :=
  match l with a :: b :: t => (a, b) :: pairs_of t | _ => [] end.
Definition s_ack : parser block :=
  size <- be_uint 2 ;; through <- be_uint 4 ;; num <- be_uint 1 ;;
  let n := size - 5 in
  if n mod 2 =? 0
  then (r <- take (N.to_nat n) ;; ret (SAck through num (pairs_of r)))
  else ret (SAck through num []).
(** message.rs:676-682 *)
Definition s_new_token : parser block :=
  _ <- be_uint 2 ;; x <- be_uint 4 ;; t <- be_uint 8 ;; ret (SNewToken x t).
(** message.rs:685-695, 698-708 *)
Definition s_path_challenge : parser block :=
  size <- be_uint 2 ;; d <- take (N.to_nat size) ;; ret (SPathChallenge d).
Definition s_path_response : parser block :=
  size <- be_uint 2 ;; d <- take (N.to_nat size) ;; ret (SPathResponse d).
(** message.rs:711-716, 719-724, 727-732 *)
Definition s_first_packet_number : parser block :=
  _ <- be_uint 2 ;; n <- be_uint 4 ;; ret (SFirstPacketNumber n).
Definition s_congestion : parser block :=
  _ <- be_uint 2 ;; f <- be_uint 1 ;; ret (SCongestion f).
Definition s_unsupported : parser block :=
  size <- be_uint 2 ;; _ <- take (N.to_nat size) ;; ret SUnsupported.
(** message.rs:139-167 [BlockType::from_u8], 736-771 [parse_inner] *)
Definition s_block : parser block :=
  t <- be_uint 1 ;;
  if t =? 0 then s_date_time
  else if t =? 1 then s_options
  else if t =? 2 then s_router_info
  else if t =? 3 then s_i2np
  else if t =? 4 then s_first
  else if t =? 5 then s_follow
  else if t =? 6 then s_termination
  else if t =? 12 then s_ack
  else if t =? 17 then s_new_token
  else if t =? 18 then s_path_challenge
  else if t =? 19 then s_path_response
  else if t =? 20 then s_first_packet_number
  else if t =? 21 then s_congestion
  else if t =? 254 then s_padding
  else if ((7 <=? t) && (t <=? 13)) || (t =? 15) || (t =? 16) then s_unsupported
  else fail.
(** message.rs:775-788 [parse_multiple], [parse]: each block takes at least a byte, so the fuel
    below never runs out. *)
Fixpoint s_blocks (fuel : nat) (i : bytes) : option (list block) :=
  match fuel with
  | O => None
  | S fuel' =>
      match s_block i with
      | None => None
      | Some (b, []) => Some [b]
      | Some (b, rest) => option_map (cons b) (s_blocks fuel' rest)
      end
  end.
Definition s_parse (i : bytes) : option (list block) := s_blocks (S (length i)) i.

(** ** message.rs: data messages *)
(** message.rs:917-967 [MessageKind] *)
Inductive kind : Type :=
| KWhole (m : bytes)
| KFirstFrag (t : mtype) (id expiration : N) (frag : bytes)
| KFollowFrag (id num : N) (last : bool) (frag : bytes).
(** message.rs:1110-1149 *)
Definition kind_bytes (k : kind) : bytes :=
  match k with
  | KWhole m => [3] ++ m
  | KFirstFrag t id x f =>
      [4] ++ be_bytes 2 (len f + 1 + 4 + 4) ++ be_bytes 1 (mtype_u8 t) ++ be_bytes 4 id ++
      be_bytes 4 x ++ f
  | KFollowFrag id num last f =>
      [5] ++ be_bytes 2 (len f + 1 + 4) ++
      be_bytes 1 (N.lor (N.shiftl num 1 mod 256) (if last then 1 else 0)) ++ be_bytes 4 id ++ f
  end.
(** message.rs:1151-1172 *)
Definition ack_bytes (a : N * N * option (list (N * N))) : bytes :=
  let '(through, num, ranges) := a in
  match ranges with
  | None => [12] ++ be_bytes 2 5 ++ be_bytes 4 through ++ be_bytes 1 num
  | Some rs =>
      [12] ++ be_bytes 2 (5 + N.of_nat (length rs) * 2) ++ be_bytes 4 through ++ be_bytes 1 num ++
      concat (map (fun r => [fst r; snd r]) rs)
  end.
(** message.rs:1107-1175: the termination reason of [with_termination] is never written. *)
Definition data_payload (k : option kind) (a : option (N * N * option (list (N * N)))) : bytes :=
  match k with Some k => kind_bytes k | None => [] end ++
  match a with Some a => ack_bytes a | None => [] end.

(** Primitives: AEAD of [ncrypt] and the 8 bytes of ChaCha20 key stream for a key and an IV. *)
Variable c : ncrypt.
Variable ks : bytes -> bytes -> bytes.

(** ssu2/session/mod.rs [KeyContext], with the intro key that masks the first header half. *)
Record skeys : Type := mkKeys { k_intro : bytes; k_data : bytes; k_header_2 : bytes }.
Fixpoint xor8 (m l : bytes) : bytes :=
  match m, l with a :: m', b :: l' => N.lxor b a :: xor8 m' l' | _, _ => l end.
(** message.rs:1093-1105: short header. *)
Definition short_header (dst pkt_num : N) : bytes :=
  le_bytes 8 dst ++ be_bytes 4 pkt_num ++ [6; 0; 0; 0].
(** message.rs:1093-1203 [DataMessageBuilder::build].  [None] is the panic at 1187: the mask is
    taken from the last 24 bytes of the encrypted payload, which may be shorter. *)
Definition build_packet (k : skeys) (dst pkt_num : N) (payload : bytes) : option bytes :=
  let header := short_header dst pkt_num in
  let sealed := seal c (k_data k) (nonce_bytes pkt_num) header payload in
  if (length sealed <? 24)%nat then None
  else
    let iv1 := firstn 12 (skipn (length sealed - 24) sealed) in
    let iv2 := skipn (length sealed - 12) sealed in
    Some (xor8 (ks (k_intro k) iv1) (firstn 8 header) ++
          xor8 (ks (k_header_2 k) iv2) (skipn 8 header) ++ sealed).

(** socket.rs:213-224, message.rs:1725-1758 [HeaderReader::new], [dst_id]: the connection id a
    datagram is for, and the datagram with the first half of the header in the clear. *)
Definition socket_header (intro : bytes) (pkt : bytes) : option (N * bytes) :=
  if (length pkt <? 24)%nat then None
  else
    let iv1 := firstn 12 (skipn (length pkt - 24) pkt) in
    let h := xor8 (ks intro iv1) (firstn 8 pkt) in
    Some (le_val h, h ++ skipn 8 pkt).

(** ** session/active/mod.rs *)
(** mod.rs:85-135 [Ssu2Session]; the keys are arguments of the functions below. *)
Record ssu2 : Type := mkSsu2 {
  ss_pkt_num : N;
  ss_ack : ackmgr;
  ss_dup : dupfilter;
  ss_frag : fraghandler
}.
(** mod.rs:139-177 [new] *)
Definition ss_new (now : N) : ssu2 := mkSsu2 1 ack_new (dup_new now) (fh_new now).

(** mod.rs:192-226 [handle_message]: the message is handed to the router, or dropped. *)
Definition handle_message (now : N) (d : dupfilter) (m : message) : dupfilter * list message :=
  if msg_expired now m then (d, [])
  else
    let '(d', fresh) := dup_insert d (m_id m) in
    (d', if fresh then [m] else []).

Inductive outcome : Type :=
| Handled (s : ssu2) (out : list message)
| Rejected (s : ssu2)                              (** not authentic, or malformed: ignored *)
| Terminated (s : ssu2) (out : list message) (reason : N)
| Panicked.

Definition deliver_opt (now : N) (d : dupfilter) (o : option message) : dupfilter * list message :=
  match o with Some m => handle_message now d m | None => (d, []) end.
(** mod.rs:258-335: the blocks of one packet, in order. *)
Fixpoint handle_blocks (now pkt_num : N) (s : ssu2) (bs : list block) (out : list message)
  : outcome :=
  match bs with
  | [] => Handled s out
  | b :: t =>
      match register_pkt (ss_ack s) pkt_num with
      | None => Panicked
      | Some a =>
          let s1 := mkSsu2 (ss_pkt_num s) a (ss_dup s) (ss_frag s) in
          match b with
          | STermination _ r => Terminated s1 out r
          | SI2np m =>
              let '(d, o) := handle_message now (ss_dup s) m in
              handle_blocks now pkt_num (mkSsu2 (ss_pkt_num s) a d (ss_frag s)) t (out ++ o)
          | SFirst ty id x f =>
              let '(h, r) := first_fragment now (ss_frag s) ty id x f in
              let '(d, o) := deliver_opt now (ss_dup s) r in
              handle_blocks now pkt_num (mkSsu2 (ss_pkt_num s) a d h) t (out ++ o)
          | SFollow last id num f =>
              let '(h, r) := follow_on_fragment now (ss_frag s) id num last f in
              let '(d, o) := deliver_opt now (ss_dup s) r in
              handle_blocks now pkt_num (mkSsu2 (ss_pkt_num s) a d h) t (out ++ o)
          | _ => handle_blocks now pkt_num s1 t out
          end
      end
  end.
(** mod.rs:234-256: packet number and blocks of a packet; [None] if it is not authentic or not a
    sequence of blocks.  The socket never passes on fewer than 24 bytes (the slices panic
    below 16). *)
Definition open_packet (k : skeys) (pkt : bytes) : option (N * list block) :=
  let iv2 := skipn (length pkt - 12) pkt in
  let h2 := xor8 (ks (k_header_2 k) iv2) (firstn 8 (skipn 8 pkt)) in
  let header := firstn 8 pkt ++ h2 in
  let pkt_num := be_val (firstn 4 h2) in
  match open c (k_data k) (nonce_bytes pkt_num) header (skipn 16 pkt) with
  | None => None
  | Some payload =>
      match s_parse payload with
      | None => None
      | Some bs => Some (pkt_num, bs)
      end
  end.
(** mod.rs:232-335 [handle_packet], on what [socket_header] hands over. *)
Definition handle_packet (k : skeys) (now : N) (s : ssu2) (pkt : bytes) : outcome :=
  if (length pkt <? 16)%nat then Panicked
  else
    match open_packet k pkt with
    | None => Rejected s
    | Some (n, bs) => handle_blocks now n s bs []
    end.
(** A datagram for a session: socket.rs:213-224 then mod.rs:232-335. *)
Definition receive_datagram (k : skeys) (now : N) (s : ssu2) (pkt : bytes) : outcome :=
  match socket_header (k_intro k) pkt with
  | None => Rejected s
  | Some (_, pkt') => handle_packet k now s pkt'
  end.

(** mod.rs:354-355, 371-424: what is sent for a message, one [kind] per packet.  [i as u8 + 1]
    for the follow-on fragments. *)
Definition message_kinds (raw : bytes) (m : message) : list kind :=
  if len raw <=? 1200 then [KWhole raw]
  else
    match chunks 1200 (m_payload m) with
    | [] => []
    | f :: fs =>
        KFirstFrag (m_type m) (m_id m) (secs_of (m_expiration m)) f ::
        mapi (fun i f => KFollowFrag (m_id m) (N.of_nat i mod 256 + 1)
                           (i =? length (f :: fs) - 2)%nat f) 0 fs
    end.
Fixpoint build_packets (k : skeys) (dst n : N) (a : N * N * option (list (N * N)))
  (ks' : list kind) : option (list bytes) :=
  match ks' with
  | [] => Some []
  | x :: t =>
      match build_packet k dst n (data_payload (Some x) (Some a)), build_packets k dst (n + 1) a t with
      | Some p, Some ps => Some (p :: ps)
      | _, _ => None
      end
  end.
(** mod.rs:339-427 [send_message].  [None]: [parse_short(..).unwrap()] or building panics.
    Packets the socket's channel has no room for are dropped, like lost datagrams. *)
Definition send_message (k : skeys) (dst : N) (s : ssu2) (raw : bytes)
  : option (ssu2 * list bytes) :=
  match parse_short raw with
  | None => None
  | Some (m, _) =>
      let kinds := message_kinds raw m in
      match build_packets k dst (ss_pkt_num s) (ack_info (ss_ack s)) kinds with
      | None => None
      | Some ps =>
          Some (mkSsu2 (ss_pkt_num s + N.of_nat (length kinds)) (ss_ack s) (ss_dup s) (ss_frag s), ps)
      end
  end.
(** mod.rs:483-519 [poll]: the two futures polled at the end of every wake-up. *)
Definition ss_poll (now : N) (s : ssu2) : ssu2 :=
  mkSsu2 (ss_pkt_num s) (ss_ack s) (dup_poll (ss_dup s) now) (fh_poll (ss_frag s) now).
(** session/terminating.rs:127-134 [TerminatingSsu2Session::new]: the packet that tells the
    peer that the session ended. *)
Definition termination_packet (k : skeys) (dst n : N) : option bytes :=
  build_packet k dst n (data_payload None None).
End Parse.

(** ** bloom.rs *)
(** bloom.rs:26-33 [BloomFilter]: a Bloom filter is the list of its set bits; crate ethbloom
    maps an item to the bits [bits item] (three of 2048, from its Keccak hash). *)
Record bloom : Type := mkBloom { b_current : list N; b_previous : list N }.
Definition bloom_new : bloom := mkBloom [] [].
Section Bloom.
Variable bits : bytes -> list N.
(** ethbloom [contains_input], [accrue] *)
Definition bloom_contains (f : list N) (x : bytes) : bool := forallb (fun b => smem b f) (bits x).
Definition bloom_accrue (f : list N) (x : bytes) : list N := fold_left (fun f b => sadd b f) (bits x) f.
(** bloom.rs:39-48 [insert] *)
Definition bloom_insert (b : bloom) (x : bytes) : bloom * bool :=
  if bloom_contains (b_current b) x || bloom_contains (b_previous b) x then (b, false)
  else (mkBloom (bloom_accrue (b_current b) x) (b_previous b), true).
(** bloom.rs:51-53 [decay] *)
Definition bloom_decay (b : bloom) : bloom := mkBloom [] (b_current b).
End Bloom.
