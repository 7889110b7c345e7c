(** Model of /repo/emissary-core/src/sam/protocol/streaming/packet.rs and of the checks a
    SYN packet goes through in streaming/mod.rs. *)
From Coq Require Import List NArith Bool Arith.
From Verif Require Import Bytes PrimModel.
Import ListNotations.
Open Scope N_scope.

(** packet.rs:36-70 [Flags] *)
Record flags : Type := mkFlags {
  f_dest : option destination;
  f_word : N;
  f_max : option N;
  f_offline : option vkey;
  f_delay : option N;
  f_sig : option bytes
}.
(** packet.rs:320-344 [Packet] *)
Record packet : Type := mkPacket {
  p_send : N; p_recv : N; p_seq : N; p_ack : N; p_nacks : list N; p_resend : N;
  p_flags : flags; p_payload : bytes
}.
(** packet.rs:208-250 flag accessors *)
Definition f_syn (f : flags) : bool := N.testbit (f_word f) 0.
Definition f_close (f : flags) : bool := N.testbit (f_word f) 1.
Definition f_reset (f : flags) : bool := N.testbit (f_word f) 2.
Definition f_echo (f : flags) : bool := N.testbit (f_word f) 9.
Definition f_no_ack (f : flags) : bool := N.testbit (f_word f) 10.

Section Packet.
Variable e : ext.

Definition when {A} (b : bool) (p : parser A) : parser (option A) :=
  if b then (x <- p ;; ret (Some x)) else ret None.

(** packet.rs:143-205 [Flags::new].  An offline signature without a destination is an error in
    release builds ([debug_assert!] in debug builds).  Without a destination the signature is
    the *rest after taking everything*, i.e. the empty slice (line 184-186). *)
Definition parse_flags (w : N) : parser flags :=
  delay <- when (N.testbit w 6) (be_uint 2) ;;
  dest <- when (N.testbit w 5) (parse_dest e) ;;
  mx <- when (N.testbit w 7) (be_uint 2) ;;
  off <- (if N.testbit w 11 then
            match dest with
            | None => fail
            | Some d => k <- parse_offline e (d_key d) ;; ret (Some k)
            end
          else ret None) ;;
  sg <- (if N.testbit w 3 then
           match dest with
           | None => fun r => Some (Some [], [])
           | Some d => s <- take (signature_len (d_key d)) ;; ret (Some s)
           end
         else ret None) ;;
  ret (mkFlags dest w mx off delay sg).

(** packet.rs:367-414 [Packet::parse] *)
Definition parse_packet (i : bytes) : option packet :=
  match
    (send <- be_uint 4 ;;
     recv <- be_uint 4 ;;
     seq <- be_uint 4 ;;
     ack <- be_uint 4 ;;
     n <- be_uint 1 ;;
     nacks <- many (N.to_nat n) (be_uint 4) ;;
     resend <- be_uint 1 ;;
     w <- be_uint 2 ;;
     sz <- be_uint 2 ;;
     opts <- take (N.to_nat sz) ;;
     fl <- (fun r => match parse_flags w opts with
                     | Some (f, _) => Some (f, r)
                     | None => None
                     end) ;;
     ret (mkPacket send recv seq ack nacks resend fl)) i
  with
  | Some (k, rest) => Some (k rest)
  | None => None
  end.

(** packet.rs:268-280 [PeekInfo], 417-440 [Packet::peek] *)
Record peek_info : Type := mkPeek { pk_flags : N; pk_recv : N; pk_send : N; pk_seq : N }.
Definition peek (i : bytes) : option peek_info :=
  option_map fst
    ((send <- be_uint 4 ;;
      recv <- be_uint 4 ;;
      seq <- be_uint 4 ;;
      _ <- take 4 ;;
      n <- be_uint 1 ;;
      _ <- take (4 * N.to_nat n + 1) ;;
      w <- be_uint 2 ;;
      ret (mkPeek w recv send seq)) i).

(** packet.rs:445-466, 561-585: what has been asked of the builder.  The builder methods only
    set these fields (asking for an option twice changes nothing but a buffer capacity). *)
Record builder : Type := mkBuilder {
  b_send : option N; b_recv : N; b_seq : N; b_ack : N; b_nacks : option (list N); b_resend : N;
  b_syn : bool; b_close : bool; b_reset : bool; b_sig : bool; b_dest : option destination;
  b_delay : option N; b_max : option N; b_echo : bool; b_no_ack : bool;
  b_payload : option bytes
}.

Definition is_some {A} (o : option A) : bool := match o with Some _ => true | None => false end.
Definition bit (b : bool) (n : N) : N := if b then N.shiftl 1 n else 0.

(** packet.rs:470-528: the flag word *)
Definition flag_word (b : builder) : N :=
  N.lor (bit (b_syn b) 0) (N.lor (bit (b_close b) 1) (N.lor (bit (b_reset b) 2)
  (N.lor (bit (b_sig b) 3) (N.lor (bit (is_some (b_dest b)) 5) (N.lor (bit (is_some (b_delay b)) 6)
  (N.lor (bit (is_some (b_max b)) 7) (N.lor (bit (b_echo b) 9) (bit (b_no_ack b) 10)))))))).

Definition on {A B} (o : option A) (f : A -> list B) : list B :=
  match o with Some a => f a | None => [] end.

(** packet.rs:531-557 [FlagsBuilder::build]; [options_len == 0] iff nothing was asked for,
    in which case the options below are empty too. *)
Definition options_bytes (b : builder) : bytes :=
  on (b_delay b) (be_bytes 2) ++ on (b_dest b) ser_dest ++ on (b_max b) (be_bytes 2) ++
  (if b_sig b then repeat 0 64 else []).

(** packet.rs:719-748 and 770-795: everything up to the payload, with a given send id. *)
Definition header_bytes (send : N) (b : builder) : bytes :=
  be_bytes 4 send ++ be_bytes 4 (b_recv b) ++ be_bytes 4 (b_seq b) ++ be_bytes 4 (b_ack b) ++
  match b_nacks b with
  | None => be_bytes 1 0
  | Some l => be_bytes 1 (N.of_nat (length l)) ++ flat_map (be_bytes 4) l
  end ++
  be_bytes 1 (b_resend b) ++ be_bytes 2 (flag_word b) ++
  be_bytes 2 (len (options_bytes b)) ++ options_bytes b.

(** packet.rs:705-751 [build]; [None] = panic (signature asked for, or no send id). *)
Definition build (b : builder) : option bytes :=
  if N.testbit (flag_word b) 3 then None
  else match b_send b with
       | None => None
       | Some s => Some (header_bytes s b ++ on (b_payload b) (fun p => p))
       end.

(** packet.rs:756-813 [build_and_sign] *)
Definition build_and_sign (priv : bytes) (b : builder) : option bytes :=
  if negb (N.testbit (flag_word b) 3) then None
  else match b_send b with
       | None => None
       | Some s =>
           let pl := on (b_payload b) (fun p => p) in
           let out := header_bytes s b ++ pl in
           let start := (length out - 64 - length pl)%nat in
           Some (firstn start out ++ ed_sign e priv out ++ skipn (start + 64) out)
       end.

(** packet.rs:627-636 [with_replay_protection]: the 32-byte id as eight u32s. *)
Fixpoint chunks4 (fuel : nat) (l : bytes) : list N :=
  match fuel, l with
  | O, _ | _, [] => []
  | S f, _ => be_val (firstn 4 l) :: chunks4 f (skipn 4 l)
  end.
Definition replay_nacks (id : bytes) : list N := chunks4 8 id.

(** streaming/mod.rs:327-407 (signature) and 457-480 (replay protection): the checks a SYN for
    a new inbound stream goes through.  [local] is the 32-byte id of the local destination. *)
Inductive syn_error : Type :=
| SynMalformed | SynNoSignature | SynNoDestination | SynBadSignature | SynReplay.
Definition zero_range (a n : nat) (l : bytes) : bytes :=
  firstn a l ++ repeat 0 n ++ skipn (a + n) l.
Definition verify_syn (i : bytes) : packet + syn_error :=
  match parse_packet i with
  | None => inr SynMalformed
  | Some p =>
      match f_sig (p_flags p) with
      | None => inr SynNoSignature
      | Some sg =>
          match f_dest (p_flags p) with
          | None => inr SynNoDestination
          | Some d =>
              let key := match f_offline (p_flags p) with None => d_key d | Some k => k end in
              if (length i <? length (p_payload p) + signature_len key)%nat then inr SynMalformed
              else
                let start := (length i - length (p_payload p) - signature_len key)%nat in
                if verify e key (zero_range start (signature_len key) i) sg then inl p
                else inr SynBadSignature
          end
      end
  end.
Definition check_inbound_syn (local : bytes) (i : bytes) : packet + syn_error :=
  match verify_syn i with
  | inr x => inr x
  | inl p =>
      if negb (length (p_nacks p) =? 8)%nat then inr SynReplay
      else if beq (flat_map (be_bytes 4) (p_nacks p)) local then inl p else inr SynReplay
  end.

(** streaming/mod.rs:409-440: a verified SYN whose send stream id is that of a stream this side
    is opening is the answer to it; otherwise it opens an inbound stream.  [pending] maps the
    receive stream ids of the streams being opened to the remote destination's id.  The two
    outcomes record the remote the new stream is attributed to. *)
Inductive syn_result : Type :=
| SynAnswers (recv : N) (send : N) (remote : bytes) (payload : bytes)
| SynOpens (recv : N) (remote : bytes) (payload : bytes)
| SynRejected (x : syn_error).
Definition on_synchronize (local : bytes) (pending : N -> option bytes) (i : bytes) : syn_result :=
  match verify_syn i with
  | inr x => SynRejected x
  | inl p =>
      match pending (p_send p) with
      | Some remote => SynAnswers (p_recv p) (p_send p) remote (p_payload p)
      | None =>
          match check_inbound_syn local i, f_dest (p_flags p) with
          | inl p, Some d => SynOpens (p_recv p) (d_hash d) (p_payload p)
          | inr x, _ => SynRejected x
          | _, None => SynRejected SynNoDestination
          end
      end
  end.

(** packet.rs:589-609 [PacketBuilder::new] *)
Definition builder_new (recv : N) : builder :=
  mkBuilder None recv 0 0 None 0 false false false false None None None false false None.
(** streaming/mod.rs:936-942: the SYN [create_stream] sends *)
Definition open_syn (recv : N) (remote : bytes) (own : destination) : builder :=
  mkBuilder (Some 0) recv 0 0 (Some (replay_nacks remote)) 0 true false false true (Some own)
    None None false false None.
(** stream/pending.rs:101-107, stream/active.rs:587-593 and 796-802: the SYN answering one *)
Definition answer_syn (send recv : N) (own : destination) : builder :=
  mkBuilder (Some recv) send 0 0 None 0 true false false true (Some own)
    None None false false None.
End Packet.
