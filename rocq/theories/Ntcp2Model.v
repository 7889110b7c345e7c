(** Model of an established NTCP2 session: /repo/emissary-core/src/transport/ntcp2/session/active.rs,
    transport/ntcp2/message.rs, crypto/siphash.rs and crypto/chachapoly.rs. *)
From Coq Require Import List NArith Bool Arith.
From Verif Require Import Bytes I2npModel I2cpModel.
Import ListNotations.
Open Scope N_scope.
Open Scope parser_scope.

(** The primitives the session calls: SipHash-2-4 (crate siphasher), HMAC-SHA256 and
    ChaCha20-Poly1305 (key, 12-byte nonce, associated data, text). *)
Record ncrypt : Type := mkNcrypt {
  siphash : N -> N -> bytes -> N;
  hmac : bytes -> bytes -> bytes;
  seal : bytes -> bytes -> bytes -> bytes -> bytes;
  open : bytes -> bytes -> bytes -> bytes -> option bytes
}.

(** [u64::to_le_bytes], [u64::from_le_bytes] *)
Definition le_bytes (k : nat) (n : N) : bytes := rev (be_bytes k n).
Definition le_val (l : bytes) : N := be_val (rev l).

(** ** crypto/chachapoly.rs *)

(** chachapoly.rs:66-79, 56-69 [ChaChaPoly], [Nonce]: key and next nonce. *)
Record chacha : Type := mkChacha { cc_key : bytes; cc_nonce : N }.
(** chachapoly.rs:83-93, 96-106 [new], [with_nonce] *)
Definition chacha_new (key : bytes) : chacha := mkChacha key 0.
(** chachapoly.rs:53-64 [Nonce::next]: the 12 bytes of the nonce and the counter afterwards. *)
Definition nonce_bytes (n : N) : bytes := repeat 0 4 ++ le_bytes 8 n.
Definition nonce_next (n : N) : option (bytes * N) :=
  if n =? 2 ^ 64 - 1 then None else Some (nonce_bytes n, n + 1).

Section WithCrypt.
Variable c : ncrypt.

(** chachapoly.rs:108-112 [encrypt] *)
Definition cc_encrypt (x : chacha) (plain : bytes) : option bytes * chacha :=
  match nonce_next (cc_nonce x) with
  | None => (None, x)
  | Some (nb, n') => (Some (seal c (cc_key x) nb [] plain), mkChacha (cc_key x) n')
  end.
(** chachapoly.rs:115-122 [decrypt].  The nonce is consumed even if authentication fails. *)
Definition cc_decrypt (x : chacha) (cipher : bytes) : option bytes * chacha :=
  match nonce_next (cc_nonce x) with
  | None => (None, x)
  | Some (nb, n') => (open c (cc_key x) nb [] cipher, mkChacha (cc_key x) n')
  end.

(** ** crypto/siphash.rs *)
(** siphash.rs:26-35 [KeyContext] *)
Record sipctx : Type := mkSip { sip_key1 : N; sip_key2 : N; sip_iv : bytes }.

Definition ascii_ask : bytes := [97; 115; 107].
Definition ascii_siphash : bytes := [115; 105; 112; 104; 97; 115; 104].

(** siphash.rs:48-107 [derive_keys]: the initiator's and the responder's context. *)
Definition sip_of (k : bytes) : sipctx :=
  mkSip (le_val (firstn 8 k)) (le_val (firstn 8 (skipn 8 k))) (firstn 8 (skipn 16 k)).
Definition sip_derive (key h : bytes) : sipctx * sipctx :=
  let ask_master := hmac c key (ascii_ask ++ [1]) in
  let temp_key := hmac c ask_master (h ++ ascii_siphash) in
  let sip_master := hmac c temp_key [1] in
  let temp_key := hmac c sip_master [] in
  let ab := hmac c temp_key [1] in
  let ba := hmac c temp_key (ab ++ [2]) in
  (sip_of ab, sip_of ba).

(** siphash.rs:38-44, 110-127: sending and receiving context of a session. *)
Record sip : Type := mkSipPair { sip_send : sipctx; sip_recv : sipctx }.
Definition sip_initiator (key h : bytes) : sip :=
  let '(i, r) := sip_derive key h in mkSipPair i r.
Definition sip_responder (key h : bytes) : sip :=
  let '(i, r) := sip_derive key h in mkSipPair r i.

(** siphash.rs:130-136, 139-145 [deobfuscate], [obfuscate]: the same computation on the
    receiving and on the sending context. *)
Definition sip_mask (x : sipctx) : N :=
  N.land (siphash c (sip_key1 x) (sip_key2 x) (sip_iv x)) 65535.
Definition sip_next (x : sipctx) : sipctx :=
  mkSip (sip_key1 x) (sip_key2 x)
    (le_bytes 8 (siphash c (sip_key1 x) (sip_key2 x) (sip_iv x))).
Definition sip_obfuscate (x : sipctx) (size : N) : N * sipctx :=
  (N.lxor size (sip_mask x), sip_next x).
Definition sip_deobfuscate (x : sipctx) (size : N) : N * sipctx :=
  (N.lxor size (sip_mask x), sip_next x).

(** ** transport/ntcp2/message.rs *)
(** message.rs:107-166 [MessageBlock] *)
Inductive nblock : Type :=
| BDateTime (timestamp : N)
| BOptions (t_min t_max r_min r_max t_dmy r_dmy t_delay r_delay : N)
| BRouterInfo (floodfill : bool) (info : bytes)
| BI2np (message : message)
| BTermination (valid_frames reason : N)
| BPadding (padding : bytes).

(** message.rs:226-233; the size is not looked at. *)
Definition parse_date_time : parser nblock :=
  _ <- be_uint 2 ;; t <- be_uint 4 ;; ret (BDateTime t).
(** message.rs:234-268; OPTIONS_MIN_SIZE = 12 *)
Definition skip_over (min size : N) : parser unit :=
  if min <? size then (_ <- take (N.to_nat (size - min)) ;; ret tt) else ret tt.
Definition parse_options : parser nblock :=
  size <- be_uint 2 ;;
  a <- be_uint 1 ;; b <- be_uint 1 ;; c' <- be_uint 1 ;; d <- be_uint 1 ;;
  td <- be_uint 2 ;; rd <- be_uint 2 ;; tl <- be_uint 2 ;; rl <- be_uint 2 ;;
  _ <- skip_over 12 size ;;
  ret (BOptions a b c' d td rd tl rl).
(** message.rs:270-290 *)
Definition parse_nrouter_info : parser nblock :=
  size <- be_uint 2 ;;
  _ <- guard (negb (size =? 0)) ;;
  flag <- be_uint 1 ;;
  info <- take (N.to_nat (size - 1)) ;;
  ret (BRouterInfo (N.land flag 1 =? 1) info).
(** message.rs:292-298 *)
Definition parse_ni2np : parser nblock := m <- parse_short ;; ret (BI2np m).
(** message.rs:300-320; TERMINATION_MIN_SIZE = 9 *)
Definition parse_termination : parser nblock :=
  size <- be_uint 2 ;;
  v <- be_uint 8 ;; r <- be_uint 1 ;;
  _ <- skip_over 9 size ;;
  ret (BTermination v r).
(** message.rs:322-328 *)
Definition parse_npadding : parser nblock :=
  size <- be_uint 2 ;; p <- take (N.to_nat size) ;; ret (BPadding p).

(** message.rs:70-80, 330-342 [parse_inner] *)
Definition parse_nblock : parser nblock :=
  t <- be_uint 1 ;;
  if t =? 0 then parse_date_time
  else if t =? 1 then parse_options
  else if t =? 2 then parse_nrouter_info
  else if t =? 3 then parse_ni2np
  else if t =? 4 then parse_termination
  else if t =? 254 then parse_npadding
  else fail.

(** message.rs:344-361 [parse_multiple]: every block takes at least one byte, so [fuel] equal
    to the length of the input never runs out. *)
Fixpoint parse_nblocks (fuel : nat) (i : bytes) : option (list nblock) :=
  match fuel with
  | O => None
  | S fuel' =>
      match parse_nblock i with
      | None => None
      | Some (b, []) => Some [b]
      | Some (b, rest) =>
          match parse_nblocks fuel' rest with
          | Some bs => Some (b :: bs)
          | None => None
          end
      end
  end.
Definition parse_multiple (i : bytes) : option (list nblock) := parse_nblocks (S (length i)) i.

(** message.rs:371-382 [new_router_info]: [None] is the overflow of [len as u16 + 1], which
    panics in a debug build. *)
Definition new_router_info (ri : bytes) : option bytes :=
  let l := N.of_nat (length ri) mod 65536 in
  if l =? 65535 then None else Some ([2] ++ be_bytes 2 (l + 1) ++ [0] ++ ri).
(** message.rs:384-392 [new_i2np_message] *)
Definition new_i2np_message (m : bytes) : bytes := 3 :: m.

(** ** session/active.rs: reading *)
Inductive nreason : Type := NAead | NRemote (reason : N).
(** active.rs:50-66 [ReadState]; [NRClosed]: the future has completed. *)
Inductive nread : Type :=
| NRSize (offset : nat)
| NRFrame (size : N) (offset : nat)
| NRClosed (why : nreason).
(** active.rs:100-190, the fields used for reading. *)
Record nreader : Type := mkNreader {
  nr_buf : bytes; nr_state : nread; nr_sip : sipctx; nr_cipher : chacha }.
(** active.rs: [read_buffer: vec![0u8; 0xffff]] *)
Definition nreader_new (s : sipctx) (key : bytes) : nreader :=
  mkNreader (repeat 0 i2cp_buffer) (NRSize 0) s (chacha_new key).

(** active.rs:237, 267: length of the slice handed to [poll_read].  A length of zero makes
    [poll_read] return zero, upon which the session ends (246, 271). *)
Definition nr_room (r : nreader) : option nat :=
  match nr_state r with
  | NRSize off => Some (2 - off)%nat
  | NRFrame size off => Some (N.to_nat size - off)%nat
  | NRClosed _ => None
  end.

(** active.rs:304-351: the I2NP messages of a frame, before the ones that have expired are
    removed ([dispatched]). *)
Definition i2np_of (bs : list nblock) : list message :=
  flat_map (fun b => match b with BI2np m => [m] | _ => [] end) bs.
Definition dispatched (now : N) (ms : list message) : list message :=
  filter (fun m => negb (msg_expired now m)) ms.
(** active.rs:313-318: the first termination block. *)
Fixpoint termination_of (bs : list nblock) : option N :=
  match bs with
  | [] => None
  | BTermination _ reason :: _ => Some reason
  | _ :: t => termination_of t
  end.

(** active.rs:244-365: one [poll_read] that stored [chunk] (not empty, at most [nr_room]
    bytes).  A frame that is authentic but does not parse leaves [read_state] as it was
    (line 301: [continue]). *)
Definition nr_on_read (r : nreader) (chunk : bytes) : nreader * list message :=
  match nr_state r with
  | NRClosed _ => (r, [])
  | NRSize off =>
      let buf := put_at off chunk (nr_buf r) in
      if negb ((off + length chunk)%nat =? 2)%nat then
        (mkNreader buf (NRSize (off + length chunk)) (nr_sip r) (nr_cipher r), [])
      else
        let '(size, s') := sip_deobfuscate (nr_sip r) (be_val (firstn 2 buf)) in
        (mkNreader buf (NRFrame size 0) s' (nr_cipher r), [])
  | NRFrame size off =>
      let buf := put_at off chunk (nr_buf r) in
      if (off + length chunk <? N.to_nat size)%nat then
        (mkNreader buf (NRFrame size (off + length chunk)) (nr_sip r) (nr_cipher r), [])
      else
        let '(plain, k') := cc_decrypt (nr_cipher r) (firstn (N.to_nat size) buf) in
        match plain with
        | None => (mkNreader buf (NRClosed NAead) (nr_sip r) k', [])
        | Some data =>
            match parse_multiple data with
            | None => (mkNreader buf (NRFrame size off) (nr_sip r) k', [])
            | Some bs =>
                match termination_of bs with
                | Some reason => (mkNreader buf (NRClosed (NRemote reason)) (nr_sip r) k', [])
                | None => (mkNreader buf (NRSize 0) (nr_sip r) k', i2np_of bs)
                end
            end
        end
  end.

(** ** session/active.rs: writing *)
(** active.rs:69-98 [WriteState] *)
Inductive nwstate : Type :=
| NWGet
| NWSize (offset : nat) (size message : bytes)
| NWMsg (offset : nat) (message : bytes)
| NWPoisoned.
(** The command channel ([cmd_rx]) holds serialized messages in the order they were sent. *)
Record nwriter : Type := mkNwriter {
  nw_queue : list bytes; nw_state : nwstate; nw_sip : sipctx; nw_cipher : chacha }.
Definition nwriter_new (s : sipctx) (key : bytes) : nwriter :=
  mkNwriter [] NWGet s (chacha_new key).
(** [SubsystemCommand::SendMessage] put into the channel. *)
Definition nw_send (w : nwriter) (m : bytes) : nwriter :=
  mkNwriter (nw_queue w ++ [m]) (nw_state w) (nw_sip w) (nw_cipher w).

(** active.rs:369-462: one iteration of the write loop; [r] is the result of the [poll_write]
    it may make; [WClose] ends the session.  Running out of nonces panics at 387: modelled as
    the end of the session. *)
Definition nw_iter (w : nwriter) (r : wresult) : nwriter * bytes * wnext :=
  match nw_state w with
  | NWGet =>
      match nw_queue w with
      | [] => (w, [], WBreak)
      | m :: t =>
          match cc_encrypt (nw_cipher w) (new_i2np_message m) with
          | (None, k') => (mkNwriter t NWPoisoned (nw_sip w) k', [], WClose)
          | (Some data, k') =>
              let '(size, s') :=
                sip_obfuscate (nw_sip w) (N.of_nat (length data) mod 65536) in
              (mkNwriter t (NWSize 0 (be_bytes 2 size) data) s' k', [], WContinue)
          end
      end
  | NWSize off size m =>
      match r with
      | WrPending => (w, [], WBreak)
      | WrError | WrOk 0 =>
          (mkNwriter (nw_queue w) NWPoisoned (nw_sip w) (nw_cipher w), [], WClose)
      | WrOk n =>
          (mkNwriter (nw_queue w)
             (if (n + off =? length size)%nat then NWMsg 0 m else NWSize (off + n) size m)
             (nw_sip w) (nw_cipher w),
           firstn n (skipn off size), WContinue)
      end
  | NWMsg off m =>
      match r with
      | WrPending => (w, [], WBreak)
      | WrError | WrOk 0 =>
          (mkNwriter (nw_queue w) NWPoisoned (nw_sip w) (nw_cipher w), [], WClose)
      | WrOk n =>
          (mkNwriter (nw_queue w)
             (if (n + off =? length m)%nat then NWGet else NWMsg (off + n) m)
             (nw_sip w) (nw_cipher w),
           firstn n (skipn off m), WContinue)
      end
  | NWPoisoned => (w, [], WClose)
  end.
End WithCrypt.
