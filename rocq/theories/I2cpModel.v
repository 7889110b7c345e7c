(** Model of the I2CP client protocol: /repo/emissary-core/src/i2cp/message/ and
    i2cp/socket.rs. *)
From Coq Require Import List NArith Bool Arith.
From Verif Require Import Bytes PrimModel EncModel.
Import ListNotations.
Open Scope N_scope.
Open Scope parser_scope.

(** ** Messages a client sends: i2cp/message/mod.rs *)

(** message/mod.rs:90-102 [RequestKind] *)
Inductive request_kind : Type :=
| HostName (name : bytes)
| Hash (hash : bytes).

(** message/mod.rs:267-413 [Message]: the kinds [Message::parse] can return.  A [SessionId]
    (62-87) is kept as its u16, a [Duration] as the number it was made from. *)
Inductive i2cp_msg : Type :=
| MGetDate (version : bytes) (options : list mapping)
| MSetDate (date : N) (version : bytes)
| MGetBandwidthLimits
| MDestroySession (session : N)
| MCreateSession (dest : destination) (date : N) (options : list mapping)
| MHostLookup (session request timeout_ms : N) (kind : request_kind)
| MCreateLeaseSet2 (session : N) (key leaseset : bytes) (private_keys : list bytes)
| MSendMessageExpires (session : N) (dest : destination) (parameters : N * N * protocol)
    (payload : bytes) (nonce options expires_ms : N).

(** message/mod.rs:226-262 [MessageType::from_u8] *)
Definition known_type (b : N) : bool :=
  existsb (N.eqb b)
    [23;42;4;41;1;34;35;3;30;8;32;38;39;31;22;6;7;2;29;21;37;5;36;20;33].

Definition parsed {A} (r : option (A * bytes)) : option A :=
  match r with Some (a, _) => Some a | None => None end.

Section WithExt.
Variable e : ext.

(** message/mod.rs:419-426.  The [debug_assert!]s on trailing bytes (423, 435, 444, 455) are
    not modelled: release builds accept and ignore trailing bytes. *)
Definition parse_get_date : parser i2cp_msg :=
  v <- parse_str ;; o <- parse_multi ;; ret (MGetDate v o).

(** message/mod.rs:431-438 *)
Definition parse_set_date : parser i2cp_msg :=
  d <- be_uint 8 ;; v <- parse_str ;; ret (MSetDate d v).

(** message/mod.rs:452-460 *)
Definition parse_destroy_session : parser i2cp_msg :=
  s <- be_uint 2 ;; ret (MDestroySession s).

(** message/mod.rs:465-489 *)
Definition parse_create_session : parser i2cp_msg := fun i =>
  (d <- parse_dest e ;;
   o <- parse_multi ;;
   date <- be_uint 8 ;;
   sg <- take 64 ;;
   _ <- guard (verify e (d_key d) (firstn (length i - 64) i) sg) ;;
   ret (MCreateSession d date (into_hashmap o))) i.

(** message/mod.rs:494-523 *)
Definition parse_host_lookup : parser i2cp_msg :=
  s <- be_uint 2 ;;
  r <- be_uint 4 ;;
  t <- be_uint 4 ;;
  k <- be_uint 1 ;;
  if k =? 0 then h <- take 32 ;; ret (MHostLookup s r t (Hash h))
  else if k =? 1 then h <- parse_str ;; ret (MHostLookup s r t (HostName h))
  else fail.

(** message/mod.rs:584-607, one private key; [StaticPrivateKey::from_bytes] accepts every
    32-byte string. *)
Definition parse_priv : parser bytes :=
  k <- be_uint 2 ;;
  l <- be_uint 2 ;;
  b <- take (N.to_nat l) ;;
  _ <- guard ((k =? 4) && (l =? 32)) ;;
  ret b.

(** message/mod.rs:528-622; 549 slices the raw lease set out of the input. *)
Definition parse_create_leaseset2 : parser i2cp_msg := fun i =>
  (s <- be_uint 2 ;;
   k <- be_uint 1 ;;
   if k =? 3 then
     fun r0 =>
       (ls <- parse_ls e ;;
        fun r =>
          (n <- be_uint 1 ;;
           ks <- many (N.to_nat n) parse_priv ;;
           ret (MCreateLeaseSet2 s (d_hash (h_dest (ls_header' ls)))
                  (slice 3 (length i - length r) i) ks)) r) r0
   else fail) i.

(** message/mod.rs:627-660 *)
Definition parse_send_message_expires : parser i2cp_msg :=
  s <- be_uint 2 ;;
  d <- parse_dest e ;;
  n <- be_uint 4 ;;
  p <- take (N.to_nat n) ;;
  nonce <- be_uint 4 ;;
  o <- be_uint 2 ;;
  x <- be_uint 6 ;;
  match payload_parameters p with
  | Some par => ret (MSendMessageExpires s d par p nonce o x)
  | None => fail
  end.

(** message/mod.rs:663-683 [Message::parse], after [MessageType::from_u8]. *)
Definition i2cp_parse (ty : N) (i : bytes) : option i2cp_msg :=
  if negb (known_type ty) then None
  else if ty =? 32 then parsed (parse_get_date i)
  else if ty =? 33 then parsed (parse_set_date i)
  else if ty =? 8 then Some MGetBandwidthLimits
  else if ty =? 3 then parsed (parse_destroy_session i)
  else if ty =? 1 then parsed (parse_create_session i)
  else if ty =? 38 then parsed (parse_host_lookup i)
  else if ty =? 41 then parsed (parse_create_leaseset2 i)
  else if ty =? 36 then parsed (parse_send_message_expires i)
  else None.

(** ** Reading side of the socket: i2cp/socket.rs *)

(** socket.rs:38-59 [ReadState] *)
Inductive rd : Type :=
| RHeader (offset : nat)
| RFrame (size : N) (ty : N) (offset : nat).
(** socket.rs:80-98, the fields used for reading. *)
Record i2cp_reader : Type := mkReader { rd_buf : bytes; rd_state : rd }.

(** socket.rs:105: [vec![0u8; 0xffff]] *)
Definition i2cp_buffer : nat := N.to_nat 65535.
(** socket.rs:102-111 *)
Definition i2cp_reader_new : i2cp_reader := mkReader (repeat 0 i2cp_buffer) (RHeader 0).

(** socket.rs:135, 216: the slice of the read buffer handed to [poll_read], by its length.
    [None]: the slice is out of range and indexing panics. *)
Definition i2cp_room (r : i2cp_reader) : option nat :=
  match rd_state r with
  | RHeader off => Some (5 - off)%nat
  | RFrame size _ off => if 65535 <? size then None else Some (N.to_nat size - off)%nat
  end.

(** The bytes at [at_] replaced by [new]. *)
Definition put_at (at_ : nat) (new buf : bytes) : bytes :=
  firstn at_ buf ++ new ++ skipn (at_ + length new) buf.

(** socket.rs:147-208, 227-271: one successful [poll_read] that stored [chunk] (not empty, at
    most [i2cp_room] bytes), up to the next [poll_read].  The result is the message returned
    to the caller, if any; a frame of unknown type or that does not parse is skipped. *)
Definition i2cp_on_read (r : i2cp_reader) (chunk : bytes) : i2cp_reader * list i2cp_msg :=
  match rd_state r with
  | RHeader off =>
      let buf := put_at off chunk (rd_buf r) in
      if negb ((off + length chunk)%nat =? 5)%nat then
        (mkReader buf (RHeader (off + length chunk)), [])
      else
        let size := be_val (firstn 4 buf) in
        let ty := nth 4 buf 0 in
        if size =? 0 then
          (mkReader buf (RHeader 0),
           match i2cp_parse ty [] with Some m => [m] | None => [] end)
        else (mkReader buf (RFrame size ty 0), [])
  | RFrame size ty off =>
      let buf := put_at off chunk (rd_buf r) in
      if (off + length chunk <? N.to_nat size)%nat then
        (mkReader buf (RFrame size ty (off + length chunk)), [])
      else
        (mkReader buf (RHeader 0),
         match i2cp_parse ty (firstn (N.to_nat size) buf) with Some m => [m] | None => [] end)
  end.
End WithExt.

(** ** Messages the server sends *)

(** message/host_reply.rs:24-73 *)
Inductive host_reply_kind : Type :=
| HrSuccess (dest : bytes) | HrFailure | HrPassword | HrPrivateKey | HrBoth | HrDecryption.
Definition hr_code (k : host_reply_kind) : N :=
  match k with HrSuccess _ => 0 | HrFailure => 1 | HrPassword => 2 | HrPrivateKey => 3
             | HrBoth => 4 | HrDecryption => 5 end.
Definition hr_len (k : host_reply_kind) : N :=
  match k with HrSuccess d => 1 + len d | _ => 1 end.

(** message/session_status.rs:25-54 *)
Inductive session_status : Type := SsDestroyed | SsCreated | SsUpdated | SsInvalid | SsRefused.
Definition ss_code (k : session_status) : N :=
  match k with SsDestroyed => 0 | SsCreated => 1 | SsUpdated => 2 | SsInvalid => 3
             | SsRefused => 4 end.

Inductive i2cp_reply : Type :=
| RpBandwidthLimits
| RpHostReply (session request : N) (kind : host_reply_kind)
| RpRequestVariableLeaseSet (session : N) (leases : list lease)
| RpMessagePayload (session message : N) (payload : bytes)
| RpSessionStatus (session : N) (kind : session_status)
| RpSetDate (date : N) (version : bytes).

(** message/bandwidth.rs:30-50, message/host_reply.rs:82-98, message/lease_set.rs:37-51 (an
    empty list of leases panics at 38: [None]), message/payload.rs:32-48,
    message/session_status.rs:84-93, message/set_date.rs:33-46. *)
Definition i2cp_build (r : i2cp_reply) : option bytes :=
  match r with
  | RpBandwidthLimits =>
      Some (be_bytes 4 64 ++ be_bytes 1 23 ++
            flat_map (be_bytes 4) [50; 50; 20; 20; 20; 20; 0; 0; 0; 0; 0; 0; 0; 0; 0; 0])
  | RpHostReply s q k =>
      Some (be_bytes 4 (2 + 3 + hr_len k) ++ be_bytes 1 39 ++ be_bytes 2 s ++ be_bytes 4 q ++
            be_bytes 1 (hr_code k) ++ match k with HrSuccess d => d | _ => [] end)
  | RpRequestVariableLeaseSet s ls =>
      match ls with
      | [] => None
      | _ =>
          Some (be_bytes 4 (1 + N.of_nat (length ls) * 44) ++ be_bytes 1 37 ++ be_bytes 2 s ++
                be_bytes 1 (N.of_nat (length ls)) ++ flat_map ser_lease ls)
      end
  | RpMessagePayload s m p =>
      Some (be_bytes 4 (2 + 4 + 4 + len p) ++ be_bytes 1 31 ++ be_bytes 2 s ++ be_bytes 4 m ++
            be_bytes 4 (len p) ++ p)
  | RpSessionStatus s k =>
      Some (be_bytes 4 3 ++ be_bytes 1 20 ++ be_bytes 2 s ++ be_bytes 1 (ss_code k))
  | RpSetDate d v =>
      Some (be_bytes 4 (8 + len (ser_str v)) ++ be_bytes 1 33 ++ be_bytes 8 d ++ ser_str v)
  end.

(** ** Writing side, shared by i2cp/socket.rs and sam/socket.rs *)

(** i2cp/socket.rs:62-77, sam/socket.rs:38-53 [WriteState] *)
Inductive wstate : Type :=
| WGet
| WSend (offset : nat) (message : bytes)
| WPoisoned.
Record writer : Type := mkWriter { w_pending : list bytes; w_state : wstate }.
(** i2cp/socket.rs:104-108, sam/socket.rs:81-85 *)
Definition writer_new : writer := mkWriter [] WGet.

(** i2cp/socket.rs:114-120, sam/socket.rs:95-97 [send_message] *)
Definition w_send (w : writer) (m : bytes) : writer :=
  mkWriter (w_pending w ++ [m]) (w_state w).

(** What [poll_write] returned. *)
Inductive wresult : Type := WrPending | WrError | WrOk (n : nat).

(** How an iteration of the loop ends: go on, leave the loop (the poll is [Pending]), or close
    the socket ([Poll::Ready(None)]). *)
Inductive wnext : Type := WContinue | WBreak | WClose.

(** i2cp/socket.rs:277-327, sam/socket.rs:170-220: one iteration; [r] is the result of the
    [poll_write] it may make.  The second component is what was handed to the kernel. *)
Definition w_iter (w : writer) (r : wresult) : writer * bytes * wnext :=
  match w_state w with
  | WGet =>
      match w_pending w with
      | [] => (mkWriter [] WGet, [], WBreak)
      | m :: t => (mkWriter t (WSend 0 m), [], WContinue)
      end
  | WSend off m =>
      match r with
      | WrPending => (mkWriter (w_pending w) (WSend off m), [], WBreak)
      | WrError => (mkWriter (w_pending w) WPoisoned, [], WClose)
      | WrOk 0 => (mkWriter (w_pending w) WPoisoned, [], WClose)
      | WrOk n =>
          if (n + off =? length m)%nat
          then (mkWriter (w_pending w) WGet, firstn n (skipn off m), WContinue)
          else (mkWriter (w_pending w) (WSend (off + n) m), firstn n (skipn off m), WContinue)
      end
  | WPoisoned => (mkWriter (w_pending w) WPoisoned, [], WClose)
  end.

(** util/mod.rs:118-141 [WriteAll::poll]: one iteration of [while !buffer.is_empty()].
    [None]: done; [Some]: what is left, what was written and whether to go on. *)
Definition write_all_iter (buffer : bytes) (r : wresult) : option (bytes * bytes * wnext) :=
  match buffer with
  | [] => None
  | _ =>
      match r with
      | WrPending => Some (buffer, [], WBreak)
      | WrError => Some (buffer, [], WClose)
      | WrOk n => Some (skipn n buffer, firstn n buffer,
                        if (n =? 0)%nat then WClose else WContinue)
      end
  end.
