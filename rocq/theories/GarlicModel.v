(** Model of /repo/emissary-core/src/i2np/garlic.rs. *)
From Coq Require Import List NArith Bool Arith.
From Verif Require Import Bytes PrimModel I2npModel.
Import ListNotations.
Open Scope N_scope.

(** garlic.rs:112-136 [DeliveryInstructions] *)
Inductive delivery : Type :=
| DLocal
| DDestination (hash : bytes)
| DRouter (hash : bytes)
| DTunnel (hash : bytes) (tunnel : N).

(** garlic.rs:186-197 [serialized_len] *)
Definition delivery_len (d : delivery) : N :=
  match d with DLocal => 1 | DDestination _ | DRouter _ => 33 | DTunnel _ _ => 37 end.

(** garlic.rs:200-221 [serialize] *)
Definition ser_delivery (d : delivery) : bytes :=
  match d with
  | DLocal => [0]
  | DDestination h => 32 :: h
  | DRouter h => 64 :: h
  | DTunnel h t => 96 :: h ++ be_bytes 4 t
  end.

(** garlic.rs:291-312 [NextKeyKind]; a public key is its 32 bytes *)
Inductive next_key : Type :=
| ForwardKey (id : N) (key : option bytes) (reverse_requested : bool)
| ReverseKey (id : N) (key : option bytes).

(** garlic.rs:350-404 [GarlicMessageBlock]; blocks the parser never produces (Termination,
    Options, MessageNumber) are left out. *)
Inductive block : Type :=
| BDateTime (t : N)
| BNextKey (k : next_key)
| BAck (acks : list (N * N))
| BAckRequest
| BClove (t : mtype) (id : N) (expiration : N) (d : delivery) (body : bytes)
| BPadding (p : bytes).

(** garlic.rs:451-456 [parse_date_time] *)
Definition parse_date_time : parser block :=
  _ <- be_uint 2 ;; t <- be_uint 4 ;; ret (BDateTime t).

(** garlic.rs:459-505 [parse_delivery_instructions]; the last arm cannot be reached. *)
Definition parse_delivery : parser delivery :=
  flag <- be_uint 1 ;;
  _ <- guard (negb (N.testbit flag 7)) ;;
  _ <- guard (negb (N.testbit flag 4)) ;;
  match N.land (N.shiftr flag 5) 3 with
  | 0 => ret DLocal
  | 1 => h <- take 32 ;; ret (DDestination h)
  | 2 => h <- take 32 ;; ret (DRouter h)
  | 3 => h <- take 32 ;; t <- be_uint 4 ;; ret (DTunnel h t)
  | _ => fail
  end.

(** garlic.rs:508-534 [parse_garlic_clove] *)
Definition parse_clove : parser block :=
  size <- be_uint 2 ;;
  d <- parse_delivery ;;
  t <- be_uint 1 ;;
  id <- be_uint 4 ;;
  x <- be_uint 4 ;;
  ty <- opt (mtype_of t) ;;
  body <- take (N.to_nat (size - (delivery_len d + 1 + 2 * 4))) ;;
  ret (BClove ty id (of_secs x) d body).

(** garlic.rs:537-542 *)
Definition parse_padding : parser block :=
  size <- be_uint 2 ;; p <- take (N.to_nat size) ;; ret (BPadding p).

(** garlic.rs:545-581 [parse_next_key] *)
Definition parse_next_key : parser block :=
  _ <- be_uint 2 ;;
  flag <- be_uint 1 ;;
  id <- be_uint 2 ;;
  key <- (if N.testbit flag 0 then (k <- take 32 ;; ret (Some k)) else ret None) ;;
  ret (BNextKey (if N.testbit flag 1 then ReverseKey id key
                 else ForwardKey id key (N.testbit flag 2))).

(** garlic.rs:584-589 *)
Definition parse_ack_request : parser block :=
  _ <- be_uint 2 ;; _ <- be_uint 1 ;; ret BAckRequest.

(** garlic.rs:592-611 [parse_ack] *)
Definition parse_ack : parser block :=
  size <- be_uint 2 ;;
  _ <- guard (size mod 4 =? 0) ;;
  acks <- many (N.to_nat (size / 4)) (a <- be_uint 2 ;; b <- be_uint 2 ;; ret (a, b)) ;;
  ret (BAck acks).

(** garlic.rs:614-636 [parse_frame].  The recursion skips a block of unknown or unsupported
    type; every skipped block is at least three bytes long, so [fuel = length input] is
    always enough ([parse_frame_fuel]). *)
Fixpoint parse_block (fuel : nat) : parser block :=
  t <- be_uint 1 ;;
  if t =? 0 then parse_date_time
  else if t =? 11 then parse_clove
  else if t =? 254 then parse_padding
  else if t =? 7 then parse_next_key
  else if t =? 9 then parse_ack_request
  else if t =? 8 then parse_ack
  else
    size <- be_uint 2 ;;
    _ <- take (N.to_nat size) ;;
    match fuel with
    | O => fail
    | S f => parse_block f
    end.

(** garlic.rs:639-651 [parse_inner] *)
Fixpoint parse_inner (fuel : nat) (i : bytes) (acc : list block) : option (list block) :=
  match parse_block (length i) i with
  | None => None
  | Some (b, rest) =>
      match rest with
      | [] => Some (acc ++ [b])
      | _ =>
          match fuel with
          | O => None
          | S f => parse_inner f rest (acc ++ [b])
          end
      end
  end.

(** garlic.rs:654-658 [GarlicMessage::parse] *)
Definition parse_garlic (i : bytes) : option (list block) := parse_inner (length i) i [].

(** garlic.rs:663-668 [garlic_tag]: little-endian u64 of bytes 4..12; [None] = panic. *)
Definition garlic_tag (payload : bytes) : option N :=
  if (12 <=? length payload)%nat then Some (be_val (rev (firstn 8 (skipn 4 payload)))) else None.

(** garlic.rs:745-836 [GarlicMessageBuilder::build], one block; [None] = panic.  The ACK size
    is [len as u16 * 4], which wraps in release builds. *)
Definition ser_next_key (k : next_key) : option bytes :=
  match k with
  | ForwardKey id key rev =>
      match key, rev with
      | Some k, true => Some (be_bytes 1 7 ++ be_bytes 2 35 ++ be_bytes 1 5 ++ be_bytes 2 id ++ k)
      | Some k, false => Some (be_bytes 1 7 ++ be_bytes 2 35 ++ be_bytes 1 1 ++ be_bytes 2 id ++ k)
      | None, true => Some (be_bytes 1 7 ++ be_bytes 2 3 ++ be_bytes 1 4 ++ be_bytes 2 id)
      | None, false => None
      end
  | ReverseKey id key =>
      match key with
      | Some k => Some (be_bytes 1 7 ++ be_bytes 2 35 ++ be_bytes 1 3 ++ be_bytes 2 id ++ k)
      | None => Some (be_bytes 1 7 ++ be_bytes 2 3 ++ be_bytes 1 2 ++ be_bytes 2 id)
      end
  end.
Definition ser_block (b : block) : option bytes :=
  match b with
  | BDateTime t => Some (be_bytes 1 0 ++ be_bytes 2 4 ++ be_bytes 4 t)
  | BClove t id x d body =>
      Some (be_bytes 1 11 ++ be_bytes 2 (delivery_len d + 1 + 4 + 4 + len body) ++
            ser_delivery d ++ be_bytes 1 (mtype_u8 t) ++ be_bytes 4 id ++
            be_bytes 4 (secs_of x) ++ body)
  | BNextKey k => ser_next_key k
  | BAckRequest => Some (be_bytes 1 9 ++ be_bytes 2 1 ++ be_bytes 1 0)
  | BAck acks =>
      Some (be_bytes 1 8 ++ be_bytes 2 ((N.of_nat (length acks) mod 65536) * 4) ++
            flat_map (fun x => be_bytes 2 (fst x) ++ be_bytes 2 (snd x)) acks)
  | BPadding _ => None
  end.
Fixpoint build_garlic (l : list block) : option bytes :=
  match l with
  | [] => Some []
  | b :: t =>
      match ser_block b, build_garlic t with
      | Some x, Some y => Some (x ++ y)
      | _, _ => None
      end
  end.
