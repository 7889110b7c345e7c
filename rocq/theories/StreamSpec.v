(** What the stream properties talk about, stated on observable traces only:
    packets handed to the network, bytes handed to the client, packets taken from the
    network, bytes taken from the client. *)
From Coq Require Import List NArith Bool.
From Verif Require Import NMap StreamModel.
Import ListNotations.
Open Scope N_scope.

(** [a] is an initial part of [b]. *)
Definition prefix {A} (a b : list A) : Prop := exists c, b = a ++ c.

(** Bytes written to the client's socket in a trace, in order. *)
Definition client_bytes (o : list out) : bytes :=
  flat_map (fun x => match x with OClient b => b | OSend _ => [] end) o.

(** Packets handed over for transmission in a trace, in order. *)
Definition sent (o : list out) : list packet :=
  flat_map (fun x => match x with OSend p => [p] | OClient _ => [] end) o.

Definition initial_bytes (initial : option bytes) : bytes :=
  match initial with None => [] | Some m => m end.

(** The remote cut the bytes it wrote into the payloads [cs]; the first of them has
    sequence number [base + 1].  [carries base cs p]: packet [p] either has no payload, is
    from before the base (already delivered), or carries the payload the remote assigned to
    its sequence number. *)
Definition carries (base : N) (cs : list bytes) (p : packet) : Prop :=
  p_payload p = [] \/ p_seq p <= base \/
  nth_error cs (N.to_nat (p_seq p - base - 1)) = Some (p_payload p).

(** Can the stream take a packet from its queue now: not finished and not in the middle of
    writing a message to its client. *)
Definition can_take (s : stream) : bool :=
  negb (s_done s) && match s_write s with WWrite _ _ => false | _ => true end.

(** Can the stream take data from its client now: not finished, nothing queued, reading not
    stopped. *)
Definition can_read (s : stream) : bool :=
  negb (s_done s) && negb (s_read_closed s) &&
  match s_pending s with [] => true | _ => false end.

(** The packets a run takes from the network, in order. *)
Fixpoint taken (s : stream) (es : list event) : list packet :=
  match es with
  | [] => []
  | e :: t =>
      (match e with EPacket p _ => if can_take s then [p] else [] | _ => [] end)
      ++ taken (fst (step s e)) t
  end.

(** The bytes a run takes from the client, in order (a read returns at most the 65535 bytes
    of the read buffer). *)
Fixpoint accepted (s : stream) (es : list event) : bytes :=
  match es with
  | [] => []
  | e :: t =>
      (match e with
       | ERead d _ => if can_read s && (N.of_nat (length d) <=? 65535) then d else []
       | _ => [] end)
      ++ accepted (fst (step s e)) t
  end.

(** Sequence number [n] arrived with data. *)
Definition arrived (n : N) (ps : list packet) : Prop :=
  exists p, In p ps /\ p_seq p = n /\ p_payload p <> [].

(** Packet [q] acknowledges sequence number [n] (I2P streaming: everything up to
    [ackThrough] except what is listed in the NACKs, unless NO_ACK). *)
Definition acks (q : packet) (n : N) : Prop :=
  p_no_ack q = false /\ n <= p_ack q /\ ~ In n (p_nacks q).

(** The observable trace of a stream that starts at sequence number [base] and first
    writes [initial] to its client. *)
Definition trace (base : N) (initial : option bytes) (es : list event) : list out :=
  snd (run (stream_new base initial) es).

(** Events that only hand already buffered data to the client. *)
Definition handing_over (e : event) : Prop :=
  match e with EIdle | EWrote _ => True | _ => False end.

(** Two endpoints A and B joined by a network which may drop, duplicate, delay and reorder:
    an endpoint may receive, at any time and any number of times, any packet the other one
    has sent so far.  [joint ia ib ea eb]: [ea], [eb] is a possible pair of local
    histories. *)
Definition allowed (e : event) (network : list packet) : Prop :=
  match e with EPacket p _ => In p network | _ => True end.

Inductive joint (ia ib : option bytes) : list event -> list event -> Prop :=
| joint_start : joint ia ib [] []
| joint_a : forall ea eb e, joint ia ib ea eb -> allowed e (sent (trace 0 ib eb)) ->
    joint ia ib (ea ++ [e]) eb
| joint_b : forall ea eb e, joint ia ib ea eb -> allowed e (sent (trace 0 ia ea)) ->
    joint ia ib ea (eb ++ [e]).
