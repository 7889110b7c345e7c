(** Model of a stream that waits for the client to accept it.
    Source: /repo/emissary-core/src/sam/protocol/streaming/stream/pending.rs and the conversion
    to an active stream in streaming/mod.rs:700-741 and stream/active.rs:623-660. *)
From Coq Require Import List NArith Bool Arith.
From Verif Require Import NMap StreamModel.
Import ListNotations.
Open Scope N_scope.

(** pending.rs:38 *)
Definition PENDING_WINDOW : nat := 6.

(** pending.rs:67-87 [PendingStream]: the stream ids and the age are dropped (pruning after 30 s
    is the environment's choice to stop). *)
Record pending := mkPending { pn_packets : list bytes; pn_seq : N }.
(** pending.rs:93-124 *)
Definition pending_new (syn_payload : bytes) : pending :=
  mkPending (match syn_payload with [] => [] | _ => [syn_payload] end) 0.

(** pending.rs:44-58 [PendingStreamResult] *)
Inductive pending_result := PNothing | PSend (p : packet) | PSendAndDestroy (p : packet) | PDestroy.

(** pending.rs:178-182: ACK without NACKs; 192-196: RESET *)
Definition pending_ack (n : N) : packet := mkPacket 0 n [] false false false false false [].
Definition pending_reset : packet := mkPacket 0 0 [] false false true false false [].

(** pending.rs:137-202 [on_packet] (the packet is given parsed) *)
Definition pending_step (st : pending) (p : packet) : pending * pending_result :=
  if p_reset p || p_close p then (st, PDestroy)
  else if (match p_payload p with [] => true | _ => false end) || (p_seq p <=? pn_seq st)
  then (st, PNothing)
  else if (length (pn_packets st) =? PENDING_WINDOW)%nat then (st, PSendAndDestroy pending_reset)
  else (mkPending (pn_packets st ++ [p_payload p]) (p_seq p), PSend (pending_ack (p_seq p))).

(** streaming/mod.rs:800-850: packets for a pending stream; [None] once it was destroyed.
    Returns what was sent. *)
Fixpoint pending_run (st : pending) (ps : list packet) : option pending * list packet :=
  match ps with
  | [] => (Some st, [])
  | p :: t =>
      match pending_step st p with
      | (_, PDestroy) => (None, [])
      | (_, PSendAndDestroy q) => (None, [q])
      | (st', PNothing) => pending_run st' t
      | (st', PSend q) => let '(r, o) := pending_run st' t in (r, q :: o)
      end
  end.

(** streaming/mod.rs:712-741, active.rs:623-660: the active stream continues at the pending
    stream's sequence number and first writes the initial message (if any) followed by what was
    received. *)
Definition activate (initial : option bytes) (st : pending) : stream :=
  let combined := concat (pn_packets st) in
  stream_new (pn_seq st)
    match initial, combined with
    | None, [] => None
    | None, _ => Some combined
    | Some m, [] => Some m
    | Some m, _ => Some (m ++ combined)
    end.
