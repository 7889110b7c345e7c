(** What the tunnel-message properties talk about. *)
From Coq Require Import List NArith Bool Arith.
From Verif Require Import Bytes PrimModel I2npModel I2npSpec TunnelModel.
Import ListNotations.
Open Scope N_scope.

(** ** Messages given to a tunnel *)
(** One message given to the gateway of a tunnel: the message, where the endpoint should
    deliver it, the tunnel id to write into the header, and the random numbers used. *)
Record sent : Type := mkSent {
  s_msg : message;
  s_to : delivery;
  s_tunnel : N;
  s_id : N;
  s_rnd : nat -> bytes * N;
  s_pad : bytes
}.
Definition target_ok (d : delivery) : Prop :=
  match d with
  | DLocal => True
  | DRouter h => hash_ok h
  | DTunnel t h => t < 2 ^ 32 /\ hash_ok h
  end.
(** Largest I2NP message (with its 16-byte header) that 64 fragments can carry. *)
Definition tunnel_max (d : delivery) : nat := (997 - delivery_len d + 63 * 996)%nat.
(** What can be sent: any message the I2NP format can carry that fits 64 fragments; IVs are
    16 bytes, the padding block is 1028 bytes without a zero. *)
Definition sent_ok (s : sent) : Prop :=
  m_id (s_msg s) < 2 ^ 32 /\ m_expiration (s_msg s) < 1000000 * 2 ^ 64 /\
  (0 < length (m_payload (s_msg s)))%nat /\
  N.of_nat (length (m_payload (s_msg s))) <= 65535 /\
  (16 + length (m_payload (s_msg s)) <= tunnel_max (s_to s))%nat /\
  target_ok (s_to s) /\ s_tunnel s < 2 ^ 32 /\ s_id s < 2 ^ 32 /\
  (forall k, length (fst (s_rnd s k)) = 16%nat) /\
  length (s_pad s) = 1028%nat /\ ~ In 0 (s_pad s).
(** The tunnel data messages that carry it. *)
Definition wires (e : ext) (s : sent) : list bytes :=
  td_build e (s_tunnel s) (s_to s) (build_standard e (s_msg s)) (s_id s) (s_rnd s) (s_pad s).
(** The message as the endpoint hands it on: the wire format has millisecond expirations. *)
Definition arrived (s : sent) : message * delivery :=
  (mkMsg (m_type (s_msg s)) (m_id (s_msg s)) (whole_millis (m_expiration (s_msg s))) (m_payload (s_msg s)),
   s_to s).

(** ** An arrival is a pair: which message, and which of its fragments *)
Definition has (x : nat * nat) (seen : list (nat * nat)) : bool :=
  existsb (fun y => (fst x =? fst y)%nat && (snd x =? snd y)%nat) seen.
Definition all_here (count : nat) (j : nat) (seen : list (nat * nat)) : bool :=
  forallb (fun i => has (j, i) seen) (seq 0 count).
(** Which message, if any, each arrival completes: the one it belongs to, when all its
    fragments have arrived since it was last delivered. *)
Fixpoint expected (count : nat -> nat) (seen arr : list (nat * nat)) : list (option nat) :=
  match arr with
  | [] => []
  | (j, i) :: t =>
      if all_here (count j) j ((j, i) :: seen)
      then Some j :: expected count (filter (fun y => negb (fst y =? j)%nat) seen) t
      else None :: expected count ((j, i) :: seen) t
  end.

(** ** Running an endpoint *)
(** [step] handles one tunnel data message; collect what each one delivers. *)
Fixpoint receive_by (step : handler -> bytes -> option (handler * list (message * delivery)))
    (h : handler) (ws : list bytes) : option (list (list (message * delivery))) :=
  match ws with
  | [] => Some []
  | w :: t =>
      match step h w with
      | None => None
      | Some (h', out) => option_map (cons out) (receive_by step h' t)
      end
  end.
(** The endpoint on messages in the clear: 4-byte tunnel id, 16-byte IV, the rest. *)
Definition clear_endpoint (e : ext) (h : handler) (w : bytes) :=
  endpoint e h (skipn 20 w) (firstn 16 (skipn 4 w)).
Definition receive (e : ext) := receive_by (clear_endpoint e).
(** A whole outbound tunnel: the creator encrypts for all hops, the participants [parts] pass
    the message on, [last] is the endpoint. *)
Definition outbound_tunnel (e : ext) (c : aes) (parts : list (hop_keys * N)) (last : hop_keys)
    (h : handler) (w : bytes) :=
  match relay c parts (outbound_prepare c (map fst parts ++ [last]) w) with
  | Some p => outbound_endpoint e c last h p
  | None => None
  end.
(** An inbound tunnel from what its gateway [first] sends on: participants [parts], and the
    creator of the tunnel. *)
Definition inbound_tunnel (e : ext) (c : aes) (first : hop_keys) (parts : list (hop_keys * N))
    (h : handler) (p : bytes) :=
  match relay c parts p with
  | Some p' => inbound_endpoint e c (first :: map fst parts) h p'
  | None => None
  end.
Definition no_sent : sent := mkSent (mkMsg Data 0 0 []) DLocal 0 0 (fun _ => ([], 0)) [].
Definition fragment_of (e : ext) (ss : list sent) (x : nat * nat) : bytes :=
  nth (snd x) (wires e (nth (fst x) ss no_sent)) [].
Definition fragment_count (e : ext) (ss : list sent) (j : nat) : nat :=
  length (wires e (nth j ss no_sent)).
Definition is_fragment (e : ext) (ss : list sent) (x : nat * nat) : Prop :=
  (fst x < length ss)%nat /\ (snd x < fragment_count e ss (fst x))%nat.

(** ** Layered encryption: what is assumed of AES *)
Definition aes_ok (c : aes) : Prop :=
  (forall k b, length b = 16%nat ->
     length (ecb_enc c k b) = 16%nat /\ length (ecb_dec c k b) = 16%nat /\
     ecb_dec c k (ecb_enc c k b) = b /\ ecb_enc c k (ecb_dec c k b) = b) /\
  (forall k iv d, length iv = 16%nat -> (exists n, length d = (16 * n)%nat) ->
     length (cbc_enc c k iv d) = length d /\ length (cbc_dec c k iv d) = length d /\
     cbc_dec c k iv (cbc_enc c k iv d) = d /\ cbc_enc c k iv (cbc_dec c k iv d) = d).
