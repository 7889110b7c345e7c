(** What the I2CP properties talk about: how a client writes messages and how a byte stream
    is cut into frames (https://geti2p.net/spec/i2cp). *)
From Coq Require Import List NArith Bool.
From Verif Require Import Bytes PrimModel PrimSpec EncModel I2cpModel.
Import ListNotations.
Open Scope N_scope.

(** A frame: 4-byte length of the body, 1-byte type, body. *)
Definition frame (f : N * list N) : list N :=
  be_bytes 4 (N.of_nat (length (snd f))) ++ [fst f] ++ snd f.
Definition frame_ok (f : N * list N) : Prop :=
  fst f < 256 /\ N.of_nat (length (snd f)) < 65536.

(** Bytes read from a socket in pieces.  [socket_reads room on_read r s out r']: from reader
    state [r], reading exactly the bytes [s], cut into reads in an arbitrary way that respects
    the buffer offered by the reader, returns the messages [out] and leaves state [r']. *)
Inductive socket_reads {R M : Type} (room : R -> option nat) (on_read : R -> list N -> R * list M)
  : R -> list N -> list M -> R -> Prop :=
| reads_none r : socket_reads room on_read r [] [] r
| reads_some r k chunk rest out r' :
    room r = Some k -> chunk <> [] -> (length chunk <= k)%nat ->
    socket_reads room on_read (fst (on_read r chunk)) rest out r' ->
    socket_reads room on_read r (chunk ++ rest) (snd (on_read r chunk) ++ out) r'.

(** The option map as the protocol writes it. *)
Definition wire_options (o : list mapping) : list N :=
  be_bytes 2 (N.of_nat (map_size o)) ++ ser_options o.

(** Frames a client writes for each request. *)
Definition get_date_frame (version : list N) (o : list mapping) : N * list N :=
  (32, ser_str version ++ wire_options o).
Definition set_date_frame (date : N) (version : list N) : N * list N :=
  (33, be_bytes 8 date ++ ser_str version).
Definition bandwidth_frame : N * list N := (8, []).
Definition destroy_frame (session : N) : N * list N := (3, be_bytes 2 session).
Definition create_session_body (d : destination) (o : list mapping) (date : N) : list N :=
  ser_dest d ++ wire_options o ++ be_bytes 8 date.
Definition create_session_frame (d : destination) (o : list mapping) (date : N) (sg : list N)
  : N * list N :=
  (1, create_session_body d o date ++ sg).
Definition host_lookup_frame (session request timeout : N) (k : request_kind) : N * list N :=
  (38, be_bytes 2 session ++ be_bytes 4 request ++ be_bytes 4 timeout ++
       match k with
       | Hash h => [0] ++ h
       | HostName n => [1] ++ ser_str n
       end).
Definition lease_set_frame (session : N) (ls : list N) (keys : list (list N)) : N * list N :=
  (41, be_bytes 2 session ++ [3] ++ ls ++ be_bytes 1 (N.of_nat (length keys)) ++
       flat_map (fun k => be_bytes 2 4 ++ be_bytes 2 32 ++ k) keys).
Definition send_message_frame (session : N) (d : destination) (payload : list N)
    (nonce options expires : N) : N * list N :=
  (36, be_bytes 2 session ++ ser_dest d ++ be_bytes 4 (N.of_nat (length payload)) ++ payload ++
       be_bytes 4 nonce ++ be_bytes 2 options ++ be_bytes 6 expires).

(** The fields of an I2CP payload: source port, destination port, protocol. *)
Definition payload_has (payload : list N) (src dst : N) (p : protocol) : Prop :=
  exists a f c, length a = 4%nat /\
    payload = a ++ be_bytes 2 src ++ be_bytes 2 dst ++ [f] ++ [protocol_u8 p] ++ c.

(** A frame as the client's reader sees it: the body is as long as the header says. *)
Definition well_framed (m : list N) : Prop :=
  exists ty body, m = frame (ty, body).

(** [requests e f m]: frame [f] is how a client writes request [m]. *)
Inductive requests (e : ext) : N * list N -> i2cp_msg -> Prop :=
| rq_get_date version o :
    str_ok version -> map_ok o -> N.of_nat (map_size o) < 65536 ->
    requests e (get_date_frame version o) (MGetDate version o)
| rq_set_date date version :
    str_ok version -> date < 2 ^ 64 ->
    requests e (set_date_frame date version) (MSetDate date version)
| rq_bandwidth : requests e bandwidth_frame MGetBandwidthLimits
| rq_destroy session :
    session < 65536 -> requests e (destroy_frame session) (MDestroySession session)
| rq_create_session d o date sg :
    dest_ok e d -> map_ok o -> sorted_map o -> N.of_nat (map_size o) < 65536 ->
    date < 2 ^ 64 -> length sg = 64%nat ->
    verify e (d_key d) (create_session_body d o date) sg = true ->
    requests e (create_session_frame d o date sg) (MCreateSession d date o)
| rq_host_lookup session request timeout k :
    session < 65536 -> request < 2 ^ 32 -> timeout < 2 ^ 32 ->
    match k with Hash h => length h = 32%nat | HostName n => str_ok n end ->
    requests e (host_lookup_frame session request timeout k)
      (MHostLookup session request timeout k)
| rq_lease_set session ls x keys :
    session < 65536 -> (forall r, parse_ls e (ls ++ r) = Some (x, r)) ->
    (length keys < 256)%nat -> Forall (fun k => length k = 32%nat) keys ->
    requests e (lease_set_frame session ls keys)
      (MCreateLeaseSet2 session (d_hash (h_dest (ls_header' x))) ls keys)
| rq_send session d payload src dst p nonce options expires :
    session < 65536 -> dest_ok e d -> N.of_nat (length payload) < 2 ^ 32 ->
    src < 65536 -> dst < 65536 -> payload_has payload src dst p ->
    nonce < 2 ^ 32 -> options < 65536 -> expires < 2 ^ 48 ->
    requests e (send_message_frame session d payload nonce options expires)
      (MSendMessageExpires session d (src, dst, p) payload nonce options expires).

(** ** Writing to a client socket *)
(** The kernel accepts at most what it is offered. *)
Definition kernel_can (w : writer) (r : wresult) : Prop :=
  match w_state w, r with
  | WSend off m, WrOk n => (n <= length m - off)%nat
  | _, _ => True
  end.

(** [wrote queued written w]: a socket on which the messages [queued] were queued, in that
    order, has handed [written] to the kernel so far and is in state [w]. *)
Inductive wrote : list (list N) -> list N -> writer -> Prop :=
| wrote_start : wrote [] [] writer_new
| wrote_queue q o w m : wrote q o w -> m <> [] -> wrote (q ++ [m]) o (w_send w m)
| wrote_iter q o w r : wrote q o w -> kernel_can w r ->
    wrote q (o ++ snd (fst (w_iter w r))) (fst (fst (w_iter w r))).

(** Nothing is left to write. *)
Definition idle (w : writer) : Prop := w_pending w = [] /\ w_state w = WGet.
(** The connection failed. *)
Definition failed (w : writer) : Prop := w_state w = WPoisoned.

(** A kernel that always takes at least one of the bytes it is offered. *)
Definition takes_some (kernel : writer -> nat) : Prop :=
  forall w off m, w_state w = WSend off m -> (off < length m)%nat ->
    (1 <= kernel w <= length m - off)%nat.

(** [n] iterations of the write loop against a kernel that takes [kernel w] bytes each time. *)
Fixpoint pump (n : nat) (kernel : writer -> nat) (w : writer) : writer * list N :=
  match n with
  | O => (w, [])
  | S n' =>
      let '(w', out, _) := w_iter w (WrOk (kernel w)) in
      let '(w'', out') := pump n' kernel w' in
      (w'', out ++ out')
  end.

(** [writing_all b left written closed]: [write_all] of [b] has written [written]. *)
Inductive writing_all (b : list N) : list N -> list N -> bool -> Prop :=
| wa_start : writing_all b b [] false
| wa_iter left out r left' w nx :
    writing_all b left out false ->
    (match r with WrOk n => (n <= length left)%nat | _ => True end) ->
    write_all_iter left r = Some (left', w, nx) ->
    writing_all b left' (out ++ w) (match nx with WClose => true | _ => false end).

(** ** Replies, as the protocol defines them *)
Definition reply_frame (r : i2cp_reply) : N * list N :=
  match r with
  | RpBandwidthLimits =>
      (23, flat_map (be_bytes 4) ([50; 50; 20; 20; 20; 20; 0] ++ repeat 0 9))
  | RpHostReply s q k =>
      (39, be_bytes 2 s ++ be_bytes 4 q ++
           match k with
           | HrSuccess d => [0] ++ d
           | HrFailure => [1] | HrPassword => [2] | HrPrivateKey => [3] | HrBoth => [4]
           | HrDecryption => [5]
           end)
  | RpRequestVariableLeaseSet s ls =>
      (37, be_bytes 2 s ++ be_bytes 1 (N.of_nat (length ls)) ++
           flat_map (fun l => l_router l ++ be_bytes 4 (l_tunnel l) ++ be_bytes 8 (l_expires_ms l)) ls)
  | RpMessagePayload s m p =>
      (31, be_bytes 2 s ++ be_bytes 4 m ++ be_bytes 4 (N.of_nat (length p)) ++ p)
  | RpSessionStatus s k =>
      (20, be_bytes 2 s ++
           [match k with SsDestroyed => 0 | SsCreated => 1 | SsUpdated => 2 | SsInvalid => 3
                       | SsRefused => 4 end])
  | RpSetDate d v => (33, be_bytes 8 d ++ be_bytes 1 (N.of_nat (length v)) ++ v)
  end.
