(** What the owner of a tunnel may rely on about building it.

    Vocabulary for the statements of BuildProps.v: the laws of the primitives, a request that can
    be written down, and the way of a build request from hop to hop. *)
From Coq Require Import List NArith Bool.
From Verif Require Import Bytes NMap I2npModel I2npSpec TunnelModel NoiseModel RouteModel TransitModel TransitSpec BuildModel.
Import ListNotations.
Open Scope N_scope.

(** The primitives: sizes, X25519 agreement, and that opening undoes sealing. *)
Definition crypto_laws (c : ops) : Prop :=
  crypto_sizes c /\
  (forall a b, x_dh c a (x_pub c b) = x_dh c b (x_pub c a)) /\
  (forall k n ad p, x_open c k n ad (x_seal c k n ad p) = Some p) /\
  (forall k, length (x_pub c k) = 32%nat) /\
  (forall k d, length (x_hmac c k d) = 32%nat).

(** Times are nanoseconds since the epoch; the wire has 32 bits of seconds. *)
Definition in_time (now : N) : Prop := now + 10000000000 < 1000000000 * 2 ^ 32.

(** One requested hop as the wire can carry it. *)
Definition hin_ok (h : hin) : Prop :=
  hash_ok (hi_hash h) /\ hi_id h < 2 ^ 32 /\ length (hi_pad h) = 96%nat.

(** A node on the path: the time at which it gets the request, and its transit tunnels. *)
Definition node : Type := (N * manager)%type.
(** The node is the router the hop was meant for: it has that hash and the private key that
    belongs to that public key. *)
Definition serves (c : ops) (h : hin) (nd : node) : Prop :=
  no_hash (tm_noise (snd nd)) = hi_hash h /\ x_pub c (no_priv (tm_noise (snd nd))) = hi_static h /\
  in_time (fst nd).

(** What arrives when a router is sent [out]: a message, perhaps through a tunnel gateway. *)
Definition arrives (out : bytes) : option (option N * message) :=
  match parse_short out with
  | Some (m, []) =>
      match m_type m with
      | TunnelGateway =>
          match parse_gateway (m_payload m) with
          | Some (g, []) =>
              match parse_standard (tg_payload g) with
              | Some (m', []) => Some (Some (tg_id g), m')
              | _ => None
              end
          | _ => None
          end
      | _ => Some (None, m)
      end
  | _ => None
  end.

(** One leg of the way: the node afterwards, the router it sent the message on to, the gateway
    tunnel it used for that, and the receiver it created for the tunnel ([None]: it refused). *)
Record leg : Type := mkLeg { l_after : manager; l_to : bytes; l_tunnel : option N; l_slot : option N }.

Fixpoint travel (c : ops) (msg : message) (nodes : list node) : option (message * list leg) :=
  match nodes with
  | [] => Some (msg, [])
  | (now, m) :: rest =>
      match m_type msg with
      | ShortTunnelBuild =>
          match handle_short c now m msg with
          | (m', Some (router, out, slot)) =>
              match arrives out with
              | Some (via, msg') =>
                  match travel c msg' rest with
                  | Some (final, legs) => Some (final, mkLeg m' router via slot :: legs)
                  | None => None
                  end
              | None => None
              end
          | (_, None) => None
          end
      | _ => None
      end
  end.

(** No record in front of a hop's own happens to begin with the 16 bytes that hop looks for: the
    records in front of it are ciphertext under keys the hop does not know. *)
Fixpoint clear (c : ops) (i : nat) (msg : message) (nodes : list node) : Prop :=
  match nodes with
  | [] => True
  | (now, m) :: rest =>
      (forall j, (j < i)%nat ->
         firstn 16 (firstn 218 (skipn (1 + 218 * j) (m_payload msg))) <> firstn 16 (no_hash (tm_noise m))) /\
      match handle_short c now m msg with
      | (_, Some (_, out, _)) =>
          match arrives out with Some (_, msg') => clear c (S i) msg' rest | None => True end
      | _ => True
      end
  end.

(** The reply to a request in which hop [i] answered [slots[i]]. *)
Definition verdict (slot : option N) : option hop_result :=
  Some (match slot with Some _ => HAccepted | None => HRejected 30 end).

(** A request the wire can carry: times, ids and hashes in range, fake records of the right size. *)
Definition request_ok (now mid : N) (hs : list hin) (fakes : nat -> bytes) (gateway : N) (router : bytes) : Prop :=
  in_time now /\ mid < 2 ^ 32 /\ gateway < 2 ^ 32 /\ hash_ok router /\ Forall hin_ok hs /\
  (forall i, length (fakes i) = 218%nat).

(** Both ends agree: hop [i] of the tunnel as its owner sees it, and the tunnel that node [i]
    started for it (or did not start, if it refused). *)
Definition ends_agree (d : direction) (hs : list hin) (gateway : N) (router : bytes) (p : pending)
    (nodes : list node) (legs : list leg) : Prop :=
  length (p_hops p) = length hs /\ length legs = length hs /\
  forall i h nd l hp r,
    nth_error hs i = Some h -> nth_error nodes i = Some nd -> nth_error legs i = Some l ->
    nth_error (p_hops p) i = Some hp -> nth_error (hop_roles d (length hs)) i = Some r ->
    let next_id := nth (S i) (map hi_id hs ++ [gateway]) 0 in
    let next_router := nth (S i) (map hi_hash hs ++ [router]) [] in
    th_id hp = hi_id h /\ th_router hp = hi_hash h /\
    l_to l = next_router /\
    l_tunnel l = (match r with OutboundEndpoint => Some next_id | _ => None end) /\
    l_slot l = snd (admit_tunnel (snd nd) true (hi_id h)) /\
    match l_slot l with
    | Some s => tm_tasks (l_after l) =
                tm_tasks (snd nd) ++ [mkTask s (hi_id h) r next_id next_router (th_keys hp) Waiting]
    | None => tm_tasks (l_after l) = tm_tasks (snd nd)
    end.
