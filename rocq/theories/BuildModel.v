(** Building a tunnel of our own: the request, and the reply that came back.

    Models /repo/emissary-core/src/tunnel/hop/pending.rs, tunnel/hop/mod.rs (the builder) and
    tunnel/garlic.rs.  What every hop does with the request is in TransitModel.v.

    Random numbers are arguments: the hops' tunnel ids, ephemeral keys and paddings are fields of
    [hin]; [extra] is the draw for the number of fake records, [fakes] the fake records. *)
From Coq Require Import List NArith Bool Arith.
From Verif Require Import ListUtil Bytes NMap PrimModel I2npModel GarlicModel TunnelModel NoiseModel RouteModel TransitModel.
Import ListNotations.
Open Scope N_scope.

(** hop/mod.rs:69-75; hop/inbound.rs and hop/outbound.rs [hop_roles] *)
Inductive direction : Type := Inbound | Outbound.
Definition hop_roles (d : direction) (n : nat) : list role :=
  match d with
  | Inbound => InboundGateway :: repeat Participant (n - 1)
  | Outbound => repeat Participant (n - 1) ++ [OutboundEndpoint]
  end.

(** One requested hop: [parameters.hops] (hop/mod.rs:230) and what is drawn for it. *)
Record hin : Type := mkHin { hi_hash : bytes; hi_static : bytes; hi_id : N; hi_eph : bytes; hi_pad : bytes }.

(** hop/mod.rs:42-52 [TunnelHop]; [th_state] is the state after pending.rs:221-226 *)
Record thop : Type := mkThop { th_id : N; th_router : bytes; th_keys : keys; th_state : bytes }.

(** pending.rs:56-82 [PendingTunnel] *)
Record pending : Type := mkPending { p_dir : direction; p_hops : list thop; p_num : nat; p_id : N }.

(** pending.rs:46-50: 8 records at most, 4 fit one tunnel message *)
Definition MAX_RECORDS : nat := 8.
Definition UNFRAGMENTED : nat := 4.
(** pending.rs:152-156 *)
Definition num_records (hops : nat) (extra : N) : nat :=
  Nat.min (hops + N.to_nat (extra mod 3)) (if Nat.ltb hops UNFRAGMENTED then UNFRAGMENTED else MAX_RECORDS).

Inductive build_error : Type := TooManyHops | NotEnoughHops.

Section Build.
Variable c : ops.

(** pending.rs:165-239 for the real hops: session, plain record, AEAD, new state, full record *)
Fixpoint make_hops (now mid : N) (hs : list hin) (roles : list role) (gateway : N) (router : bytes)
    : list (thop * bytes) :=
  match hs, roles with
  | h :: t, r :: rt =>
      let '(next_id, next_router) :=
        match t with h' :: _ => (hi_id h', hi_hash h') | [] => (gateway, router) end in
      let s := create_outbound c (hi_static h) (hi_eph h) r in
      let plain := ser_short_record (mkBr (hi_id h) next_id next_router r mid)
                     (secs_of now / 60) (secs_of (now + of_ms 10000)) (hi_pad h) in
      let ct := x_seal c (o_aead s) 0 (o_state s) plain in
      (mkThop (hi_id h) (hi_hash h) (o_keys s) (x_sha c (o_state s ++ ct)),
       firstn 16 (hi_hash h) ++ o_eph s ++ ct)
      :: make_hops now mid t rt gateway router
  | _, _ => []
  end.

(** pending.rs:242-252: hop [i] is given every later record encrypted once more *)
Fixpoint layer (i : nat) (hops : list thop) (recs : list bytes) : list bytes :=
  match hops with
  | [] => recs
  | h :: t => layer (S i) t
      (map_from 0 (fun j r => if Nat.ltb i j then chacha c (k_reply (th_keys h)) (N.of_nat j) r else r) recs)
  end.

(** pending.rs:271-305 *)
Definition inbound_request (now mid : N) (first_static eph payload : bytes) : message :=
  match build_garlic [BDateTime (secs_of now);
                      BClove ShortTunnelBuild mid (now + of_ms 8000) GarlicModel.DLocal payload] with
  | None => mkMsg Garlic mid 0 []
  | Some plain =>
      let '(key, ad) := outbound_garlic c first_static eph in
      let ct := x_seal c key 0 ad plain in
      mkMsg Garlic mid (now + of_ms 8000) (be_bytes 4 (len ct + 32) ++ x_pub c eph ++ ct)
  end.

(** pending.rs:99-309 [create_tunnel]; [gateway] is where the reply of an outbound build goes, for
    an inbound build it is the id of the tunnel itself (hop/mod.rs:212-224) *)
Definition create_tunnel (d : direction) (now mid : N) (hs : list hin) (extra : N) (fakes : nat -> bytes)
    (gateway id : N) (router eph : bytes) : (pending * bytes * message) + build_error :=
  if Nat.ltb MAX_RECORDS (length hs) then inr TooManyHops
  else match hs with
  | [] => inr NotEnoughHops
  | h0 :: _ =>
      let n := num_records (length hs) extra in
      let made := make_hops now mid hs (hop_roles d (length hs)) gateway router in
      let recs := map snd made ++ map fakes (seq 0 (n - length hs)) in
      let payload := ser_records (layer 0 (map fst made) recs) in
      inl (mkPending d (map fst made) n id, hi_hash h0,
           match d with
           | Outbound => mkMsg ShortTunnelBuild mid (now + of_ms 10000) payload
           | Inbound => inbound_request now mid (hi_static h0) eph payload
           end)
  end.

(** ** The reply *)
Inductive hop_result : Type := HAccepted | HRejected (reason : N) | HInvalid.
Inductive built : Type :=
| Built (hops : list thop)                               (** in tunnel order *)
| Failed (results : list (bytes * option hop_result))
| BuildPanic.                                            (** [payload[12..]] at 375 *)

(** pending.rs:465-522, for the hops from index [i] on.  The loop runs over the hops in reverse,
    so a hop is handled after all hops behind it; a record that cannot be opened ends it. *)
Fixpoint process (i : nat) (hops : list thop) (recs : list bytes) : option (list bytes) * list (option hop_result) :=
  match hops with
  | [] => (Some recs, [])
  | h :: t =>
      match process (S i) t recs with
      | (None, rs) => (None, None :: rs)
      | (Some recs', rs) =>
          match x_open c (k_reply (th_keys h)) (N.of_nat i) (th_state h) (nth i recs' []) with
          | None => (None, Some HInvalid :: rs)
          | Some plain =>
              let status := nth 201 plain 0 in
              (Some (map_from 0 (fun j r => if Nat.eqb j i then r
                                            else chacha c (k_reply (th_keys h)) (N.of_nat j) r) recs'),
               Some (if status =? 0 then HAccepted else HRejected status) :: rs)
          end
      end
  end.

(** pending.rs:403-411 *)
Definition is_reply_clove (b : block) : bool :=
  match b with BClove OutboundTunnelBuildReply _ _ _ _ => true | _ => false end.

(** pending.rs:360-438: the records of the reply *)
Inductive reply_payload : Type := RpOk (payload : bytes) | RpInvalid | RpPanic.
Definition reply_of (p : pending) (msg : message) : reply_payload :=
  match p_dir p, m_type msg with
  | Inbound, ShortTunnelBuild => RpOk (m_payload msg)
  | Outbound, OutboundTunnelBuildReply => RpOk (m_payload msg)
  | Outbound, Garlic =>
      if Nat.ltb (length (m_payload msg)) 12 then RpPanic
      else match last (map (fun h => k_garlic (th_keys h)) (p_hops p)) None with
           | None => RpPanic    (** [expect("garlic key to exist")]: not for an outbound endpoint *)
           | Some (gk, gt) =>
               match x_open c gk 0 gt (skipn 12 (m_payload msg)) with
               | None => RpInvalid
               | Some plain =>
                   match parse_garlic plain with
                   | None => RpInvalid
                   | Some blocks =>
                       match find is_reply_clove blocks with
                       | Some (BClove _ _ _ _ body) => RpOk body
                       | _ => RpInvalid
                       end
                   end
               end
           end
  | _, _ => RpInvalid
  end.

(** pending.rs:356-358: the hops, last first, without a result *)
Definition no_results (p : pending) : list (bytes * option hop_result) :=
  map (fun h => (th_router h, None)) (rev (p_hops p)).
(** [hop_results[0].1 = ..] *)
Definition blame_first (l : list (bytes * option hop_result)) : list (bytes * option hop_result) :=
  match l with (r, _) :: t => (r, Some HInvalid) :: t | [] => [] end.

(** pending.rs:336-538 [try_build_tunnel].  [hop_results] lists the routers last first, and
    [hop_results[hop_idx]] is written with the index counted from the first hop. *)
Definition try_build (p : pending) (msg : message) : built :=
  match reply_of p msg with
  | RpPanic => BuildPanic
  | RpInvalid => Failed (blame_first (no_results p))
  | RpOk payload =>
      if negb (Nat.eqb (length payload) (p_num p * SHORT_LEN + 1)) then Failed (blame_first (no_results p))
      else
        let '(done, results) := process 0 (p_hops p) (chunks SHORT_LEN (skipn 1 payload)) in
        match done with
        | Some _ =>
            if forallb (fun r => match r with Some HAccepted => true | _ => false end) results
            then Built (p_hops p)
            else Failed (combine (map th_router (rev (p_hops p))) results)
        | None => Failed (combine (map th_router (rev (p_hops p))) results)
        end
  end.

(** ** tunnel/garlic.rs:95-228 [handle_message]: the messages for this router itself.
    [None] is an error. *)
Definition garlic_local (now : N) (n : noise) (payload : bytes) : option (list message) :=
  if Nat.ltb (length payload) 36 then None
  else let '(key, ad) := inbound_garlic c n (firstn 32 (skipn 4 payload)) in
    match x_open c key 0 ad (skipn 36 payload) with
    | None => None
    | Some plain =>
        match parse_garlic plain with
        | None => None
        | Some blocks =>
            Some (flat_map (fun b => match b with
                                     | BClove ty id x GarlicModel.DLocal body =>
                                         if x <? now then [] else [mkMsg ty id x body]
                                     | _ => []
                                     end) blocks)
        end
    end.
End Build.
