(** What the properties of a floodfill's database talk about (C67 - C73). *)
From Coq Require Import List NArith Bool Arith.
From Verif Require Import ListUtil Bytes NMap PrimModel I2npModel KadModel KadSpec FloodModel.
Import ListNotations.
Open Scope N_scope.

(** Limits of the clock (32 bit seconds, the year 2106) and of random message ids. *)
Definition env_ok (v : fenv) : Prop :=
  v_now v + 8000 < 1000 * 2 ^ 32 /\ v_id1 v < 2 ^ 32 /\ v_id2 v < 2 ^ 32 /\ v_id3 v < 2 ^ 32.
(** A store message (a string of bytes) short enough to be forwarded with a short I2NP header. *)
Definition op_fits (o : fop) : Prop :=
  match o with FStore b => bytes_ok b /\ N.of_nat (length b) <= 65526 | _ => True end.
Definition history_ok (ops : list (fenv * fop)) : Prop :=
  Forall (fun x => env_ok (fst x) /\ op_fits (snd x)) ops.

(** A lease set is valid at a time (milliseconds) if it has not expired as a whole and has a lease
    left. *)
Definition valid_at (now : N) (l : lease_set) : bool :=
  (now / 1000 <=? h_expires (ls_header' l)) && existsb (fun x => now <=? l_expires_ms x) (ls_leases l).
(** Neither the lease set nor any of its leases expires before the time. *)
Definition lasts_until (t : N) (l : lease_set) : bool :=
  (t <=? h_expires (ls_header' l) * 1000) && forallb (fun x => t <=? l_expires_ms x) (ls_leases l).

Definition is_lease (p : store_payload) : bool := match p with SpLeaseSet2 _ => true | _ => false end.

(** What a floodfill should take: a valid lease set, or the router info of another router of its
    network published at most an hour ago. *)
Definition takes (c : fconf) (now : N) (p : store_payload) : bool :=
  match p with
  | SpLeaseSet2 l => valid_at now l
  | SpRouterInfo r =>
      (rf_net_id r =? fc_net c) && negb (be_val (ri_hash (rf_identity r)) =? fc_local c)
      && (now <=? rf_published r + 3600000)
  end.

Section Spec.
Variable e : ext.
Variable gunzip : bytes -> option bytes.
Variable c : fconf.

(** The events of a router's life, one after the other, and everything it sent. *)
Fixpoint fruns (s : fdb) (ops : list (fenv * fop)) : option (fdb * list fout) :=
  match ops with
  | [] => Some (s, [])
  | (v, o) :: t =>
      match fstep e gunzip c v s o with
      | None => None
      | Some (s1, o1) => match fruns s1 t with None => None | Some (s2, o2) => Some (s2, o1 ++ o2) end
      end
  end.

(** What should be remembered under a key, told from the events alone: the lease set (or router
    info) taken last, until a cleanup finds that it or one of its leases has expired. *)
Definition recall_step (lease : bool) (key : bytes) (m : option store_payload) (x : fenv * fop)
  : option store_payload :=
  match snd x with
  | FStore b =>
      match parse_store e gunzip b with
      | Some (st, _) =>
          if beq (st_key st) key && Bool.eqb (is_lease (st_payload st)) lease && takes c (v_now (fst x)) (st_payload st)
          then Some (st_payload st) else m
      | None => m
      end
  | FMaintain =>
      match m with Some (SpLeaseSet2 l) => if lasts_until (v_now (fst x)) l then m else None | _ => m end
  | _ => m
  end.
Definition recalls (lease : bool) (key : bytes) (ops : list (fenv * fop)) : option store_payload :=
  fold_left (recall_step lease key) ops None.
End Spec.

(** An answer on its way to the router that asked, or to the tunnel it named. *)
Definition sent_back (v : fenv) (reply : lookup_reply) (m : bytes) : list fout :=
  match reply with
  | LrRouter r => if v_linked v (be_val r) then [ToRouter (be_val r) m] else []
  | LrTunnel t r => if v_tunnel v then [ToTunnel (be_val r) t m] else []
  end.
Definition reads (reply : lookup_reply) (m : bytes) : option message :=
  option_map fst (match reply with LrRouter _ => parse_short m | LrTunnel _ _ => parse_standard m end).
(** The message is good for eight seconds, give or take the resolution of the header. *)
Definition timely (v : fenv) (m : message) : Prop :=
  of_ms (v_now v + 7000) < m_expiration m <= of_ms (v_now v + 8000).

(** The router says nothing to anybody. *)
Definition silent (out : list fout) : Prop :=
  forall x, In x out -> exists r raw, x = Discovered r raw.

(** A message is in the hands of the connection to a router: sent, or first in dialing it, or kept
    for when the dial in progress succeeds. *)
Definition entrusted (v : fenv) (s s' : fdb) (out : list fout) (r : N) (k : kept) : Prop :=
  match nget r (fd_links s) with
  | Some Connected => v_linked v r = true -> In (ToRouter r (kept_bytes k)) out
  | Some (Dialing q) => exists q1 q2, nget r (fd_links s') = Some (Dialing (q ++ q1 ++ k :: q2))
  | None => v_dial v r = true ->
            In (Dial r) out /\ exists q1 q2, nget r (fd_links s') = Some (Dialing (q1 ++ k :: q2))
  end.

(** A delivery status message with the token, for the router itself or for a tunnel behind it. *)
Definition acknowledges (reply : store_reply) (m : bytes) : Prop :=
  match reply with
  | SrNone => False
  | SrRouter token _ =>
      exists msg d, parse_short m = Some (msg, []) /\ m_type msg = DeliveryStatus /\
        parse_delivery_status (m_payload msg) = Some (d, []) /\ ds_id d = token
  | SrTunnel token tunnel _ =>
      exists msg g inner d, parse_short m = Some (msg, []) /\ m_type msg = TunnelGateway /\
        parse_gateway (m_payload msg) = Some (g, []) /\ tg_id g = tunnel /\
        parse_standard (tg_payload g) = Some (inner, []) /\ m_type inner = DeliveryStatus /\
        parse_delivery_status (m_payload inner) = Some (d, []) /\ ds_id d = token
  end.
Definition ack_router (reply : store_reply) : option N :=
  match reply with SrNone => None | SrRouter _ r => Some (be_val r) | SrTunnel _ _ r => Some (be_val r) end.

(** What was sent to a router, in order. *)
Definition sent_to (r : N) (out : list fout) : list bytes :=
  flat_map (fun x => match x with ToRouter r' m => if r' =? r then [m] else [] | _ => [] end) out.
Definition dials (r : N) (out : list fout) : nat :=
  length (filter (fun x => match x with Dial r' => r' =? r | _ => false end) out).

(** Is the message still worth sending? *)
Definition worth_sending (now : N) (k : kept) : bool :=
  match k with NonExpiring _ => true | Expiring _ x => now <? x end.

(** The same circumstances, but with a connection to the router. *)
Definition linked (r : N) (v : fenv) : fenv :=
  mkFenv (v_now v) (v_target v) (v_floodfill v) (v_id1 v) (v_id2 v) (v_id3 v)
    (fun x => if x =? r then true else v_linked v x) (v_dial v) (v_tunnel v).

(** The events of others: nothing connects, disconnects or asks directly in the router's name. *)
Definition not_about (r : N) (o : fop) : Prop :=
  match o with
  | FEstablished x | FClosed x | FFailed x => x <> r
  | FLookup b => match parse_lookup b with
                 | Some (mkLookup _ _ LExploration _, _) => True
                 | Some (mkLookup _ _ _ (LrRouter h), _) => be_val h <> r
                 | _ => True
                 end
  | _ => True
  end.


(** The floodfills a router has heard of: those that connected, and those whose router info it
    took. *)
Definition heard_of e gunzip (c : fconf) (x : fenv * fop) : list N :=
  match snd x with
  | FEstablished r => if v_floodfill (fst x) r then [r] else []
  | FStore b =>
      match parse_store e gunzip b with
      | Some (mkStore _ (SpRouterInfo i) _, _) =>
          if takes c (v_now (fst x)) (SpRouterInfo i) && c_floodfill (rf_caps i) then [be_val (ri_hash (rf_identity i))] else []
      | _ => []
      end
  | _ => []
  end.
Definition floodfills_heard_of e gunzip (c : fconf) (ops : list (fenv * fop)) : list N := flat_map (heard_of e gunzip c) ops.
(** Router ids are 256 bit numbers, and so are hashes. *)
Definition ids_ok (e : ext) (c : fconf) (ops : list (fenv * fop)) : Prop :=
  (forall b, router_id (be_val (sha256 e b))) /\ router_id (fc_local c) /\
  Forall (fun x => match snd x with FEstablished r => router_id r | _ => True end) ops.

(** An answer that does reach the router or tunnel. *)
Definition delivered (reply : lookup_reply) (m : bytes) : list fout :=
  match reply with
  | LrRouter r => [ToRouter (be_val r) m]
  | LrTunnel t r => [ToTunnel (be_val r) t m]
  end.
Definition looks_up (lease : bool) (key : bytes) (p : bytes) (reply : lookup_reply) (ignore : list bytes) : Prop :=
  exists rest, parse_lookup p = Some (mkLookup ignore key (if lease then LLeaseSet else LRouter) reply, rest).
(** After the events, the lookup is answered with a store message that carries the entry. *)
Definition answers e gunzip (c : fconf) (ops : list (fenv * fop)) (v : fenv) (p : bytes) (lease : bool) (key : bytes)
  (entry : store_payload) : Prop :=
  exists s sent reply ignore m msg r,
    fruns e gunzip c (fdb_new c) ops = Some (s, sent) /\
    looks_up lease key p reply ignore /\
    fstep e gunzip c v s (FLookup p) = Some (s, delivered reply m) /\
    reads reply m = Some msg /\ m_type msg = DatabaseStore /\
    parse_store e gunzip (m_payload msg) = Some (mkStore key entry SrNone, r).
(** After the events, the lookup is answered with a list of other routers to ask. *)
Definition refers e gunzip (c : fconf) (ops : list (fenv * fop)) (v : fenv) (p : bytes) (lease : bool) (key : bytes)
  (ignore : list bytes) (reply' : search_reply) : Prop :=
  exists s sent reply m msg,
    fruns e gunzip c (fdb_new c) ops = Some (s, sent) /\
    looks_up lease key p reply ignore /\
    fstep e gunzip c v s (FLookup p) = Some (s, delivered reply m) /\
    reads reply m = Some msg /\ m_type msg = DatabaseSearchReply /\
    parse_search_reply (m_payload msg) = Some (reply', []).
(** The way back is open: the router that asked is connected, or a tunnel takes the answer. *)
Definition way_back (v : fenv) (reply : lookup_reply) : bool :=
  match reply with LrRouter r => v_linked v (be_val r) | LrTunnel _ _ => v_tunnel v end.
(** The [n] routers closest to a point among those not excluded. *)
Definition the_closest (n : nat) (target : N) (among excluded chosen : list N) : Prop :=
  (length chosen <= n)%nat /\
  (forall k, In k chosen -> In k among /\ ~ In k excluded) /\
  (forall k k', In k chosen -> In k' among -> ~ In k' excluded -> ~ In k' chosen -> N.lxor target k < N.lxor target k').
