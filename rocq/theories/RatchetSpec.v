(** What the end-to-end session properties talk about. *)
From Coq Require Import List NArith Bool Arith.
From Verif Require Import Bytes NMap GarlicModel RatchetModel.
Import ListNotations.
Open Scope N_scope.

(** ** What is assumed of the primitives *)

(** Hashes are 32 bytes long; Diffie-Hellman commutes, also with the ephemeral public keys that
    have an Elligator2 representative; a representative is 32 bytes long and decodes to the key
    it was made from; decryption undoes encryption and the authentication tag is 16 bytes. *)
Definition rcrypt_ok (c : rcrypt) : Prop :=
  (forall k d, length (hmac c k d) = 32%nat /\ bytes_ok (hmac c k d)) /\
  (forall a b, dh c a (pubkey c b) = dh c b (pubkey c a)) /\
  (forall a b, dh c a (epub c b) = dh c b (pubkey c a)) /\
  (forall a b, dh c a (epub c b) = dh c b (epub c a)) /\
  (forall a, length (pubkey c a) = 32%nat) /\
  (forall a w, length (represent c a w) = 32%nat /\ unrepresent c (represent c a w) = Some (epub c a)) /\
  (forall k n ad p, aopen c k n ad (aseal c k n ad p) = Some p) /\
  (forall k n ad p, length (aseal c k n ad p) = (length p + 16)%nat).

(** ** Two ends of one direction of a session *)

(** The sender's tag set, the receiver's, the [NextKey] blocks put on the wire so far (every
    one with the number of the exchange it belongs to), the exchange asked for last, the
    entries either end has handed out and the errors returned. *)
Record link := mkLink {
  l_send : tagset; l_recv : tagset;
  l_fwd : list (N * next_key); l_rev : list (N * next_key);
  l_asked : N;
  l_out : list entry; l_in : list entry;
  l_errs : list (serr * N)
}.
Definition link_new (c : rcrypt) (root key : bytes) : link :=
  mkLink (ts_new c root key) (ts_new c root key) [] [] 0 [] [] [].

(** The sender uses a tag; the receiver prepares one; the sender asks for the next keys if it
    is time; the receiver gets the [n]-th request, the sender the [n]-th answer.  Nothing is
    ever taken off the wire: a block can be lost, be delayed, or arrive any number of times. *)
Inductive lop :=
| LSendTag | LRecvTag | LAsk (newpriv : bytes) | LAnswer (n : nat) (newpriv : bytes) | LDone (n : nat).

(** [timely]: a block is only delivered while no later exchange has been asked for. *)
Definition deliverable (timely : bool) (l : link) (x : N) : bool :=
  negb timely || (x =? l_asked l).

Definition lstep (c : rcrypt) (timely : bool) (l : link) (o : lop) : link :=
  match o with
  | LSendTag =>
      match next_entry c (l_send l) with
      | (t, Some e) => mkLink t (l_recv l) (l_fwd l) (l_rev l) (l_asked l) (l_out l ++ [e]) (l_in l) (l_errs l)
      | _ => l
      end
  | LRecvTag =>
      match next_entry c (l_recv l) with
      | (t, Some e) => mkLink (l_send l) t (l_fwd l) (l_rev l) (l_asked l) (l_out l) (l_in l ++ [e]) (l_errs l)
      | _ => l
      end
  | LAsk p =>
      match try_next_key c (l_send l) p with
      | (t, Ok (Some k)) =>
          mkLink t (l_recv l) (l_fwd l ++ [(ts_id (l_send l) + 1, k)]) (l_rev l)
                 (ts_id (l_send l) + 1) (l_out l) (l_in l) (l_errs l)
      | (t, Err e) =>
          mkLink t (l_recv l) (l_fwd l) (l_rev l) (l_asked l) (l_out l) (l_in l)
                 (l_errs l ++ [(e, ts_id (l_send l))])
      | _ => l
      end
  | LAnswer n p =>
      match nth_error (l_fwd l) n with
      | Some (x, k) =>
          if deliverable timely l x then
            match handle_next_key c (l_recv l) k p with
            | (t, Ok (Some r)) =>
                mkLink (l_send l) t (l_fwd l) (l_rev l ++ [(x, r)]) (l_asked l) (l_out l) (l_in l) (l_errs l)
            | (t, Ok None) =>
                mkLink (l_send l) t (l_fwd l) (l_rev l) (l_asked l) (l_out l) (l_in l) (l_errs l)
            | (t, Err e) =>
                mkLink (l_send l) t (l_fwd l) (l_rev l) (l_asked l) (l_out l) (l_in l)
                       (l_errs l ++ [(e, ts_id (l_recv l))])
            | _ => l
            end
          else l
      | None => l
      end
  | LDone n =>
      match nth_error (l_rev l) n with
      | Some (x, k) =>
          if deliverable timely l x then
            match handle_next_key c (l_send l) k [] with
            | (t, Ok _) =>
                mkLink t (l_recv l) (l_fwd l) (l_rev l) (l_asked l) (l_out l) (l_in l) (l_errs l)
            | (t, Err e) =>
                mkLink t (l_recv l) (l_fwd l) (l_rev l) (l_asked l) (l_out l) (l_in l)
                       (l_errs l ++ [(e, ts_id (l_send l))])
            | _ => l
            end
          else l
      | None => l
      end
  end.
Definition lrun (c : rcrypt) (timely : bool) (root key : bytes) (ops : list lop) : link :=
  fold_left (lstep c timely) ops (link_new c root key).

(** Both ends agree: an entry with the same tag set id and tag index is the same entry, tag
    and key, wherever it was handed out. *)
Definition link_agrees (l : link) : Prop :=
  forall e e', In e (l_out l) -> In e' (l_in l) ->
  e_set e = e_set e' -> e_index e = e_index e' -> e = e'.

(** ** Receiving *)

(** The receiver a user expects: it can decrypt any of the messages it is ready for, in any
    order, each of them once.  It is ready for [w] messages beyond the number it has
    received, and a tag set has 65535 tags. *)
Definition max_tags : N := 65535.
Definition ready (w : N) (seen : list N) (i : N) : bool :=
  negb (existsb (N.eqb i) seen) && (i <? N.min max_tags (w + N.of_nat (length seen))).

(** The entry with index [i] of a tag set made from [root] and [key] *)
Fixpoint nth_ctx (c : rcrypt) (k : kctx) (i : nat) : kctx :=
  match i with O => k | S i => fst (ratchet_once c (nth_ctx c k i)) end.
Definition nth_entry (c : rcrypt) (k : kctx) (set : N) (i : N) : entry :=
  let '(_, (key, tag)) := ratchet_once c (nth_ctx c k (N.to_nat i)) in mkEntry key tag i set.

(** The wire image of a message sealed with an entry, as the receiving session gets it: four
    bytes of length, the tag, the ciphertext *)
Definition es_wire (c : rcrypt) (e : entry) (payload : bytes) : bytes :=
  let ct := aseal c (e_key e) (e_index e) (le_bytes 8 (e_tag e)) payload in
  be_bytes 4 (8 + N.of_nat (length ct)) ++ le_bytes 8 (e_tag e) ++ ct.

(** A payload that holds a garlic message without a [NextKey] block *)
Definition plain (payload : bytes) : Prop :=
  exists bs, parse_garlic payload = Some bs /\ Forall (fun b => match b with BNextKey _ => False | _ => True end) bs.

(** The operations on an active session *)
Inductive sop :=
| SDecrypt (now : N) (tag : N) (message : bytes) (newpriv : nat -> bytes)
| SEncrypt (blocks : list block) (newpriv : bytes)
| SMaintain (now : N).

(** Which tags became usable, or stand for another key than before, in a step *)
Definition same_entry (a b : entry) : bool :=
  (e_index a =? e_index b) && (e_set a =? e_set b) && beq (e_key a) (e_key b) && (e_tag a =? e_tag b).
Definition appeared (before after : nmap entry) : list N :=
  map fst (filter (fun x => match nget (fst x) before with
                            | Some e => negb (same_entry e (snd x))
                            | None => true
                            end) after).

(** A run of a session: the tags that became usable, and the tags under which a message was
    decrypted, in order. *)
Record srun := mkSrun { sr_tags : nmap N; sr_sess : session; sr_new : list N; sr_used : list N }.
Definition sstep (c : rcrypt) (remote : N) (r : srun) (o : sop) : srun :=
  match o with
  | SDecrypt now tag message newpriv =>
      let '(g, s, x) := sess_decrypt c remote now newpriv (ndel tag (sr_tags r)) (sr_sess r) tag message in
      mkSrun g s (sr_new r ++ appeared (ndel tag (se_entries (sr_sess r))) (se_entries s))
             (match x with Ok _ => sr_used r ++ [tag] | _ => sr_used r end)
  | SEncrypt blocks newpriv =>
      let '(s, _) := sess_encrypt c (sr_sess r) blocks newpriv in
      mkSrun (sr_tags r) s (sr_new r) (sr_used r)
  | SMaintain now =>
      let '(g, s) := sess_maintain now (sr_tags r) (sr_sess r) in
      mkSrun g s (sr_new r) (sr_used r)
  end.

(** Tags a session can decrypt with *)
Definition live_tags (s : session) : list N :=
  nkeys (se_entries s) ++ match se_nsr s with NActive _ e _ => nkeys e | NInactive => [] end.

(** What reaches a session that only receives data: message [i] of the sender's tag set, and
    anything the session does besides receiving. *)
Inductive rop :=
| RArrive (now : N) (i : N) (payload : bytes)
| REncrypt (blocks : list block) (newpriv : bytes)
| RMaintain (now : N).
Fixpoint deliver (c : rcrypt) (remote : N) (k : kctx) (set : N) (newpriv : nat -> bytes) (g : nmap N)
  (s : session) (ops : list rop) : list (option (N * N * bytes)) :=
  match ops with
  | [] => []
  | RArrive now i payload :: t =>
      let e := nth_entry c k set i in
      let '(g, s, r) := sess_decrypt c remote now newpriv (ndel (e_tag e) g) s (e_tag e) (es_wire c e payload) in
      match r with Ok x => Some x | _ => None end :: deliver c remote k set newpriv g s t
  | REncrypt blocks p :: t =>
      let '(s, _) := sess_encrypt c s blocks p in deliver c remote k set newpriv g s t
  | RMaintain now :: t =>
      let '(g, s) := sess_maintain now g s in deliver c remote k set newpriv g s t
  end.
Fixpoint wanted (w set : N) (seen : list N) (ops : list rop) : list (option (N * N * bytes)) :=
  match ops with
  | [] => []
  | RArrive _ i payload :: t =>
      if ready w seen i then Some (set, i, payload) :: wanted w set (i :: seen) t
      else None :: wanted w set seen t
  | _ :: t => wanted w set seen t
  end.

(** No two of the 65535 tags of a tag set are the same. *)
Definition distinct_tags (c : rcrypt) (k : kctx) (set : N) : Prop :=
  forall i j, i < 65535 -> j < 65535 ->
  e_tag (nth_entry c k set i) = e_tag (nth_entry c k set j) -> i = j.
(** None of them is in a list. *)
Definition apart (c : rcrypt) (k : kctx) (set : N) (l : list N) : Prop :=
  forall i, i < 65535 -> ~ In (e_tag (nth_entry c k set i)) l.

(** A session that receives on the tag set [k], has got the messages [seen] of it and is ready
    for [w] more than that.  Tags of other tag sets do not matter. *)
Record receives (c : rcrypt) (k : kctx) (set w : N) (seen : list N) (s : session) : Prop := {
  rc_nsr : apart c k set (match se_nsr s with NActive _ e _ => nkeys e | NInactive => [] end);
  rc_exp : forall x, In x (se_expiring s) -> apart c k set (snd x);
  rc_set : ts_id (se_recv s) = set;
  rc_ctx : ts_ctx (se_recv s) = nth_ctx c k (N.to_nat (ts_index (se_recv s)));
  rc_idx : ts_index (se_recv s) = N.min max_tags (w + N.of_nat (length seen));
  rc_seen : forall i, In i seen -> i < ts_index (se_recv s);
  rc_ent : forall i, i < max_tags ->
    nget (e_tag (nth_entry c k set i)) (se_entries s) =
    if ready w seen i then Some (nth_entry c k set i) else None
}.

(** Drawing from a tag set again and again *)
Fixpoint draws (c : rcrypt) (n : nat) (t : tagset) : list (option entry) :=
  match n with O => [] | S n => snd (next_entry c t) :: draws c n (fst (next_entry c t)) end.

(** ** The handshake *)

Fixpoint accum {S A B} (f : S -> A -> S * B) (x : S) (l : list A) : S * list B :=
  match l with
  | [] => (x, [])
  | a :: t => (fst (accum f (fst (f x a)) t), snd (f x a) :: snd (accum f (fst (f x a)) t))
  end.
(** A responder that answers with [NewSessionReply] messages: payload, ephemeral key, tweak of
    each.  What it put on the wire and the tags it can receive under since then. *)
Definition reply_run (c : rcrypt) (i : inbound) (l : list (bytes * bytes * N))
  : inbound * list (res (bytes * list entry)) :=
  accum (fun i x => let '(p, eph, tweak) := x in create_reply c i p eph tweak) i l.

(** A message as it arrives: four bytes of length, then the message *)
Definition framed (m : bytes) : bytes := be_bytes 4 (N.of_nat (length m)) ++ m.
Definition reply_tags_of (r : res (bytes * list entry)) : list N :=
  match r with Ok (_, l) => map e_tag l | _ => [] end.

(** How many different tags the pending session with [dest] can be answered under *)
Definition listening (m : manager) (dest : N) : nat :=
  match nget dest (m_pending m) with
  | Some p =>
      match p_state p with
      | PInbound _ e => List.length e
      | PAwaitNsr _ _ nsr e => List.length nsr + List.length e
      | PAwaitEs _ _ _ _ nsr e => List.length nsr + List.length e
      | PPoisoned => 0
      end
  | None => 0
  end%nat.
