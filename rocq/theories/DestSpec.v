(** What a client destination keeps about one remote, told from what has happened: the operations
    and what came out of them.  Nothing here looks into the destination's state. *)
From Coq Require Import List NArith Bool.
From Verif Require Import Bytes NMap PrimModel RpathModel DestModel.
Import ListNotations.
Open Scope N_scope.

(** The lease set in use for the remote, the messages put off until a newer one is found, whether
    a lookup is under way, and every lease set that was ever taken for it. *)
Record remote : Type := mkR {
  in_use : option lease_set;
  put_off : list bytes;
  looking : bool;
  taken : list lease_set
}.
Definition unknown : remote := mkR None [] false [].

Definition is_lookup (r : N) (o : dout) : bool := match o with Lookup x => x =? r | _ => false end.
(** The lease set in use has expired at [now]. *)
Definition stale (now : N) (s : remote) : bool := match in_use s with Some l => ls_expired now l | None => false end.

Section Spec.
Variable did : destination -> N.

Definition learn (r : N) (s : remote) (op : dop) (out : list dout) : remote :=
  let s1 :=
    match op with
    | SendMessage now x _ msg _ =>
        if (x =? r) && stale now s then mkR (in_use s) (put_off s ++ [msg]) (looking s) (taken s) else s
    | Clove now ls =>
        if (did (h_dest (ls_header' ls)) =? r) && negb (N.of_nat (length (ls_leases ls)) =? 0)
        then mkR (Some ls) (put_off s) (looking s) (taken s ++ [ls]) else s
    | Result now x (Some ls) _ =>
        if (x =? r) && looking s
        then mkR (Some ls) (if ls_expired now ls then put_off s else []) false (taken s ++ [ls]) else s
    | Result now x None _ =>
        if (x =? r) && looking s then mkR (in_use s) (put_off s) false (taken s) else s
    | _ => s
    end in
  mkR (in_use s1) (put_off s1) (looking s1 || existsb (is_lookup r) out) (taken s1).
Fixpoint history (r : N) (s : remote) (ops : list dop) (outs : list (list dout)) : remote :=
  match ops, outs with
  | op :: ops', o :: outs' => history r (learn r s op o) ops' outs'
  | _, _ => s
  end.
End Spec.

(** A message sent to a gateway named by one of the leases. *)
Definition to_lease (ls : list lease) (via : option N) (msg : bytes) (o : dout) : Prop :=
  exists l, In l ls /\ o = Send (l_router l) (l_tunnel l) via msg.

(** What sending a message has to do, given what is kept about the remote. *)
Definition send_spec (now r : N) (st : style) (msg : bytes) (s : remote) (out : list dout) : Prop :=
  match in_use s with
  | None => out = [SendError]
  | Some ls =>
      if ls_expired now ls then out = if looking s then [] else [Lookup r]
      else match st with
           | Unspecified => exists o, out = [o] /\ to_lease (ls_leases ls) None msg o
           | ViaRoute i ob =>
               (exists l, In l (ls_leases ls) /\ l_tunnel l = i /\ out = [Send (l_router l) i (Some ob) msg]) \/
               ((forall l, In l (ls_leases ls) -> l_tunnel l <> i) /\
                (out = [] \/
                 exists old l, In old (taken s) /\ In l (ls_leases old) /\ l_tunnel l = i /\
                               out = [Send (l_router l) i (Some ob) msg]))
           end
  end.

(** What the end of a lookup has to do. *)
Definition result_spec (now r : N) (res : option lease_set) (s : remote) (out : list dout) : Prop :=
  if looking s then
    match res with
    | None => out = [LeaseSetNotFound r]
    | Some ls =>
        if ls_expired now ls
        then out = (if N.of_nat (length (put_off s)) =? 0 then [] else [Lookup r]) ++ [LeaseSetFound r]
        else exists sent, out = sent ++ [LeaseSetFound r] /\
                          Forall2 (to_lease (ls_leases ls) None) (put_off s) sent
    end
  else out = [].

(** What asking for a lease set has to do. *)
Definition query_spec (now r : N) (s : remote) (out : list dout) : Prop :=
  if looking s then out = [Status Pending]
  else match in_use s with
       | Some ls => if ls_expired now ls then out = [Lookup r; Status NotFound] else out = [Status Found]
       | None => out = [Lookup r; Status NotFound]
       end.

Definition is_send (o : dout) : bool := match o with Send _ _ _ _ => true | _ => false end.

(** ** Routes that were handed out *)
(** What keeps a route through the remote's tunnel [i] usable until [e]: no lookup of the remote
    finds a lease set, its lease sets that arrive otherwise give tunnel [i] until [e] or later if
    they name it, and the pruning that happens does so before [e]. *)
Definition calm (did : destination -> N) (r i e : N) (op : dop) : Prop :=
  match op with
  | Result _ x (Some _) _ => x <> r
  | Clove _ ls => did (h_dest (ls_header' ls)) = r -> forall l, In l (ls_leases ls) -> l_tunnel l = i -> e <= l_expires_ms l
  | Prune t => t < e
  | _ => True
  end.
(** An operation that neither asks for the remote's lease set, sends it a message nor brings a
    lease set of it. *)
Definition hands_off (did : destination -> N) (r : N) (op : dop) : Prop :=
  match op with
  | Query _ x | SendMessage _ x _ _ _ => x <> r
  | Clove _ ls => did (h_dest (ls_header' ls)) <> r
  | _ => True
  end.
