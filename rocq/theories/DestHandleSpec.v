(** What a routing path handle of a destination is told, from what has happened at the destination:
    the operations and what came out of them.  Nothing here looks into the destination's state. *)
From Coq Require Import List NArith Bool.
From Verif Require Import Bytes NMap PrimModel RpathModel DestModel DestSpec.
Import ListNotations.
Open Scope N_scope.

Definition tunnels_of (ls : list lease) : list (N * N) := map (fun l => (l_tunnel l, l_expires_ms l)) ls.

(** What is known for a new handle for the remote: the outbound tunnels that are not about to
    expire, those that are, with the time until which they may be used, and the remote's leases. *)
Record seen : Type := mkSeen { s_out : list N; s_exp : list (N * N); s_leases : list lease }.

Section Spec.
Variable did : destination -> N.

(** The leases of the remote that an operation brings; [looking]: a lookup of it is under way. *)
Definition brings (r : N) (looking : bool) (op : dop) : option (list lease) :=
  match op with
  | Clove _ ls => if (did (h_dest (ls_header' ls)) =? r) && negb (N.of_nat (length (ls_leases ls)) =? 0) then Some (ls_leases ls) else None
  | Result _ x (Some ls) _ => if (x =? r) && looking then Some (ls_leases ls) else None
  | _ => None
  end.
(** A lookup of the remote finds nothing. *)
Definition fails (r : N) (looking : bool) (op : dop) : bool :=
  match op with Result _ x None _ => (x =? r) && looking | _ => false end.
Definition time_of (op : dop) : N := match op with Clove now _ | Result now _ _ _ => now | _ => 0 end.

Definition see (r : N) (looking : bool) (s : seen) (op : dop) : seen :=
  match op with
  | OutTunnelBuilt t => mkSeen (sadd t (s_out s)) (s_exp s) (s_leases s)
  | OutTunnelExpiring now t => mkSeen (sdel t (s_out s)) (s_exp s ++ [(t, now + 90000)]) (s_leases s)
  | OutTunnelExpired t => mkSeen (s_out s) (filter (fun e => negb (fst e =? t)) (s_exp s)) (s_leases s)
  | _ => match brings r looking op with
         | Some l => mkSeen (s_out s) (s_exp s) (filter (fun x => time_of op <? l_expires_ms x) (s_leases s ++ l))
         | None => s
         end
  end.

(** Requests for lookups that handles have put into the channel since it was last emptied. *)
Definition asks (o : dout) : bool := match o with HandleOut _ (Got _ true) => true | _ => false end.
Definition queued (n : N) (op : dop) (out : list dout) : N :=
  match op with Commands _ => 0 | _ => n + N.of_nat (length (filter asks out)) end.

(** All of it together, for one remote. *)
Record scene : Type := mkScene { sc_remote : remote; sc_seen : seen; sc_queued : N }.
Definition scene_step (r : N) (s : scene) (op : dop) (out : list dout) : scene :=
  mkScene (learn did r (sc_remote s) op out) (see r (looking (sc_remote s)) (sc_seen s) op) (queued (sc_queued s) op out).
Fixpoint scene_run (r : N) (s : scene) (ops : list dop) (outs : list (list dout)) : scene :=
  match ops, outs with op :: ops', o :: outs' => scene_run r (scene_step r s op o) ops' outs' | _, _ => s end.
Definition scene_new (outs0 : list N) : scene := mkScene unknown (mkSeen outs0 [] []) 0.

(** A handle by itself: the handle, whether its request is in the channel, whether it waits for
    the answer. *)
Record alone : Type := mkAlone { al_handle : option handle; al_asked : bool; al_waits : bool }.
(** What the handle for the remote is told by one operation. *)
Definition told (r h : N) (s : scene) (waits : bool) (op : dop) : list hop :=
  match op with
  | OutTunnelBuilt t => [HEvent (OutBuilt t)]
  | OutTunnelExpiring now t => [HEvent (OutExpiring t (now + 90000))]
  | OutTunnelExpired t => [HEvent (OutExpired t)]
  | UseHandle x op => if (x =? h) && owner_op op then [with_room (sc_queued s <? 512) op] else []
  | _ => match brings r (looking (sc_remote s)) op with
         | Some l => (if waits then [HAnswer true] else []) ++ [HEvent (InBuilt (tunnels_of l))]
         | None => if fails r (looking (sc_remote s)) op && waits then [HAnswer false] else []
         end
  end.
Definition alone_step (r h : N) (s : scene) (a : alone) (op : dop) (out : list dout) : alone :=
  let gone := match op with DropHandle x => x =? h | _ => false end in
  mkAlone (if gone then None else fst (hrun (al_handle a) (told r h s (al_waits a) op)))
          (match op with
           | Commands _ => false
           | UseHandle x _ => al_asked a || ((x =? h) && existsb asks out)
           | _ => al_asked a
           end)
          (match op with
           | Commands _ => al_waits a || al_asked a
           | _ => match brings r (looking (sc_remote s)) op with
                  | Some _ => false
                  | None => if fails r (looking (sc_remote s)) op then false else al_waits a
                  end
           end).
Fixpoint alone_run (r h : N) (s : scene) (a : alone) (ops : list dop) (outs : list (list dout)) : alone :=
  match ops, outs with
  | op :: ops', o :: outs' => alone_run r h (scene_step r s op o) (alone_step r h s a op o) ops' outs'
  | _, _ => a
  end.
Definition fresh (s : seen) : alone := mkAlone (Some (new_handle (tunnels_of (s_leases s)) (s_out s) (s_exp s))) false false.
End Spec.

(** Handles are numbered in the order in which they are made. *)
Definition made (ops : list dop) : N := N.of_nat (length (filter (fun op => match op with NewHandle _ => true | _ => false end) ops)).
