(** What publishing the local lease set must do, told from the events and what came out. *)
From Coq Require Import List NArith Bool.
From Verif Require Import Bytes NMap PrimModel LsmModel.
Import ListNotations.
Open Scope N_scope.

(** The latest lease set the client has created. *)
Definition latest (ls : bytes) (ops : list lop) : bytes :=
  fold_left (fun a op => match op with NewLeaseSet x _ _ => x | _ => a end) ops ls.

(** The lease of our inbound tunnel [t], if it was built and is not about to expire. *)
Definition live_after (t : N) (a : option lease) (op : lop) : option lease :=
  match op with
  | TunnelBuilt _ l => if l_tunnel l =? t then Some l else a
  | TunnelExpiring x => if x =? t then None else a
  | _ => a
  end.
Definition live_first (t : N) (tunnels : list lease) : option lease :=
  fold_left (fun a l => if l_tunnel l =? t then Some l else a) tunnels None.
Definition live (t : N) (tunnels : list lease) (ops : list lop) : option lease :=
  fold_left (live_after t) ops (live_first t tunnels).

(** A router the network database or a search reply for our key has named as a floodfill. *)
Definition heard (key r : N) (ops : list lop) : Prop :=
  exists op, In op ops /\
    match op with
    | Floodfills (Some l) => In r l
    | ReplyReceived k rs known _ => k = key /\ In r rs /\ known r = true
    | RouterFound x ok known => x = r /\ ok = true /\ known = true
    | _ => False
    end.

(** Floodfills involved since the last store: the one stored at and those asked for it. *)
Definition round_after (a : list N) (o : lout) : list N :=
  match o with Store f _ _ _ => [f] | Verify f _ _ => f :: a | _ => a end.
Definition round (outs : list lout) : list N := fold_left round_after outs [].
Definition stored_at (f : N) (outs : list lout) : Prop := exists ls rr rt, In (Store f ls rr rt) outs.

(** Router info lookups under way. *)
Definition finding_op (r : N) (a : bool) (op : lop) : bool := match op with RouterFound x _ _ => if x =? r then false else a | _ => a end.
Definition finding_out (r : N) (a : bool) (o : lout) : bool := match o with FindRouter x => (x =? r) || a | _ => a end.
Fixpoint finding (r : N) (a : bool) (ops : list lop) (outs : list (list lout)) : bool :=
  match ops, outs with
  | op :: ops', o :: outs' => finding r (fold_left (finding_out r) o (finding_op r a op)) ops' outs'
  | _, _ => a
  end.

(** Sent to a floodfill. *)
Definition is_store (o : lout) : bool := match o with Store _ _ _ _ => true | _ => false end.
Definition sent (o : lout) : bool := match o with Store _ _ _ _ | Verify _ _ _ => true | _ => false end.

(** Events that neither confirm the storage nor change our inbound tunnels. *)
Definition undisturbed (key : N) (op : lop) : Prop :=
  match op with
  | StoreReceived k _ => k <> key
  | TunnelBuilt _ _ | TunnelExpiring _ => False
  | _ => True
  end.
(** Polls happen at non-decreasing times, starting from [t], and the tunnel pool takes messages. *)
Fixpoint in_time (t : N) (ops : list lop) : Prop :=
  match ops with
  | [] => True
  | Poll e :: rest => t <= e_now e /\ e_store e = true /\ in_time (e_now e) rest
  | _ :: rest => in_time t rest
  end.

(** Floodfills stored at since our lease set was last received. *)
Definition attempts_op (key : N) (a : list N) (op : lop) : list N := match op with StoreReceived k _ => if k =? key then [] else a | _ => a end.
Definition attempts_out (a : list N) (o : lout) : list N := match o with Store f _ _ _ => f :: a | _ => a end.
Fixpoint attempts (key : N) (a : list N) (ops : list lop) (outs : list (list lout)) : list N :=
  match ops, outs with
  | op :: ops', o :: outs' => attempts key (fold_left attempts_out o (attempts_op key a op)) ops' outs'
  | _, _ => a
  end.
