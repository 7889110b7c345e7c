(** What users of the profile storage rely on. *)
From Coq Require Import List NArith Bool Permutation.
From Verif Require Import NMap Bytes ProfileModel.
Import ListNotations.
Open Scope N_scope.

(** Sorting only rearranges. *)
Definition sorts (ord : order) : Prop := forall l, Permutation (ord l) l.

(** The events that are reported about routers chosen from the storage only. *)
Definition about_hop (e : event) : bool :=
  match e with
  | EDialOk _ | EDialFailed _ | ELookupNoResponse | ELookupOk | ELookupFailed => false
  | _ => true
  end.
Definition stores (o : pop) : option (N * rinfo) :=
  match o with
  | PAdd r i | PDiscover r i _ => if acceptable i then Some (r, i) else None
  | _ => None
  end.
(** A run as the router makes it: sorting rearranges, filters do not panic, and reports about hops
    are about routers given to the storage before. *)
Fixpoint proper (known : list N) (l : list pop) : Prop :=
  match l with
  | [] => True
  | o :: t =>
      match o with
      | PMaintain ord => sorts ord
      | PGet _ f => forall r i p, f r i p <> None
      | PEvent r e => about_hop e = true -> In r known
      | _ => True
      end /\ proper (match stores o with Some (r, _) => r :: known | None => known end) t
  end.

(** The router can be found in some bucket. *)
Definition findable (s : store) (r : N) : Prop := In r (bucket_ids s BAny).

(** What the backups should contain as the router info of [r]: the last one discovered since the
    previous backup, if any. *)
Fixpoint saves (r : N) (cur : option bytes) (l : list pop) : list bytes :=
  match l with
  | [] => []
  | PDiscover r' i b :: t => saves r (if (r' =? r) && acceptable i then Some b else cur) t
  | PBackup :: t => match cur with Some b => b :: saves r None t | None => saves r None t end
  | _ :: t => saves r cur t
  end.
(** What they do contain. *)
Definition saved (r : N) (outs : list pout) : list bytes :=
  flat_map (fun o => match o with
    | PBackedUp l => flat_map (fun x => match x with (r', Some b, _) => if r' =? r then [b] else [] | _ => [] end) l
    | _ => [] end) outs.

(** When a dial to a router last failed and succeeded, according to a run. *)
Fixpoint last_dial_failure (r : N) (cur : option N) (l : list pop) : option N :=
  match l with
  | [] => cur
  | PEvent r' (EDialFailed t) :: rest => last_dial_failure r (if r' =? r then Some t else cur) rest
  | _ :: rest => last_dial_failure r cur rest
  end.
