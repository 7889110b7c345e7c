(** What a hosts file says, in words of the file alone. *)
From Coq Require Import List NArith Bool.
Import ListNotations.
Open Scope N_scope.

Section Spec.
Variable ws : N -> bool.

(** [t] is [s] without the white space around it. *)
Definition trimmed (s t : list N) : Prop :=
  exists a b, s = a ++ t ++ b /\ Forall (fun c => ws c = true) a /\ Forall (fun c => ws c = true) b
    /\ (forall c r, t = c :: r -> ws c = false) /\ (forall c r, t = r ++ [c] -> ws c = false).

(** [t] is the part of [s] before the first "#!", or all of [s]. *)
Definition uncommented (s t : list N) : Prop :=
  (forall a b, t <> a ++ [35; 33] ++ b) /\ (t = s \/ exists r, s = t ++ [35; 33] ++ r).

(** A line gives the name [h] the address [v]. *)
Definition gives (l h v : list N) : Prop :=
  exists k w u, l = k ++ [61] ++ w /\ ~ In 61 k /\ trimmed k h /\ uncommented w u /\ trimmed u v.

(** The first of these lines that gives [h] an address gives it [v]. *)
Definition first_gives (ls : list (list N)) (h v : list N) : Prop :=
  exists a l b, ls = a ++ l :: b /\ gives l h v /\ (forall x u, In x a -> ~ gives x h u).

(** A line of the book kept on disk says that [h] has the address [v].  What stands behind the
    equals sign is the address, whatever it is. *)
Definition says (l h v : list N) : Prop :=
  exists k w, l = k ++ [61] ++ w /\ ~ In 61 k /\ trimmed k h /\ trimmed w v.

(** [f] is made of these lines: each ends with a line feed, or a carriage return and a line feed,
    but the last may end with the text. *)
Inductive made_of : list N -> list (list N) -> Prop :=
| MNil : made_of [] []
| MLast l : l <> [] -> ~ In 10 l -> made_of l [l]
| MLf l f ls : ~ In 10 l -> (forall r, l <> r ++ [13]) -> made_of f ls -> made_of (l ++ [10] ++ f) (l :: ls)
| MCrLf l f ls : ~ In 10 l -> made_of f ls -> made_of (l ++ [13; 10] ++ f) (l :: ls).

(** What comes of the requests for a subscription: five failures, or an answer before that. *)
Definition tried (bl : list (option (list N))) : Prop :=
  bl = repeat None 5 \/ exists n h, (n < 5)%nat /\ bl = repeat None n ++ [Some h].

(** These are the results of all requests there are: the main hosts file is asked for until it is
    there, then each of the [num] subscriptions in turn. *)
Definition asked_all (num : nat) (l : list (option (list N))) : Prop :=
  exists m h blocks, l = repeat None m ++ [Some h] ++ concat blocks /\ length blocks = num /\ Forall tried blocks.

(** The hosts files among results. *)
Definition somes (l : list (option (list N))) : list (list N) :=
  flat_map (fun x => match x with Some h => [h] | None => [] end) l.
End Spec.
