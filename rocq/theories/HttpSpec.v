(** What an HTTP request is, on the wire, and what is assumed of the HTTP parser. *)
From Coq Require Import Ascii String.
From Coq Require Import List NArith PeanoNat Bool.
From Verif Require Import Bytes SamModel HttpModel.
Import ListNotations.
Local Open Scope list_scope.
Open Scope N_scope.

(** No carriage return and no line feed. *)
Definition one_line (b : list N) : Prop := ~ In 13 b /\ ~ In 10 b.
(** A header name: not empty, on one line, without a colon. *)
Definition token (b : list N) : Prop := b <> [] /\ one_line b /\ ~ In 58 b.

(** [b] is a request: a request line, header lines, an empty line and a body. *)
Inductive header_lines : list N -> list (list N * list N) -> list N -> Prop :=
| HEnd body : header_lines ([13; 10] ++ body) [] body
| HLine n v rest hs body : token n -> one_line v -> header_lines rest hs body ->
    header_lines (n ++ [58; 32] ++ v ++ [13; 10] ++ rest) ((n, v) :: hs) body.
Definition is_request (b line : list N) (hs : list (list N * list N)) (body : list N) : Prop :=
  exists rest, b = line ++ [13; 10] ++ rest /\ one_line line /\ header_lines rest hs body.

(** The parser decides on a prefix once and for all, and its names and values are names and values;
    a path has no white space.  (The same goes for what the URL parser makes of a path.) *)
Record httparse_laws (parse : list N -> presult) : Prop := {
  hp_stays : forall b h n c, parse b = PComplete h n -> (n <= length b)%nat /\ parse (b ++ c) = PComplete h n;
  hp_error : forall b c, parse b = PErr -> parse (b ++ c) = PErr;
  hp_headers : forall b h n, parse b = PComplete h n -> Forall (fun hd => token (fst hd) /\ one_line (snd hd)) (h_headers h);
  hp_path : forall b h n p, parse b = PComplete h n -> h_path h = Some p -> one_line p }.
Definition url_laws (url_parse : list N -> option url) : Prop :=
  forall p u, url_parse p = Some u -> one_line p -> one_line (u_path u) /\ (forall q, u_query u = Some q -> one_line q).

(** Two names are the same up to case. *)
(** A letter in lower case.  [lower_byte] below is this function: C118_any_case. *)
Definition lowered (c : N) : N :=
  match find (fun p => fst p =? c) (combine (lit "ABCDEFGHIJKLMNOPQRSTUVWXYZ") (lit "abcdefghijklmnopqrstuvwxyz")) with
  | Some p => snd p
  | None => c
  end.
Definition same_name (n : list N) (s : string) : Prop := map lower_byte n = lit s.
Definition prefixed (n : list N) (s : string) : Prop := exists r, map lower_byte n = lit s ++ r.

(** Headers that say something about the browser or its user. *)
Definition telling (n : list N) : Prop :=
  prefixed n "x-requested-with" \/ prefixed n "via" \/ prefixed n "from" \/ prefixed n "forwarded" \/ prefixed n "dnt"
  \/ prefixed n "x-forwarded" \/ prefixed n "proxy-" \/ (prefixed n "accept" /\ ~ same_name n "accept-encoding").

(** The bytes a browser sends, as far as they are data. *)
Definition sent (rs : list rd) : list N := flat_map (fun r => match r with RData b => b | _ => [] end) rs.
(** Only data, and never an empty read. *)
Definition only_data (rs : list rd) : Prop := Forall (fun r => exists x b, r = RData (x :: b)) rs.
