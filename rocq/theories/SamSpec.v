(** What the SAM properties talk about: how a client writes commands. *)
From Coq Require Import Ascii String.
From Coq Require Import List NArith Bool.
From Verif Require Import Bytes PrimModel PrimSpec EncModel I2cpModel I2cpSpec SamModel.
Import ListNotations.
Local Open Scope list_scope.
Open Scope N_scope.

(** Key names: a letter or underscore, then letters, digits, underscores and dots. *)
Definition letter (b : N) : Prop := 65 <= b <= 90 \/ 97 <= b <= 122.
Definition digit (b : N) : Prop := 48 <= b <= 57.
Definition key_ok (k : list N) : Prop :=
  exists b t, k = b :: t /\ (letter b \/ b = 95) /\
    Forall (fun x => letter x \/ digit x \/ x = 95 \/ x = 46) t.

(** A value is written bare (visible ASCII, not starting with a quote) or between quotes (not
    empty, without quotes and backslashes). *)
Inductive form : Type := Bare | Quoted.
Definition value_ok (f : form) (v : list N) : Prop :=
  match f with
  | Bare => v <> [] /\ hd 0 v <> 34 /\ Forall (fun b => 33 <= b <= 126) v
  | Quoted => v <> [] /\ Forall (fun b => b <> 34 /\ b <> 92) v
  end.
Definition write_value (f : form) (v : list N) : list N :=
  match f with Bare => v | Quoted => [34] ++ v ++ [34] end.

(** An argument: separator, key, form, value. *)
Record arg : Type := mkArg { a_sep : list N; a_key : list N; a_form : form; a_value : list N }.
Definition arg_ok (a : arg) : Prop :=
  a_sep a <> [] /\ Forall (fun b => b = 32 \/ b = 9) (a_sep a) /\
  key_ok (a_key a) /\ value_ok (a_form a) (a_value a).
Definition write_arg (a : arg) : list N :=
  a_sep a ++ a_key a ++ [61] ++ write_value (a_form a) (a_value a).
(** The pairs a list of arguments stands for. *)
Definition pairs (args : list arg) : list (list N * list N) :=
  map (fun a => (a_key a, a_value a)) args.

(** A command line, without its newline. *)
Definition line (cmd sub : string) (args : list arg) : list N :=
  lit cmd ++ [32] ++ lit sub ++ flat_map write_arg args.

(** The last value given for a key. *)
Definition last_given (k : list N) (args : list arg) : option (list N) :=
  option_map snd (find (fun kv => beq k (fst kv)) (rev (pairs args))).
Definition given (k : string) (args : list arg) : option (list N) := last_given (lit k) args.

(** [m] holds exactly the last value given for each key. *)
Definition holds (m : list (list N * list N)) (args : list arg) : Prop :=
  forall k, mget k m = last_given k args.

(** ** Lines on a socket *)
Definition line_ok (l : list N) : Prop :=
  ~ In 10 l /\ utf8_ok l = true /\ N.of_nat (length l) < 4096.
Definition deliver (e : ext) (l : list N) : list sam_command :=
  match sam_parse e l with Some c => [c] | None => [] end.
Definition with_newline (l : list N) : list N := l ++ [10].

(** ** Handshake *)
Fixpoint conn_run (gen : list N) (s : conn_state) (evs : list conn_event)
  : conn_state * list (list N) :=
  match evs with
  | [] => (s, [])
  | ev :: t =>
      let '(s', out) := conn_step gen s ev in
      let '(s'', out') := conn_run gen s' t in (s'', out ++ out')
  end.

(** The commands that ask for a connection, and what they ask for. *)
Definition asks (c : sam_command) : option conn_kind :=
  match c with
  | CCreate id k d o => Some (KSession id k d o)
  | CConnect id h o => Some (KStream id h o)
  | CAccept id o => Some (KAccept id o)
  | CForward id p o => Some (KForward id p o)
  | _ => None
  end.
(** Utility commands and their replies. *)
Definition utility_reply (gen : list N) (c : sam_command) : option (list N) :=
  match c with
  | CLookup n => Some (lit "NAMING REPLY RESULT=KEY_NOT_FOUND NAME=" ++ n ++ [10])
  | CGenerate => Some gen
  | _ => None
  end.
Definition version_number (v : sam_version) : N :=
  match v with V31 => 31 | V32 => 32 | V33 => 33 end.
