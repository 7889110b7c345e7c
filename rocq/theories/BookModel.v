(** The address book of the command-line router: downloading hosts files, merging them into one
    file on disk, and resolving host names from that file.

    Models /repo/emissary-cli/src/address_book.rs.  A text is a list of Unicode code points; which
    of them count as white space ([char::is_whitespace], used by [str::trim]) is the parameter
    [ws].  Not modelled: the HTTP client and its proxy, the time between attempts
    (RETRY_BACKOFF, 39-40), the wait for the proxy to come up (205-211), logging, and file names. *)
From Coq Require Import List NArith Bool.
From Verif Require Import Bytes.
Import ListNotations.
Open Scope N_scope.

Notation text := (list N) (only parsing).

Section Book.
(** [char::is_whitespace] *)
Variable ws : N -> bool.

(** ** Rust's string functions *)
(** One line, from its characters in reverse, without the carriage return before its line feed
    ([str::lines], and [next_line] of tokio's [Lines]). *)
Definition end_line (acc : text) : text :=
  match acc with 13 :: a => rev a | _ => rev acc end.

(** [str::lines] (address_book.rs:143) and tokio's [Lines::next_line] (address_book.rs:279-281). *)
Fixpoint lines_from (acc : text) (t : text) : list text :=
  match t with
  | [] => match acc with [] => [] | _ => [rev acc] end
  | c :: r => if c =? 10 then end_line acc :: lines_from [] r else lines_from (c :: acc) r
  end.
Definition lines (t : text) : list text := lines_from [] t.

(** [str::split_once] with ['='] (address_book.rs:144, 282). *)
Fixpoint split_once (t : text) : option (text * text) :=
  match t with
  | [] => None
  | c :: r =>
    if c =? 61 then Some ([], r)
    else match split_once r with Some (k, v) => Some (c :: k, v) | None => None end
  end.

(** [str::trim] (address_book.rs:145, 155-156, 283-284). *)
Fixpoint trim_start (t : text) : text :=
  match t with
  | [] => []
  | c :: r => if ws c then trim_start r else t
  end.
Definition trim (t : text) : text := rev (trim_start (rev (trim_start t))).

(** The part of a value before "#!" (address_book.rs:154-157: [find] and the slice up to it). *)
Fixpoint before_comment (t : text) : text :=
  match t with
  | [] => []
  | c :: r => if (c =? 35) && match r with d :: _ => d =? 33 | [] => false end then [] else c :: before_comment r
  end.

(** ** The book *)
(** [HashMap::contains_key] and [insert] of a key not in the map (address_book.rs:147, 159); the map
    is a list in the order of insertion, its iteration order is the parameter [ord] below. *)
Definition has (k : text) (m : list (text * text)) : bool := existsb (fun kv => beq k (fst kv)) m.

(** One line of a hosts file (address_book.rs:143-162). *)
Definition merge_line (m : list (text * text)) (l : text) : list (text * text) :=
  match split_once l with
  | None => m
  | Some (k, v) =>
    let key := trim k in
    if has key m then m else m ++ [(key, trim (before_comment v))]
  end.
Definition merge (m : list (text * text)) (hosts : text) : list (text * text) :=
  fold_left merge_line (lines hosts) m.

(** What is written to the file for the entries in this order (address_book.rs:171-174). *)
Definition serialize (m : list (text * text)) : text :=
  flat_map (fun kv => fst kv ++ [61] ++ snd kv ++ [10]) m.

(** [AddressBookHandle::resolve] on the contents of the file, [None] if it cannot be opened
    (address_book.rs:274-291). *)
Fixpoint resolve_lines (ls : list text) (host : text) : option text :=
  match ls with
  | [] => None
  | l :: r =>
    match split_once l with
    | Some (k, v) => if beq (trim k) host then Some (trim v) else resolve_lines r host
    | None => resolve_lines r host
    end
  end.
Definition resolve (file : option text) (host : text) : option text :=
  match file with
  | None => None
  | Some t => resolve_lines (lines t) host
  end.

(** ** The manager *)
(** Order in which the map is iterated, any permutation of it. *)
Variable ord : list (text * text) -> list (text * text).

(** SUBSCRIPTION_NUM_RETRIES (address_book.rs:42-43) *)
Definition NUM_RETRIES : nat := 5.

(** What the manager is doing: asking for the main hosts file (address_book.rs:230-244), asking for
    the subscription with this number for the [n+1]-th time (246-262), or done. *)
Inductive asking := Main | Sub (i n : nat) | Done.

Record book := mkBook { b_map : list (text * text); b_file : option text; b_ask : asking }.

(** At the start the map is empty and the file is what it was before (address_book.rs:228). *)
Definition start (file : option text) : book := mkBook [] file Main.

(** [num] is how many subscriptions there are (address_book.rs:54). *)
Variable num : nat.
Definition next_sub (i : nat) : asking := if Nat.ltb i num then Sub i 0 else Done.

(** [parse_and_merge] (address_book.rs:142-185).  [created] tells whether the file can be opened;
    [None] for [cut] is a write that goes through, [Some k] one that ends after [k] characters
    because of an error or a crash.  Simplified: a write ends between characters. *)
Definition save (m : list (text * text)) (file : option text) (created : bool) (cut : option nat) : option text :=
  if created then
    match cut with
    | None => Some (serialize (ord m))
    | Some k => Some (firstn k (serialize (ord m)))
    end
  else file.

(** One attempt to download, what it gives, and how the file fares (address_book.rs:230-262). *)
Record attempt := mkAttempt { a_got : option text; a_created : bool; a_cut : option nat }.

Definition bstep (b : book) (a : attempt) : book :=
  match b_ask b with
  | Done => b
  | Main =>
    match a_got a with
    | None => b
    | Some h =>
      let m := merge (b_map b) h in
      mkBook m (save m (b_file b) (a_created a) (a_cut a)) (next_sub 0)
    end
  | Sub i n =>
    match a_got a with
    | None => mkBook (b_map b) (b_file b) (if Nat.ltb (S n) NUM_RETRIES then Sub i (S n) else next_sub (S i))
    | Some h =>
      let m := merge (b_map b) h in
      mkBook m (save m (b_file b) (a_created a) (a_cut a)) (next_sub (S i))
    end
  end.
Definition brun (b : book) (l : list attempt) : book := fold_left bstep l b.
End Book.
