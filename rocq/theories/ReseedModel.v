(** * Reseeding: SU3 files and asking the reseed servers *)
From Coq Require Import List NArith Bool Arith.
From Verif Require Import Bytes.
Import ListNotations.
Open Scope N_scope.

(** SU3_MAGIC (emissary-util/src/su3.rs:33): "I2Psu3" *)
Definition MAGIC : list N := [73; 50; 80; 115; 117; 51].

(** nom's [take] with a count of up to 64 bits *)
Definition takeN (n : N) : parser (list N) := fun i =>
  if N.of_nat (length i) <? n then None else take (N.to_nat n) i.

(** SignatureKind::try_from (su3.rs:67-82) *)
Definition sig_kind_ok (k : N) : bool := (k <=? 6) || (k =? 8).
(** FileKind::try_from (su3.rs:100-111) *)
Definition file_kind_ok (k : N) : bool := k <=? 6.
(** ContentKind::try_from (su3.rs:128-139) *)
Definition content_kind_ok (k : N) : bool := k <=? 5.

(** Su3 (su3.rs:144-168); kinds are the numbers they are written as *)
Record su3 := mkSu3 {
  s_content : list N; s_content_kind : N; s_file_kind : N; s_message : list N;
  s_signature : list N; s_signature_kind : N; s_signer : list N; s_version : list N }.

(** Su3::parse_inner (su3.rs:172-222).  The assertion on the length of the version
    (su3.rs:184) is in debug builds only and is left out.  [input] is the whole input: the
    signed message is cut from it (su3.rs:206). *)
Definition parse_inner (input : list N) : option (su3 * list N) :=
  (tag <- take 6 ;;
   _ <- guard (beq tag MAGIC) ;;
   _ <- be_uint 1 ;;
   _ <- be_uint 1 ;;
   sk <- be_uint 2 ;;
   _ <- guard (sig_kind_ok sk) ;;
   slen <- be_uint 2 ;;
   _ <- be_uint 1 ;;
   vlen <- be_uint 1 ;;
   _ <- be_uint 1 ;;
   ilen <- be_uint 1 ;;
   clen <- be_uint 8 ;;
   _ <- be_uint 1 ;;
   fk <- be_uint 1 ;;
   _ <- guard (file_kind_ok fk) ;;
   _ <- be_uint 1 ;;
   ck <- be_uint 1 ;;
   _ <- guard (content_kind_ok ck) ;;
   _ <- take 12 ;;
   version <- takeN vlen ;;
   signer <- takeN ilen ;;
   content <- takeN clen ;;
   (fun rest =>
      (signature <- takeN slen ;;
       ret (mkSu3 content ck fk (firstn (length rest) input) signature sk signer version)) rest)) input.

(** ** What is in the archive *)

(** Strings are lists of characters. *)
Definition str := list N.

(** What the zip crate gives for one entry: its name, whether it is a plain file, and its
    data unless reading it fails. *)
Record zentry := mkZ { z_name : str; z_file : bool; z_data : option (list N) }.

(** Path::components on a relative path, as far as depth goes: pieces between slashes *)
Fixpoint pieces (s : str) : list str :=
  match s with
  | [] => [[]]
  | c :: t =>
      if c =? 47 then [] :: pieces t
      else match pieces t with [] => [[c]] | p :: ps => (c :: p) :: ps end
  end.

(** The loop of ZipFile::enclosed_name (zip 2.5.0, types.rs): empty pieces and "." do not
    count, ".." goes up and must not go above the start, any other goes down *)
Fixpoint stays (depth : nat) (ps : list str) : bool :=
  match ps with
  | [] => true
  | p :: t =>
      if beq p [] || beq p [46] then stays depth t
      else if beq p [46; 46] then match depth with O => false | S d => stays d t end
      else stays (S depth) t
  end.

(** ZipFile::enclosed_name: no NUL, not absolute, never above the start *)
Definition enclosed_name (s : str) : option str :=
  if existsb (N.eqb 0) s then None
  else if match s with [] => false | c :: _ => c =? 47 end then None
  else if stays 0 (pieces s) then Some s else None.

(** ReseedRouterInfo (su3.rs:40-47) *)
Definition rinfo := (str * list N)%type.

(** The closure of su3.rs:277-296 *)
Definition read_entry (z : zentry) : option rinfo :=
  match enclosed_name (z_name z) with
  | None => None
  | Some name =>
      if z_file z then match z_data z with None => None | Some d => Some (name, d) end
      else None
  end.

Inductive outcome := Crash | Bad | Good (l : list rinfo).

(** The loop over the archive; an entry the zip crate cannot open ([None]) panics
    (su3.rs:278). *)
Fixpoint read_entries (l : list (option zentry)) : option (list rinfo) :=
  match l with
  | [] => Some []
  | None :: _ => None
  | Some z :: t =>
      match read_entries t with
      | None => None
      | Some r => Some (match read_entry z with None => r | Some x => x :: r end)
      end
  end.

Section Reseed.
(** The zip crate's reading of an archive; [None]: not an archive *)
Context (unzip : list N -> option (list (option zentry))).
(** The known keys and the check of a signature: [None]: no key for this signer or the
    signature is not one *)
Context (check : list N -> list N -> list N -> option bool).

(** Su3::parse_reseed (su3.rs:225-303).  The first component says whether a failed check
    was logged.  The temporary directory is taken to work. *)
Definition parse_reseed (input : list N) (verify : bool) : bool * outcome :=
  match parse_inner input with
  | None => (false, Bad)
  | Some (s, _) =>
      let warned :=
        verify && match check (s_signer s) (s_message s) (s_signature s) with
                  | Some true => false
                  | _ => true
                  end in
      (warned,
       if (s_file_kind s =? 0) && (s_content_kind s =? 3) then
         match unzip (s_content s) with
         | None => Bad
         | Some l => match read_entries l with None => Crash | Some r => Good r end
         end
       else Bad)
  end.

(** What a reseed server does when it is asked (reseeder.rs:77-117) *)
Inductive reply := NoReply | BadStatus | NoBody | Body (b : list N).

Definition take_reply (r : reply) : outcome :=
  match r with
  | NoReply | BadStatus | NoBody => Bad
  | Body b => snd (parse_reseed b false)
  end.

Inductive result := Asking | Crashed | Failed | Reseeded (l : list rinfo).

(** NUM_RETRIES (reseeder.rs:34) *)
Definition NUM_RETRIES : nat := 5.

(** The loops of reseed_inner (reseeder.rs:68-120) for the random numbers [picks]; gives
    the servers asked so far, in order.  [Asking]: the numbers ran out. *)
Fixpoint ask (answer : nat -> reply) (picks : list nat) (tries : nat) (tried : list nat)
  : list nat * result :=
  match tries with
  | O => (tried, Failed)
  | S k =>
      match picks with
      | [] => (tried, Asking)
      | p :: t =>
          if existsb (Nat.eqb p) tried then ask answer t tries tried
          else match take_reply (answer p) with
               | Good l => (tried ++ [p], Reseeded l)
               | Crash => (tried ++ [p], Crashed)
               | Bad => ask answer t k (tried ++ [p])
               end
      end
  end.

(** Reseeder::reseed_inner over [n] hosts: drawing a number below zero panics. *)
Definition reseed (n : nat) (answer : nat -> reply) (picks : list nat) : list nat * result :=
  match n with
  | O => ([], Crashed)
  | S _ => ask answer picks NUM_RETRIES []
  end.
End Reseed.

(** main's decision to reseed (emissary-cli/src/main.rs:106-111): [threshold] is [None] if
    reseeding is not configured *)
Definition should_reseed (threshold : option nat) (force : option bool) (known : nat) : bool :=
  match threshold with None => false | Some t => Nat.ltb known t end
  || match force with Some true => true | _ => false end.
