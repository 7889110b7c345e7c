(** * Starting emissary: keys, configuration, router infos and profiles on disk *)
From Coq Require Import String.
From Coq Require Import List NArith Bool Arith.
From Verif Require Import Bytes ReseedModel SamModel.
Import ListNotations.
Open Scope N_scope.

(** ** The disk *)

(** A path is the list of the names from the root; symbolic links are not modelled. *)
Definition path := list str.
Inductive node := Dir | File (c : list N).
Definition fs := list (path * node).

Definition path_eqb (p q : path) : bool :=
  if list_eq_dec (list_eq_dec N.eq_dec) p q then true else false.

Definition fget (p : path) (d : fs) : option node :=
  match find (fun e => path_eqb p (fst e)) d with None => None | Some (_, n) => Some n end.
Definition fput (p : path) (n : node) (d : fs) : fs :=
  (p, n) :: filter (fun e => negb (path_eqb p (fst e))) d.

(** Where the pieces of a path lead from [cur]: every step is from a directory. *)
Fixpoint walk (d : fs) (cur : path) (ps : list str) : option path :=
  match ps with
  | [] => Some cur
  | p :: t =>
      match fget cur d with
      | Some Dir =>
          if beq p [] || beq p [46] then walk d cur t
          else if beq p [46; 46] then walk d (removelast cur) t
          else walk d (cur ++ [p]) t
      | _ => None
      end
  end.

(** What is done to the disk: a directory is made; a file is made or emptied, and written;
    the same if another file exists.  Names are relative to the base path. *)
Inductive act :=
| AMkdir (q : path)
| AWrite (name : str) (c : list N)
| AWriteIf (other name : str) (c : list N).

(** fs::File::create and write_all, which fail without effect if the directory is not there
    or the name is that of a directory; the disk is taken not to fail otherwise *)
Definition create (base : path) (name : str) (c : list N) (d : fs) : fs :=
  match walk d base (pieces name) with
  | None => d
  | Some q => match fget q d with Some Dir => d | _ => fput q (File c) d end
  end.

(** Path::exists *)
Definition exists_at (base : path) (name : str) (d : fs) : bool :=
  match walk d base (pieces name) with
  | None => false
  | Some q => match fget q d with None => false | Some _ => true end
  end.

Definition do_act (base : path) (d : fs) (a : act) : fs :=
  match a with
  | AMkdir q => match fget (base ++ q) d with None => fput (base ++ q) Dir d | Some _ => d end
  | AWrite name c => create base name c d
  | AWriteIf other name c => if exists_at base other d then create base name c d else d
  end.

(** All of it; or only the first [n], and of the next, if it writes a file, only [k] bytes:
    the machine stopped there *)
Definition halfway (acts : list act) (stop : option (nat * nat)) : list act :=
  match stop with
  | None => acts
  | Some (n, k) =>
      firstn n acts ++
      match nth_error acts n with
      | Some (AWrite name c) => [AWrite name (firstn k c)]
      | Some (AWriteIf o name c) => [AWriteIf o name (firstn k c)]
      | _ => []
      end
  end.

Definition do_acts (base : path) (d : fs) (acts : list act) : fs := fold_left (do_act base) acts d.

(** ** Keys and configuration (emissary-cli/src/config.rs) *)

(** The identity of the router: static key, signing key, NTCP2 key with IV, SSU2 keys *)
Record keys := mkKeys { k_static : list N; k_signing : list N; k_ntcp2 : list N; k_ssu2 : list N }.

(** How reading router.toml ends: not there or not text, not a configuration, or one *)
Inductive toml (cfg : Type) := Unreadable | Invalid | Valid (c : cfg).
Arguments Unreadable {cfg}.
Arguments Invalid {cfg}.
Arguments Valid {cfg} _.

(** The characters of config.rs:648, 662 *)
Definition LETTERS : str :=
  lit "ABCDEFGHIJKLMNOPQRSTUVWXYZabcdefghijklmnopqrstuvwxyz0123456789-~".

(** create_netdb_dir and create_profiles_dir (config.rs:647-673) *)
Definition mkdirs (top : str) (letter : N) : list act :=
  AMkdir [top] :: map (fun c => AMkdir [top; [letter; c]]) LETTERS.
Definition netdb_dirs : list act := mkdirs (lit "netDb") 114.
Definition profile_dirs : list act := mkdirs (lit "peerProfiles") 112.

(** load_key, load_ntcp2_keys, load_ssu2_keys (config.rs:581-619): the first [n] bytes *)
Definition load (base : path) (name : str) (n : nat) (d : fs) : option (list N) :=
  match fget (base ++ [name]) d with
  | Some (File c) => if Nat.leb n (length c) then Some (firstn n c) else None
  | _ => None
  end.

Section Boot.
(** The configuration, the command line, and what the toml crate does; none of the code
    here looks into them.  [deflt] is EmissaryConfig::default, [deflt_toml] its text. *)
Context {cfg args : Type}.
Context (deflt : cfg) (deflt_toml : list N) (parse_toml : list N -> toml cfg).
(** The checks of Config::new (config.rs:772-830) and Config::merge (config.rs:1006-1165) *)
Context (tunnels_ok : cfg -> bool) (merge : cfg -> args -> cfg) (overwrite : args -> bool).

(** The key loaded, or the new one and the file to write it to (config.rs:424-477) *)
Definition load_or (base : path) (name : str) (n : nat) (fresh : list N) (d : fs)
  : list N * list act :=
  match load base name n d with
  | Some k => (k, [])
  | None => (fresh, [AWrite name fresh])
  end.

(** load_router_config (config.rs:621-636) *)
Definition load_toml (base : path) (d : fs) : toml cfg :=
  match fget (base ++ [lit "router.toml"]) d with
  | Some (File c) => parse_toml c
  | _ => Unreadable
  end.

(** Config::parse, Config::new_empty, Config::new (config.rs:387-509, 677-890), for the
    random keys [fresh]: what is done to the disk, and the keys and configuration of the
    router unless an error is returned.  The parent of the base path is taken to exist. *)
Definition boot (base : path) (fresh : keys) (a : args) (d : fs)
  : list act * option (keys * cfg) :=
  match fget base d with
  | None =>
      (AMkdir [] :: netdb_dirs ++ profile_dirs ++
       [AWrite (lit "static.key") (k_static fresh); AWrite (lit "signing.key") (k_signing fresh);
        AWrite (lit "ntcp2.keys") (k_ntcp2 fresh); AWrite (lit "ssu2.keys") (k_ssu2 fresh);
        AWrite (lit "router.toml") deflt_toml],
       Some (fresh, deflt))
  | Some _ =>
      let a1 := match fget (base ++ [lit "netDb"]) d with None => netdb_dirs | _ => [] end in
      let a2 := match fget (base ++ [lit "peerProfiles"]) d with None => profile_dirs | _ => [] end in
      let (k1, w1) := load_or base (lit "static.key") 32 (k_static fresh) d in
      let (k2, w2) := load_or base (lit "signing.key") 32 (k_signing fresh) d in
      let (k3, w3) := load_or base (lit "ntcp2.keys") 48 (k_ntcp2 fresh) d in
      let (k4, w4) := load_or base (lit "ssu2.keys") 64 (k_ssu2 fresh) d in
      let acts := a1 ++ a2 ++ w1 ++ w2 ++ w3 ++ w4 in
      let ks := mkKeys k1 k2 k3 k4 in
      let new_toml := [AWrite (lit "router.toml") deflt_toml] in
      let finish w c := (acts ++ w, if tunnels_ok c then Some (ks, merge c a) else None) in
      match load_toml base d with
      | Valid c => finish [] c
      | Unreadable => finish new_toml deflt
      | Invalid => if overwrite a then finish new_toml deflt else (acts, None)
      end
  end.
End Boot.

(** ** Router infos and profiles (emissary-cli/src/storage.rs) *)

Definition ends_with (pat s : str) : bool :=
  Nat.leb (length pat) (length s) && beq (skipn (length s - length pat) s) pat.

(** The name of a router's file (storage.rs:48-52) *)
Definition info_name (c : N) (id : str) : str :=
  lit "netDb/r" ++ [c] ++ lit "/routerInfo-" ++ id ++
  (if ends_with (lit ".dat") id then [] else lit ".dat").

(** RouterStorage::store_router_info (storage.rs:47-58) *)
Definition store_info (id : str) (info : list N) : list act :=
  match id with [] => [] | c :: _ => [AWrite (info_name c id) info] end.

Fixpoint strip (pat s : str) : option str :=
  match pat, s with
  | [], _ => Some s
  | a :: p, b :: t => if a =? b then strip p t else None
  | _, [] => None
  end.

(** The routers of a reseed file are put on disk (main.rs:130-153) *)
Definition reseed_acts (l : list rinfo) : list act :=
  flat_map (fun x => match strip (lit "routerInfo-") (fst x) with
                     | Some start => store_info start (snd x)
                     | None => []
                     end) l.

(** emissary_core::Profile (profile.rs); durations in nanoseconds *)
Record prof := mkProf {
  p_activity : N; p_declined : option N; p_dial_failure : option N;
  p_accepted : N; p_connection : N; p_dial_failures : N; p_lookup_failures : N;
  p_lookup_no_responses : N; p_lookup_successes : N; p_rejected : N; p_selected : N;
  p_test_failures : N; p_test_successes : N; p_unanswered : N }.

(** Profile of config.rs:39-54, what is in the file; durations in seconds *)
Record fprof := mkFp {
  q_activity : option N; q_declined : option N; q_dial_failure : option N;
  q_accepted : option N; q_connection : option N; q_dial_failures : option N;
  q_lookup_failures : option N; q_lookup_no_responses : option N;
  q_lookup_successes : option N; q_rejected : option N; q_selected : option N;
  q_test_failures : option N; q_test_successes : option N; q_unanswered : option N }.

Definition as_secs (ns : N) : N := ns / 1000000000.
Definition from_secs (s : N) : N := s * 1000000000.

(** Profile::from (config.rs:56-77) *)
Definition to_file (p : prof) : fprof :=
  mkFp (Some (as_secs (p_activity p))) (option_map as_secs (p_declined p))
       (option_map as_secs (p_dial_failure p)) (Some (p_accepted p)) (Some (p_connection p))
       (Some (p_dial_failures p)) (Some (p_lookup_failures p))
       (Some (p_lookup_no_responses p)) (Some (p_lookup_successes p)) (Some (p_rejected p))
       (Some (p_selected p)) (Some (p_test_failures p)) (Some (p_test_successes p))
       (Some (p_unanswered p)).

Definition or0 (o : option N) : N := match o with Some n => n | None => 0 end.

(** config.rs:968-995 *)
Definition of_file (q : fprof) : prof :=
  mkProf (from_secs (or0 (q_activity q))) (option_map from_secs (q_declined q))
         (option_map from_secs (q_dial_failure q)) (or0 (q_accepted q)) (or0 (q_connection q))
         (or0 (q_dial_failures q)) (or0 (q_lookup_failures q))
         (or0 (q_lookup_no_responses q)) (or0 (q_lookup_successes q)) (or0 (q_rejected q))
         (or0 (q_selected q)) (or0 (q_test_failures q)) (or0 (q_test_successes q))
         (or0 (q_unanswered q)).

(** str::find: the first place [pat] occurs *)
Fixpoint find_at (pat s : str) : option nat :=
  match strip pat s with
  | Some _ => Some O
  | None => match s with
            | [] => None
            | _ :: t => match find_at pat t with None => None | Some n => Some (S n) end
            end
  end.

Definition under (base : path) (p : path) : option path :=
  (fix go (b q : path) : option path :=
     match b, q with
     | [], _ => Some q
     | x :: b', y :: q' => if beq x y then go b' q' else None
     | _, [] => None
     end) base p.

(** The files two levels below a directory of the base path (the loops over read_dir in
    config.rs:892-956), in some order *)
Definition files_in (base : path) (top : str) (d : fs) : list (path * list N) :=
  flat_map (fun e =>
    match snd e, under (base ++ [top]) (fst e) with
    | File c, Some [s; f] =>
        match fget (base ++ [top; s]) d with Some Dir => [(fst e, c)] | _ => [] end
    | _, _ => []
    end) d.

(** load_router_infos (config.rs:892-928) *)
Definition load_infos (base : path) (d : fs) : list (list N) :=
  map snd (files_in base (lit "netDb") d).

(** The whole path as a string *)
Fixpoint path_str (p : path) : str :=
  match p with [] => [] | c :: t => 47 :: c ++ path_str t end.

(** Which router a profile is of, read off the path (config.rs:957-964): the slice panics
    if its end is before its start. *)
Inductive named := NoName | Panics | Name (s : str).
Definition name_of (p : path) : named :=
  let input := path_str p in
  match find_at (lit "profile-") input, find_at (lit ".toml") input with
  | Some s, Some e =>
      let s := (s + 8)%nat in
      if Nat.leb s e then Name (firstn (e - s) (skipn s input)) else Panics
  | _, _ => NoName
  end.

Section Profiles.
(** The toml crate on profiles, and flate2 *)
Context (ser : fprof -> list N) (de : list N -> option fprof).
Context (gunzip : list N -> option (list N)).

(** RouterStorage::store_profile (storage.rs:61-87) *)
Definition store_profile (id : str) (p : prof) : list act :=
  match id with
  | [] => []
  | c :: _ =>
      [AWriteIf (lit "netDb/r" ++ [c] ++ lit "/routerInfo-" ++ id ++ lit ".dat")
                (lit "peerProfiles/p" ++ [c] ++ lit "/profile-" ++ id ++ lit ".toml")
                (ser (to_file p))]
  end.

(** save_to_disk (storage.rs:99-135) *)
Definition save_acts (l : list (str * option (list N) * prof)) : list act :=
  flat_map (fun x =>
    let '(id, info, p) := x in
    match info with
    | Some z => match gunzip z with Some i => store_info id i | None => [] end
    | None => []
    end ++ store_profile id p) l.

(** load_router_profiles (config.rs:931-1003); [None]: it panics *)
Fixpoint read_profiles (l : list (path * list N)) : option (list (str * prof)) :=
  match l with
  | [] => Some []
  | (p, c) :: t =>
      match de c with
      | None => read_profiles t
      | Some q =>
          match name_of p, read_profiles t with
          | Panics, _ => None
          | _, None => None
          | NoName, Some r => Some r
          | Name s, Some r => Some ((s, of_file q) :: r)
          end
      end
  end.
Definition load_profiles (base : path) (d : fs) : option (list (str * prof)) :=
  read_profiles (files_in base (lit "peerProfiles") d).
End Profiles.
