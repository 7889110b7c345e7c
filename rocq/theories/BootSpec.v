(** * What starting, reseeding and saving may do to the disk *)
From Coq Require Import String.
From Coq Require Import List NArith Bool Arith.
From Verif Require Import Bytes ReseedModel ReseedSpec SamModel BootModel.
Import ListNotations.
Open Scope N_scope.

(** The name occurs in the string. *)
Definition occurs (pat s : str) : Prop := exists a b, s = a ++ pat ++ b.

(** A time rounded down to whole seconds. *)
Definition whole (t t' : N) : Prop :=
  exists s, t' = s * 1000000000 /\ t' <= t /\ t < t' + 1000000000.
Definition whole_opt (t t' : option N) : Prop :=
  match t, t' with Some a, Some b => whole a b | None, None => True | _, _ => False end.

(** The same profile up to parts of a second. *)
Definition same_profile (p p' : prof) : Prop :=
  whole (p_activity p) (p_activity p') /\ whole_opt (p_declined p) (p_declined p') /\
  whole_opt (p_dial_failure p) (p_dial_failure p') /\
  p_accepted p' = p_accepted p /\ p_connection p' = p_connection p /\
  p_dial_failures p' = p_dial_failures p /\ p_lookup_failures p' = p_lookup_failures p /\
  p_lookup_no_responses p' = p_lookup_no_responses p /\
  p_lookup_successes p' = p_lookup_successes p /\ p_rejected p' = p_rejected p /\
  p_selected p' = p_selected p /\ p_test_failures p' = p_test_failures p /\
  p_test_successes p' = p_test_successes p /\ p_unanswered p' = p_unanswered p.

(** Fresh keys have the lengths they have. *)
Definition keys_ok (k : keys) : Prop :=
  length (k_static k) = 32%nat /\ length (k_signing k) = 32%nat /\
  length (k_ntcp2 k) = 48%nat /\ length (k_ssu2 k) = 64%nat.

(** ** The files of an installation *)
Definition F_STATIC := lit "static.key".
Definition F_SIGNING := lit "signing.key".
Definition F_NTCP2 := lit "ntcp2.keys".
Definition F_SSU2 := lit "ssu2.keys".
Definition F_TOML := lit "router.toml".
Definition F_INFO := lit "router.info".
Definition own_files : list str := [F_STATIC; F_SIGNING; F_NTCP2; F_SSU2; F_TOML; F_INFO].

(** Where there should be a directory is no file, and where there should be a file is no
    directory. *)
Definition sane (base : path) (d : fs) : Prop :=
  (forall c, fget base d <> Some (File c)) /\ forall n, In n own_files -> fget (base ++ [n]) d <> Some Dir.

(** There is nothing yet. *)
Definition nothing (base : path) (d : fs) : Prop := forall r, fget (base ++ r) d = None.

(** The directory is there, and router.toml with this text. *)
Definition configured (base : path) (t : list N) (d : fs) : Prop :=
  fget base d = Some Dir /\ fget (base ++ [F_TOML]) d = Some (File t).

(** A router's name: not empty, no slash, no dot; and where its two files are. *)
Definition proper (id : str) : Prop := id <> [] /\ ~ In 47 id /\ ~ In 46 id.
Definition PROFILE := lit "profile-".
Definition TOML := lit ".toml".
Definition ifile (id : str) : list str := [lit "netDb"; [114; hd 0 id]; lit "routerInfo-" ++ id ++ lit ".dat"].
Definition pfile (id : str) : list str := [lit "peerProfiles"; [112; hd 0 id]; PROFILE ++ id ++ TOML].

(** The routers can be stored: their names begin with a letter of base64. *)
Definition routers_ok (l : list (str * option (list N) * prof)) : Prop :=
  forall id i p, In (id, i, p) l -> proper id /\ In (hd 0 id) LETTERS.

(** The base path has nothing in it that looks like the name of a profile. *)
Definition clean_base (base : path) : Prop := forall x, In x base -> ~ occurs PROFILE x /\ ~ occurs TOML x.

Section Life.
Context {cfg args : Type} (deflt : cfg) (deflt_toml : list N) (parse_toml : list N -> toml cfg)
        (tunnels_ok : cfg -> bool) (merge : cfg -> args -> cfg) (overwrite : args -> bool).
Context (ser : fprof -> list N) (gunzip : list N -> option (list N)).
Context (base : path).

(** What happens to an installation, one after another; [stop] says where the machine
    stopped, if it did: emissary is started with these random keys and arguments; the
    routers of a reseed file are stored; routers and profiles are saved; the router's own
    info is written (main.rs:200). *)
Inductive event :=
| Start (fresh : keys) (a : args) (stop : option (nat * nat))
| Reseeded (l : list rinfo) (stop : option (nat * nat))
| Saved (l : list (str * option (list N) * prof)) (stop : option (nat * nat))
| OwnInfo (c : list N) (stop : option (nat * nat)).

(** The disk afterwards, and the keys and configuration if a start was successful. *)
Definition happen (d : fs) (e : event) : fs * option (keys * cfg) :=
  match e with
  | Start fresh a stop =>
      let (acts, r) := boot deflt deflt_toml parse_toml tunnels_ok merge overwrite base fresh a d in
      (do_acts base d (halfway acts stop), match stop with None => r | Some _ => None end)
  | Reseeded l stop => (do_acts base d (halfway (reseed_acts l) stop), None)
  | Saved l stop => (do_acts base d (halfway (save_acts ser gunzip l) stop), None)
  | OwnInfo c stop => (do_acts base d (halfway [AWrite (lit "router.info") c] stop), None)
  end.

Fixpoint life (d : fs) (es : list event) : fs * list (option (keys * cfg)) :=
  match es with
  | [] => (d, [])
  | e :: t =>
      let (d1, r) := happen d e in
      let (d2, rs) := life d1 t in
      (d2, r :: rs)
  end.

(** Keys are drawn with their lengths; the names in reseed files are harmless, as
    [C125_routers] has it; routers' names have no slash (they are base64 of I2P's
    alphabet). *)
Definition event_ok (e : event) : Prop :=
  match e with
  | Start fresh _ _ => keys_ok fresh
  | Reseeded l _ => forall x, In x l -> harmless (fst x)
  | Saved l _ => forall id i p, In (id, i, p) l -> ~ In 47 id
  | OwnInfo _ _ => True
  end.

(** Routers' names have no dot either. *)
Definition proper_event (e : event) : Prop :=
  event_ok e /\ match e with Saved l _ => forall id i p, In (id, i, p) l -> proper id | _ => True end.
End Life.
