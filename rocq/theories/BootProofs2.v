(** * Proofs about the life of an installation *)
From Coq Require Import String.
From Coq Require Import List NArith Bool Arith Lia.
From Verif Require Import Bytes ReseedModel ReseedSpec ReseedProofs SamModel BootModel BootSpec BootProofs.
Import ListNotations.
Open Scope N_scope.

(** ** What is stored where *)
Lemma reseed_names : forall l a, In a (reseed_acts l) ->
  exists c id x, In x l /\ fst x = lit "routerInfo-" ++ id /\ a = AWrite (info_name c id) (snd x) /\ hd 0 id = c /\ id <> [].
Proof.
  intros l a H. apply in_flat_map in H as (x & I & H). destruct (strip (lit "routerInfo-") (fst x)) as [id|] eqn:E; [|destruct H].
  apply strip_some in E. destruct id as [|c id]; [destruct H|]. destruct H as [<-|[]]. exists c, (c :: id), x.
  split; [exact I|]. split; [exact E|]. split; [reflexivity|]. split; [reflexivity|discriminate].
Qed.

Section Saving.
Context (ser : fprof -> list N) (gunzip : list N -> option (list N)).

Lemma save_names : forall l a, In a (save_acts ser gunzip l) ->
  exists c id i p, In (id, i, p) l /\ hd 0 id = c /\ id <> [] /\
    ((exists x, a = AWrite (info_name c id) x) \/
     a = AWriteIf (lit "netDb/r" ++ [c] ++ lit "/routerInfo-" ++ id ++ lit ".dat")
           (lit "peerProfiles/p" ++ [c] ++ lit "/profile-" ++ id ++ lit ".toml") (ser (to_file p))).
Proof.
  intros l a H. apply in_flat_map in H as ([[id i] p] & I & H). apply in_app_iff in H as [H|H].
  - destruct i as [z|]; [|destruct H]. destruct (gunzip z) as [x|]; [|destruct H].
    destruct id as [|c id]; [destruct H|]. destruct H as [<-|[]]. exists c, (c :: id), (Some z), p.
    split; [exact I|]. split; [reflexivity|]. split; [discriminate|]. left. exists x. reflexivity.
  - destruct id as [|c id]; [destruct H|]. destruct H as [<-|[]]. exists c, (c :: id), i, p.
    split; [exact I|]. split; [reflexivity|]. split; [discriminate|]. right. reflexivity.
Qed.
End Saving.

(** ** Actions that leave a file of the base directory alone *)
Definition quiet (name : str) (a : act) : Prop :=
  match a with
  | AMkdir q => q <> [name]
  | AWrite n _ => plain n /\ ~ In 47 n /\ n <> name
  | AWriteIf _ _ _ => False
  end.

Lemma app_inj : forall A (x a b : list A), x ++ a = x ++ b -> a = b.
Proof. intros. eapply app_inv_head. eassumption. Qed.

Lemma quiet_acts : forall base name acts stop d, Forall (quiet name) acts ->
  fget (base ++ [name]) (do_acts base d (halfway acts stop)) = fget (base ++ [name]) d.
Proof.
  intros base name acts stop d F. rewrite Forall_forall in F. apply half_other.
  - intros a n d' q I Nm T X. specialize (F a I). destruct a as [|n' c|]; [discriminate| |destruct F].
    injection Nm as <-. destruct F as (P & S & D). apply target_plain in T; [|exact P|exact S]. subst q. apply app_inj in X. congruence.
  - intros q I X. specialize (F _ I). apply app_inj in X. cbn [quiet] in F. congruence.
Qed.

(** Only making a directory makes a directory. *)
Lemma not_dir : forall base acts d p, fget p d <> Some Dir -> (forall q, In (AMkdir q) acts -> p <> base ++ q) ->
  fget p (do_acts base d acts) <> Some Dir.
Proof.
  intros base acts. induction acts as [|a acts IH]; intros d p H M; [exact H|].
  change (do_acts base d (a :: acts)) with (do_acts base (do_act base d a) acts). apply IH; [|intros q I; apply M; right; exact I].
  destruct a as [q|n c|o n c]; cbn [do_act].
  - destruct (fget (base ++ q) d); [exact H|]. rewrite fget_put_other; [exact H|]. apply M. left. reflexivity.
  - rewrite create_target. destruct (target base n d) as [q|]; [|exact H].
    destruct (list_eq_dec (list_eq_dec N.eq_dec) p q) as [->|X]; [rewrite fget_put_same; discriminate|rewrite fget_put_other by exact X; exact H].
  - destruct (exists_at base o d); [|exact H]. rewrite create_target. destruct (target base n d) as [q|]; [|exact H].
    destruct (list_eq_dec (list_eq_dec N.eq_dec) p q) as [->|X]; [rewrite fget_put_same; discriminate|rewrite fget_put_other by exact X; exact H].
Qed.

(** A file written and then left alone. *)
Lemma written : forall base pre name c post d,
  plain name -> ~ In 47 name -> fget base (do_acts base d pre) = Some Dir ->
  fget (base ++ [name]) (do_acts base d pre) <> Some Dir -> Forall (quiet name) post ->
  fget (base ++ [name]) (do_acts base d (pre ++ AWrite name c :: post)) = Some (File c).
Proof.
  intros base pre name c post d P S B Nd Q. rewrite do_acts_app. set (d1 := do_acts base d pre) in *.
  change (do_acts base d1 (AWrite name c :: post)) with (do_acts base (create base name c d1) (halfway post None)).
  rewrite quiet_acts by exact Q. rewrite create_target, target_plain_at by assumption. apply fget_put_same.
Qed.

(** The files of the base directory. *)
Lemma own_plain : forall n, In n own_files -> plain n /\ ~ In 47 n.
Proof.
  intros n H. cbn [own_files In] in H.
  repeat (destruct H as [<-|H]; [split; [split; [discriminate|split; discriminate]|intros X; cbn in X; intuition discriminate]|]). destruct H.
Qed.

Lemma dirs_quiet : forall n, In n own_files -> Forall (quiet n) netdb_dirs /\ Forall (quiet n) profile_dirs.
Proof.
  assert (X : forall top l n, top <> n -> Forall (quiet n) (mkdirs top l)).
  { intros top l n D. unfold mkdirs. constructor; [cbn [quiet]; congruence|]. apply Forall_forall. intros a H.
    apply in_map_iff in H as (c & <- & _). cbn [quiet]. congruence. }
  intros n H. cbn [own_files In] in H.
  repeat (destruct H as [<-|H]; [split; apply X; discriminate|]). destruct H.
Qed.

Section Life.
Context {cfg args : Type} (deflt : cfg) (deflt_toml : list N) (parse_toml : list N -> toml cfg)
        (tunnels_ok : cfg -> bool) (merge : cfg -> args -> cfg) (overwrite : args -> bool).
Context (ser : fprof -> list N) (gunzip : list N -> option (list N)).
Context (base : path).

Notation boot' := (boot deflt deflt_toml parse_toml tunnels_ok merge overwrite base).
Notation happen' := (happen deflt deflt_toml parse_toml tunnels_ok merge overwrite ser gunzip base).
Notation life' := (life deflt deflt_toml parse_toml tunnels_ok merge overwrite ser gunzip base).

(** The base path is a directory or nothing, and its files are no directories. *)
(** All that is made are the two directories and their letters. *)
Definition made (q : path) : Prop :=
  q = [] \/ exists r, q = lit "netDb" :: r \/ q = lit "peerProfiles" :: r.

Lemma dirs_made : forall q, In (AMkdir q) (netdb_dirs ++ profile_dirs) -> made q.
Proof.
  assert (X : forall top l q, In (AMkdir q) (mkdirs top l) -> exists r, q = top :: r).
  { intros top l q [H|H]; [injection H as <-; exists []; reflexivity|]. apply in_map_iff in H as (c & H & _). injection H as <-.
    exists [[l; c]]. reflexivity. }
  intros q H. right. apply in_app_iff in H as [H|H]; apply X in H as (r & ->); exists r; auto.
Qed.

Definition w_of (name : str) (n : nat) (fresh : list N) (d : fs) : list act :=
  match load base name n d with Some _ => [] | None => [AWrite name fresh] end.

Lemma w_in : forall name n fresh d x, In x (w_of name n fresh d) -> x = AWrite name fresh.
Proof. intros name n fresh d x H. unfold w_of in H. destruct (load base name n d); [destruct H|]. destruct H as [<-|[]]. reflexivity. Qed.

(** The actions of a start. *)
Definition dirs_of (d : fs) : list act :=
  match fget (base ++ [lit "netDb"]) d with None => netdb_dirs | _ => [] end ++
  match fget (base ++ [lit "peerProfiles"]) d with None => profile_dirs | _ => [] end.
Definition keys_of (fresh : keys) (d : fs) : list act :=
  w_of F_STATIC 32 (k_static fresh) d ++ w_of F_SIGNING 32 (k_signing fresh) d ++
  w_of F_NTCP2 48 (k_ntcp2 fresh) d ++ w_of F_SSU2 64 (k_ssu2 fresh) d.
Definition pick (name : str) (n : nat) (fresh : list N) (d : fs) : list N :=
  match load base name n d with Some k => k | None => fresh end.
Definition picked (fresh : keys) (d : fs) : keys :=
  mkKeys (pick F_STATIC 32 (k_static fresh) d) (pick F_SIGNING 32 (k_signing fresh) d)
         (pick F_NTCP2 48 (k_ntcp2 fresh) d) (pick F_SSU2 64 (k_ssu2 fresh) d).

Lemma boot_eq : forall fresh a d n, fget base d = Some n ->
  boot' fresh a d =
  match load_toml parse_toml base d with
  | Valid c => (dirs_of d ++ keys_of fresh d ++ [], if tunnels_ok c then Some (picked fresh d, merge c a) else None)
  | Unreadable => (dirs_of d ++ keys_of fresh d ++ [AWrite F_TOML deflt_toml], if tunnels_ok deflt then Some (picked fresh d, merge deflt a) else None)
  | Invalid => if overwrite a then (dirs_of d ++ keys_of fresh d ++ [AWrite F_TOML deflt_toml], if tunnels_ok deflt then Some (picked fresh d, merge deflt a) else None)
               else (dirs_of d ++ keys_of fresh d ++ [], None)
  end.
Proof.
  intros fresh a d n B. unfold boot. rewrite B. unfold dirs_of, keys_of, picked, pick, w_of, load_or, F_STATIC, F_SIGNING, F_NTCP2, F_SSU2, F_TOML.
  destruct (load base (lit "static.key") 32 d), (load base (lit "signing.key") 32 d), (load base (lit "ntcp2.keys") 48 d), (load base (lit "ssu2.keys") 64 d);
    destruct (load_toml parse_toml base d); try destruct (overwrite a);
    rewrite ?app_nil_r; repeat rewrite <- app_assoc; reflexivity.
Qed.

Lemma boot_new : forall fresh a d, fget base d = None ->
  boot' fresh a d = (AMkdir [] :: netdb_dirs ++ profile_dirs ++
       [AWrite F_STATIC (k_static fresh); AWrite F_SIGNING (k_signing fresh);
        AWrite F_NTCP2 (k_ntcp2 fresh); AWrite F_SSU2 (k_ssu2 fresh); AWrite F_TOML deflt_toml], Some (fresh, deflt)).
Proof. intros fresh a d B. unfold boot. rewrite B. reflexivity. Qed.

(** Every action of a start makes one of the directories or writes one of the files. *)
Lemma boot_acts : forall fresh a d x, In x (fst (boot' fresh a d)) ->
  (exists q, x = AMkdir q /\ made q) \/ exists n c, x = AWrite n c /\ In n own_files.
Proof using Type.
  clear ser gunzip.
  intros fresh a d x H.
  assert (Dk : forall l, (forall y, In y l -> In y (netdb_dirs ++ profile_dirs)) -> forall y, In y l -> exists q, y = AMkdir q /\ made q).
  { intros l L y Y. apply L in Y. assert (Z : exists q, y = AMkdir q).
    { apply in_app_iff in Y as [[<-|Y]|[<-|Y]]; try (eexists; reflexivity); apply in_map_iff in Y as (c & <- & _); eexists; reflexivity. }
    destruct Z as (q & ->). exists q. split; [reflexivity|apply dirs_made; exact Y]. }
  assert (Ff : forall n, In n own_files -> forall k, In (AWrite n k) [AWrite n k] ) by (intros; left; reflexivity).
  destruct (fget base d) as [n|] eqn:B.
  - assert (K : In x (dirs_of d) \/ In x (keys_of fresh d) \/ x = AWrite F_TOML deflt_toml).
    { rewrite (boot_eq _ _ _ _ B) in H.
      assert (G : forall w, In x (dirs_of d ++ keys_of fresh d ++ w) -> In x (dirs_of d) \/ In x (keys_of fresh d) \/ In x w).
      { intros w Hw. apply in_app_iff in Hw as [Hw|Hw]; [auto|]. apply in_app_iff in Hw. tauto. }
      destruct (load_toml parse_toml base d); [|destruct (overwrite a)|]; cbn [fst] in H; apply G in H as [H|[H|H]]; auto; cbn [In] in H; tauto || (destruct H as [<-|[]]; auto). }
    destruct K as [K|[K| ->]].
    + left. apply (Dk (dirs_of d)); [|exact K]. intros y Y. unfold dirs_of in Y. apply in_app_iff in Y. apply in_app_iff.
      destruct Y as [Y|Y]; [left|right]; match type of Y with context [fget ?p d] => destruct (fget p d) end; solve [exact Y|destruct (in_nil Y)].
    + right. unfold keys_of in K. repeat rewrite in_app_iff in K.
      destruct K as [K|[K|[K|K]]]; apply w_in in K; subst x; eexists; eexists; (split; [reflexivity|]); cbn; tauto.
    + right. eexists. eexists. split; [reflexivity|]. cbn. tauto.
  - rewrite (boot_new _ _ _ B) in H. cbn [fst In] in H. destruct H as [<-|H]; [left; exists []; split; [reflexivity|left; reflexivity]|].
    rewrite app_assoc in H. apply in_app_iff in H as [H|H].
    + left. apply (Dk (netdb_dirs ++ profile_dirs)); [auto|exact H].
    + right. cbn [In] in H. repeat (destruct H as [<-|H]; [eexists; eexists; split; [reflexivity|]; cbn; tauto|]). destruct H.
Qed.
End Life.
