(** * C127-C130: what is kept on disk *)
From Coq Require Import String.
From Coq Require Import List NArith Bool Arith Lia.
From Verif Require Import Bytes ReseedModel ReseedSpec ReseedProofs SamModel BootModel BootSpec BootProofs BootProofs2 BootProofs3 BootProofs4 BootProofs5.
Import ListNotations.
Open Scope N_scope.

Section Props.
Context {cfg args : Type} (deflt : cfg) (deflt_toml : list N) (parse_toml : list N -> toml cfg)
        (tunnels_ok : cfg -> bool) (merge : cfg -> args -> cfg) (overwrite : args -> bool).
Context (ser : fprof -> list N) (gunzip : list N -> option (list N)).
Context (base : path).
Notation happen' := (happen deflt deflt_toml parse_toml tunnels_ok merge overwrite ser gunzip base).
Notation life' := (life deflt deflt_toml parse_toml tunnels_ok merge overwrite ser gunzip base).

(** ** C127: routers are stored where they belong *)

(** Whatever happens and wherever it stops, nothing outside the base path changes; storing
    the routers of a reseed file only changes what is in netDb, and saving only what is in
    netDb and peerProfiles. *)
Theorem C127_inside : forall d e p, event_ok e ->
  match e with
  | Reseeded _ _ => forall r, p <> base ++ lit "netDb" :: r
  | Saved _ _ => forall r, p <> base ++ lit "netDb" :: r /\ p <> base ++ lit "peerProfiles" :: r
  | _ => forall r, p <> base ++ r
  end ->
  fget p (fst (happen' d e)) = fget p d.
Proof.
  intros d e p Ok H. rewrite happen_disk. apply half_other.
  - intros a name d' q I Nm T X. subst q.
    destruct (event_target deflt deflt_toml parse_toml tunnels_ok merge overwrite ser gunzip base d e a name d' p Ok I Nm T) as [(n & c & O & E & Ea)|(top & s & r & Ht & E & _)].
    + destruct e as [fresh ar stop|l stop|l stop|x stop]; [exact (H _ E)| | |exact (H _ E)]; cbn [acts_of] in I.
      * apply reseed_names in I as (c' & id & y & Iy & Ey & -> & _). injection Nm as <-. cbn [event_ok] in Ok. specialize (Ok y Iy). rewrite Ey in Ok.
        apply info_below in T as (s & r & Eq & _); [|exact Ok]. exact (H _ Eq).
      * apply save_names in I as (c' & id & i & pr & Ii & _ & _ & [(y & ->)| ->]); injection Nm as <-; specialize (Ok id i pr Ii).
        -- apply info_below in T as (s & r & Eq & _); [|apply routerinfo_harmless; exact Ok]. exact (proj1 (H _) Eq).
        -- apply profile_below in T as (s & r & Eq & _); [|exact Ok]. exact (proj2 (H _) Eq).
    + destruct e as [fresh ar stop|l stop|l stop|x stop]; [exact (H _ E)| | |exact (H _ E)].
      * cbn [acts_of] in I. apply reseed_names in I as (c' & id & y & Iy & Ey & -> & _). injection Nm as <-. cbn [event_ok] in Ok. specialize (Ok y Iy).
        rewrite Ey in Ok. apply info_below in T as (s' & r' & Eq & _); [|exact Ok]. exact (H _ Eq).
      * destruct Ht as [->| ->]; [exact (proj1 (H _) E)|exact (proj2 (H _) E)].
  - intros q I X. destruct e as [fresh ar stop|l stop|l stop|x stop]; [exact (H _ X)| | |exact (H _ X)]; cbn [acts_of] in I.
    + apply reseed_names in I as (? & ? & ? & _ & _ & E & _). discriminate.
    + destruct (save_no_mkdir ser gunzip l q I).
Qed.

(** After a first start that was not interrupted, and whatever happened since, every router
    saved is on disk, in the file named after it, and is among the routers the next start
    loads. *)
Theorem C127_saved : forall d0 fresh a es d1 rs l d2, nothing base d0 -> (forall e, In e (Start fresh a None :: es) -> event_ok e) ->
  life' d0 (Start fresh a None :: es) = (d1, rs) -> d2 = fst (happen' d1 (Saved l None)) ->
  routers_ok l -> NoDup (map (fun x => fst (fst x)) l) ->
  forall id z p x, In (id, Some z, p) l -> gunzip z = Some x ->
  fget (base ++ ifile id) d2 = Some (File x) /\ In x (load_infos base d2).
Proof.
  intros d0 fresh a es d1 rs l d2 N0 Ok L E2 Ro Nd id z p x I G.
  assert (R : ready base d1).
  { cbn [life] in L. pose proof (ready_first deflt deflt_toml parse_toml tunnels_ok merge overwrite ser gunzip base d0 fresh a N0 (Ok _ (or_introl eq_refl))) as R0.
    destruct (happen' d0 (Start fresh a None)) as [d r]. cbn [fst] in R0. destruct (life' d es) as [d' rs'] eqn:L'. apply pair_equal_spec in L as [<- _].
    eapply (life_inv deflt deflt_toml parse_toml tunnels_ok merge overwrite ser gunzip base (ready base) (fun _ => True)); [|exact R0| |exact L']; [|auto].
    intros dd e Rd _. apply ready_step. exact Rd. }
  rewrite happen_disk in E2. cbn [acts_of stop_of halfway] in E2. subst d2.
  destruct (saved_files ser gunzip base l d1 id (Some z) p R Ro Nd I) as [A _]. specialize (A z x eq_refl G). split; [exact A|].
  unfold load_infos. apply in_map_iff. exists (base ++ ifile id, x). split; [reflexivity|]. apply in_files; [exact A|].
  apply acts_dir. destruct R as (_ & R & _). apply (R (lit "netDb") 114); [auto|]. apply (Ro _ _ _ I).
Qed.

(** If the machine stops while the first start makes the directories, the ones that are
    missing are never made: no router whose name begins with ~ is stored ever after. *)
Theorem C127_missing_dir_refuted : forall d0 fresh a es d' rs, nothing base d0 ->
  (forall e, In e es -> event_ok e) ->
  life' d0 (Start fresh a (Some (65%nat, 0%nat)) :: es) = (d', rs) ->
  (forall r, fget (base ++ lit "netDb" :: lit "r~" :: r) d' = None) /\
  (forall id z p x, gunzip z = Some x -> proper id -> hd 0 id = 126 ->
     fget (base ++ ifile id) (fst (happen' d' (Saved [(id, Some z, p)] None))) = None).
Proof.
  intros d0 fresh a es d' rs N0 Ok L. cbn [life] in L.
  pose proof (lost_first deflt deflt_toml parse_toml tunnels_ok merge overwrite ser gunzip base d0 fresh a N0) as L0.
  destruct (happen' d0 (Start fresh a (Some (65%nat, 0%nat)))) as [d r0]. cbn [fst] in L0. destruct (life' d es) as [d1 rs'] eqn:L'. apply pair_equal_spec in L as [<- _].
  assert (L1 : lost base d1).
  { eapply (life_inv deflt deflt_toml parse_toml tunnels_ok merge overwrite ser gunzip base (lost base) event_ok); [|exact L0|exact Ok|exact L'].
    intros dd e. apply lost_step. }
  assert (G : forall dd, lost base dd -> forall r, fget (base ++ lit "netDb" :: lit "r~" :: r) dd = None).
  { intros dd (_ & _ & X) r. specialize (X r). rewrite <- app_assoc in X. exact X. }
  split; [exact (G d1 L1)|]. intros id z p x _ Pr Hd. unfold ifile. rewrite Hd.
  apply (G _ (lost_step deflt deflt_toml parse_toml tunnels_ok merge overwrite ser gunzip base d1 (Saved [(id, Some z, p)] None) L1
    (fun id' i' p' X => match X with or_introl E => eq_ind id (fun y => ~ In 47 y) (proj1 (proj2 Pr)) id' (f_equal (fun t => fst (fst t)) E) | or_intror F => match F with end end))).
Qed.

(** ** C128: profiles are found again *)

(** In the same setting, with a base path that has nothing like a profile's name in it: the
    next start loads the profiles, and among them that of every router saved whose info was
    saved or on disk, the same up to parts of a second. *)
Theorem C128_round : forall de d0 fresh a es d1 rs l d2, nothing base d0 -> clean_base base -> (forall q, de (ser q) = Some q) ->
  (forall e, In e (Start fresh a None :: es) -> proper_event e) ->
  life' d0 (Start fresh a None :: es) = (d1, rs) -> d2 = fst (happen' d1 (Saved l None)) ->
  routers_ok l -> NoDup (map (fun x => fst (fst x)) l) ->
  exists ps, load_profiles de base d2 = Some ps /\
    forall id i p, In (id, i, p) l ->
    (exists z x, i = Some z /\ gunzip z = Some x) \/ fget (base ++ ifile id) d1 <> None ->
    exists p', In (id, p') ps /\ same_profile p p'.
Proof.
  intros de d0 fresh a es d1 rs l d2 N0 C Law Ok L E2 Ro Nd.
  assert (R : ready base d1).
  { cbn [life] in L. pose proof (ready_first deflt deflt_toml parse_toml tunnels_ok merge overwrite ser gunzip base d0 fresh a N0 (proj1 (Ok _ (or_introl eq_refl)))) as R0.
    destruct (happen' d0 (Start fresh a None)) as [d r]. cbn [fst] in R0. destruct (life' d es) as [d' rs'] eqn:L'. apply pair_equal_spec in L as [<- _].
    eapply (life_inv deflt deflt_toml parse_toml tunnels_ok merge overwrite ser gunzip base (ready base) (fun _ => True)); [|exact R0| |exact L']; [|auto].
    intros dd e Rd _. apply ready_step. exact Rd. }
  assert (Nm : named_ok base d2).
  { assert (N1 : named_ok base d1).
    { eapply (life_inv deflt deflt_toml parse_toml tunnels_ok merge overwrite ser gunzip base (named_ok base) proper_event); [| |exact Ok|exact L].
      - intros dd e. apply named_step. exact C.
      - intros q n s f I _ E. exfalso. assert (X : fget q d0 <> None).
        { clear - I. unfold fget. destruct (find (fun e => path_eqb q (fst e)) d0) as [[? ?]|] eqn:Fi; [discriminate|].
          pose proof (find_none _ _ Fi _ I) as Z. cbn [fst] in Z. rewrite path_eqb_refl in Z. discriminate. }
        apply X. rewrite E. apply N0. }
    rewrite E2. apply named_step; [exact C|exact N1|]. split; [|intros id i p I; apply (Ro _ _ _ I)].
    intros id i p I. apply (Ro _ _ _ I). }
  destruct (load_profiles de base d2) as [ps|] eqn:Lp; [|destruct (named_loads base de d2 Nm Lp)]. exists ps. split; [reflexivity|].
  intros id i p I H. exists (of_file (to_file p)). split; [|apply same_again].
  rewrite happen_disk in E2. cbn [acts_of stop_of halfway] in E2. subst d2.
  destruct (saved_files ser gunzip base l d1 id i p R Ro Nd I) as (_ & B & _). specialize (B H).
  destruct (Ro _ _ _ I) as [Pr Il].
  apply (read_in de (files_in base (lit "peerProfiles") (do_acts base d1 (save_acts ser gunzip l))) ps Lp (base ++ pfile id) (ser (to_file p))); [|apply Law|apply name_pfile; assumption].
  apply in_files; [exact B|]. apply acts_dir. destruct R as (_ & R & _). apply (R (lit "peerProfiles") 112); [auto|exact Il].
Qed.

(** The profile of a router whose info is neither saved nor on disk is not stored. *)
Theorem C128_no_info : forall d0 fresh a es d1 rs l d2, nothing base d0 -> (forall e, In e (Start fresh a None :: es) -> event_ok e) ->
  life' d0 (Start fresh a None :: es) = (d1, rs) -> d2 = fst (happen' d1 (Saved l None)) ->
  routers_ok l -> NoDup (map (fun x => fst (fst x)) l) ->
  forall id i p, In (id, i, p) l -> ~ (exists z x, i = Some z /\ gunzip z = Some x) -> fget (base ++ ifile id) d1 = None ->
  fget (base ++ pfile id) d2 = fget (base ++ pfile id) d1 /\ fget (base ++ ifile id) d2 = None.
Proof.
  intros d0 fresh a es d1 rs l d2 N0 Ok L E2 Ro Nd id i p I.
  assert (R : ready base d1).
  { cbn [life] in L. pose proof (ready_first deflt deflt_toml parse_toml tunnels_ok merge overwrite ser gunzip base d0 fresh a N0 (Ok _ (or_introl eq_refl))) as R0.
    destruct (happen' d0 (Start fresh a None)) as [d r]. cbn [fst] in R0. destruct (life' d es) as [d' rs'] eqn:L'. apply pair_equal_spec in L as [<- _].
    eapply (life_inv deflt deflt_toml parse_toml tunnels_ok merge overwrite ser gunzip base (ready base) (fun _ => True)); [|exact R0| |exact L']; [|auto].
    intros dd e Rd _. apply ready_step. exact Rd. }
  rewrite happen_disk in E2. cbn [acts_of stop_of halfway] in E2. subst d2.
  apply (saved_files ser gunzip base l d1 id i p R Ro Nd I).
Qed.

(** ** C129: the router keeps its identity *)

(** Over any life, with any number of starts, stops at any point, reseeds and saves: once a
    start has returned, every later start returns the same keys. *)
Theorem C129_kept : forall es d d' before K c after K' c', sane base d -> (forall e, In e es -> event_ok e) ->
  life' d es = (d', before ++ Some (K, c) :: after) -> In (Some (K', c')) after -> K' = K.
Proof. exact (same_keys deflt deflt_toml parse_toml tunnels_ok merge overwrite ser gunzip base). Qed.

(** Every key returned has its length. *)
Theorem C129_lengths : forall d fresh a stop K c, event_ok (Start fresh a stop) ->
  snd (happen' d (Start fresh a stop)) = Some (K, c) -> keys_ok K.
Proof.
  intros d fresh a stop K c Ok H. cbn [happen] in H. destruct stop as [s|]; [destruct (boot _ _ _ _ _ _ _ _ _ _); discriminate|].
  destruct (boot deflt deflt_toml parse_toml tunnels_ok merge overwrite base fresh a d) as [acts r] eqn:B. cbn [snd] in H. subst r.
  destruct (fget base d) as [n|] eqn:F; [|rewrite (boot_new _ _ _ _ _ _ base fresh a d F) in B; apply pair_equal_spec in B as [_ B]; injection B as <- _; exact Ok].
  assert (Pk : K = picked base fresh d).
  { rewrite (boot_eq _ _ _ _ _ _ base fresh a d _ F) in B.
    destruct (load_toml parse_toml base d); [|destruct (overwrite a)|]; apply pair_equal_spec in B as [_ B]; try discriminate;
      match type of B with context [tunnels_ok ?x] => destruct (tunnels_ok x) end; congruence. }
  subst K. clear B F. destruct Ok as (Y1 & Y2 & Y3 & Y4).
  assert (G : forall nm k f, length f = k -> length (pick base nm k f d) = k).
  { intros nm k f E. unfold pick, load. destruct (fget (base ++ [nm]) d) as [[|x]|]; try exact E.
    destruct (Nat.leb k (length x)) eqn:Le; [|exact E]. apply Nat.leb_le in Le. rewrite firstn_length. lia. }
  unfold keys_ok, picked. cbn [k_static k_signing k_ntcp2 k_ssu2].
  split; [exact (G _ _ _ Y1)|]. split; [exact (G _ _ _ Y2)|]. split; [exact (G _ _ _ Y3)|exact (G _ _ _ Y4)].
Qed.

(** ** C130: the configuration that is used *)

(** A router.toml that is a configuration stays as it is, whatever happens, and every start
    that returns uses it, with the command line on top. *)
Theorem C130_used : forall t c es d d' rs, configured base t d -> parse_toml t = Valid c -> (forall e, In e es -> event_ok e) ->
  life' d es = (d', rs) ->
  fget (base ++ [F_TOML]) d' = Some (File t) /\
  forall K c', In (Some (K, c')) rs -> tunnels_ok c = true /\ exists fresh a, In (Start fresh a None) es /\ c' = merge c a.
Proof.
  intros t c es. induction es as [|e es IH]; intros d d' rs Cf P Ok L; cbn [life] in L.
  - apply pair_equal_spec in L as [<- <-]. split; [apply Cf|intros K c' []].
  - pose proof (configured_step deflt deflt_toml parse_toml tunnels_ok merge overwrite ser gunzip base t c d e Cf P (Ok e (or_introl eq_refl))) as C1.
    destruct (happen' d e) as [d1 r] eqn:E. cbn [fst] in C1. destruct (life' d1 es) as [d2 r2] eqn:L2. apply pair_equal_spec in L as [<- <-].
    destruct (IH d1 d2 r2 C1 P (fun x X => Ok x (or_intror X)) L2) as [A B]. split; [exact A|]. intros K c' [X|X].
    + subst r. destruct e as [fresh a stop|l stop|l stop|y stop]; cbn [happen] in E; try (apply pair_equal_spec in E as [_ E]; discriminate).
      rewrite (boot_valid deflt deflt_toml parse_toml tunnels_ok merge overwrite base fresh a d t c Cf P) in E. apply pair_equal_spec in E as [_ E].
      destruct stop; [discriminate|]. destruct (tunnels_ok c); [|discriminate]. split; [reflexivity|]. exists fresh, a. split; [left; reflexivity|congruence].
    + destruct (B K c' X) as [Tk (fresh & a & I & Ec)]. split; [exact Tk|]. exists fresh, a. split; [right; exact I|exact Ec].
Qed.

(** A router.toml that is text but not a configuration stays as it is, and no start
    returns, unless one is asked to overwrite it. *)
Theorem C130_invalid : forall t es d d' rs, configured base t d -> parse_toml t = Invalid ->
  (forall e, In e es -> event_ok e /\ match e with Start _ a _ => overwrite a = false | _ => True end) ->
  life' d es = (d', rs) ->
  fget (base ++ [F_TOML]) d' = Some (File t) /\ forall r, In r rs -> r = None.
Proof.
  intros t es. induction es as [|e es IH]; intros d d' rs Cf P Ok L; cbn [life] in L.
  - apply pair_equal_spec in L as [<- <-]. split; [apply Cf|intros r []].
  - destruct (Ok e (or_introl eq_refl)) as [O1 O2].
    destruct (invalid_step deflt deflt_toml parse_toml tunnels_ok merge overwrite ser gunzip base t d e Cf P O1 O2) as [C1 C2].
    destruct (happen' d e) as [d1 r] eqn:E. cbn [fst snd] in C1, C2. destruct (life' d1 es) as [d2 r2] eqn:L2. apply pair_equal_spec in L as [<- <-].
    destruct (IH d1 d2 r2 C1 P (fun x X => Ok x (or_intror X)) L2) as [A B]. split; [exact A|]. intros x [X|X]; [congruence|exact (B x X)].
Qed.

(** The first start does not look at the command line. *)
Theorem C130_first_args_refuted : forall d fresh a, nothing base d -> merge deflt a <> deflt ->
  snd (happen' d (Start fresh a None)) = Some (fresh, deflt) /\ snd (happen' d (Start fresh a None)) <> Some (fresh, merge deflt a).
Proof.
  intros d fresh a H D. assert (B : fget base d = None) by (specialize (H []); rewrite app_nil_r in H; exact H).
  assert (E : snd (happen' d (Start fresh a None)) = Some (fresh, deflt)) by (cbn [happen]; rewrite (boot_new _ _ _ _ _ _ base fresh a d B); reflexivity).
  split; [exact E|]. rewrite E. congruence.
Qed.

(** A router.toml that cannot be read as text is replaced by the default one without being
    asked to. *)
Theorem C130_text_refuted : forall t d fresh a, configured base t d -> parse_toml t = Unreadable -> overwrite a = false ->
  fget (base ++ [F_TOML]) (fst (happen' d (Start fresh a None))) = Some (File deflt_toml).
Proof.
  intros t d fresh a [B T] P _. rewrite happen_disk. cbn [acts_of stop_of halfway]. rewrite (boot_eq _ _ _ _ _ _ base fresh a d _ B).
  assert (L : load_toml parse_toml base d = Unreadable).
  { unfold load_toml. match goal with |- context [fget ?w d] => replace (fget w d) with (Some (File t)) by (symmetry; exact T) end. exact P. }
  rewrite L. cbn [fst]. rewrite app_assoc. destruct (own_plain F_TOML) as [Pl Sl]; [cbn; tauto|].
  apply written; [exact Pl|exact Sl|apply acts_dir; exact B| |constructor].
  apply not_dir; [intros Z; assert (Z2 : Some (File t) = Some Dir) by (rewrite <- T; exact Z); discriminate|]. intros q I X. apply app_inj in X. subst q. apply in_app_iff in I as [I|I].
  - unfold dirs_of in I. apply in_app_iff in I as [I|I]; match type of I with context [fget ?p d] => destruct (fget p d) end;
      try (destruct (in_nil I)); (destruct I as [I|I]; [discriminate|]; apply in_map_iff in I as (y & I & _); discriminate).
  - unfold keys_of in I. repeat rewrite in_app_iff in I. destruct I as [I|[I|[I|I]]]; apply w_in in I; discriminate.
Qed.

(** If the machine stops while the first start writes router.toml, the file is empty; if no
    text is a configuration, that is the one used from then on, not the default one. *)
Theorem C130_crash_refuted : forall d fresh a fresh' a' e, nothing base d -> keys_ok fresh -> keys_ok fresh' ->
  parse_toml [] = Valid e -> tunnels_ok e = true ->
  exists d', life' d [Start fresh a (Some (135%nat, 0%nat)); Start fresh' a' None] = (d', [None; Some (fresh, merge e a')]) /\
    fget (base ++ [F_TOML]) d' = Some (File []).
Proof.
  intros d fresh a fresh' a' e H K1 K2 P Tk.
  assert (B : fget base d = None) by (specialize (H []); rewrite app_nil_r in H; exact H).
  pose proof (nothing_sane base d H) as Sa.
  set (hs := happen deflt [] parse_toml tunnels_ok merge overwrite ser gunzip base d (Start fresh a None)).
  assert (E1 : happen' d (Start fresh a (Some (135%nat, 0%nat))) = (fst hs, None)).
  { unfold hs. cbn [happen]. rewrite !(boot_new _ _ _ _ _ _ base fresh a d B). cbn [fst].
    assert (Ha : forall tx, halfway (AMkdir [] :: netdb_dirs ++ profile_dirs ++ [AWrite F_STATIC (k_static fresh); AWrite F_SIGNING (k_signing fresh); AWrite F_NTCP2 (k_ntcp2 fresh); AWrite F_SSU2 (k_ssu2 fresh); AWrite F_TOML tx]) (Some (135%nat, 0%nat)) =
      AMkdir [] :: netdb_dirs ++ profile_dirs ++ [AWrite F_STATIC (k_static fresh); AWrite F_SIGNING (k_signing fresh); AWrite F_NTCP2 (k_ntcp2 fresh); AWrite F_SSU2 (k_ssu2 fresh); AWrite F_TOML []]) by (intros tx; reflexivity).
    rewrite Ha. cbn [halfway]. reflexivity. }
  assert (Kd : kept base fresh (fst hs)).
  { apply (kept_after deflt [] parse_toml tunnels_ok merge overwrite ser gunzip base d fresh a fresh deflt Sa K1).
    cbn [happen]. rewrite (boot_new _ _ _ _ _ _ base fresh a d B). reflexivity. }
  assert (Cf : configured base [] (fst hs)).
  { split; [apply Kd|]. unfold hs. cbn [happen]. rewrite (boot_new _ _ _ _ _ _ base fresh a d B). cbn [fst halfway].
    destruct (own_plain F_TOML) as [Pl Sl]; [cbn; tauto|].
    replace (AMkdir [] :: netdb_dirs ++ profile_dirs ++ [AWrite F_STATIC (k_static fresh); AWrite F_SIGNING (k_signing fresh); AWrite F_NTCP2 (k_ntcp2 fresh); AWrite F_SSU2 (k_ssu2 fresh); AWrite F_TOML []])
      with ((AMkdir [] :: netdb_dirs ++ profile_dirs ++ [AWrite F_STATIC (k_static fresh); AWrite F_SIGNING (k_signing fresh); AWrite F_NTCP2 (k_ntcp2 fresh); AWrite F_SSU2 (k_ssu2 fresh)]) ++ [AWrite F_TOML []])
      by (cbn [app]; rewrite <- !app_assoc; reflexivity).
    apply written; [exact Pl|exact Sl| | |constructor].
    - apply base_made. exact B.
    - apply not_dir; [apply Sa; cbn; tauto|]. intros q I X. apply app_inj in X. subst q. destruct I as [I|I]; [discriminate|]. rewrite app_assoc in I. apply in_app_iff in I as [I|I].
      + apply dirs_made in I. apply (made_own _ F_TOML I); [cbn; tauto|reflexivity].
      + cbn [In] in I. repeat (destruct I as [I|I]; [discriminate|]). destruct I. }
  pose proof (boot_valid deflt deflt_toml parse_toml tunnels_ok merge overwrite base fresh' a' (fst hs) [] e Cf P) as Bv. rewrite Tk in Bv.
  assert (Pk : picked base fresh' (fst hs) = fresh).
  { destruct Kd as (_ & L1 & L2 & L3 & L4). unfold picked, pick. rewrite L1, L2, L3, L4. destruct fresh; reflexivity. }
  rewrite Pk in Bv.
  pose proof (configured_step deflt deflt_toml parse_toml tunnels_ok merge overwrite ser gunzip base [] e (fst hs) (Start fresh' a' None) Cf P K2) as [_ T2].
  exists (fst (happen' (fst hs) (Start fresh' a' None))). split; [|exact T2].
  cbn [life]. rewrite E1. cbn [fst]. destruct (happen' (fst hs) (Start fresh' a' None)) as [d2 r2] eqn:E2. cbn [fst].
  assert (Er : r2 = Some (fresh, merge e a')).
  { cbn [happen] in E2. rewrite Bv in E2. apply pair_equal_spec in E2 as [_ <-]. reflexivity. }
  rewrite Er. reflexivity.
Qed.
End Props.

(** If a directory on the way to the base path is named like a toml file, loading the one
    profile that was saved panics. *)
Theorem C128_path_refuted : forall (ser : fprof -> list N) de, (forall q, de (ser q) = Some q) -> forall q,
  exists base d, load_profiles de base d = None /\
    d = do_acts base [(base, Dir); (base ++ [lit "peerProfiles"], Dir); (base ++ [lit "peerProfiles"; lit "pA"], Dir)]
          [AWrite (lit "peerProfiles/pA/profile-AAAA.toml") (ser q)].
Proof.
  intros ser de Law q. exists [lit "emissary.toml.d"]. eexists. split; [|reflexivity].
  set (x := ser q). assert (E : de x = Some q) by apply Law. clearbody x.
  transitivity (read_profiles de [([lit "emissary.toml.d"; lit "peerProfiles"; lit "pA"; lit "profile-AAAA.toml"], x)]); [reflexivity|].
  cbn [read_profiles]. rewrite E. reflexivity.
Qed.

(** ** Examples *)

Definition ex_ser (q : fprof) : list N :=
  flat_map (fun o => match o with Some n => [1; n] | None => [0; 0] end)
    [q_activity q; q_declined q; q_dial_failure q; q_accepted q; q_connection q; q_dial_failures q; q_lookup_failures q;
     q_lookup_no_responses q; q_lookup_successes q; q_rejected q; q_selected q; q_test_failures q; q_test_successes q; q_unanswered q].
Fixpoint ex_opts (l : list N) : list (option N) :=
  match l with f :: n :: t => (if f =? 1 then Some n else None) :: ex_opts t | _ => [] end.
Definition ex_de (l : list N) : option fprof :=
  match ex_opts l with
  | [a; b; c; d; e; f; g; h; i; j; k; m; n; o] => Some (mkFp a b c d e f g h i j k m n o)
  | _ => None
  end.
Example ex_law : forall q, ex_de (ex_ser q) = Some q.
Proof.
  assert (L : forall l, ex_opts (flat_map (fun o => match o with Some n => [1; n] | None => [0; 0] end) l) = l).
  { induction l as [|[n|] l IH]; [reflexivity| |]; cbn [flat_map app ex_opts]; rewrite IH; reflexivity. }
  intros [a b c d e f g h i j k m n o]. unfold ex_de, ex_ser. rewrite L. reflexivity.
Qed.

(** The configuration is a number and so is the command line; a file with one number is a
    configuration, an empty one is the configuration 0. *)
Definition ex_parse (t : list N) : toml N :=
  match t with [] => Valid 0 | [n] => if n =? 255 then Unreadable else Valid n | _ => Invalid end.
Definition ex_base : path := [lit "home"; lit ".emissary"].
Definition ex_life := life 7 [7] ex_parse (fun _ => true) (fun c a => match a with Some n => n | None => c end) (fun _ => false) ex_ser Some ex_base.
Definition ex_keys (n : N) : keys := mkKeys (repeat n 32) (repeat n 32) (repeat n 48) (repeat n 64).
Definition ex_prof (n : N) : prof := mkProf (n * 1000000000 + 5) None (Some 1999999999) 1 2 3 4 5 6 7 8 9 10 11.

(** A disk with some of the directories. *)
Definition ex_disk : fs :=
  (ex_base, Dir) :: map (fun r => (ex_base ++ r, Dir))
    [[lit "netDb"]; [lit "peerProfiles"]; [lit "netDb"; lit "r~"]; [lit "netDb"; lit "rB"]; [lit "peerProfiles"; lit "p~"]].

(** The machine stops while signing.key is written; the next start completes, keeps the
    static key and replaces the others; routers are saved, one is reseeded, and the last
    start has the same keys. *)
Definition ex_events : list (@event (option N)) :=
  [Start (ex_keys 1) None (Some (1%nat, 5%nat)); Start (ex_keys 2) (Some 9) None;
   Saved [(lit "~abc", Some [1; 2], ex_prof 3); (lit "Zq", None, ex_prof 4)] None;
   Reseeded [(lit "routerInfo-Bcd.dat", [5])] (Some (0%nat, 0%nat)); OwnInfo [6] None; Start (ex_keys 3) None None].

Definition ex_result : list (option (keys * N)) :=
  let K := mkKeys (repeat 1 32) (repeat 2 32) (repeat 2 48) (repeat 2 64) in
  [None; Some (K, 9); None; None; None; Some (K, 7)].
Example ex_keys_kept : snd (ex_life ex_disk ex_events) = ex_result.
Proof. vm_compute. reflexivity. Qed.
Example ex_loaded : load_infos ex_base (fst (ex_life ex_disk ex_events)) = [[]; [1; 2]] /\
  load_profiles ex_de ex_base (fst (ex_life ex_disk ex_events)) =
    Some [(lit "~abc", mkProf 3000000000 None (Some 1000000000) 1 2 3 4 5 6 7 8 9 10 11)].
Proof. vm_compute. split; reflexivity. Qed.

Lemma keys_example : forall n, keys_ok (ex_keys n).
Proof. intros n. repeat split; apply repeat_length. Qed.
Lemma proper_example : proper (lit "~abc") /\ proper (lit "Zq").
Proof. split; (split; [discriminate|split; intros X; cbn in X; intuition discriminate]). Qed.
Example ex_events_proper : forall e, In e ex_events -> proper_event e.
Proof.
  destruct proper_example as [P1 P2].
  intros e H. cbn [ex_events In] in H. destruct H as [<-|[<-|[<-|[<-|[<-|[<-|[]]]]]]]; split; try exact Logic.I; try apply keys_example.
  - cbn [event_ok]. intros id i p [X|[X|[]]]; injection X as <- _ _; [apply P1|apply P2].
  - intros id i p [X|[X|[]]]; injection X as <- _ _; [exact P1|exact P2].
  - cbn [event_ok]. intros x [<-|[]]. apply (routerinfo_harmless (lit "Bcd.dat")). intros X; cbn in X; intuition discriminate.
Qed.

Example ex_nothing : nothing ex_base [] /\ sane ex_base ex_disk.
Proof.
  split; [intros r; reflexivity|]. split; [intros c; discriminate|]. intros n H. cbn [own_files In] in H.
  repeat (destruct H as [<-|H]; [discriminate|]). destruct H.
Qed.

Lemma kept_again : forall (cfg args : Type) (df : cfg) dt pt tk (mg : cfg -> args -> cfg) ow ser gunzip base es d before K c after K' c',
  sane base d -> (forall e, In e es -> event_ok e) ->
  snd (life df dt pt tk mg ow ser gunzip base d es) = before ++ Some (K, c) :: after -> In (Some (K', c')) after -> K' = K.
Proof.
  intros cfg args df dt pt tk mg ow ser gunzip base es d before K c after K' c' S Ok H I.
  destruct (life df dt pt tk mg ow ser gunzip base d es) as [d' rs] eqn:L. cbn [snd] in H. subst rs.
  exact (C129_kept df dt pt tk mg ow ser gunzip base es d d' before K c after K' c' S Ok L I).
Qed.

(** The theorem on keys holds of this life. *)
Example C129_ex : forall K' c', In (Some (K', c')) (skipn 2 ex_result) -> K' = mkKeys (repeat 1 32) (repeat 2 32) (repeat 2 48) (repeat 2 64).
Proof.
  intros K' c' I.
  exact (kept_again _ _ _ _ _ _ _ _ _ _ _ ex_events ex_disk [None] _ 9 _ K' c' (proj2 ex_nothing) (fun e X => proj1 (ex_events_proper e X)) ex_keys_kept I).
Qed.

(** The hypotheses on what is saved can be met. *)
Example C127_ex : let l := [(lit "~abc", Some [1; 2], ex_prof 3); (lit "Zq", None, ex_prof 4)] in
  routers_ok l /\ NoDup (map (fun x => fst (fst x)) l) /\ clean_base ex_base.
Proof.
  destruct proper_example as [P1 P2]. cbv zeta. split; [|split].
  - intros id i p [X|[X|[]]]; injection X as <- _ _; (split; [assumption|]); vm_compute; tauto.
  - cbn [map fst]. constructor; [intros [X|[]]; discriminate|]. constructor; [intros []|constructor].
  - intros x [<-|[<-|[]]]; split; intros (u & v & E);
      (do 11 (destruct u as [|? u]; cbn [app] in E; [discriminate E|try discriminate E; injection E as _ E])).
Qed.

(** A valid, an invalid and an unreadable router.toml. *)
Example C130_ex :
  snd (ex_life ((ex_base ++ [F_TOML], File [3]) :: ex_disk) [Start (ex_keys 1) None None]) = [Some (ex_keys 1, 3)] /\
  snd (ex_life ((ex_base ++ [F_TOML], File [3; 4]) :: ex_disk) [Start (ex_keys 1) None None]) = [None] /\
  snd (ex_life ((ex_base ++ [F_TOML], File [255]) :: ex_disk) [Start (ex_keys 1) None None]) = [Some (ex_keys 1, 7)].
Proof. vm_compute. repeat split. Qed.

Print Assumptions C127_inside.
Print Assumptions C127_saved.
Print Assumptions C127_missing_dir_refuted.
Print Assumptions C128_round.
Print Assumptions C128_no_info.
Print Assumptions C128_path_refuted.
Print Assumptions C129_kept.
Print Assumptions C129_lengths.
Print Assumptions C130_used.
Print Assumptions C130_invalid.
Print Assumptions C130_first_args_refuted.
Print Assumptions C130_text_refuted.
Print Assumptions C130_crash_refuted.
