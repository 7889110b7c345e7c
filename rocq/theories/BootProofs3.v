(** * Proofs about keys and configuration over the life of an installation *)
From Coq Require Import String.
From Coq Require Import List NArith Bool Arith Lia.
From Verif Require Import Bytes ReseedModel ReseedSpec ReseedProofs SamModel BootModel BootSpec BootProofs BootProofs2.
Import ListNotations.
Open Scope N_scope.

Section Life.
Context {cfg args : Type} (deflt : cfg) (deflt_toml : list N) (parse_toml : list N -> toml cfg)
        (tunnels_ok : cfg -> bool) (merge : cfg -> args -> cfg) (overwrite : args -> bool).
Context (ser : fprof -> list N) (gunzip : list N -> option (list N)).
Context (base : path).

Notation boot' := (boot deflt deflt_toml parse_toml tunnels_ok merge overwrite base).
Notation happen' := (happen deflt deflt_toml parse_toml tunnels_ok merge overwrite ser gunzip base).
Notation life' := (life deflt deflt_toml parse_toml tunnels_ok merge overwrite ser gunzip base).

Definition acts_of (d : fs) (e : event) : list act :=
  match e with
  | Start fresh a _ => fst (boot' fresh a d)
  | Reseeded l _ => reseed_acts l
  | Saved l _ => save_acts ser gunzip l
  | OwnInfo c _ => [AWrite F_INFO c]
  end.
Definition stop_of (e : @event args) : option (nat * nat) :=
  match e with Start _ _ s => s | Reseeded _ s => s | Saved _ s => s | OwnInfo _ s => s end.

Lemma happen_disk : forall d e, fst (happen' d e) = do_acts base d (halfway (acts_of d e) (stop_of e)).
Proof.
  intros d [fresh a stop|l stop|l stop|c stop]; cbn [happen acts_of stop_of]; try reflexivity.
  destruct (boot' fresh a d) as [acts r]. reflexivity.
Qed.

Definition below_top (q : path) (d : fs) : Prop :=
  exists top s r, (top = lit "netDb" \/ top = lit "peerProfiles") /\ q = base ++ top :: s :: r /\ r <> [] /\
    fget (base ++ [top; s]) d = Some Dir.

Lemma event_target : forall d e a name d' q, event_ok e -> In a (acts_of d e) -> name_of_act a = Some name ->
  target base name d' = Some q ->
  (exists n c, In n own_files /\ q = base ++ [n] /\ a = AWrite n c) \/ below_top q d'.
Proof.
  intros d e a name d' q Ok I Nm T. destruct e as [fresh ar stop|l stop|l stop|c stop]; cbn [acts_of event_ok] in *.
  - apply boot_acts in I as [(q' & -> & _)|(n & c & -> & O)]; [discriminate|]. injection Nm as <-.
    destruct (own_plain n O) as [P S]. pose proof (target_plain _ _ _ _ P S T) as E. left. exists n, c. auto.
  - apply reseed_names in I as (c & id & x & Ix & Ex & -> & _). injection Nm as <-. right.
    specialize (Ok x Ix). rewrite Ex in Ok. apply info_below in T as (s & r & E & R & F & _); [|exact Ok].
    exists (lit "netDb"), s, r. auto.
  - apply save_names in I as (c & id & i & p & Ii & _ & _ & [(x & ->)| ->]); injection Nm as <-; right; specialize (Ok id i p Ii).
    + apply info_below in T as (s & r & E & R & F & _); [|apply routerinfo_harmless; exact Ok]. exists (lit "netDb"), s, r. auto.
    + apply profile_below in T as (s & r & E & R & F & _); [|exact Ok]. exists (lit "peerProfiles"), s, r. auto.
  - destruct I as [<-|[]]. injection Nm as <-. assert (O : In F_INFO own_files) by (cbn; tauto).
    destruct (own_plain _ O) as [P S]. pose proof (target_plain _ _ _ _ P S T) as E. left. exists F_INFO, c. auto.
Qed.

Lemma event_mkdir : forall d e q, In (AMkdir q) (acts_of d e) -> made q.
Proof.
  intros d e q I. destruct e as [fresh ar stop|l stop|l stop|c stop]; cbn [acts_of] in I.
  - apply boot_acts in I as [(q' & E & M)|(n & c & E & _)]; [injection E as <-; exact M|discriminate].
  - apply reseed_names in I as (? & ? & ? & _ & _ & E & _). discriminate.
  - apply save_names in I as (? & ? & ? & ? & _ & _ & _ & [(x & E)|E]); discriminate.
  - destruct I as [E|[]]. discriminate.
Qed.

Lemma made_own : forall q n, made q -> In n own_files -> q <> [n].
Proof.
  intros q n [->|(r & [->| ->])] O X; [discriminate| |]; injection X as X; subst n; cbn [own_files In] in O;
    repeat (destruct O as [O|O]; [discriminate|]); destruct O.
Qed.

Lemma not_file : forall acts d p, (forall c, fget p d <> Some (File c)) ->
  (forall a name d' q, In a acts -> name_of_act a = Some name -> target base name d' = Some q -> p <> q) ->
  forall c, fget p (do_acts base d acts) <> Some (File c).
Proof.
  induction acts as [|a acts IH]; intros d p H T c; [apply H|].
  change (do_acts base d (a :: acts)) with (do_acts base (do_act base d a) acts). apply IH; [|intros b name d' q I; apply T; right; exact I].
  assert (Cr : forall n x, name_of_act a = Some n -> forall c', fget p (create base n x d) <> Some (File c')).
  { intros n x Nm c'. rewrite create_target. destruct (target base n d) as [q|] eqn:E; [|apply H].
    rewrite fget_put_other; [apply H|]. exact (T a n d q (or_introl eq_refl) Nm E). }
  intros c'. destruct a as [q|n x|o n x]; cbn [do_act].
  - destruct (fget (base ++ q) d); [apply H|]. destruct (list_eq_dec (list_eq_dec N.eq_dec) p (base ++ q)) as [->|X];
      [rewrite fget_put_same; discriminate|rewrite fget_put_other by exact X; apply H].
  - apply Cr. reflexivity.
  - destruct (exists_at base o d); [apply Cr; reflexivity|apply H].
Qed.

Lemma base_neq : forall (x : str) r, base <> base ++ x :: r.
Proof. intros x r X. apply (f_equal (@length str)) in X. rewrite app_length in X. cbn [length] in X. lia. Qed.

Lemma sane_step : forall d e, sane base d -> event_ok e -> sane base (fst (happen' d e)).
Proof.
  intros d e [S1 S2] Ok. rewrite happen_disk. split.
  - apply not_file; [exact S1|]. intros a name d' q I Nm T. apply halfway_in in I as (a' & I & En & _).
    destruct (event_target d e a' name d' q Ok I) as [(n & c & _ & -> & _)|(top & s & r & _ & -> & _)]; [congruence|exact T| |]; apply base_neq.
  - intros n O. apply not_dir; [exact (S2 n O)|]. intros q I X. apply halfway_in in I as (a' & I & _ & E).
    rewrite (E q eq_refl) in I. apply event_mkdir in I. apply app_inj in X. apply (made_own q n I O). congruence.
Qed.

(** The base directory, once there, stays. *)
Lemma base_step : forall d e, fget base d = Some Dir -> fget base (fst (happen' d e)) = Some Dir.
Proof. intros d e H. rewrite happen_disk. apply acts_dir. exact H. Qed.

(** A file of the base directory that only other events write. *)
Lemma own_other : forall d e n, event_ok e -> In n own_files -> (forall c, ~ In (AWrite n c) (acts_of d e)) ->
  fget (base ++ [n]) (fst (happen' d e)) = fget (base ++ [n]) d.
Proof.
  intros d e n Ok O H. rewrite happen_disk. apply half_other.
  - intros a name d' q I Nm T X. destruct (event_target d e a name d' q Ok I Nm T) as [(n' & c & _ & E & Ea)|(top & s & r & _ & E & _)].
    + rewrite E in X. apply app_inj in X. injection X as X. subst n'. rewrite Ea in I. exact (H c I).
    + rewrite E in X. apply app_inj in X. discriminate.
  - intros q I X. apply event_mkdir in I. apply app_inj in X. apply (made_own q n I O). congruence.
Qed.

(** ** Keys *)
Definition kept (K : keys) (d : fs) : Prop :=
  fget base d = Some Dir /\ load base F_STATIC 32 d = Some (k_static K) /\ load base F_SIGNING 32 d = Some (k_signing K) /\
  load base F_NTCP2 48 d = Some (k_ntcp2 K) /\ load base F_SSU2 64 d = Some (k_ssu2 K).

Lemma load_same : forall n k d d', fget (base ++ [n]) d' = fget (base ++ [n]) d -> load base n k d' = load base n k d.
Proof. intros n k d d' H. unfold load. rewrite H. reflexivity. Qed.

Definition key_files : list str := [F_STATIC; F_SIGNING; F_NTCP2; F_SSU2].

Lemma key_own : forall n, In n key_files -> In n own_files /\ n <> F_TOML /\ n <> F_INFO.
Proof.
  intros n H. cbn [key_files own_files In] in *. split; [tauto|]. repeat (destruct H as [<-|H]; [split; discriminate|]). destruct H.
Qed.

(** Writes of a start when all keys are there. *)
Lemma kept_writes : forall K d fresh a n c, kept K d -> In (AWrite n c) (fst (boot' fresh a d)) -> n = F_TOML.
Proof.
  intros K d fresh a n c (B & L1 & L2 & L3 & L4) I. rewrite (boot_eq _ _ _ _ _ _ base fresh a d _ B) in I.
  assert (Ke : keys_of base fresh d = []) by (unfold keys_of, w_of; rewrite L1, L2, L3, L4; reflexivity). rewrite Ke in I.
  assert (Di : forall x, In x (dirs_of base d) -> exists q, x = AMkdir q).
  { intros x X. unfold dirs_of, netdb_dirs, profile_dirs, mkdirs in X. apply in_app_iff in X as [X|X];
      match type of X with context [fget ?p d] => destruct (fget p d) end; try (destruct (in_nil X));
      destruct X as [<-|X]; try (eexists; reflexivity); apply in_map_iff in X as (y & <- & _); eexists; reflexivity. }
  assert (G : forall w, In (AWrite n c) (dirs_of base d ++ [] ++ w) -> In (AWrite n c) w).
  { intros w H. apply in_app_iff in H as [H|H]; [apply Di in H as (q & E); discriminate|exact H]. }
  destruct (load_toml parse_toml base d); [|destruct (overwrite a)|]; cbn [fst] in I; apply G in I; cbn [In] in I;
    try (destruct I as [I|[]]; injection I as <- _; reflexivity); destruct I.
Qed.

Lemma kept_step : forall K d e, kept K d -> event_ok e ->
  kept K (fst (happen' d e)) /\ forall K' c, snd (happen' d e) = Some (K', c) -> K' = K.
Proof.
  intros K d e Kd Ok. split.
  - assert (U : forall n, In n key_files -> fget (base ++ [n]) (fst (happen' d e)) = fget (base ++ [n]) d).
    { intros n H. destruct (key_own n H) as (O & NT & NI). apply own_other; [exact Ok|exact O|]. intros c I.
      destruct e as [fresh a stop|l stop|l stop|c' stop]; cbn [acts_of] in I.
      - apply (kept_writes K) in I; [congruence|exact Kd].
      - apply reseed_names in I as (c0 & id & x & _ & _ & E & _). injection E as E _. rewrite E in H.
        cbn [key_files In] in H. repeat (destruct H as [H|H]; [discriminate|]). destruct H.
      - apply save_names in I as (c0 & id & i & p & _ & _ & _ & [(x & E)|E]); [|discriminate]. injection E as E _. rewrite E in H.
        cbn [key_files In] in H. repeat (destruct H as [H|H]; [discriminate|]). destruct H.
      - destruct I as [I|[]]. injection I as I _. congruence. }
    destruct Kd as (B & L1 & L2 & L3 & L4). split; [apply base_step; exact B|].
    split; [rewrite <- L1; apply load_same, U; cbn; tauto|]. split; [rewrite <- L2; apply load_same, U; cbn; tauto|].
    split; [rewrite <- L3; apply load_same, U; cbn; tauto|rewrite <- L4; apply load_same, U; cbn; tauto].
  - intros K' c H. destruct e as [fresh a stop|l stop|l stop|c' stop]; cbn [happen snd] in H; try discriminate.
    destruct Kd as (B & L1 & L2 & L3 & L4).
    assert (Pk : picked base fresh d = K) by (unfold picked, pick; rewrite L1, L2, L3, L4; destruct K; reflexivity).
    rewrite (boot_eq _ _ _ _ _ _ base fresh a d _ B) in H. rewrite Pk in H.
    destruct stop; [destruct (load_toml parse_toml base d); [|destruct (overwrite a)|]; discriminate|].
    destruct (load_toml parse_toml base d); [destruct (tunnels_ok deflt)|destruct (overwrite a); [destruct (tunnels_ok deflt)|]|destruct (tunnels_ok c0)];
      cbn [snd] in H; congruence.
Qed.

Lemma load_file : forall n k c d, fget (base ++ [n]) d = Some (File c) -> length c = k -> load base n k d = Some c.
Proof. intros n k c d H <-. unfold load. rewrite H, Nat.leb_refl, firstn_all. reflexivity. Qed.

Lemma quiet_mkdirs : forall l, (forall x, In x l -> exists q, x = AMkdir q /\ made q) -> forall n, In n own_files -> Forall (quiet n) l.
Proof.
  intros l H n O. apply Forall_forall. intros x X. destruct (H x X) as (q & -> & M). cbn [quiet]. apply made_own; assumption.
Qed.

Lemma quiet_write : forall n m c, In m own_files -> m <> n -> quiet n (AWrite m c).
Proof. intros n m c O D. destruct (own_plain m O). cbn [quiet]. auto. Qed.

(** A key after its write, or untouched. *)
Lemma key_after : forall pre post d name n fr, In name own_files -> Forall (quiet name) pre -> Forall (quiet name) post ->
  fget base (do_acts base d pre) = Some Dir -> fget (base ++ [name]) d <> Some Dir -> length fr = n ->
  load base name n (do_acts base d (pre ++ w_of base name n fr d ++ post)) = Some (pick base name n fr d).
Proof.
  intros pre post d name n fr O Q1 Q2 B Nd L. destruct (own_plain name O) as [P S]. unfold w_of, pick.
  pose proof (quiet_acts base name pre None d Q1) as E. cbn [halfway] in E.
  destruct (load base name n d) as [k|] eqn:Lo.
  - cbn [app]. rewrite <- Lo. apply load_same. apply (quiet_acts base name (pre ++ post) None). apply Forall_app. auto.
  - apply load_file; [|exact L]. cbn [app]. apply written; [exact P|exact S|exact B|rewrite E; exact Nd|exact Q2].
Qed.

Lemma kept_after : forall d fresh a K c, sane base d -> keys_ok fresh ->
  snd (happen' d (Start fresh a None)) = Some (K, c) -> kept K (fst (happen' d (Start fresh a None))).
Proof.
  intros d fresh a K c [S1 S2] (Y1 & Y2 & Y3 & Y4) H. rewrite happen_disk. cbn [acts_of stop_of halfway]. cbn [happen] in H.
  destruct (boot' fresh a d) as [acts res] eqn:Bo. cbn [snd fst] in *.
  assert (Own : forall n, In n key_files -> In n own_files) by (intros n Hn; apply key_own; exact Hn).
  destruct (fget base d) as [[|x]|] eqn:B; [| |].
  - (* the directory is there *)
    assert (Sh : exists w, acts = dirs_of base d ++ keys_of base fresh d ++ w /\ (forall n, In n key_files -> Forall (quiet n) w) /\ K = picked base fresh d).
    { rewrite (boot_eq _ _ _ _ _ _ base fresh a d _ B) in Bo.
      assert (W0 : forall n, In n key_files -> Forall (quiet n) (@nil act)) by (intros; constructor).
      assert (W1 : forall n, In n key_files -> Forall (quiet n) [AWrite F_TOML deflt_toml]).
      { intros n Hn. constructor; [|constructor]. apply quiet_write; [cbn; tauto|]. apply key_own in Hn as (_ & X & _). congruence. }
      destruct (load_toml parse_toml base d); [|destruct (overwrite a)|]; apply pair_equal_spec in Bo as [<- Er]; rewrite H in Er;
        try discriminate; eexists; (split; [reflexivity|]); (split; [assumption|]).
      - destruct (tunnels_ok deflt); congruence.
      - destruct (tunnels_ok deflt); congruence.
      - destruct (tunnels_ok c0); congruence. }
    destruct Sh as (w & -> & Qw & ->).
    assert (Qd : forall n, In n own_files -> Forall (quiet n) (dirs_of base d)).
    { intros n O. destruct (dirs_quiet n O) as [Q1 Q2]. unfold dirs_of. apply Forall_app. split.
      - destruct (fget (base ++ [lit "netDb"]) d); [constructor|exact Q1].
      - destruct (fget (base ++ [lit "peerProfiles"]) d); [constructor|exact Q2]. }
    assert (Qk : forall n m k f, In m own_files -> m <> n -> Forall (quiet n) (w_of base m k f d)).
    { intros n m k f O D. apply Forall_forall. intros x X. apply w_in in X. subst x. apply quiet_write; assumption. }
    assert (Bd : forall l, fget base (do_acts base d l) = Some Dir) by (intros l; apply acts_dir; exact B).
    split; [apply Bd|]. unfold keys_of, picked. cbn [k_static k_signing k_ntcp2 k_ssu2].
    assert (O1 : In F_STATIC own_files) by (cbn; tauto). assert (O2 : In F_SIGNING own_files) by (cbn; tauto).
    assert (O3 : In F_NTCP2 own_files) by (cbn; tauto). assert (O4 : In F_SSU2 own_files) by (cbn; tauto).
    split; [|split; [|split]].
    + repeat rewrite <- app_assoc. apply key_after; [exact O1|apply Qd; exact O1| |apply Bd|apply S2; exact O1|exact Y1].
      repeat (apply Forall_app; split); [apply Qk; [exact O2|discriminate]|apply Qk; [exact O3|discriminate]|apply Qk; [exact O4|discriminate]|apply Qw; cbn; tauto].
    + replace (dirs_of base d ++ (w_of base F_STATIC 32 (k_static fresh) d ++ w_of base F_SIGNING 32 (k_signing fresh) d ++ w_of base F_NTCP2 48 (k_ntcp2 fresh) d ++ w_of base F_SSU2 64 (k_ssu2 fresh) d) ++ w)
        with ((dirs_of base d ++ w_of base F_STATIC 32 (k_static fresh) d) ++ w_of base F_SIGNING 32 (k_signing fresh) d ++ (w_of base F_NTCP2 48 (k_ntcp2 fresh) d ++ w_of base F_SSU2 64 (k_ssu2 fresh) d ++ w))
        by (repeat rewrite <- app_assoc; reflexivity).
      apply key_after; [exact O2| | |apply Bd|apply S2; exact O2|exact Y2].
      * apply Forall_app. split; [apply Qd; exact O2|apply Qk; [exact O1|discriminate]].
      * repeat (apply Forall_app; split); [apply Qk; [exact O3|discriminate]|apply Qk; [exact O4|discriminate]|apply Qw; cbn; tauto].
    + replace (dirs_of base d ++ (w_of base F_STATIC 32 (k_static fresh) d ++ w_of base F_SIGNING 32 (k_signing fresh) d ++ w_of base F_NTCP2 48 (k_ntcp2 fresh) d ++ w_of base F_SSU2 64 (k_ssu2 fresh) d) ++ w)
        with ((dirs_of base d ++ w_of base F_STATIC 32 (k_static fresh) d ++ w_of base F_SIGNING 32 (k_signing fresh) d) ++ w_of base F_NTCP2 48 (k_ntcp2 fresh) d ++ (w_of base F_SSU2 64 (k_ssu2 fresh) d ++ w))
        by (repeat rewrite <- app_assoc; reflexivity).
      apply key_after; [exact O3| | |apply Bd|apply S2; exact O3|exact Y3].
      * apply Forall_app; split; [apply Qd; exact O3|]; repeat (apply Forall_app; split); [apply Qk; [exact O1|discriminate]|apply Qk; [exact O2|discriminate]].
      * apply Forall_app; split; [apply Qk; [exact O4|discriminate]|apply Qw; cbn; tauto].
    + replace (dirs_of base d ++ (w_of base F_STATIC 32 (k_static fresh) d ++ w_of base F_SIGNING 32 (k_signing fresh) d ++ w_of base F_NTCP2 48 (k_ntcp2 fresh) d ++ w_of base F_SSU2 64 (k_ssu2 fresh) d) ++ w)
        with ((dirs_of base d ++ w_of base F_STATIC 32 (k_static fresh) d ++ w_of base F_SIGNING 32 (k_signing fresh) d ++ w_of base F_NTCP2 48 (k_ntcp2 fresh) d) ++ w_of base F_SSU2 64 (k_ssu2 fresh) d ++ w)
        by (repeat rewrite <- app_assoc; reflexivity).
      apply key_after; [exact O4| |apply Qw; cbn; tauto|apply Bd|apply S2; exact O4|exact Y4].
      apply Forall_app; split; [apply Qd; exact O4|]; repeat (apply Forall_app; split); [apply Qk; [exact O1|discriminate]|apply Qk; [exact O2|discriminate]|apply Qk; [exact O3|discriminate]].
  - destruct (S1 x eq_refl).
  - (* the first start *)
    rewrite (boot_new _ _ _ _ _ _ base fresh a d B) in Bo. apply pair_equal_spec in Bo as [<- Er]. assert (K = fresh) as -> by congruence. clear Er H.
    assert (Bd : forall l, fget base (do_acts base d (AMkdir [] :: l)) = Some Dir).
    { intros l. change (do_acts base d (AMkdir [] :: l)) with (do_acts base (do_act base d (AMkdir [])) l). apply acts_dir.
      cbn [do_act]. rewrite app_nil_r, B. apply fget_put_same. }
    assert (Qd : forall n, In n own_files -> Forall (quiet n) (AMkdir [] :: netdb_dirs ++ profile_dirs)).
    { intros n O. destruct (dirs_quiet n O). constructor; [cbn [quiet]; discriminate|]. apply Forall_app. auto. }
    assert (G : forall pre name c post, In name own_files -> Forall (quiet name) pre -> Forall (quiet name) post ->
              fget (base ++ [name]) (do_acts base d ((AMkdir [] :: netdb_dirs ++ profile_dirs) ++ pre ++ AWrite name c :: post)) = Some (File c)).
    { intros pre name c0 post O Q1 Q2. destruct (own_plain name O) as [P S]. rewrite app_assoc. apply written; [exact P|exact S|apply Bd| |exact Q2].
      assert (Qp : Forall (quiet name) ((AMkdir [] :: netdb_dirs ++ profile_dirs) ++ pre)) by (apply Forall_app; auto).
      pose proof (quiet_acts base name _ None d Qp) as E. cbn [halfway] in E. rewrite E. apply S2. exact O. }
    assert (O1 : In F_STATIC own_files) by (cbn; tauto). assert (O2 : In F_SIGNING own_files) by (cbn; tauto).
    assert (O3 : In F_NTCP2 own_files) by (cbn; tauto). assert (O4 : In F_SSU2 own_files) by (cbn; tauto). assert (O5 : In F_TOML own_files) by (cbn; tauto).
    rewrite app_assoc. rewrite app_comm_cons.
    split; [apply Bd|].
    split; [apply load_file; [|exact Y1]; apply (G [])|split; [apply load_file; [|exact Y2]; apply (G [AWrite F_STATIC (k_static fresh)])|
      split; [apply load_file; [|exact Y3]; apply (G [AWrite F_STATIC (k_static fresh); AWrite F_SIGNING (k_signing fresh)])|
              apply load_file; [|exact Y4]; apply (G [AWrite F_STATIC (k_static fresh); AWrite F_SIGNING (k_signing fresh); AWrite F_NTCP2 (k_ntcp2 fresh)])]]];
      try assumption; repeat (apply Forall_cons; [apply quiet_write; [assumption|discriminate]|]); apply Forall_nil.
Qed.

(** ** The life *)
Lemma life_app : forall d a b, life' d (a ++ b) =
  let (d1, r1) := life' d a in let (d2, r2) := life' d1 b in (d2, r1 ++ r2).
Proof.
  intros d a. revert d. induction a as [|e a IH]; intros d b; cbn [app life].
  - destruct (life' d b). reflexivity.
  - destruct (happen' d e) as [d1 r]. rewrite IH. destruct (life' d1 a) as [d2 r2]. destruct (life' d2 b). reflexivity.
Qed.

Lemma sane_life : forall es d d' rs, life' d es = (d', rs) -> sane base d -> (forall e, In e es -> event_ok e) -> sane base d'.
Proof.
  induction es as [|e es IH]; intros d d' rs H S Ok; cbn [life] in H; [apply pair_equal_spec in H as [<- _]; exact S|].
  destruct (happen' d e) as [d1 r] eqn:E. destruct (life' d1 es) as [d2 r2] eqn:L. apply pair_equal_spec in H as [<- _].
  apply (IH _ _ _ L); [|intros x X; apply Ok; right; exact X].
  replace d1 with (fst (happen' d e)) by (rewrite E; reflexivity). apply sane_step; [exact S|apply Ok; left; reflexivity].
Qed.

Lemma kept_life : forall es d d' rs K, life' d es = (d', rs) -> kept K d -> (forall e, In e es -> event_ok e) ->
  kept K d' /\ forall K' c, In (Some (K', c)) rs -> K' = K.
Proof.
  induction es as [|e es IH]; intros d d' rs K H Kd Ok; cbn [life] in H.
  - apply pair_equal_spec in H as [<- <-]. split; [exact Kd|intros K' c []].
  - destruct (happen' d e) as [d1 r] eqn:E. destruct (life' d1 es) as [d2 r2] eqn:L. apply pair_equal_spec in H as [<- <-].
    destruct (kept_step K d e Kd) as [K1 K2]; [apply Ok; left; reflexivity|]. rewrite E in K1, K2. cbn [fst snd] in K1, K2.
    destruct (IH _ _ _ _ L K1) as [A B]; [intros x X; apply Ok; right; exact X|]. split; [exact A|].
    intros K' c [X|X]; [exact (K2 K' c X)|exact (B K' c X)].
Qed.

Lemma same_keys : forall es d d' before K c after K' c', sane base d -> (forall e, In e es -> event_ok e) ->
  life' d es = (d', before ++ Some (K, c) :: after) -> In (Some (K', c')) after -> K' = K.
Proof.
  intros es. induction es as [|e es IH]; intros d d' before K c after K' c' S Ok L I; cbn [life] in L.
  - apply pair_equal_spec in L as [_ L]. destruct before; discriminate.
  - destruct (happen' d e) as [d1 r] eqn:E. destruct (life' d1 es) as [d2 r2] eqn:L2. apply pair_equal_spec in L as [<- L].
    assert (Ok' : forall x, In x es -> event_ok x) by (intros x X; apply Ok; right; exact X).
    destruct before as [|b before]; cbn [app] in L; injection L as Er Ea.
    + subst r r2. assert (Kd : kept K d1).
      { destruct e as [fresh a stop|l stop|l stop|x stop]; cbn [happen] in E;
          try (apply pair_equal_spec in E as [_ E]; discriminate).
        destruct stop; [destruct (boot' fresh a d); apply pair_equal_spec in E as [_ E]; discriminate|].
        replace d1 with (fst (happen' d (Start fresh a None))) by (cbn [happen]; rewrite E; reflexivity).
        apply (kept_after d fresh a K c S); [exact (Ok _ (or_introl eq_refl))|]. cbn [happen]. rewrite E. reflexivity. }
      destruct (kept_life _ _ _ _ _ L2 Kd Ok') as [_ X]. exact (X K' c' I).
    + subst r2. pose proof (sane_step d e S (Ok e (or_introl eq_refl))) as S1. rewrite E in S1. cbn [fst] in S1.
      exact (IH _ _ _ _ _ _ _ _ S1 Ok' L2 I).
Qed.
End Life.
