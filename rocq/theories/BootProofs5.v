(** * Proofs about lives of an installation: directories, names and the configuration *)
From Coq Require Import String.
From Coq Require Import List NArith Bool Arith Lia.
From Verif Require Import Bytes ReseedModel ReseedSpec ReseedProofs SamModel BootModel BootSpec BootProofs BootProofs2 BootProofs3 BootProofs4.
Import ListNotations.
Open Scope N_scope.

(** What is on the disk was there, was made, or was written. *)
Lemma acts_added : forall base acts d q n, In (q, n) (do_acts base d acts) ->
  In (q, n) d \/ n = Dir \/ exists a name d', In a acts /\ name_of_act a = Some name /\ target base name d' = Some q.
Proof.
  intros base. induction acts as [|a acts IH]; intros d q n H; [left; exact H|].
  change (do_acts base d (a :: acts)) with (do_acts base (do_act base d a) acts) in H. apply IH in H as [H|[H|(b & name & d' & I & T)]].
  - assert (P : forall p m, In (q, n) (fput p m d) -> (q = p /\ n = m) \/ In (q, n) d).
    { intros p m [X|X]; [left; injection X as -> ->; auto|right; apply filter_In in X as [X _]; exact X]. }
    assert (Cr : forall nm c, name_of_act a = Some nm -> In (q, n) (create base nm c d) ->
      In (q, n) d \/ n = Dir \/ exists a0 name d', In a0 (a :: acts) /\ name_of_act a0 = Some name /\ target base name d' = Some q).
    { intros nm c Nm X. rewrite create_target in X. destruct (target base nm d) as [p|] eqn:T; [|left; exact X].
      apply P in X as [[-> _]|X]; [|left; exact X]. right. right. exists a, nm, d. split; [left; reflexivity|auto]. }
    destruct a as [p|nm c|o nm c]; cbn [do_act] in H.
    + destruct (fget (base ++ p) d); [left; exact H|]. apply P in H as [[_ ->]|H]; auto.
    + apply (Cr nm c); [reflexivity|exact H].
    + destruct (exists_at base o d); [apply (Cr nm c); [reflexivity|exact H]|left; exact H].
  - auto.
  - right. right. exists b, name, d'. split; [right; exact I|exact T].
Qed.

(** A directory that is made is there. *)
Lemma made_dir : forall base acts d q, In (AMkdir q) acts -> (forall c, fget (base ++ q) d <> Some (File c)) ->
  (forall a name d' p, In a acts -> name_of_act a = Some name -> target base name d' = Some p -> base ++ q <> p) ->
  fget (base ++ q) (do_acts base d acts) = Some Dir.
Proof.
  intros base acts d q I F T. apply in_split in I as (pre & post & ->). rewrite do_acts_app.
  assert (F1 : forall c, fget (base ++ q) (do_acts base d pre) <> Some (File c)).
  { apply not_file; [exact F|]. intros a name d' p Ia Nm Ta. apply (T a name d' p); [apply in_app_iff; left; exact Ia|exact Nm|exact Ta]. }
  set (d1 := do_acts base d pre) in *. change (do_acts base d1 (AMkdir q :: post)) with (do_acts base (do_act base d1 (AMkdir q)) post).
  apply acts_dir. cbn [do_act]. destruct (fget (base ++ q) d1) as [[|c]|] eqn:E; [exact E|destruct (F1 c eq_refl)|apply fget_put_same].
Qed.

Lemma base_made : forall base d l, fget base d = None -> fget base (do_acts base d (AMkdir [] :: l)) = Some Dir.
Proof.
  intros base d l B. change (do_acts base d (AMkdir [] :: l)) with (do_acts base (do_act base d (AMkdir [])) l).
  apply acts_dir. cbn [do_act]. rewrite app_nil_r, B. apply fget_put_same.
Qed.

(** A place below which nothing is, as long as only what is below it needs it. *)
Lemma none_acts : forall base P acts d, (forall r, fget (P ++ r) d = None) ->
  (forall a name d' r, In a acts -> name_of_act a = Some name -> target base name d' = Some (P ++ r) -> fget P d' = Some Dir) ->
  (forall q r, In (AMkdir q) acts -> base ++ q <> P ++ r) ->
  forall r, fget (P ++ r) (do_acts base d acts) = None.
Proof.
  intros base P. induction acts as [|a acts IH]; intros d H T M r; [apply H|].
  change (do_acts base d (a :: acts)) with (do_acts base (do_act base d a) acts).
  apply IH; [|intros b name d' r' I; apply T; right; exact I|intros q r' I; apply M; right; exact I].
  intros r'. assert (Cr : forall nm c, name_of_act a = Some nm -> fget (P ++ r') (create base nm c d) = None).
  { intros nm c Nm. rewrite create_target. destruct (target base nm d) as [p|] eqn:E; [|apply H].
    rewrite fget_put_other; [apply H|]. intros <-. pose proof (T a nm d r' (or_introl eq_refl) Nm E) as X.
    specialize (H []). rewrite app_nil_r in H. congruence. }
  destruct a as [q|nm c|o nm c]; cbn [do_act].
  - destruct (fget (base ++ q) d); [apply H|]. rewrite fget_put_other; [apply H|]. intros X. exact (M q r' (or_introl eq_refl) (eq_sym X)).
  - apply Cr. reflexivity.
  - destruct (exists_at base o d); [apply Cr; reflexivity|apply H].
Qed.

Lemma name_pfile : forall base id, clean_base base -> proper id -> name_of (base ++ pfile id) = Name id.
Proof.
  intros base id C (A & B & D). unfold pfile.
  replace (base ++ [lit "peerProfiles"; [112; hd 0 id]; PROFILE ++ id ++ TOML]) with ((base ++ [lit "peerProfiles"; [112; hd 0 id]]) ++ [PROFILE ++ id ++ TOML])
    by (rewrite <- app_assoc; reflexivity).
  apply name_of_profile; [|exact D]. intros x X. apply in_app_iff in X as [X|[<-|[<-|[]]]]; [exact (C x X)| |].
  - split; intros (u & v & E).
    + do 6 (destruct u as [|? u]; cbn [app] in E; [discriminate E|injection E as _ E]).
      do 6 (destruct u as [|? u]; cbn [app] in E; [discriminate E|injection E as _ E]). destruct u; discriminate E.
    + do 6 (destruct u as [|? u]; cbn [app] in E; [discriminate E|injection E as _ E]).
      do 6 (destruct u as [|? u]; cbn [app] in E; [discriminate E|injection E as _ E]). destruct u; discriminate E.
  - split; intros (u & v & E); apply (f_equal (@length N)) in E; rewrite !app_length in E; cbn in E; lia.
Qed.

Section Life.
Context {cfg args : Type} (deflt : cfg) (deflt_toml : list N) (parse_toml : list N -> toml cfg)
        (tunnels_ok : cfg -> bool) (merge : cfg -> args -> cfg) (overwrite : args -> bool).
Context (ser : fprof -> list N) (gunzip : list N -> option (list N)).
Context (base : path).

Notation boot' := (boot deflt deflt_toml parse_toml tunnels_ok merge overwrite base).
Notation happen' := (happen deflt deflt_toml parse_toml tunnels_ok merge overwrite ser gunzip base).
Notation life' := (life deflt deflt_toml parse_toml tunnels_ok merge overwrite ser gunzip base).
Notation acts' := (acts_of deflt deflt_toml parse_toml tunnels_ok merge overwrite ser gunzip base).
Notation disk' := (happen_disk deflt deflt_toml parse_toml tunnels_ok merge overwrite ser gunzip base).
Notation target' := (event_target deflt deflt_toml parse_toml tunnels_ok merge overwrite ser gunzip base).
Notation mkdir' := (event_mkdir deflt deflt_toml parse_toml tunnels_ok merge overwrite ser gunzip base).

(** An invariant of the disk over a life. *)
Lemma life_inv : forall (P : fs -> Prop) (Q : event -> Prop), (forall d e, P d -> Q e -> P (fst (happen' d e))) ->
  forall es d d' rs, P d -> (forall e, In e es -> Q e) -> life' d es = (d', rs) -> P d'.
Proof.
  intros P Q Step. induction es as [|e es IH]; intros d d' rs Pd Qe L; cbn [life] in L; [apply pair_equal_spec in L as [<- _]; exact Pd|].
  pose proof (Step d e Pd (Qe e (or_introl eq_refl))) as P1. destruct (happen' d e) as [d1 r]. cbn [fst] in P1.
  destruct (life' d1 es) as [d2 r2] eqn:L2. apply pair_equal_spec in L as [<- _].
  exact (IH d1 d2 r2 P1 (fun x X => Qe x (or_intror X)) L2).
Qed.

Lemma short_dirs : forall q, In (AMkdir q) (netdb_dirs ++ profile_dirs) -> (length q <= 2)%nat.
Proof.
  assert (X : forall top l q, In (AMkdir q) (mkdirs top l) -> (length q <= 2)%nat).
  { intros top l q [H|H]; [injection H as <-; cbn; lia|]. apply in_map_iff in H as (c & H & _). injection H as <-. cbn. lia. }
  intros q H. apply in_app_iff in H as [H|H]; eapply X; exact H.
Qed.

(** What a start makes. *)
Lemma start_dirs : forall fresh a d q, In (AMkdir q) (fst (boot' fresh a d)) ->
  (q = [] /\ fget base d = None) \/
  (In (AMkdir q) netdb_dirs /\ (fget base d = None \/ fget (base ++ [lit "netDb"]) d = None)) \/ In (AMkdir q) profile_dirs.
Proof.
  clear ser gunzip. intros fresh a d q I. destruct (fget base d) as [n|] eqn:B.
  - rewrite (boot_eq _ _ _ _ _ _ base fresh a d _ B) in I.
    assert (G : forall w, (forall x, In x w -> exists nm c, x = AWrite nm c) -> In (AMkdir q) (dirs_of base d ++ keys_of base fresh d ++ w) ->
              (In (AMkdir q) netdb_dirs /\ fget (base ++ [lit "netDb"]) d = None) \/ In (AMkdir q) profile_dirs).
    { intros w Hw X. apply in_app_iff in X as [X|X].
      - unfold dirs_of in X. apply in_app_iff in X as [X|X]; [left|right];
          match type of X with context [fget ?p d] => destruct (fget p d) eqn:Fd end; try (destruct (in_nil X)); [split; [exact X|first [exact Fd|reflexivity]]|exact X].
      - exfalso. apply in_app_iff in X as [X|X].
        + unfold keys_of in X. repeat rewrite in_app_iff in X. destruct X as [X|[X|[X|X]]]; apply w_in in X; discriminate.
        + apply Hw in X as (nm & c & X). discriminate. }
    assert (W1 : forall x, In x [AWrite F_TOML deflt_toml] -> exists nm c, x = AWrite nm c) by (intros x [<-|[]]; eauto).
    assert (W0 : forall x : act, In x [] -> exists nm c, x = AWrite nm c) by (intros x []).
    right. destruct (load_toml parse_toml base d); [|destruct (overwrite a)|]; cbn [fst] in I;
      apply G in I; try assumption; (destruct I as [[I1 I2]|I]; [left; split; [exact I1|right; exact I2]|right; exact I]).
  - rewrite (boot_new _ _ _ _ _ _ base fresh a d B) in I. cbn [fst In] in I. destruct I as [I|I]; [left; split; [congruence|reflexivity]|].
    right. apply in_app_iff in I as [I|I]; [left; auto|]. right. apply in_app_iff in I as [I|I]; [exact I|].
    cbn [In] in I. repeat (destruct I as [I|I]; [discriminate|]). destruct I.
Qed.

Lemma event_short : forall d e q, In (AMkdir q) (acts' d e) -> (length q <= 2)%nat.
Proof.
  intros d e q I. destruct e as [fresh a stop|l stop|l stop|c stop]; cbn [acts_of] in I.
  - apply start_dirs in I as [[-> _]|[[I _]|I]]; [cbn; lia| |]; apply short_dirs, in_app_iff; [left|right]; exact I.
  - apply reseed_names in I as (? & ? & ? & _ & _ & E & _). discriminate.
  - destruct (save_no_mkdir ser gunzip l q I).
  - destruct I as [E|[]]. discriminate.
Qed.

Lemma ready_step : forall d e, ready base d -> ready base (fst (happen' d e)).
Proof.
  intros d e R. rewrite disk'. apply ready_acts; [exact R|]. intros q I. apply halfway_in in I as (a' & I & _ & E).
  rewrite (E q eq_refl) in I. exact (event_short d e q I).
Qed.

Lemma nothing_sane : forall d, nothing base d -> sane base d.
Proof.
  intros d H. split.
  - intros c X. specialize (H []). rewrite app_nil_r in H. congruence.
  - intros n _ X. rewrite H in X. discriminate.
Qed.

Lemma ready_first : forall d fresh a, nothing base d -> event_ok (Start fresh a None) -> ready base (fst (happen' d (Start fresh a None))).
Proof.
  intros d fresh a H Ok. rewrite disk'. cbn [acts_of stop_of halfway].
  assert (B : fget base d = None) by (specialize (H []); rewrite app_nil_r in H; exact H).
  assert (Mk : forall q, In (AMkdir q) (AMkdir [] :: netdb_dirs ++ profile_dirs) -> fget (base ++ q) (do_acts base d (fst (boot' fresh a d))) = Some Dir).
  { intros q I. apply made_dir.
    - rewrite (boot_new _ _ _ _ _ _ base fresh a d B). cbn [fst]. rewrite app_assoc. destruct I as [I|I]; [left; exact I|right; apply in_app_iff; left; exact I].
    - intros c X. rewrite H in X. discriminate.
    - intros x name d' p Ix Nm T X. assert (Mq : made q).
      { destruct I as [I|I]; [injection I as <-; left; reflexivity|apply dirs_made; exact I]. }
      apply boot_acts in Ix as [(q' & -> & _)|(n & c & -> & O)]; [discriminate|]. injection Nm as <-.
      destruct (own_plain n O) as [P Sl]. pose proof (target_plain _ _ _ _ P Sl T) as E. rewrite E in X. apply app_inj in X.
      exact (made_own q n Mq O X). }
  split; [pose proof (Mk [] (or_introl eq_refl)) as X; rewrite app_nil_r in X; exact X|]. split.
  - intros top l Ht. assert (Sub : forall x, In x (mkdirs top l) -> In x (AMkdir [] :: netdb_dirs ++ profile_dirs)).
    { intros x X. right. apply in_app_iff. destruct Ht as [[-> ->]|[-> ->]]; [left|right]; exact X. }
    split; [apply Mk, Sub; left; reflexivity|]. intros c Ic. apply Mk, Sub. right. apply in_map_iff. exists c. auto.
  - intros x y z. apply not_dir; [rewrite H; discriminate|]. intros q I X. apply app_inj in X. subst q.
    pose proof (event_short d (Start fresh a None) _ I) as L. cbn in L. lia.
Qed.

(** ** Names of profiles *)
Definition named_ok (d : fs) : Prop :=
  forall q n s f, In (q, n) d -> n <> Dir -> q = base ++ [lit "peerProfiles"; s; f] -> name_of q <> Panics.


Lemma named_step : clean_base base -> forall d e, named_ok d -> proper_event e -> named_ok (fst (happen' d e)).
Proof.
  intros C d e H [Ok Pr] q n s f I Nd E. rewrite disk' in I. apply acts_added in I as [I|[I|(a & name & d' & Ia & Nm & T)]]; [exact (H q n s f I Nd E)|congruence|].
  apply halfway_in in Ia as (a' & Ia & En & _). rewrite Nm in En.
  destruct e as [fresh ar stop|l stop|l stop|c stop].
  - destruct (target' d _ a' name d' q Ok Ia En T) as [(m & c & _ & X & _)|(top & s' & r & _ & X & _)].
    + rewrite X in E. apply app_inj in E. discriminate.
    + exfalso. cbn [acts_of] in Ia. apply boot_acts in Ia as [(q' & -> & _)|(m & c & -> & O)]; [discriminate|]. injection En as <-.
      destruct (own_plain m O) as [P Sl]. pose proof (target_plain _ _ _ _ P Sl T) as X'. rewrite X' in X. apply app_inj in X. discriminate.
  - cbn [acts_of] in Ia. apply reseed_names in Ia as (c & id & x & Ix & Ex & -> & _). injection En as <-. cbn [event_ok] in Ok.
    specialize (Ok x Ix). rewrite Ex in Ok. apply info_below in T as (s' & r & X & _); [|exact Ok]. rewrite X in E. apply app_inj in E. discriminate.
  - cbn [acts_of] in Ia. apply save_names in Ia as (c & id & i & p & Ii & Hc & _ & Sh). specialize (Pr _ _ _ Ii). subst c.
    destruct Sh as [(x & ->)| ->]; injection En as <-.
    + apply info_target in T; [|exact Pr]. rewrite T in E. apply app_inj in E. discriminate.
    + apply prof_target in T; [|exact Pr]. rewrite T, (name_pfile base id C Pr). discriminate.
  - destruct (target' d _ a' name d' q Ok Ia En T) as [(m & c' & _ & X & _)|(top & s' & r & _ & X & _)].
    + rewrite X in E. apply app_inj in E. discriminate.
    + exfalso. destruct Ia as [<-|[]]. injection En as <-. assert (O : In F_INFO own_files) by (cbn; tauto).
      destruct (own_plain _ O) as [P Sl]. pose proof (target_plain _ _ _ _ P Sl T) as X'. rewrite X' in X. apply app_inj in X. discriminate.
Qed.

Lemma under_some : forall b q r, under b q = Some r -> q = b ++ r.
Proof.
  clear. induction b as [|x b IH]; intros q r H; [destruct q; cbn in H; cbn [app]; congruence|]. destruct q as [|y q]; [discriminate|]. cbn [under] in H.
  destruct (beq x y) eqn:E; [|discriminate]. apply beq_eq in E. subst y. cbn [app]. f_equal. apply IH. exact H.
Qed.

Lemma named_loads : forall de d, named_ok d -> load_profiles de base d <> None.
Proof.
  intros de d H. unfold load_profiles.
  assert (G : forall l, (forall p c, In (p, c) l -> name_of p <> Panics) -> read_profiles de l <> None).
  { clear. induction l as [|[p c] l IH]; intros H; [discriminate|]. cbn [read_profiles].
    assert (H' : read_profiles de l <> None) by (apply IH; intros p' c' I; apply (H p' c'); right; exact I).
    destruct (de c); [|exact H']. specialize (H p c (or_introl eq_refl)).
    destruct (name_of p); [|congruence|]; (destruct (read_profiles de l); [discriminate|congruence]). }
  apply G. intros p c I. unfold files_in in I. apply in_flat_map in I as ([q n] & Iq & I). cbn [fst snd] in I.
  destruct n as [|x]; [destruct I|]. destruct (under _ q) as [[|s [|f [|? ?]]]|] eqn:U; try (exfalso; exact I).
  match type of I with context [fget ?w d] => destruct (fget w d) as [[|]|] end; try (exfalso; exact I).
  destruct I as [I|[]]. injection I as -> ->. apply (H p (File c) s f Iq); [discriminate|].
  apply under_some in U. rewrite <- app_assoc in U. exact U.
Qed.

(** ** A directory that is never made *)
Definition TILDE : path := [lit "netDb"; lit "r~"].
Definition lost (d : fs) : Prop :=
  fget base d = Some Dir /\ fget (base ++ [lit "netDb"]) d = Some Dir /\ forall r, fget ((base ++ TILDE) ++ r) d = None.

Lemma lost_step : forall d e, lost d -> event_ok e -> lost (fst (happen' d e)).
Proof.
  intros d e (L1 & L2 & L3) Ok. rewrite disk'. split; [apply acts_dir; exact L1|]. split; [apply acts_dir; exact L2|].
  apply none_acts; [exact L3| |].
  - intros a name d' r I Nm T. apply halfway_in in I as (a' & I & En & _). rewrite Nm in En.
    destruct (target' d e a' name d' _ Ok I En T) as [(m & c & _ & X & _)|(top & s & r' & _ & X & _ & F)];
      rewrite <- app_assoc in X; apply app_inj in X; [discriminate|]. injection X as <- <- _. exact F.
  - intros q r I X. apply halfway_in in I as (a' & I & _ & E). rewrite (E q eq_refl) in I. clear E. rewrite <- app_assoc in X. apply app_inj in X.
    destruct e as [fresh a stop|l stop|l stop|c stop].
    + cbn [acts_of] in I. apply start_dirs in I as [[-> _]|[[_ [I|I]]|I]]; [discriminate|congruence| |].
      * assert (Z : Some Dir = None) by (rewrite <- L2; exact I). discriminate.
      * subst q. destruct I as [I|I]; [discriminate|]. apply in_map_iff in I as (c & I & _). discriminate.
    + apply reseed_names in I as (? & ? & ? & _ & _ & E & _). discriminate.
    + destruct (save_no_mkdir ser gunzip l q I).
    + destruct I as [I|[]]. discriminate.
Qed.

Lemma lost_first : forall d fresh a, nothing base d -> lost (fst (happen' d (Start fresh a (Some (65%nat, 0%nat))))).
Proof.
  intros d fresh a H. rewrite disk'. cbn [acts_of stop_of].
  assert (B : fget base d = None) by (specialize (H []); rewrite app_nil_r in H; exact H).
  rewrite (boot_new _ _ _ _ _ _ base fresh a d B). cbn [fst].
  assert (Ha : halfway (AMkdir [] :: netdb_dirs ++ profile_dirs ++
       [AWrite F_STATIC (k_static fresh); AWrite F_SIGNING (k_signing fresh);
        AWrite F_NTCP2 (k_ntcp2 fresh); AWrite F_SSU2 (k_ssu2 fresh); AWrite F_TOML deflt_toml]) (Some (65%nat, 0%nat)) = AMkdir [] :: firstn 64 netdb_dirs).
  { cbn [halfway]. reflexivity. }
  rewrite Ha. set (acts := AMkdir [] :: firstn 64 netdb_dirs).
  assert (NW : forall a' name, In a' acts -> name_of_act a' = Some name -> False).
  { intros a' name [<-|I] Nm; [discriminate|]. assert (I' : In a' netdb_dirs) by (rewrite <- (firstn_skipn 64 netdb_dirs); apply in_app_iff; left; exact I).
    destruct I' as [<-|I']; [discriminate|]. apply in_map_iff in I' as (c & <- & _). discriminate. }
  assert (Mk : forall q, In (AMkdir q) acts -> fget (base ++ q) (do_acts base d acts) = Some Dir).
  { intros q I. apply made_dir; [exact I|intros c X; rewrite H in X; discriminate|]. intros a' name d' p I' Nm. destruct (NW a' name I' Nm). }
  split; [pose proof (Mk [] (or_introl eq_refl)) as X; rewrite app_nil_r in X; exact X|].
  split; [apply Mk; right; left; reflexivity|].
  apply none_acts; [intros r; rewrite <- app_assoc; apply H|intros a' name d' r I Nm; destruct (NW a' name I Nm)|].
  intros q r I X. rewrite <- app_assoc in X. apply app_inj in X. subst q. destruct I as [I|I]; [discriminate|].
  assert (Z : forallb (fun x => match x with AMkdir (_ :: y :: _) => negb (beq y (lit "r~")) | _ => true end) (firstn 64 netdb_dirs) = true) by (vm_compute; reflexivity).
  rewrite forallb_forall in Z. specialize (Z _ I). cbn in Z. discriminate.
Qed.

(** ** Configuration *)
Lemma boot_valid : forall fresh a d t c, configured base t d -> parse_toml t = Valid c ->
  boot' fresh a d = (dirs_of base d ++ keys_of base fresh d ++ [], if tunnels_ok c then Some (picked base fresh d, merge c a) else None).
Proof.
  intros fresh a d t c [B T] P. rewrite (boot_eq _ _ _ _ _ _ base fresh a d _ B).
  assert (L : load_toml parse_toml base d = Valid c).
  { unfold load_toml. match goal with |- context [fget ?w d] => replace (fget w d) with (Some (File t)) by (symmetry; exact T) end. exact P. }
  rewrite L. reflexivity.
Qed.

Lemma no_toml : forall d fresh x, ~ In (AWrite F_TOML x) (dirs_of base d ++ keys_of base fresh d ++ []).
Proof.
  intros d fresh x X. apply in_app_iff in X as [X|X].
  - unfold dirs_of in X. apply in_app_iff in X as [X|X]; match type of X with context [fget ?p d] => destruct (fget p d) end;
      try (destruct (in_nil X)); (destruct X as [X|X]; [discriminate|]; apply in_map_iff in X as (c & X & _); discriminate).
  - rewrite app_nil_r in X. unfold keys_of in X. repeat rewrite in_app_iff in X. destruct X as [X|[X|[X|X]]]; apply w_in in X; discriminate.
Qed.

Lemma toml_other : forall d e x, match e with Start _ _ _ => False | _ => True end -> ~ In (AWrite F_TOML x) (acts' d e).
Proof.
  intros d [fresh a stop|l stop|l stop|c stop] x H I; [exact H| | |]; cbn [acts_of] in I.
  - apply reseed_names in I as (? & ? & ? & _ & _ & E & _). discriminate.
  - apply save_names in I as (? & ? & ? & ? & _ & _ & _ & [(y & E)|E]); discriminate.
  - destruct I as [I|[]]. discriminate.
Qed.

Lemma configured_step : forall t c d e, configured base t d -> parse_toml t = Valid c -> event_ok e -> configured base t (fst (happen' d e)).
Proof.
  intros t c d e Cf P Ok. destruct Cf as [B T]. split; [apply base_step; exact B|].
  rewrite own_other; [exact T|exact Ok|cbn; tauto|]. intros x I.
  destruct e as [fresh a stop|l stop|l stop|y stop]; [|apply toml_other in I; [exact I|exact Logic.I]..].
  cbn [acts_of] in I. rewrite (boot_valid fresh a d t c (conj B T) P) in I. apply no_toml in I. exact I.
Qed.

(** The same for text that is not a configuration, if nobody asks to overwrite it. *)
Lemma invalid_step : forall t d e, configured base t d -> parse_toml t = Invalid -> event_ok e ->
  match e with Start _ a _ => overwrite a = false | _ => True end ->
  configured base t (fst (happen' d e)) /\ snd (happen' d e) = None.
Proof.
  intros t d e Cf P Ok Ov. destruct Cf as [B T].
  assert (Bo : forall fresh a, overwrite a = false -> boot' fresh a d = (dirs_of base d ++ keys_of base fresh d ++ [], None)).
  { intros fresh a O. rewrite (boot_eq _ _ _ _ _ _ base fresh a d _ B).
    assert (L : load_toml parse_toml base d = Invalid).
    { unfold load_toml. match goal with |- context [fget ?w d] => replace (fget w d) with (Some (File t)) by (symmetry; exact T) end. exact P. }
    rewrite L, O. reflexivity. }
  split.
  - split; [apply base_step; exact B|]. rewrite own_other; [exact T|exact Ok|cbn; tauto|]. intros x I.
    destruct e as [fresh a stop|l stop|l stop|y stop]; [|apply toml_other in I; [exact I|exact Logic.I]..].
    cbn [acts_of] in I. rewrite (Bo fresh a Ov) in I. apply no_toml in I. exact I.
  - destruct e as [fresh a stop|l stop|l stop|y stop]; try reflexivity. cbn [happen]. rewrite (Bo fresh a Ov). destruct stop; reflexivity.
Qed.
End Life.
