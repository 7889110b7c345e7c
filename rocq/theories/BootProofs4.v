(** * Proofs about routers and profiles: stored, found again and named *)
From Coq Require Import String.
From Coq Require Import List NArith Bool Arith Lia.
From Verif Require Import Bytes ReseedModel ReseedSpec ReseedProofs SamModel BootModel BootSpec BootProofs BootProofs2 BootProofs3.
Import ListNotations.
Open Scope N_scope.

(** ** Finding a name in a path *)
Lemma prefix_split : forall pat A B r, A ++ 47 :: B = pat ++ r -> ~ In 47 pat -> exists A', A = pat ++ A'.
Proof.
  induction pat as [|x pat IH]; intros A B r E S; [exists A; reflexivity|].
  destruct A as [|y A]; cbn [app] in E.
  - injection E as <- _. destruct S. left. reflexivity.
  - injection E as <- E. apply IH in E as (A' & ->); [|intros X; apply S; right; exact X]. exists A'. reflexivity.
Qed.

Lemma find_skip : forall pat A B, pat <> [] -> ~ In 47 pat -> ~ occurs pat A ->
  find_at pat (A ++ 47 :: B) = option_map (plus (S (length A))) (find_at pat B).
Proof.
  intros pat A B Ne S. induction A as [|a A IH]; intros Oc.
  - cbn [app length find_at]. destruct (strip pat (47 :: B)) as [r|] eqn:E.
    + apply strip_some in E. destruct pat as [|x pat]; [congruence|]. injection E as <- _. destruct S. left. reflexivity.
    + destruct (find_at pat B); reflexivity.
  - change ((a :: A) ++ 47 :: B) with (a :: A ++ 47 :: B). cbn [find_at length]. destruct (strip pat (a :: A ++ 47 :: B)) as [r|] eqn:E.
    + apply strip_some in E. change (a :: A ++ 47 :: B) with ((a :: A) ++ 47 :: B) in E. apply prefix_split in E as (A' & E); [|exact S].
      destruct Oc. exists [], A'. exact E.
    + rewrite IH; [destruct (find_at pat B); reflexivity|]. intros (u & v & ->). apply Oc. exists (a :: u), v. reflexivity.
Qed.

Lemma find_path : forall pat b f, pat <> [] -> ~ In 47 pat -> (forall x, In x b -> ~ occurs pat x) ->
  find_at pat (path_str (b ++ [f])) = option_map (plus (length (path_str b))) (find_at pat (path_str [f])).
Proof.
  intros pat b f Ne Sl H. induction b as [|x b IH]; [cbn [app path_str length]; destruct (find_at pat _); reflexivity|].
  specialize (IH (fun y Y => H y (or_intror Y))).
  assert (Sh : exists R, path_str (b ++ [f]) = 47 :: R) by (destruct b as [|y b]; eexists; reflexivity). destruct Sh as (R & ER).
  assert (F1 : find_at pat (47 :: R) = option_map S (find_at pat R)).
  { exact (find_skip pat [] R Ne Sl (fun O => match O with ex_intro _ u (ex_intro _ v E) =>
      match Ne (proj1 (app_eq_nil _ _ (proj2 (app_eq_nil _ _ (eq_sym E))))) with end end)). }
  change (path_str ((x :: b) ++ [f])) with ((47 :: x) ++ path_str (b ++ [f])). rewrite ER, find_skip; [|exact Ne|exact Sl|].
  - rewrite ER, F1 in IH. remember (find_at pat (path_str [f])) as o eqn:Eo. clear Eo. cbn [path_str length]. rewrite app_length.
    destruct (find_at pat R) as [n|]; destruct o as [m|]; cbn [option_map] in *; try discriminate; [|reflexivity].
    injection IH as IH. f_equal. cbn [length] in *. lia.
  - intros (u & v & E). destruct u as [|y u]; cbn [app] in E.
    + destruct pat as [|z pat]; [congruence|]. injection E as <- _. apply Sl. left. reflexivity.
    + injection E as _ E. apply (H x (or_introl eq_refl)). exists u, v. exact E.
Qed.

Lemma find_first : forall x p A r, ~ In x A -> find_at (x :: p) (A ++ (x :: p) ++ r) = Some (length A).
Proof.
  intros x p A r H. induction A as [|a A IH].
  - cbn [app length]. assert (E : strip (x :: p) (x :: p ++ r) = Some r) by (apply strip_some; reflexivity).
    unfold find_at. rewrite E. reflexivity.
  - change ((a :: A) ++ (x :: p) ++ r) with (a :: (A ++ (x :: p) ++ r)). cbn [find_at].
    destruct (strip (x :: p) (a :: A ++ (x :: p) ++ r)) eqn:E.
    + apply strip_some in E. injection E as -> _. destruct H. left. reflexivity.
    + rewrite IH; [reflexivity|]. intros X. apply H. right. exact X.
Qed.

Lemma path_str_app : forall a b, path_str (a ++ b) = path_str a ++ path_str b.
Proof. induction a as [|x a IH]; intros b; [reflexivity|]. cbn [app path_str]. rewrite IH, <- app_assoc. reflexivity. Qed.

Lemma name_of_profile : forall b id, (forall x, In x b -> ~ occurs PROFILE x /\ ~ occurs TOML x) -> ~ In 46 id ->
  name_of (b ++ [PROFILE ++ id ++ TOML]) = Name id.
Proof.
  intros b id H Nd. unfold name_of. fold PROFILE. fold TOML.
  assert (S1 : ~ In 47 PROFILE) by (intros X; cbn in X; intuition discriminate).
  assert (S2 : ~ In 47 TOML) by (intros X; cbn in X; intuition discriminate).
  rewrite (find_path PROFILE), (find_path TOML); [|discriminate|exact S2|intros x X; apply H; exact X|discriminate|exact S1|intros x X; apply H; exact X].
  set (L := length (path_str b)).
  assert (E1 : find_at PROFILE (path_str [PROFILE ++ id ++ TOML]) = Some 1%nat).
  { change (path_str [PROFILE ++ id ++ TOML]) with ([47] ++ ((PROFILE ++ id ++ TOML) ++ [])). rewrite <- app_assoc.
    apply (find_first 112). intros [X|[]]; discriminate. }
  assert (E2 : find_at TOML (path_str [PROFILE ++ id ++ TOML]) = Some (9 + length id)%nat).
  { assert (Ep : path_str [PROFILE ++ id ++ TOML] = (47 :: PROFILE ++ id) ++ TOML ++ []) by (cbn [path_str app]; rewrite <- !app_assoc; reflexivity).
    rewrite Ep. change TOML with (46 :: [116; 111; 109; 108]) at 1. unfold TOML. 
    change (lit ".toml") with (46 :: [116; 111; 109; 108]). rewrite find_first; [reflexivity|].
    intros [X|X]; [discriminate|]. apply in_app_iff in X as [X|X]; [|exact (Nd X)]. cbn in X. intuition discriminate. }
  change str with (list N). rewrite E1, E2. cbn [option_map].
  replace (Nat.leb (L + 1 + 8) (L + (9 + length id))) with true by (symmetry; apply Nat.leb_le; lia).
  replace (L + (9 + length id) - (L + 1 + 8))%nat with (length id) by lia. f_equal.
  rewrite path_str_app. replace (L + 1 + 8)%nat with (length (path_str b ++ 47 :: PROFILE)) by (rewrite app_length; unfold L; cbn [length PROFILE]; change (length PROFILE) with 8%nat; lia).
  assert (Ep : path_str b ++ path_str [PROFILE ++ id ++ TOML] = (path_str b ++ 47 :: PROFILE) ++ id ++ TOML ++ []).
  { cbn [path_str]. rewrite <- !app_assoc. reflexivity. }
  rewrite Ep. rewrite skipn_app, skipn_all, Nat.sub_diag. cbn [app skipn]. rewrite firstn_app, firstn_all, Nat.sub_diag.
  cbn [firstn]. apply app_nil_r.
Qed.

(** ** Names of three parts *)
Lemma target_three : forall base t s f d q, plain t -> ~ In 47 t -> plain s -> ~ In 47 s -> plain f -> ~ In 47 f ->
  target base (t ++ 47 :: s ++ 47 :: f) d = Some q -> q = base ++ [t; s; f].
Proof.
  intros base t s f d q P1 S1 P2 S2 P3 S3 T. unfold target in T. rewrite pieces_app, pieces_app, pieces_one in T by assumption.
  destruct (walk d base _) as [q'|] eqn:W; [|discriminate].
  apply walk_plain_inv in W as [_ W]; [|exact P1]. apply walk_plain_inv in W as [_ W]; [|exact P2]. apply walk_plain_inv in W as [_ W]; [|exact P3].
  cbn [walk] in W. injection W as <-. rewrite <- !app_assoc in T. cbn [app] in T.
  destruct (fget _ d) as [[|]|]; congruence.
Qed.

Lemma walk_three : forall base t s f d, plain t -> ~ In 47 t -> plain s -> ~ In 47 s -> plain f -> ~ In 47 f ->
  fget base d = Some Dir -> fget (base ++ [t]) d = Some Dir -> fget (base ++ [t; s]) d = Some Dir ->
  walk d base (pieces (t ++ 47 :: s ++ 47 :: f)) = Some (base ++ [t; s; f]).
Proof.
  intros base t s f d P1 S1 P2 S2 P3 S3 F1 F2 F3. rewrite pieces_app, pieces_app, pieces_one by assumption.
  rewrite (walk_plain _ _ _ _ P1 F1), (walk_plain _ _ _ _ P2 F2), walk_plain; [|exact P3|rewrite <- app_assoc; exact F3].
  cbn [walk]. rewrite <- !app_assoc. reflexivity.
Qed.

Lemma proper_hd : forall id, proper id -> hd 0 id <> 47.
Proof. intros [|c id] (A & B & C); [congruence|]. cbn [hd]. intros ->. apply B. left. reflexivity. Qed.

Lemma not_ends : forall id, ~ In 46 id -> ends_with (lit ".dat") id = false.
Proof.
  intros id H. unfold ends_with. destruct (Nat.leb _ _); [|reflexivity]. cbn [andb].
  destruct (beq _ _) eqn:E; [|reflexivity]. apply beq_eq in E. destruct H.
  rewrite <- (firstn_skipn (length id - length (lit ".dat")) id), E. apply in_app_iff. right. left. reflexivity.
Qed.

Lemma info_shape : forall id, proper id -> info_name (hd 0 id) id =
  lit "netDb" ++ 47 :: [114; hd 0 id] ++ 47 :: (lit "routerInfo-" ++ id ++ lit ".dat").
Proof. intros id (A & B & C). unfold info_name. rewrite (not_ends id C). reflexivity. Qed.
Lemma prof_shape : forall id, lit "peerProfiles/p" ++ [hd 0 id] ++ lit "/profile-" ++ id ++ lit ".toml" =
  lit "peerProfiles" ++ 47 :: [112; hd 0 id] ++ 47 :: (PROFILE ++ id ++ TOML).
Proof. reflexivity. Qed.

Lemma sub_plain : forall l c, l <> 46 -> l <> 47 -> c <> 47 -> plain [l; c] /\ ~ In 47 [l; c].
Proof. intros l c A B C. split; [split; [discriminate|split; congruence]|]. intros [X|[X|[]]]; congruence. Qed.

Lemma file_plain : forall x y z r id sfx, ~ In 47 (x :: y :: z :: r) -> ~ In 47 id -> ~ In 47 sfx ->
  plain ((x :: y :: z :: r) ++ id ++ sfx) /\ ~ In 47 ((x :: y :: z :: r) ++ id ++ sfx).
Proof.
  intros x y z r id sfx A B C. split; [split; [discriminate|split; discriminate]|].
  intros X. apply in_app_iff in X as [X|X]; [exact (A X)|]. apply in_app_iff in X as [X|X]; [exact (B X)|exact (C X)].
Qed.

Lemma ifile_plain : forall id, proper id -> plain (lit "routerInfo-" ++ id ++ lit ".dat") /\ ~ In 47 (lit "routerInfo-" ++ id ++ lit ".dat").
Proof.
  intros id (A & B & C). apply (file_plain 114 111 117); [| |]; try exact B; intros X; cbn in X; intuition discriminate.
Qed.
Lemma pfile_plain : forall id, proper id -> plain (PROFILE ++ id ++ TOML) /\ ~ In 47 (PROFILE ++ id ++ TOML).
Proof.
  intros id (A & B & C). apply (file_plain 112 114 111); [| |]; try exact B; intros X; cbn in X; intuition discriminate.
Qed.

Lemma info_target : forall base id d q, proper id -> target base (info_name (hd 0 id) id) d = Some q -> q = base ++ ifile id.
Proof.
  intros base id d q P T. rewrite info_shape in T by exact P. destruct plain_netdb as [A B].
  destruct (sub_plain 114 (hd 0 id)) as [C D]; [discriminate|discriminate|apply proper_hd; exact P|]. destruct (ifile_plain id P).
  eapply target_three; [..|exact T]; assumption.
Qed.
Lemma prof_target : forall base id d q, proper id ->
  target base (lit "peerProfiles/p" ++ [hd 0 id] ++ lit "/profile-" ++ id ++ lit ".toml") d = Some q -> q = base ++ pfile id.
Proof.
  intros base id d q P T. rewrite prof_shape in T. destruct plain_profiles as [A B].
  destruct (sub_plain 112 (hd 0 id)) as [C D]; [discriminate|discriminate|apply proper_hd; exact P|]. destruct (pfile_plain id P).
  eapply target_three; [..|exact T]; assumption.
Qed.

(** The directories of a router are there. *)
Definition ready (base : path) (d : fs) : Prop :=
  fget base d = Some Dir /\
  (forall top l, (top = lit "netDb" /\ l = 114) \/ (top = lit "peerProfiles" /\ l = 112) ->
     fget (base ++ [top]) d = Some Dir /\ forall c, In c LETTERS -> fget (base ++ [top; [l; c]]) d = Some Dir) /\
  forall a b c, fget (base ++ [a; b; c]) d <> Some Dir.

Lemma info_walk : forall base id d, proper id -> In (hd 0 id) LETTERS -> ready base d ->
  walk d base (pieces (info_name (hd 0 id) id)) = Some (base ++ ifile id).
Proof.
  intros base id d P Il (R1 & R2 & R3). rewrite info_shape by exact P. destruct plain_netdb as [A B].
  destruct (sub_plain 114 (hd 0 id)) as [C D]; [discriminate|discriminate|apply proper_hd; exact P|]. destruct (ifile_plain id P).
  destruct (R2 (lit "netDb") 114) as [R4 R5]; [auto|]. apply walk_three; auto.
Qed.
Lemma prof_walk : forall base id d, proper id -> In (hd 0 id) LETTERS -> ready base d ->
  walk d base (pieces (lit "peerProfiles/p" ++ [hd 0 id] ++ lit "/profile-" ++ id ++ lit ".toml")) = Some (base ++ pfile id).
Proof.
  intros base id d P Il (R1 & R2 & R3). rewrite prof_shape. destruct plain_profiles as [A B].
  destruct (sub_plain 112 (hd 0 id)) as [C D]; [discriminate|discriminate|apply proper_hd; exact P|]. destruct (pfile_plain id P).
  destruct (R2 (lit "peerProfiles") 112) as [R4 R5]; [auto|]. apply walk_three; auto.
Qed.

Lemma ready_acts : forall base acts d, ready base d -> (forall q, In (AMkdir q) acts -> (length q <= 2)%nat) -> ready base (do_acts base d acts).
Proof.
  intros base acts d (R1 & R2 & R3) M. split; [apply acts_dir; exact R1|]. split.
  - intros top l H. destruct (R2 top l H) as [A B]. split; [apply acts_dir; exact A|]. intros c Ic. apply acts_dir. exact (B c Ic).
  - intros a b c. apply not_dir; [apply R3|]. intros q I X. apply app_inj in X. apply M in I. subst q. cbn in I. lia.
Qed.

Lemma create_at : forall base name c d q, walk d base (pieces name) = Some q -> fget q d <> Some Dir -> create base name c d = fput q (File c) d.
Proof. intros base name c d q W F. unfold create. rewrite W. destruct (fget q d) as [[|]|]; congruence. Qed.

Lemma in_files : forall base top s f c d, fget (base ++ [top; s; f]) d = Some (File c) -> fget (base ++ [top; s]) d = Some Dir ->
  In (base ++ [top; s; f], c) (files_in base top d).
Proof.
  intros base top s f c d H D. unfold files_in. apply in_flat_map. exists (base ++ [top; s; f], File c).
  split; [apply fget_in; exact H|]. cbn [fst snd].
  assert (U : forall b r, under b (b ++ r) = Some r).
  { clear. induction b as [|x b IH]; intros r; [reflexivity|]. cbn [app under]. rewrite beq_refl. apply IH. }
  pose proof (U (base ++ [top]) [s; f]) as E. rewrite <- app_assoc in E. cbn [app] in E.
  match goal with |- context [under ?x ?y] => change (under x y) with (under (base ++ [top]) (base ++ [top; s; f])) end.
  rewrite E. match goal with |- context [fget ?p d] => replace (fget p d) with (Some Dir) by (symmetry; exact D) end. left. reflexivity.
Qed.

Lemma ifile_inj : forall a b, ifile a = ifile b -> a = b.
Proof.
  intros a b H. unfold ifile in H. injection H as _ H. repeat injection H as H. eapply app_inv_tail. exact H.
Qed.
Lemma pfile_inj : forall a b, pfile a = pfile b -> a = b.
Proof.
  intros a b H. unfold pfile in H. injection H as _ H. unfold PROFILE in H. eapply app_inv_tail. exact H.
Qed.

(** ** What saving leaves *)
Lemma present_act : forall base a d p, fget p d <> None -> fget p (do_act base d a) <> None.
Proof.
  intros base a d p H. assert (P : forall q n, fget p (fput q n d) <> None).
  { intros q n. destruct (list_eq_dec (list_eq_dec N.eq_dec) p q) as [->|X]; [rewrite fget_put_same; discriminate|rewrite fget_put_other by exact X; exact H]. }
  assert (C : forall n c, fget p (create base n c d) <> None).
  { intros n c. rewrite create_target. destruct (target base n d); [apply P|exact H]. }
  destruct a as [q|n c|o n c]; cbn [do_act]; [destruct (fget (base ++ q) d); [exact H|apply P]|apply C|destruct (exists_at base o d); [apply C|exact H]].
Qed.
Lemma present_acts : forall base acts d p, fget p d <> None -> fget p (do_acts base d acts) <> None.
Proof.
  intros base. induction acts as [|a acts IH]; intros d p H; [exact H|]. apply (IH (do_act base d a)), present_act, H.
Qed.

Section Saved.
Context (ser : fprof -> list N) (gunzip : list N -> option (list N)).
Notation save := (save_acts ser gunzip).

Lemma save_no_mkdir : forall l q, ~ In (AMkdir q) (save l).
Proof. intros l q I. apply save_names in I as (? & ? & ? & ? & _ & _ & _ & [(x & E)|E]); discriminate. Qed.

Lemma ready_save : forall base l d, ready base d -> ready base (do_acts base d (save l)).
Proof. intros base l d R. apply ready_acts; [exact R|]. intros q I. destruct (save_no_mkdir l q I). Qed.

(** Routers that are not in the list keep what they have. *)
Lemma save_other : forall base l d id, (forall id' i p, In (id', i, p) l -> proper id' /\ id' <> id) ->
  fget (base ++ ifile id) (do_acts base d (save l)) = fget (base ++ ifile id) d /\
  fget (base ++ pfile id) (do_acts base d (save l)) = fget (base ++ pfile id) d.
Proof.
  intros base l d id H. split; apply acts_other; try (intros q I; destruct (save_no_mkdir l q I));
    intros a name d' q I Nm T X; apply save_names in I as (c & id' & i & p & I & Hc & Ne & Sh); destruct (H _ _ _ I) as [Pr Df]; subst c;
    destruct Sh as [(x & ->)| ->]; injection Nm as <-;
    first [apply info_target in T; [|exact Pr]|apply prof_target in T; [|exact Pr]]; rewrite T in X; apply app_inj in X.
  - apply ifile_inj in X. congruence.
  - discriminate.
  - discriminate.
  - apply pfile_inj in X. congruence.
Qed.

Lemma save_app : forall a b, save (a ++ b) = save a ++ save b.
Proof. intros. unfold save_acts. apply flat_map_app. Qed.

Lemma saved_files : forall base l d id i p, ready base d -> routers_ok l -> NoDup (map (fun x => fst (fst x)) l) -> In (id, i, p) l ->
  let d' := do_acts base d (save l) in
  (forall z x, i = Some z -> gunzip z = Some x -> fget (base ++ ifile id) d' = Some (File x)) /\
  ((exists z x, i = Some z /\ gunzip z = Some x) \/ fget (base ++ ifile id) d <> None ->
     fget (base ++ pfile id) d' = Some (File (ser (to_file p)))) /\
  (~ (exists z x, i = Some z /\ gunzip z = Some x) -> fget (base ++ ifile id) d = None ->
     fget (base ++ pfile id) d' = fget (base ++ pfile id) d /\ fget (base ++ ifile id) d' = None).
Proof.
  intros base l d id i p R Ok Nd I. cbv zeta. apply in_split in I as (l1 & l2 & ->).
  destruct (Ok id i p) as [Pr Il]; [apply in_app_iff; right; left; reflexivity|].
  rewrite map_app in Nd. cbn [map fst] in Nd. apply NoDup_remove_2 in Nd.
  assert (Oth : forall l', (forall x, In x l' -> In x l1 \/ In x l2) -> forall id' i' p', In (id', i', p') l' -> proper id' /\ id' <> id).
  { intros l' Hl id' i' p' I'. split.
    - apply (Ok id' i' p'). apply Hl in I'. apply in_app_iff. destruct I'; [left|right; right]; assumption.
    - intros ->. apply Nd. apply in_app_iff. apply Hl in I'.
      destruct I' as [I'|I']; apply (in_map (fun x => fst (fst x))) in I'; [left|right]; exact I'. }
  replace (save (l1 ++ (id, i, p) :: l2)) with (save l1 ++ save [(id, i, p)] ++ save l2) by (rewrite <- !save_app; reflexivity).
  rewrite !do_acts_app. set (d1 := do_acts base d (save l1)). set (d2 := do_acts base d1 (save [(id, i, p)])).
  assert (R1 : ready base d1) by (apply ready_save; exact R). assert (R2 : ready base d2) by (apply ready_save; exact R1).
  destruct (save_other base l1 d id) as [A1 B1]; [apply Oth; auto|]. fold d1 in A1, B1.
  destruct (save_other base l2 d2 id) as [A2 B2]; [apply Oth; auto|]. rewrite A2, B2. clear A2 B2.
  assert (NI : forall dd, ready base dd -> fget (base ++ ifile id) dd <> Some Dir) by (intros dd (_ & _ & X); apply X).
  assert (NP : forall dd, ready base dd -> fget (base ++ pfile id) dd <> Some Dir) by (intros dd (_ & _ & X); apply X).
  assert (Ex : forall dd, ready base dd -> exists_at base (lit "netDb/r" ++ [hd 0 id] ++ lit "/routerInfo-" ++ id ++ lit ".dat") dd =
             match fget (base ++ ifile id) dd with None => false | Some _ => true end).
  { intros dd Rd. pose proof (info_walk base id dd Pr Il Rd) as W. rewrite info_shape in W by exact Pr. unfold exists_at.
    change (lit "netDb/r" ++ [hd 0 id] ++ lit "/routerInfo-" ++ id ++ lit ".dat") with (lit "netDb" ++ 47 :: [114; hd 0 id] ++ 47 :: (lit "routerInfo-" ++ id ++ lit ".dat")).
    rewrite W. reflexivity. }
  assert (Pf : forall dd, ready base dd -> do_acts base dd (store_profile ser id p) =
             match fget (base ++ ifile id) dd with None => dd | Some _ => fput (base ++ pfile id) (File (ser (to_file p))) dd end).
  { intros dd Rd. destruct id as [|c id]; [destruct Pr; congruence|]. change (store_profile ser (c :: id) p) with
      [AWriteIf (lit "netDb/r" ++ [hd 0 (c :: id)] ++ lit "/routerInfo-" ++ (c :: id) ++ lit ".dat")
                (lit "peerProfiles/p" ++ [hd 0 (c :: id)] ++ lit "/profile-" ++ (c :: id) ++ lit ".toml") (ser (to_file p))].
    unfold do_acts. cbn [fold_left do_act]. rewrite (Ex dd Rd). destruct (fget (base ++ ifile (c :: id)) dd); [|reflexivity].
    apply create_at; [apply prof_walk; assumption|apply NP; exact Rd]. }
  assert (Dif : base ++ ifile id <> base ++ pfile id) by (intros X; apply app_inj in X; discriminate).
  assert (E2 : d2 = match i with
    | Some z => match gunzip z with
                | Some x => fput (base ++ pfile id) (File (ser (to_file p))) (fput (base ++ ifile id) (File x) d1)
                | None => do_acts base d1 (store_profile ser id p) end
    | None => do_acts base d1 (store_profile ser id p) end).
  { unfold d2, save_acts. cbn [flat_map]. rewrite app_nil_r. destruct i as [z|]; [|reflexivity]. destruct (gunzip z) as [x|]; [|reflexivity].
    rewrite do_acts_app. assert (Ei : do_acts base d1 (store_info id x) = fput (base ++ ifile id) (File x) d1).
    { destruct id as [|c id]; [destruct Pr; congruence|]. change (store_info (c :: id) x) with [AWrite (info_name (hd 0 (c :: id)) (c :: id)) x].
      unfold do_acts. cbn [fold_left do_act]. apply create_at; [apply info_walk; assumption|apply NI; exact R1]. }
    rewrite Ei, Pf; [rewrite fget_put_same; reflexivity|]. rewrite <- Ei. apply ready_acts; [exact R1|].
    intros q X. destruct id; [destruct X|]. destruct X as [X|[]]; discriminate. }
  split; [|split].
  - intros z x -> G. rewrite E2, G. rewrite fget_put_other by exact Dif. apply fget_put_same.
  - intros H. rewrite E2. destruct i as [z|]; [destruct (gunzip z) as [x|] eqn:G|].
    + apply fget_put_same.
    + rewrite (Pf d1 R1). destruct H as [(z' & x' & X & Y)|H]; [injection X as <-; congruence|].
      rewrite A1. destruct (fget (base ++ ifile id) d); [apply fget_put_same|congruence].
    + rewrite (Pf d1 R1). destruct H as [(z' & x' & X & Y)|H]; [discriminate|].
      rewrite A1. destruct (fget (base ++ ifile id) d); [apply fget_put_same|congruence].
  - intros H F. assert (E : d2 = d1).
    { rewrite E2. destruct i as [z|]; [destruct (gunzip z) as [x|] eqn:G|]; [destruct H; exists z, x; auto| |]; rewrite (Pf d1 R1), A1, F; reflexivity. }
    rewrite E. split; [exact B1|rewrite A1; exact F].
Qed.

Lemma read_in : forall de l r, read_profiles de l = Some r -> forall p c q s, In (p, c) l -> de c = Some q -> name_of p = Name s ->
  In (s, of_file q) r.
Proof.
  intros de l. induction l as [|[p c] l IH]; intros r H p' c' q s I D Nm; [destruct I|]. cbn [read_profiles] in H. destruct I as [I|I].
  - injection I as -> ->. rewrite D, Nm in H. destruct (read_profiles de l) as [r'|]; [|discriminate]. injection H as <-. left. reflexivity.
  - destruct (de c) as [q'|]; [|exact (IH r H p' c' q s I D Nm)].
    destruct (name_of p); destruct (read_profiles de l) as [r'|]; try discriminate; injection H as <-; [|right]; exact (IH r' eq_refl p' c' q s I D Nm).
Qed.
End Saved.

Lemma whole_secs : forall t, whole t (from_secs (as_secs t)).
Proof.
  intros t. unfold whole, from_secs, as_secs. exists (t / 1000000000). split; [reflexivity|].
  pose proof (N.div_mod t 1000000000 ltac:(discriminate)) as E. pose proof (N.mod_lt t 1000000000 ltac:(discriminate)). lia.
Qed.
Lemma same_again : forall p, same_profile p (of_file (to_file p)).
Proof.
  intros p. unfold same_profile, to_file, of_file. cbn. split; [apply whole_secs|].
  split; [destruct (p_declined p); cbn; [apply whole_secs|exact Logic.I]|]. split; [destruct (p_dial_failure p); cbn; [apply whole_secs|exact Logic.I]|].
  repeat split.
Qed.
