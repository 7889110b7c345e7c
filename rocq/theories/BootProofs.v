(** * Proofs about the disk: where writes go *)
From Coq Require Import String.
From Coq Require Import List NArith Bool Arith Lia.
From Verif Require Import Bytes ReseedModel ReseedSpec ReseedProofs SamModel BootModel BootSpec.
Import ListNotations.
Open Scope N_scope.

Lemma path_eqb_eq : forall p q, path_eqb p q = true <-> p = q.
Proof. intros p q. unfold path_eqb. destruct (list_eq_dec (list_eq_dec N.eq_dec) p q); split; congruence. Qed.
Lemma path_eqb_refl : forall p, path_eqb p p = true.
Proof. intros p. apply path_eqb_eq. reflexivity. Qed.
Lemma path_eqb_neq : forall p q, p <> q -> path_eqb p q = false.
Proof. intros p q H. destruct (path_eqb p q) eqn:E; [apply path_eqb_eq in E; congruence|reflexivity]. Qed.

Lemma fget_put_same : forall p n d, fget p (fput p n d) = Some n.
Proof. intros. unfold fget, fput. cbn [find fst]. rewrite path_eqb_refl. reflexivity. Qed.

Lemma fget_put_other : forall p q n d, p <> q -> fget p (fput q n d) = fget p d.
Proof.
  intros p q n d H. unfold fget, fput. cbn [find fst]. rewrite (path_eqb_neq p q H).
  assert (X : find (fun e => path_eqb p (fst e)) (filter (fun e => negb (path_eqb q (fst e))) d) = find (fun e => path_eqb p (fst e)) d).
  { induction d as [|[r m] d IH]; [reflexivity|]. cbn [filter find fst].
    destruct (path_eqb q r) eqn:E; cbn [negb].
    - apply path_eqb_eq in E. subst r. rewrite (path_eqb_neq p q H). exact IH.
    - cbn [find fst]. destruct (path_eqb p r); [reflexivity|exact IH]. }
  rewrite X. reflexivity.
Qed.

Lemma fget_in : forall p n d, fget p d = Some n -> In (p, n) d.
Proof.
  intros p n d H. unfold fget in H. destruct (find _ d) as [[q m]|] eqn:E; [|discriminate].
  apply find_some in E as [I E]. apply path_eqb_eq in E. cbn [fst] in E. subst q. congruence.
Qed.

(** Where a file is created, if anywhere. *)
Definition target (base : path) (name : str) (d : fs) : option path :=
  match walk d base (pieces name) with
  | Some q => match fget q d with Some Dir => None | _ => Some q end
  | None => None
  end.

Lemma create_target : forall base name c d,
  create base name c d = match target base name d with Some q => fput q (File c) d | None => d end.
Proof.
  intros. unfold create, target. destruct (walk d base (pieces name)) as [q|]; [|reflexivity].
  destruct (fget q d) as [[|]|]; reflexivity.
Qed.

Lemma create_dir : forall base name c d p, fget p d = Some Dir -> fget p (create base name c d) = Some Dir.
Proof.
  intros base name c d p H. rewrite create_target. destruct (target base name d) as [q|] eqn:T; [|exact H].
  unfold target in T. destruct (walk d base (pieces name)) as [q'|]; [|discriminate].
  destruct (list_eq_dec (list_eq_dec N.eq_dec) p q) as [->|X]; [|rewrite fget_put_other by exact X; exact H].
  destruct (fget q' d) as [[|]|] eqn:E; [discriminate| |]; injection T as ->; congruence.
Qed.

Lemma act_dir : forall base a d p, fget p d = Some Dir -> fget p (do_act base d a) = Some Dir.
Proof.
  intros base a d p H. destruct a as [q|name c|o name c]; cbn [do_act].
  - destruct (fget (base ++ q) d) eqn:E; [exact H|]. rewrite fget_put_other; [exact H|]. intros ->. congruence.
  - apply create_dir. exact H.
  - destruct (exists_at base o d); [apply create_dir|]; exact H.
Qed.

Lemma acts_dir : forall base l d p, fget p d = Some Dir -> fget p (do_acts base d l) = Some Dir.
Proof.
  intros base. induction l as [|a l IH]; intros d p H; [exact H|]. apply (IH (do_act base d a)), act_dir, H.
Qed.

Lemma do_acts_app : forall base d a b, do_acts base d (a ++ b) = do_acts base (do_acts base d a) b.
Proof. intros. unfold do_acts. apply fold_left_app. Qed.

(** ** Plain names *)
Definition plain (p : str) : Prop := p <> [] /\ p <> [46] /\ p <> [46; 46].

Lemma beq_false : forall a b : list N, a <> b -> beq a b = false.
Proof. intros a b H. destruct (beq a b) eqn:E; [apply beq_eq in E; congruence|reflexivity]. Qed.

Lemma walk_plain : forall d cur p t, plain p -> fget cur d = Some Dir -> walk d cur (p :: t) = walk d (cur ++ [p]) t.
Proof.
  intros d cur p t (A & B & C) H. cbn [walk]. rewrite H, (beq_false _ _ A), (beq_false _ _ B), (beq_false _ _ C). reflexivity.
Qed.

Lemma walk_plain_inv : forall d cur p t q, plain p -> walk d cur (p :: t) = Some q ->
  fget cur d = Some Dir /\ walk d (cur ++ [p]) t = Some q.
Proof.
  intros d cur p t q P H. destruct (fget cur d) as [[|c]|] eqn:E; [|cbn [walk] in H; rewrite E in H; discriminate|cbn [walk] in H; rewrite E in H; discriminate].
  rewrite walk_plain in H by auto. auto.
Qed.

Lemma target_plain : forall base name d q, plain name -> ~ In 47 name -> target base name d = Some q -> q = base ++ [name].
Proof.
  intros base name d q P S H. unfold target in H. rewrite (pieces_one _ S) in H.
  destruct (walk _ _ _) as [q'|] eqn:W; [|discriminate]. destruct (walk_plain_inv _ _ _ _ _ P W) as [_ W2].
  cbn [walk] in W2. assert (q' = base ++ [name]) as -> by congruence. destruct (fget (base ++ [name]) d) as [[|]|]; congruence.
Qed.

Lemma target_plain_at : forall base name d, plain name -> ~ In 47 name -> fget base d = Some Dir ->
  fget (base ++ [name]) d <> Some Dir -> target base name d = Some (base ++ [name]).
Proof.
  intros base name d P S B F. unfold target. rewrite (pieces_one _ S), walk_plain by auto. cbn [walk].
  destruct (fget (base ++ [name]) d) as [[|]|]; [congruence|reflexivity|reflexivity].
Qed.

(** ** Names that stay below *)
Lemma removelast_app1 : forall A (a b : list A), b <> [] -> removelast (a ++ b) = a ++ removelast b.
Proof. intros. apply removelast_app. assumption. Qed.

Lemma walk_below : forall ps d root rel q,
  stays (length rel) ps = true -> walk d (root ++ rel) ps = Some q -> exists r, q = root ++ r.
Proof.
  induction ps as [|p ps IH]; intros d root rel q S W; [injection W as <-; exists rel; reflexivity|].
  cbn [walk] in W. destruct (fget (root ++ rel) d) as [[|c]|]; [|discriminate|discriminate]. cbn [stays] in S.
  destruct (beq p [] || beq p [46]); [exact (IH _ _ _ _ S W)|].
  destruct (beq p [46; 46]).
  - destruct rel as [|x rel]; [discriminate|]. rewrite removelast_app1 in W by discriminate.
    apply (IH d root (removelast (x :: rel))); [|exact W].
    replace (length (removelast (x :: rel))) with (length rel); [exact S|].
    rewrite (app_removelast_last [] (l := x :: rel)) in S by discriminate.
    clear. revert x. induction rel as [|y rel IHr]; intros x; [reflexivity|]. change (removelast (x :: y :: rel)) with (x :: removelast (y :: rel)).
    cbn [length]. rewrite <- (IHr y). reflexivity.
  - rewrite <- app_assoc in W. apply (IH d root (rel ++ [p])); [|exact W]. rewrite app_length. cbn [length]. rewrite Nat.add_1_r. exact S.
Qed.

Lemma pieces_last : forall s sfx, ~ In 47 sfx -> pieces (s ++ sfx) = removelast (pieces s) ++ [last (pieces s) [] ++ sfx].
Proof.
  induction s as [|c s IH]; intros sfx S; [cbn [app pieces removelast last]; apply pieces_one; exact S|].
  cbn [app pieces]. rewrite (IH sfx S). destruct (c =? 47).
  - destruct (pieces s) as [|p ps] eqn:E; [destruct (pieces_ne s E)|]. reflexivity.
  - destruct (pieces s) as [|p ps] eqn:E; [destruct (pieces_ne s E)|]. destruct ps as [|p' ps]; reflexivity.
Qed.

Lemma move_defined : forall ps d, fold_left move ps (Some d) <> None ->
  forall p, fold_left move (removelast ps ++ [p ++ [46; 100; 97; 116]]) (Some d) <> None.
Proof.
  intros ps d H p. rewrite fold_left_app. cbn [fold_left].
  assert (X : exists n, fold_left move (removelast ps) (Some d) = Some n).
  { destruct ps as [|q ps]; [exists d; reflexivity|].
    rewrite (app_removelast_last [] (l := q :: ps)) in H by discriminate. rewrite fold_left_app in H. cbn [fold_left] in H.
    destruct (fold_left move (removelast (q :: ps)) (Some d)) as [n|]; [exists n; reflexivity|]. cbn in H. congruence. }
  destruct X as (n & ->). unfold move.
  assert (L : (3 < length (p ++ [46; 100; 97; 116]%N))%nat) by (rewrite app_length; cbn; lia).
  rewrite !beq_false; [discriminate| | |]; intros Y; rewrite Y in L; cbn in L; lia.
Qed.

Lemma lit_dat : lit ".dat" = [46; 100; 97; 116].
Proof. reflexivity. Qed.

(** A file named after a harmless name goes below the directory [sub] of [top]. *)
Lemma below : forall base top letter c pre id sfx d q,
  plain top -> ~ In 47 top -> letter <> 47 -> letter <> 46 ->
  harmless (pre ++ id) -> (sfx = [] \/ sfx = lit ".dat") ->
  target base (top ++ 47 :: letter :: c :: 47 :: (pre ++ id) ++ sfx) d = Some q ->
  exists s r, q = base ++ top :: s :: r /\ r <> [] /\ fget (base ++ [top; s]) d = Some Dir /\ (c <> 47 -> s = [letter; c]).
Proof.
  intros base top letter c pre id sfx d q P S Hl Hl' (ps & E & NS & HD & Mv) Sf T.
  assert (St : stays 0 (pieces ((pre ++ id) ++ sfx)) = true).
  { apply stays_move. destruct Sf as [->| ->].
    - rewrite app_nil_r, E. destruct ps as [|p ps]; [cbn; discriminate|]. rewrite pieces_slashed; [exact Mv|discriminate|exact NS].
    - rewrite pieces_last by (intros X; cbn in X; intuition discriminate). rewrite lit_dat. apply move_defined. rewrite E.
      destruct ps as [|p ps]; [cbn; discriminate|]. rewrite pieces_slashed; [exact Mv|discriminate|exact NS]. }
  unfold target in T. destruct (walk d base _) as [q'|] eqn:W; [|discriminate].
  assert (ND : fget q' d <> Some Dir /\ q' = q) by (destruct (fget q' d) as [[|]|]; [discriminate| |]; (split; [discriminate|congruence])).
  destruct ND as [ND ->]. clear T.
  rewrite pieces_app in W by exact S. apply walk_plain_inv in W as [_ W]; [|exact P].
  destruct (N.eq_dec c 47) as [->|Hc].
  - change (letter :: 47 :: 47 :: (pre ++ id) ++ sfx) with ([letter] ++ 47 :: (47 :: (pre ++ id) ++ sfx)) in W.
    rewrite pieces_app in W by (intros [X|[]]; congruence).
    apply walk_plain_inv in W as [_ W]; [|split; [discriminate|split; congruence]].
    change (47 :: (pre ++ id) ++ sfx) with ([] ++ 47 :: (pre ++ id) ++ sfx) in W. rewrite pieces_app in W by (intros []).
    rewrite <- app_assoc in W. cbn [app] in W. cbn [walk] in W.
    match type of W with context [fget ?p d] => destruct (fget p d) as [[|x]|] eqn:F; [|discriminate|discriminate] end.
    cbn [beq orb] in W. change (beq [] []) with true in W. cbn [orb] in W.
    assert (W' : walk d ((base ++ [top; [letter]]) ++ []) (pieces ((pre ++ id) ++ sfx)) = Some q) by (rewrite app_nil_r; exact W).
    apply walk_below in W' as (r & ->); [|exact St]. exists [letter], r.
    rewrite <- app_assoc in *. cbn [app] in *. split; [reflexivity|].
    split; [intros ->; apply ND; exact F|]. split; [exact F|congruence].
  - change (letter :: c :: 47 :: (pre ++ id) ++ sfx) with ([letter; c] ++ 47 :: (pre ++ id) ++ sfx) in W.
    rewrite pieces_app in W by (intros [X|[X|[]]]; congruence).
    apply walk_plain_inv in W as [_ W]; [|split; [discriminate|split; congruence]].
    rewrite <- app_assoc in W. cbn [app] in W.
    assert (W' : walk d ((base ++ [top; [letter; c]]) ++ []) (pieces ((pre ++ id) ++ sfx)) = Some q) by (rewrite app_nil_r; exact W).
    assert (F : fget (base ++ [top; [letter; c]]) d = Some Dir).
    { destruct (pieces ((pre ++ id) ++ sfx)) as [|p l] eqn:Ep; [destruct (pieces_ne _ Ep)|]. cbn [walk] in W.
      match type of W with context [fget ?p d] => destruct (fget p d) as [[|x]|] eqn:F; [exact F|discriminate|discriminate] end. }
    apply walk_below in W' as (r & ->); [|exact St]. exists [letter; c], r.
    rewrite <- app_assoc in *. cbn [app] in *. split; [reflexivity|].
    split; [intros ->; apply ND; exact F|]. split; [exact F|reflexivity].
Qed.

(** ** Which names the actions have *)
Definition name_of_act (a : act) : option str :=
  match a with AMkdir _ => None | AWrite n _ => Some n | AWriteIf _ n _ => Some n end.

Lemma halfway_in : forall acts stop a, In a (halfway acts stop) ->
  exists a', In a' acts /\ name_of_act a' = name_of_act a /\ (forall q, a = AMkdir q -> a' = a).
Proof.
  intros acts [[n k]|] a H; [|exists a; auto]. cbn [halfway] in H. apply in_app_iff in H as [H|H].
  - exists a. split; [|auto]. rewrite <- (firstn_skipn n acts). apply in_app_iff. auto.
  - destruct (nth_error acts n) as [[q|nm c|o nm c]|] eqn:E; cbn [In] in H; [destruct H| | |destruct H].
    + apply nth_error_In in E. destruct H as [<-|[]]. eexists. split; [exact E|]. split; [reflexivity|discriminate].
    + apply nth_error_In in E. destruct H as [<-|[]]. eexists. split; [exact E|]. split; [reflexivity|discriminate].
Qed.

(** An action leaves everything but its target alone. *)
Lemma act_other : forall base a d p,
  (forall name q, name_of_act a = Some name -> target base name d = Some q -> p <> q) ->
  (forall q, a = AMkdir q -> p <> base ++ q) -> fget p (do_act base d a) = fget p d.
Proof.
  intros base a d p H M. destruct a as [q|name c|o name c]; cbn [do_act].
  - destruct (fget (base ++ q) d); [reflexivity|]. apply fget_put_other. apply M. reflexivity.
  - rewrite create_target. destruct (target base name d) as [q|] eqn:T; [|reflexivity]. apply fget_put_other. exact (H name q eq_refl T).
  - destruct (exists_at base o d); [|reflexivity]. rewrite create_target. destruct (target base name d) as [q|] eqn:T; [|reflexivity].
    apply fget_put_other. exact (H name q eq_refl T).
Qed.

Lemma acts_other : forall base acts d p,
  (forall a name d' q, In a acts -> name_of_act a = Some name -> target base name d' = Some q -> p <> q) ->
  (forall q, In (AMkdir q) acts -> p <> base ++ q) -> fget p (do_acts base d acts) = fget p d.
Proof.
  intros base acts. induction acts as [|a acts IH]; intros d p H M; [reflexivity|].
  change (do_acts base d (a :: acts)) with (do_acts base (do_act base d a) acts). rewrite IH.
  - apply act_other.
    + intros name q Nm T. exact (H a name d q (or_introl eq_refl) Nm T).
    + intros q ->. apply M. left. reflexivity.
  - intros b name d' q I. apply H. right. exact I.
  - intros q I. apply M. right. exact I.
Qed.

(** The same with a stop. *)
Lemma half_other : forall base acts stop d p,
  (forall a name d' q, In a acts -> name_of_act a = Some name -> target base name d' = Some q -> p <> q) ->
  (forall q, In (AMkdir q) acts -> p <> base ++ q) -> fget p (do_acts base d (halfway acts stop)) = fget p d.
Proof.
  intros base acts stop d p H M. apply acts_other.
  - intros a name d' q I Nm T. apply halfway_in in I as (a' & I & En & _). apply (H a' name d' q I); [congruence|exact T].
  - intros q I. apply halfway_in in I as (a' & I & _ & E). apply M. rewrite <- (E q eq_refl). exact I.
Qed.

(** ** Targets of what is stored *)
Lemma strip_some : forall pat s r, strip pat s = Some r <-> s = pat ++ r.
Proof.
  induction pat as [|a pat IH]; intros s r; cbn [strip app].
  - split; congruence.
  - destruct s as [|b s]; [split; discriminate|]. destruct (N.eqb_spec a b) as [->|X].
    + rewrite IH. split; congruence.
    + split; [discriminate|]. intros Y. congruence.
Qed.

Lemma info_name_shape : forall c id, info_name c id =
  lit "netDb" ++ 47 :: 114 :: c :: 47 :: (lit "routerInfo-" ++ id) ++ (if ends_with (lit ".dat") id then [] else lit ".dat").
Proof. intros. unfold info_name. rewrite <- app_assoc. reflexivity. Qed.

Lemma plain_netdb : plain (lit "netDb") /\ ~ In 47 (lit "netDb").
Proof. split; [split; [discriminate|split; discriminate]|]. intros X. cbn in X. intuition discriminate. Qed.
Lemma plain_profiles : plain (lit "peerProfiles") /\ ~ In 47 (lit "peerProfiles").
Proof. split; [split; [discriminate|split; discriminate]|]. intros X. cbn in X. intuition discriminate. Qed.

Lemma info_below : forall base c id d q, harmless (lit "routerInfo-" ++ id) -> target base (info_name c id) d = Some q ->
  exists s r, q = base ++ lit "netDb" :: s :: r /\ r <> [] /\ fget (base ++ [lit "netDb"; s]) d = Some Dir /\ (c <> 47 -> s = [114; c]).
Proof.
  intros base c id d q H T. rewrite info_name_shape in T. destruct plain_netdb as [P S].
  eapply below; [exact P|exact S|discriminate|discriminate|exact H| |exact T].
  destruct (ends_with _ id); auto.
Qed.

Lemma slash_free_harmless : forall pre id, plain pre -> (3 <= length pre)%nat -> ~ In 47 pre -> ~ In 47 id -> harmless (pre ++ id).
Proof.
  intros pre id P L S1 S2. exists [pre ++ id]. split; [reflexivity|].
  split; [intros p [<-|[]] X; apply in_app_iff in X as [X|X]; auto|].
  destruct pre as [|x [|y [|z pre]]]; cbn [length] in L; try lia.
  split; [right; discriminate|]. cbn [fold_left]. unfold move.
  rewrite !beq_false; [discriminate| | |]; discriminate.
Qed.

Lemma routerinfo_harmless : forall id, ~ In 47 id -> harmless (lit "routerInfo-" ++ id).
Proof.
  intros id H. apply slash_free_harmless; [split; [discriminate|split; discriminate]|cbn; lia| |exact H].
  intros X. cbn in X. intuition discriminate.
Qed.

Lemma profile_name_shape : forall c id,
  (lit "peerProfiles/p" ++ [c] ++ lit "/profile-" ++ id ++ lit ".toml" =
   lit "peerProfiles" ++ 47 :: 112 :: c :: 47 :: (lit "profile-" ++ (id ++ lit ".toml")) ++ [])%list.
Proof. intros. rewrite app_nil_r. reflexivity. Qed.

Lemma profile_below : forall base c id d q, ~ In 47 id ->
  target base (lit "peerProfiles/p" ++ [c] ++ lit "/profile-" ++ id ++ lit ".toml") d = Some q ->
  exists s r, q = base ++ lit "peerProfiles" :: s :: r /\ r <> [] /\ fget (base ++ [lit "peerProfiles"; s]) d = Some Dir /\ (c <> 47 -> s = [112; c]).
Proof.
  intros base c id d q H T. rewrite profile_name_shape in T. destruct plain_profiles as [P S].
  eapply below; [exact P|exact S|discriminate|discriminate| |left; reflexivity|exact T].
  apply slash_free_harmless; [split; [discriminate|split; discriminate]|cbn; lia| |].
  - intros X. cbn in X. intuition discriminate.
  - intros X. apply in_app_iff in X as [X|X]; [exact (H X)|]. cbn in X. intuition discriminate.
Qed.
