(** Proofs about the address book: the map, the file, and the manager. *)
From Coq Require Import List NArith PeanoNat Bool Lia Permutation.
From Verif Require Import ListUtil Bytes BookModel BookSpec BookProofs.
Import ListNotations.
Open Scope N_scope.

Lemma beq_sym a b : beq a b = beq b a.
Proof.
  destruct (beq a b) eqn:E; destruct (beq b a) eqn:F; try reflexivity.
  - apply beq_eq in E as ->. rewrite beq_refl in F. discriminate.
  - apply beq_eq in F as ->. rewrite beq_refl in E. discriminate.
Qed.
Lemma firstn_In {A} k (l : list A) x : In x (firstn k l) -> In x l.
Proof. intros H. rewrite <- (firstn_skipn k l). apply in_or_app. left. exact H. Qed.

Section Map.
Variable ws : N -> bool.
Hypothesis wcr : ws 13 = true.
Notation trim := (trim ws).
Notation merge_line := (merge_line ws).
Notation entry := (entry ws).

Definition assoc (h : list N) (m : list (list N * list N)) : option (list N) :=
  match find (fun kv => beq h (fst kv)) m with Some kv => Some (snd kv) | None => None end.

Definition clean (kv : list N * list N) : Prop :=
  ~ In 61 (fst kv) /\ ~ In 10 (fst kv) /\ trim (fst kv) = fst kv /\ trim (snd kv) = snd kv /\ ~ In 10 (snd kv).

Fixpoint first_entry (ls : list (list N)) (h : list N) : option (list N) :=
  match ls with
  | [] => None
  | l :: r => match entry l with Some (k, v) => if beq h k then Some v else first_entry r h | None => first_entry r h end
  end.

Lemma first_entry_iff ls h v : first_entry ls h = Some v <-> first_gives ws ls h v.
Proof.
  induction ls as [|l ls IH]; cbn.
  - split; [discriminate|]. intros (a & l & b & E & _). destruct a; discriminate.
  - assert (Skip : (forall v, ~ gives ws l h v) -> first_gives ws ls h v <-> first_gives ws (l :: ls) h v).
    { intros N. split.
      - intros (a & x & b & -> & G & F). exists (l :: a), x, b. repeat split; auto. intros y u [<-|Y]; auto.
      - intros (a & x & b & E & G & F). destruct a as [|y a]; cbn in E; injection E as <- E.
        + exfalso. apply (N v). exact G.
        + exists a, x, b. repeat split; auto. intros z u Z. apply F. right. exact Z. }
    destruct (entry l) as [[k w]|] eqn:E.
    + destruct (beq h k) eqn:B.
      * apply beq_eq in B as ->. split.
        -- intros [= ->]. exists [], l, ls. repeat split; [apply gives_iff; exact E|]. intros ? ? [].
        -- intros (a & x & b & F & G & H). destruct a as [|y a]; cbn in F; injection F as <- F.
           ++ apply gives_iff in G. congruence.
           ++ exfalso. apply (H l w); [left; reflexivity|]. apply gives_iff. exact E.
      * rewrite IH. apply Skip. intros u G. apply gives_iff in G. rewrite E in G. injection G as -> _.
        rewrite beq_refl in B. discriminate.
    + rewrite IH. apply Skip. intros u G. apply gives_iff in G. congruence.
Qed.

Lemma first_entry_app a b h : first_entry (a ++ b) h = match first_entry a h with Some v => Some v | None => first_entry b h end.
Proof.
  induction a as [|l a IH]; cbn; [reflexivity|]. destruct (entry l) as [[k v]|]; [destruct (beq h k); auto|exact IH].
Qed.

Lemma has_assoc k m : has k m = match assoc k m with Some _ => true | None => false end.
Proof. unfold has, assoc. induction m as [|kv m IH]; cbn; [reflexivity|]. destruct (beq k (fst kv)); [reflexivity|exact IH]. Qed.

Lemma assoc_app h a b : assoc h (a ++ b) = match assoc h a with Some v => Some v | None => assoc h b end.
Proof. unfold assoc. induction a as [|kv a IH]; cbn; [reflexivity|]. destruct (beq h (fst kv)); [reflexivity|exact IH]. Qed.

Lemma assoc_In h m v : assoc h m = Some v -> In (h, v) m.
Proof.
  unfold assoc. intros H. destruct (find (fun kv => beq h (fst kv)) m) as [[k w]|] eqn:E; [|discriminate].
  apply find_some in E as [A B]. injection H as <-. apply beq_eq in B. cbn in B. subst k. exact A.
Qed.
Lemma assoc_None h m : assoc h m = None <-> ~ In h (map fst m).
Proof.
  unfold assoc. induction m as [|[k v] m IH]; cbn; [tauto|]. destruct (beq h k) eqn:B.
  - apply beq_eq in B as ->. split; [discriminate|]. intros H. exfalso. apply H. left. reflexivity.
  - rewrite IH. split; [intros H [X|X]; [subst k; rewrite beq_refl in B; discriminate|auto]|tauto].
Qed.
Lemma In_assoc h m v : NoDup (map fst m) -> In (h, v) m -> assoc h m = Some v.
Proof.
  unfold assoc. induction m as [|[k w] m IH]; cbn; intros N H; [destruct H|]. inversion N as [|? ? N1 N2]; subst.
  destruct H as [[= -> ->]|H]; [rewrite beq_refl; reflexivity|].
  destruct (beq h k) eqn:B; [|auto]. apply beq_eq in B as ->. exfalso. apply N1. apply (in_map fst _ _ H).
Qed.
Lemma assoc_perm h m m' : NoDup (map fst m) -> Permutation m' m -> assoc h m' = assoc h m.
Proof.
  intros N P. assert (N' : NoDup (map fst m')).
  { apply (Permutation_NoDup (l := map fst m)); [|exact N]. apply Permutation_sym, Permutation_map, P. }
  destruct (assoc h m) as [v|] eqn:E.
  - apply In_assoc; [exact N'|]. apply (Permutation_in (l := m)); [apply Permutation_sym, P|]. apply assoc_In, E.
  - apply assoc_None. apply assoc_None in E. intros H. apply E.
    apply (Permutation_in (l := map fst m')); [apply Permutation_map, P|exact H].
Qed.

(** ** Merging *)
Lemma merge_line_assoc m l h : assoc h (merge_line m l) = match assoc h m with Some v => Some v | None => first_entry [l] h end.
Proof.
  unfold BookModel.merge_line. cbn [first_entry]. unfold BookProofs.entry. destruct (split_once l) as [[k v]|].
  - cbv zeta. rewrite has_assoc. destruct (assoc (trim k) m) as [w|] eqn:E.
    + destruct (assoc h m) eqn:F; [reflexivity|]. destruct (beq h (trim k)) eqn:B; [|reflexivity].
      apply beq_eq in B as ->. congruence.
    + rewrite assoc_app. destruct (assoc h m); [reflexivity|]. unfold assoc. cbn. destruct (beq h (trim k)); reflexivity.
  - destruct (assoc h m); reflexivity.
Qed.
Lemma merge_assoc ls : forall m h, assoc h (fold_left merge_line ls m) = match assoc h m with Some v => Some v | None => first_entry ls h end.
Proof.
  induction ls as [|l ls IH]; intros m h; cbn [fold_left].
  - destruct (assoc h m); reflexivity.
  - rewrite IH, merge_line_assoc. change (l :: ls) with ([l] ++ ls). rewrite first_entry_app. destruct (assoc h m); reflexivity.
Qed.

Definition good (m : list (list N * list N)) : Prop := NoDup (map fst m) /\ Forall clean m.

Lemma merge_line_good m l : ~ In 10 l -> good m -> good (merge_line m l).
Proof.
  intros L [A B]. unfold BookModel.merge_line. destruct (split_once l) as [[k v]|] eqn:E; [|split; assumption].
  apply split_some in E as [E K]. cbv zeta. rewrite has_assoc. destruct (assoc (trim k) m) eqn:F; [split; assumption|].
  split.
  - rewrite map_app. cbn. apply assoc_None in F. apply (Permutation_NoDup (l := trim k :: map fst m)).
    + apply Permutation_cons_append.
    + constructor; assumption.
  - apply Forall_app. split; [exact B|]. constructor; [|constructor]. unfold clean. cbn [fst snd].
    rewrite !trim_idem. repeat split.
    + intros X. apply trim_In in X. auto.
    + intros X. apply trim_In in X. apply L. rewrite E. apply in_or_app. left. exact X.
    + intros X. apply trim_In, before_In in X. apply L. rewrite E. apply in_or_app. right. right. exact X.
Qed.
Lemma merge_good m hosts : good m -> good (merge ws m hosts).
Proof.
  unfold merge. assert (H : forall l, In l (lines hosts) -> ~ In 10 l).
  { intros l I X. apply (made_in _ _ _ _ (lines_made ws hosts) I X). reflexivity. }
  revert m H. induction (lines hosts) as [|l ls IH]; intros m H G; [exact G|]. cbn. apply IH.
  - intros x X. apply H. right. exact X.
  - apply merge_line_good; [apply H; left; reflexivity|exact G].
Qed.

Definition merged (sources : list (list N)) : list (list N * list N) := fold_left (merge ws) sources [].
Lemma merged_good sources : good (merged sources).
Proof.
  unfold merged. assert (G : good []) by (split; constructor). revert G. generalize (@nil (list N * list N)).
  induction sources as [|f s IH]; intros m G; [exact G|]. cbn. apply IH, merge_good, G.
Qed.
Lemma merged_assoc sources h : assoc h (merged sources) = first_entry (concat (map lines sources)) h.
Proof.
  unfold merged. assert (G : forall m, assoc h (fold_left (merge ws) sources m)
    = match assoc h m with Some v => Some v | None => first_entry (concat (map lines sources)) h end).
  { induction sources as [|f s IH]; intros m; cbn [fold_left map concat].
    - destruct (assoc h m); reflexivity.
    - rewrite IH. unfold merge. rewrite merge_assoc, first_entry_app. destruct (assoc h m); reflexivity. }
  rewrite G. reflexivity.
Qed.
Lemma merged_app a b : merged (a ++ [b]) = merge ws (merged a) b.
Proof. unfold merged. rewrite fold_left_app. reflexivity. Qed.

(** ** The file *)
Lemma line_no_cr kv : clean kv -> forall r, fst kv ++ [61] ++ snd kv <> r ++ [13].
Proof.
  intros (_ & _ & _ & T & _) r E. destruct (snd kv) as [|c v0] using rev_ind.
  - cbn in E. apply app_inj_tail in E as [_ E]. discriminate.
  - rewrite app_assoc, app_assoc in E. apply app_inj_tail in E as [_ ->].
    destruct (trim_ends ws (v0 ++ [13])) as [_ F]. rewrite T in F. rewrite (F 13 v0 eq_refl) in wcr. discriminate.
Qed.
Lemma line_no_lf kv : clean kv -> ~ In 10 (fst kv ++ [61] ++ snd kv).
Proof. intros (_ & A & _ & _ & B) H. apply in_app_or in H as [H|[H|H]]; [auto|discriminate|auto]. Qed.

Lemma serialize_cons kv m : serialize (kv :: m) = (fst kv ++ [61] ++ snd kv) ++ 10 :: serialize m.
Proof. unfold serialize. cbn. rewrite <- !app_assoc. cbn. rewrite <- app_assoc. reflexivity. Qed.

Lemma resolve_serialize m h : Forall clean m -> resolve ws (Some (serialize m)) h = assoc h m.
Proof.
  cbn [resolve]. induction 1 as [|kv m C F IH]; [reflexivity|].
  rewrite serialize_cons, lines_lf by (apply line_no_cr || apply line_no_lf; exact C). cbn [resolve_lines].
  rewrite (proj2 (split_some _ (fst kv) (snd kv))) by (split; [reflexivity|apply C]).
  destruct C as (_ & _ & T & U & _). rewrite T, U. unfold assoc. cbn. rewrite (beq_sym h). destruct (beq (fst kv) h); [reflexivity|exact IH].
Qed.

(** A file cut short gives a prefix of the address, or none. *)
Lemma resolve_cut m : forall k h p, Forall clean m ->
  resolve ws (Some (firstn k (serialize m))) h = Some p -> exists s, assoc h m = Some (p ++ s).
Proof.
  cbn [resolve]. induction m as [|kv m IH]; intros k h p F H.
  - rewrite firstn_nil in H. discriminate.
  - inversion F as [|? ? C F']; subst. rewrite serialize_cons in H. set (ln := fst kv ++ [61] ++ snd kv) in *.
    destruct (Nat.le_gt_cases k (length ln)) as [L|L].
    + rewrite firstn_app in H. replace (k - length ln)%nat with 0%nat in H by lia. rewrite app_nil_r in H.
      assert (L10 : ~ In 10 (firstn k ln)) by (intros X; apply firstn_In in X; apply (line_no_lf kv C X)).
      rewrite lines_last in H by exact L10.
      assert (H' : resolve_lines ws [firstn k ln] h = Some p) by (destruct (firstn k ln); [discriminate|exact H]).
      clear H. cbn [resolve_lines] in H'. destruct (split_once (firstn k ln)) as [[a b]|] eqn:S; [|discriminate].
      apply split_some in S as [S NA]. destruct C as (K & _ & TK & TV & _).
      assert (Sp : a = fst kv /\ exists j, b = firstn j (snd kv)).
      { assert (Full : ln = a ++ [61] ++ (b ++ skipn k ln)).
        { rewrite <- (firstn_skipn k ln) at 1. rewrite S. rewrite <- app_assoc. reflexivity. }
        assert (X : split_once ln = Some (a, b ++ skipn k ln)) by (apply split_some; auto).
        assert (Y : split_once ln = Some (fst kv, snd kv)) by (apply split_some; split; [reflexivity|exact K]).
        rewrite Y in X. injection X as X1 X2. split; [symmetry; exact X1|]. exists (length b). rewrite X2.
        rewrite firstn_app, Nat.sub_diag, firstn_all, app_nil_r. reflexivity. }
      destruct Sp as [-> [j ->]]. rewrite TK in H'. destruct (beq (fst kv) h) eqn:B; [|discriminate].
      injection H' as <-. destruct (trim_prefix ws (snd kv) j TV) as [s E]. exists s. unfold assoc. cbn.
      rewrite beq_sym, B. rewrite <- E. reflexivity.
    + rewrite firstn_app, (firstn_all2 ln) in H by lia. destruct (k - length ln)%nat as [|j] eqn:J; [lia|]. cbn [firstn] in H.
      unfold ln in H. rewrite lines_lf in H by (apply line_no_cr || apply line_no_lf; exact C). cbn [resolve_lines] in H.
      rewrite (proj2 (split_some _ (fst kv) (snd kv))) in H by (split; [reflexivity|apply C]).
      destruct C as (_ & _ & T & U & _). rewrite T, U in H. unfold assoc. cbn. rewrite (beq_sym h).
      destruct (beq (fst kv) h); [injection H as <-; exists []; rewrite app_nil_r; reflexivity|].
      apply (IH j h p F' H).
Qed.

(** A cut within an address. *)
Lemma resolve_cut_in a h c v b : Forall clean (a ++ (h, c :: v) :: b) -> assoc h a = None ->
  resolve ws (Some (firstn (length (serialize a ++ h ++ [61; c])) (serialize (a ++ (h, c :: v) :: b)))) h = Some [c].
Proof.
  cbn [resolve]. induction a as [|kv a IH]; intros F N.
  - cbn [app] in *. rewrite serialize_cons. cbn [fst snd serialize flat_map app].
    replace (((h ++ 61 :: c :: v) ++ 10 :: serialize b)) with ((h ++ [61; c]) ++ (v ++ 10 :: serialize b)) by (rewrite <- !app_assoc; reflexivity).
    rewrite firstn_app, Nat.sub_diag, firstn_all, app_nil_r.
    inversion F as [|? ? C F']; subst. pose proof (line_no_lf _ C) as L. destruct C as (K & _ & T & U & _). cbn [fst snd] in *.
    rewrite lines_last.
    + assert (S : split_once (h ++ [61; c]) = Some (h, [c])) by (apply split_some; split; [reflexivity|exact K]).
      destruct (h ++ [61; c]) as [|x y] eqn:E; [destruct h; discriminate|]. rewrite <- E in S |- *. cbn [resolve_lines]. rewrite S, T, beq_refl.
      f_equal. symmetry. apply trimmed_trim. destruct (trim_ends ws (c :: v)) as [W _]. rewrite U in W.
      exists [], []. repeat split; [constructor|constructor| |].
      * intros d r [= -> _]. apply (W d v eq_refl).
      * intros d [|? [|? ?]] X; [|discriminate|discriminate]. injection X as ->. apply (W d v eq_refl).
    + intros X. apply L. apply in_app_or in X as [X|[X|[X|[]]]]; apply in_or_app; [left; exact X|discriminate|right; right; left; exact X].
  - cbn [app] in *. inversion F as [|? ? C F']; subst. rewrite !serialize_cons.
    replace (length (((fst kv ++ [61] ++ snd kv) ++ 10 :: serialize a) ++ h ++ [61; c]))
      with (length (fst kv ++ [61%N] ++ snd kv) + S (length (serialize a ++ h ++ [61%N; c])))%nat
      by (repeat (progress (rewrite ?app_length; cbn [length])); lia).
    rewrite firstn_app_2. cbn [firstn]. rewrite lines_lf by (apply line_no_cr || apply line_no_lf; exact C). cbn [resolve_lines].
    rewrite (proj2 (split_some _ (fst kv) (snd kv))) by (split; [reflexivity|apply C]).
    destruct C as (_ & _ & T & _ & _). rewrite T. unfold assoc in N. cbn in N. rewrite (beq_sym (fst kv)).
    destruct (beq h (fst kv)); [discriminate|]. apply IH; [exact F'|exact N].
Qed.
End Map.
