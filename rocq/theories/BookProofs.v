(** Proofs about the address book. *)
From Coq Require Import List NArith PeanoNat Bool Lia Permutation.
From Verif Require Import ListUtil Bytes BookModel BookSpec.
Import ListNotations.
Open Scope N_scope.

(** ** Strings *)
Section Str.
Variable ws : N -> bool.
Notation trim := (trim ws).
Notation trim_start := (trim_start ws).

Lemma trim_start_spec s : exists a, s = a ++ trim_start s /\ Forall (fun c => ws c = true) a
  /\ (forall c r, trim_start s = c :: r -> ws c = false).
Proof.
  induction s as [|c s (a & E & A & B)]; cbn.
  - exists []. repeat split; [constructor|discriminate].
  - destruct (ws c) eqn:W.
    + exists (c :: a). cbn. rewrite <- E. repeat split; [constructor; auto|exact B].
    + exists []. repeat split; [constructor|]. intros ? ? [= <- <-]. exact W.
Qed.

Lemma trim_start_app a s : Forall (fun c => ws c = true) a -> trim_start (a ++ s) = trim_start s.
Proof. induction 1; cbn; [reflexivity|]. rewrite H. exact IHForall. Qed.

Lemma trim_start_id s : (forall c r, s = c :: r -> ws c = false) -> trim_start s = s.
Proof. destruct s as [|c s]; [reflexivity|]. intros H. cbn. rewrite (H c s eq_refl). reflexivity. Qed.

Lemma trim_trimmed s : trimmed ws s (trim s).
Proof.
  unfold BookModel.trim. destruct (trim_start_spec s) as (a & E & A & B). set (s1 := trim_start s) in *.
  destruct (trim_start_spec (rev s1)) as (b & F & C & D). set (r := trim_start (rev s1)) in *.
  assert (G : s1 = rev r ++ rev b) by (rewrite <- (rev_involutive s1), F, rev_app_distr; reflexivity).
  exists a, (rev b). split; [rewrite <- G; exact E|]. split; [exact A|].
  split; [apply Forall_rev; exact C|]. split.
  - intros c t H. apply (B c (t ++ rev b)). rewrite G, H. reflexivity.
  - intros c t H. apply (D c (rev t)). rewrite <- (rev_involutive r), H, rev_app_distr. reflexivity.
Qed.

Lemma trimmed_trim s t : trimmed ws s t -> t = trim s.
Proof.
  intros (a & b & -> & A & B & C & D). unfold BookModel.trim. rewrite trim_start_app by exact A.
  destruct t as [|c t].
  - cbn. rewrite <- (app_nil_r b), trim_start_app by exact B. reflexivity.
  - rewrite (trim_start_id ((c :: t) ++ b)) by (intros ? ? [= <- <-]; apply (C c t eq_refl)).
    rewrite rev_app_distr, trim_start_app by (apply Forall_rev; exact B).
    rewrite trim_start_id, rev_involutive; [reflexivity|].
    intros d r E. apply (D d (rev r)). rewrite <- (rev_involutive (c :: t)), E. reflexivity.
Qed.

Lemma trimmed_iff s t : trimmed ws s t <-> t = trim s.
Proof. split; [apply trimmed_trim|intros ->; apply trim_trimmed]. Qed.

Lemma trim_ends s : (forall c r, trim s = c :: r -> ws c = false) /\ (forall c r, trim s = r ++ [c] -> ws c = false).
Proof. destruct (trim_trimmed s) as (a & b & _ & _ & _ & C & D). split; assumption. Qed.

Lemma trim_idem s : trim (trim s) = trim s.
Proof.
  symmetry. apply trimmed_trim. destruct (trim_ends s) as [A B].
  exists [], []. rewrite app_nil_r. repeat split; auto; constructor.
Qed.

Lemma trim_In s c : In c (trim s) -> In c s.
Proof. destruct (trim_trimmed s) as (a & b & E & _). intros H. rewrite E. apply in_or_app. right. apply in_or_app. left. exact H. Qed.

(** A trimmed prefix of a trimmed text is a prefix of it. *)
Lemma trim_prefix v j : trim v = v -> exists s, v = trim (firstn j v) ++ s.
Proof.
  intros T. destruct (trim_trimmed (firstn j v)) as (a & b & E & A & B & C & D).
  set (t := trim (firstn j v)) in *.
  destruct a as [|c a].
  - exists (b ++ skipn j v). rewrite app_assoc. cbn [app] in E. rewrite <- E. symmetry. apply (firstn_skipn j v).
  - destruct (trim_ends v) as [S _]. rewrite T in S. exfalso.
    inversion A; subst. pose proof (firstn_skipn j v) as F. rewrite E in F. symmetry in F.
    rewrite (S _ _ F) in H1. discriminate.
Qed.

Lemma before_spec s : uncommented s (before_comment s).
Proof.
  induction s as [|c s [A B]]; cbn.
  - split; [intros [|? [|? ?]] b H; discriminate|left; reflexivity].
  - destruct ((c =? 35) && match s with d :: _ => d =? 33 | [] => false end) eqn:W.
    + split; [intros [|? [|? ?]] b H; discriminate|]. right. apply andb_prop in W as [W1 W2].
      destruct s as [|d s]; [discriminate|]. apply N.eqb_eq in W1. apply N.eqb_eq in W2. subst. exists s. reflexivity.
    + split.
      * intros [|x a] b H; cbn in H.
        -- injection H as -> H. cbn in W. destruct s as [|d s].
           ++ discriminate H.
           ++ cbn in H. destruct ((d =? 35) && match s with d0 :: _ => d0 =? 33 | [] => false end); [discriminate|].
              injection H as -> H. cbn in W. discriminate.
        -- injection H as -> H. apply (A a b). exact H.
      * destruct B as [B|[r B]]; [left; rewrite B at 1; reflexivity|]. right. exists r. cbn. rewrite B at 1. reflexivity.
Qed.

Lemma before_app t r : (forall a b, t <> a ++ [35; 33] ++ b) -> before_comment (t ++ [35; 33] ++ r) = t.
Proof.
  induction t as [|c t IH]; intros H; [reflexivity|]. cbn.
  assert (W : (c =? 35) && match t ++ 35 :: 33 :: r with d :: _ => d =? 33 | [] => false end = false).
  { destruct (c =? 35) eqn:C; [|reflexivity]. apply N.eqb_eq in C as ->. destruct t as [|d t]; [reflexivity|]. cbn.
    destruct (d =? 33) eqn:D; [|reflexivity]. apply N.eqb_eq in D as ->. exfalso. apply (H [] t). reflexivity. }
  rewrite W. f_equal. apply IH. intros a b E. apply (H (c :: a) b). rewrite E. reflexivity.
Qed.

Lemma before_id t : (forall a b, t <> a ++ [35; 33] ++ b) -> before_comment t = t.
Proof.
  induction t as [|c t IH]; intros H; [reflexivity|]. cbn.
  assert (W : (c =? 35) && match t with d :: _ => d =? 33 | [] => false end = false).
  { destruct (c =? 35) eqn:C; [|reflexivity]. apply N.eqb_eq in C as ->. destruct t as [|d t]; [reflexivity|]. cbn.
    destruct (d =? 33) eqn:D; [|reflexivity]. apply N.eqb_eq in D as ->. exfalso. apply (H [] t). reflexivity. }
  rewrite W. f_equal. apply IH. intros a b E. apply (H (c :: a) b). rewrite E. reflexivity.
Qed.

Lemma uncommented_iff s t : uncommented s t <-> t = before_comment s.
Proof.
  split; [|intros ->; apply before_spec]. intros [A [->|[r ->]]]; symmetry; [apply before_id|apply before_app]; exact A.
Qed.

Lemma before_In s c : In c (before_comment s) -> In c s.
Proof. destruct (before_spec s) as [_ [->|[r E]]]; [auto|]. intros H. rewrite E. apply in_or_app. left. exact H. Qed.

Lemma split_some l : forall k v, split_once l = Some (k, v) <-> l = k ++ [61] ++ v /\ ~ In 61 k.
Proof.
  induction l as [|c l IH]; intros k v; cbn.
  - split; [discriminate|]. intros [E _]. destruct k; discriminate.
  - destruct (c =? 61) eqn:C.
    + apply N.eqb_eq in C as ->. split.
      * intros [= <- <-]. split; [reflexivity|auto].
      * intros [E H]. destruct k as [|d k]; cbn in E; [injection E as ->; reflexivity|].
        injection E as <- E. exfalso. apply H. left. reflexivity.
    + apply N.eqb_neq in C. destruct (split_once l) as [[k0 v0]|] eqn:E.
      * destruct (proj1 (IH k0 v0) eq_refl) as [-> B]. split.
        -- intros [= <- <-]. split; [reflexivity|]. intros [F|F]; [apply C; symmetry; now rewrite F|auto].
        -- intros [F H]. destruct k as [|d k]; cbn in F; [injection F as F _; congruence|].
           injection F as <- F. assert (G : Some (k0, v0) = Some (k, v)).
           { apply IH. split; [exact F|]. intros X. apply H. right. exact X. }
           injection G as -> ->. reflexivity.
      * split; [discriminate|]. intros [F H]. destruct k as [|d k]; cbn in F; [injection F as F _; congruence|].
        injection F as <- F. assert (G : @None (list N * list N) = Some (k, v)).
        { apply IH. split; [exact F|]. intros X. apply H. right. exact X. }
        discriminate.
Qed.

Lemma split_none l : split_once l = None <-> ~ In 61 l.
Proof.
  split.
  - intros E H. apply in_split in H as (a & b & H).
    assert (G : exists k v, l = k ++ [61] ++ v /\ ~ In 61 k).
    { rewrite H. clear. revert b. induction a as [|c a IH]; intros b.
      - exists [], b. split; [reflexivity|auto].
      - destruct (N.eq_dec c 61) as [->|C].
        + exists [], (a ++ 61 :: b). split; [reflexivity|auto].
        + destruct (IH b) as (k & v & E & F). exists (c :: k), v. cbn. rewrite E. split; [reflexivity|]. intros [X|X]; auto. }
    destruct G as (k & v & G). apply split_some in G. congruence.
  - intros H. destruct (split_once l) as [[k v]|] eqn:E; [|reflexivity]. apply split_some in E as [-> _].
    exfalso. apply H. apply in_or_app. right. left. reflexivity.
Qed.

(** What a line gives. *)
Definition entry (l : list N) : option (list N * list N) :=
  match split_once l with Some (k, v) => Some (trim k, trim (before_comment v)) | None => None end.

Lemma gives_iff l h v : gives ws l h v <-> entry l = Some (h, v).
Proof.
  unfold gives, entry. split.
  - intros (k & w & u & -> & K & T & U & V). apply trimmed_iff in T. apply uncommented_iff in U. apply trimmed_iff in V.
    rewrite (proj2 (split_some (k ++ [61] ++ w) k w)) by auto. subst. reflexivity.
  - destruct (split_once l) as [[k w]|] eqn:E; [|discriminate]. intros [= <- <-]. apply split_some in E as [-> K].
    exists k, w, (before_comment w). rewrite !trimmed_iff, uncommented_iff. auto.
Qed.

(** ** Lines *)
Lemma lines_from_lf l : forall acc f, ~ In 10 l -> lines_from acc (l ++ 10 :: f) = end_line (rev l ++ acc) :: lines_from [] f.
Proof.
  induction l as [|c l IH]; intros acc f H; cbn; [reflexivity|].
  destruct (c =? 10) eqn:C; [apply N.eqb_eq in C as ->; exfalso; apply H; left; reflexivity|].
  rewrite IH by (intros X; apply H; right; exact X). rewrite <- app_assoc. reflexivity.
Qed.
Lemma lines_from_end l : forall acc, ~ In 10 l -> lines_from acc l = match rev l ++ acc with [] => [] | _ => [rev acc ++ l] end.
Proof.
  induction l as [|c l IH]; intros acc H.
  - cbn. destruct acc; [reflexivity|]. rewrite app_nil_r. reflexivity.
  - cbn. destruct (c =? 10) eqn:C; [apply N.eqb_eq in C as ->; exfalso; apply H; left; reflexivity|].
    rewrite IH by (intros X; apply H; right; exact X). cbn. rewrite <- !app_assoc. reflexivity.
Qed.

Lemma end_line_plain l : (forall r, l <> r ++ [13]) -> end_line (rev l) = l.
Proof.
  intros H. unfold end_line. destruct (rev l) as [|c r] eqn:E.
  - apply (f_equal (@rev N)) in E. rewrite rev_involutive in E. auto.
  - destruct (N.eq_dec c 13) as [->|C].
    + exfalso. apply (H (rev r)). rewrite <- (rev_involutive l), E. reflexivity.
    + assert (F : match c with 13 => rev r | _ => rev (c :: r) end = rev (c :: r))
        by (destruct c as [|[[[[]|[]|]|[[]|[]|]|]|[[[]|[]|]|[[]|[]|]|]|]]; try reflexivity; congruence).
      rewrite F, <- E. apply rev_involutive.
Qed.

Lemma lines_lf l f : ~ In 10 l -> (forall r, l <> r ++ [13]) -> lines (l ++ 10 :: f) = l :: lines f.
Proof. intros H C. unfold lines. rewrite lines_from_lf by exact H. rewrite app_nil_r, end_line_plain by exact C. reflexivity. Qed.
Lemma lines_crlf l f : ~ In 10 l -> lines (l ++ 13 :: 10 :: f) = l :: lines f.
Proof.
  intros H. unfold lines. replace (l ++ 13 :: 10 :: f) with ((l ++ [13]) ++ 10 :: f) by (rewrite <- app_assoc; reflexivity).
  rewrite lines_from_lf.
  - rewrite app_nil_r, rev_app_distr. cbn. rewrite rev_involutive. reflexivity.
  - intros X. apply in_app_or in X as [X|[X|[]]]; [auto|discriminate].
Qed.
Lemma lines_last l : ~ In 10 l -> lines l = match l with [] => [] | _ => [l] end.
Proof.
  intros H. unfold lines. rewrite lines_from_end by exact H. rewrite app_nil_r. destruct l as [|c l]; [reflexivity|].
  cbn. destruct (rev l); reflexivity.
Qed.

Lemma made_lines f ls : made_of f ls -> lines f = ls.
Proof.
  induction 1.
  - reflexivity.
  - rewrite lines_last by assumption. destruct l; [congruence|reflexivity].
  - cbn [app]. rewrite lines_lf by assumption. congruence.
  - cbn [app]. rewrite lines_crlf by assumption. congruence.
Qed.

Lemma first_lf f : In 10 f -> exists l r, f = l ++ 10 :: r /\ ~ In 10 l.
Proof.
  induction f as [|c f IH]; intros H; [destruct H|]. destruct (N.eq_dec c 10) as [->|C].
  - exists [], f. auto.
  - destruct H as [H|H]; [congruence|]. destruct (IH H) as (l & r & -> & B). exists (c :: l), r.
    split; [reflexivity|]. intros [X|X]; auto.
Qed.

Lemma lines_made f : made_of f (lines f).
Proof.
  assert (G : forall n f, (length f <= n)%nat -> made_of f (lines f)); [|apply (G (length f)); reflexivity].
  clear f. intros n. induction n as [|n IH]; intros f L.
  - destruct f; [constructor|cbn in L; lia].
  - destruct (in_dec N.eq_dec 10 f) as [I|I].
    + destruct (first_lf f I) as (l & r & -> & B). rewrite app_length in L. cbn in L.
      assert (M : made_of r (lines r)) by (apply IH; lia).
      destruct l as [|x l0] using rev_ind; [|clear IHl0].
      * rewrite (lines_lf [] r); [|auto|intros [|] X; discriminate].
        apply (MLf [] r); [auto|intros [|] X; discriminate|exact M].
      * destruct (N.eq_dec x 13) as [->|X].
        -- rewrite <- app_assoc. cbn [app]. assert (B' : ~ In 10 l0) by (intros Y; apply B, in_or_app; left; exact Y).
           rewrite lines_crlf by exact B'. apply (MCrLf l0 r); assumption.
        -- assert (C : forall r, l0 ++ [x] <> r ++ [13]) by (intros q E; apply app_inj_tail in E as [_ E]; congruence).
           rewrite lines_lf by assumption. apply (MLf (l0 ++ [x]) r); assumption.
    + rewrite lines_last by exact I. destruct f as [|c f]; constructor; [discriminate|exact I].
Qed.

Lemma made_of_iff f ls : made_of f ls <-> ls = lines f.
Proof. split; [intros H; symmetry; apply made_lines, H|intros ->; apply lines_made]. Qed.

Lemma made_in f ls l c : made_of f ls -> In l ls -> In c l -> c <> 10.
Proof.
  intros M. revert l c. induction M; intros x c X Y.
  - destruct X.
  - destruct X as [<-|[]]. intros ->. auto.
  - destruct X as [<-|X]; [intros ->; auto|eauto].
  - destruct X as [<-|X]; [intros ->; auto|eauto].
Qed.
End Str.
